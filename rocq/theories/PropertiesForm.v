(** * The boundary value problem as a quadratic form (C76)

    The setting is that of PropertiesBvp, with Dirichlet conditions of order 1 (Neumann
    and Robin conditions as there).  [r] and [s] are what the kernels compute from the
    values [w] and [z] of the patch; sums run over the patch (SpecRow). *)

From Coq Require Import QArith Qcanon.
From Verif Require Import Base FortranBase SpecKernel Instances SpecBCOrder SpecBCCalls SpecRow SpecSolve LemSolve LemSolveOp LemSolveMem LemSolveCase SpecBvp LemBvpCase LemBvpConnCase LemBvpFormMem.
Import ListNotations.
Open Scope Z_scope.

Lemma ex_bk_simple last f : b_kind (ex_bk last f) = 0 -> b_order (ex_bk last f) = 1.
Proof. unfold ex_bk. now destruct (f =? last). Qed.

(** The problem is symmetric. *)

Theorem C76_symmetric_v1_1d : forall i0 i1 (dx : Z -> Qc) (beta : Qc) b0 gcw u f0 (alpha : Qc) agcw a rgcw res bc (m n : mem QcS) (r w s z c v0 : Z -> Qc),
  filled_v1_1d (S := QcS) i0 i1 dx beta b0 gcw u f0 alpha agcw a rgcw res bc m r w c v0 ->
  filled_v1_1d (S := QcS) i0 i1 dx beta b0 gcw u f0 alpha agcw a rgcw res bc n s z c v0 ->
  (0 < beta)%Qc ->
  (forall d, 0 <= d < 1 -> (0 < dx d)%Qc) ->
  (forall i, i0 <= i <= i1 + 1 -> (0 < v0 i)%Qc) ->
  (forall f, 0 <= f < 2 -> sound true (bc f)) ->
  roomy 1 (ends1 i0) (ends1 i1) bc ->
  (forall f, 0 <= f < 2 -> b_kind (bc f) = 0 -> b_order (bc f) = 1) ->
  total (S := QcS) i0 i1 (fun i => r i * z i)%Qc =
  total (S := QcS) i0 i1 (fun i => s i * w i)%Qc.
Proof. exact @fsym_v1_1d. Qed.
Print Assumptions C76_symmetric_v1_1d.

Example C76_symmetric_v1_1d_example :
  filled_v1_1d (S := QcS) 0 1 ex_h (ex_q 2) (0%nat, 0) 1 (4%nat, 0) (5%nat, 0) (ex_q 0) 0 (3%nat, 0) 0 (8%nat, 0) (ex_bk 1) (ex_so 4 ex_any) (kr_v1_1d 1 ex_any) (kw_v1_1d 1 ex_any) c_v1_1d v0_v1_1d /\
  filled_v1_1d (S := QcS) 0 1 ex_h (ex_q 2) (0%nat, 0) 1 (4%nat, 0) (5%nat, 0) (ex_q 0) 0 (3%nat, 0) 0 (8%nat, 0) (ex_bk 1) (ex_so 4 ex_high) (kr_v1_1d 1 ex_high) (kw_v1_1d 1 ex_high) c_v1_1d v0_v1_1d /\
  (0 < (ex_q 2))%Qc /\
  (forall d, 0 <= d < 1 -> (0 < ex_h d)%Qc) /\
  (forall i, 0 <= i <= 1 + 1 -> (0 < v0_v1_1d i)%Qc) /\
  (forall f, 0 <= f < 2 -> sound true ((ex_bk 1) f)) /\
  roomy 1 (ends1 0) (ends1 1) (ex_bk 1) /\
  (forall f, 0 <= f < 2 -> b_kind ((ex_bk 1) f) = 0 -> b_order ((ex_bk 1) f) = 1).
Proof.
  split; [exact kex_any_v1_1d|].
  split; [exact kex_high_v1_1d|].
  split; [now apply lt|].
  split; [exact (ex_h_pos 1)|].
  split; [exact kv0_v1_1d|].
  split; [intros f _; apply ex_bk_sound|].
  split; [exact kroomy_v1_1d|].
  intros f _; apply ex_bk_simple.
Qed.

Theorem C76_symmetric_v2_1d : forall i0 i1 (dx : Z -> Qc) (beta : Qc) b0 gcw u f0 (alpha : Qc) rgcw res bc (m n : mem QcS) (r w s z v0 : Z -> Qc),
  filled_v2_1d (S := QcS) i0 i1 dx beta b0 gcw u f0 alpha rgcw res bc m r w v0 ->
  filled_v2_1d (S := QcS) i0 i1 dx beta b0 gcw u f0 alpha rgcw res bc n s z v0 ->
  (0 < beta)%Qc ->
  (forall d, 0 <= d < 1 -> (0 < dx d)%Qc) ->
  (forall i, i0 <= i <= i1 + 1 -> (0 < v0 i)%Qc) ->
  (forall f, 0 <= f < 2 -> sound true (bc f)) ->
  roomy 1 (ends1 i0) (ends1 i1) bc ->
  (forall f, 0 <= f < 2 -> b_kind (bc f) = 0 -> b_order (bc f) = 1) ->
  total (S := QcS) i0 i1 (fun i => r i * z i)%Qc =
  total (S := QcS) i0 i1 (fun i => s i * w i)%Qc.
Proof. exact @fsym_v2_1d. Qed.
Print Assumptions C76_symmetric_v2_1d.

Example C76_symmetric_v2_1d_example :
  filled_v2_1d (S := QcS) 0 1 ex_h (ex_q 2) (0%nat, 0) 1 (4%nat, 0) (5%nat, 0) (ex_q 0) 0 (8%nat, 0) (ex_bk 1) (ex_so 4 ex_any) (kr_v2_1d 1 ex_any) (kw_v2_1d 1 ex_any) v0_v2_1d /\
  filled_v2_1d (S := QcS) 0 1 ex_h (ex_q 2) (0%nat, 0) 1 (4%nat, 0) (5%nat, 0) (ex_q 0) 0 (8%nat, 0) (ex_bk 1) (ex_so 4 ex_high) (kr_v2_1d 1 ex_high) (kw_v2_1d 1 ex_high) v0_v2_1d /\
  (0 < (ex_q 2))%Qc /\
  (forall d, 0 <= d < 1 -> (0 < ex_h d)%Qc) /\
  (forall i, 0 <= i <= 1 + 1 -> (0 < v0_v2_1d i)%Qc) /\
  (forall f, 0 <= f < 2 -> sound true ((ex_bk 1) f)) /\
  roomy 1 (ends1 0) (ends1 1) (ex_bk 1) /\
  (forall f, 0 <= f < 2 -> b_kind ((ex_bk 1) f) = 0 -> b_order ((ex_bk 1) f) = 1).
Proof.
  split; [exact kex_any_v2_1d|].
  split; [exact kex_high_v2_1d|].
  split; [now apply lt|].
  split; [exact (ex_h_pos 1)|].
  split; [exact kv0_v2_1d|].
  split; [intros f _; apply ex_bk_sound|].
  split; [exact kroomy_v2_1d|].
  intros f _; apply ex_bk_simple.
Qed.

Theorem C76_symmetric_poisson_1d : forall i0 i1 (dx : Z -> Qc) (beta : Qc) gcw u f0 rgcw res bc (m n : mem QcS) (r w s z : Z -> Qc),
  filled_poisson_1d (S := QcS) i0 i1 dx beta gcw u f0 rgcw res bc m r w ->
  filled_poisson_1d (S := QcS) i0 i1 dx beta gcw u f0 rgcw res bc n s z ->
  (0 < beta)%Qc ->
  (forall d, 0 <= d < 1 -> (0 < dx d)%Qc) ->
  (forall f, 0 <= f < 2 -> sound false (bc f)) ->
  roomy 1 (ends1 i0) (ends1 i1) bc ->
  (forall f, 0 <= f < 2 -> b_kind (bc f) = 0 -> b_order (bc f) = 1) ->
  total (S := QcS) i0 i1 (fun i => r i * z i)%Qc =
  total (S := QcS) i0 i1 (fun i => s i * w i)%Qc.
Proof. exact @fsym_poisson_1d. Qed.
Print Assumptions C76_symmetric_poisson_1d.

Example C76_symmetric_poisson_1d_example :
  filled_poisson_1d (S := QcS) 0 1 ex_h (ex_q 2) 1 (4%nat, 0) (5%nat, 0) 0 (8%nat, 0) (ex_bk 1) (ex_so 4 ex_any) (kr_poisson_1d 1 ex_any) (kw_poisson_1d 1 ex_any)  /\
  filled_poisson_1d (S := QcS) 0 1 ex_h (ex_q 2) 1 (4%nat, 0) (5%nat, 0) 0 (8%nat, 0) (ex_bk 1) (ex_so 4 ex_high) (kr_poisson_1d 1 ex_high) (kw_poisson_1d 1 ex_high)  /\
  (0 < (ex_q 2))%Qc /\
  (forall d, 0 <= d < 1 -> (0 < ex_h d)%Qc) /\
  (forall f, 0 <= f < 2 -> sound false ((ex_bk 1) f)) /\
  roomy 1 (ends1 0) (ends1 1) (ex_bk 1) /\
  (forall f, 0 <= f < 2 -> b_kind ((ex_bk 1) f) = 0 -> b_order ((ex_bk 1) f) = 1).
Proof.
  split; [exact kex_any_poisson_1d|].
  split; [exact kex_high_poisson_1d|].
  split; [now apply lt|].
  split; [exact (ex_h_pos 1)|].
  split; [intros f _; apply ex_bk_sound|].
  split; [exact kroomy_poisson_1d|].
  intros f _; apply ex_bk_simple.
Qed.

Theorem C76_symmetric_v1_2d : forall i0 j0 i1 j1 (dx : Z -> Qc) (beta : Qc) b0 b1 gcw u f0 f1 (alpha : Qc) agcw a rgcw res bc (m n : mem QcS) (r w s z c v0 v1 : Z -> Z -> Qc),
  filled_v1_2d (S := QcS) i0 j0 i1 j1 dx beta b0 b1 gcw u f0 f1 alpha agcw a rgcw res bc m r w c v0 v1 ->
  filled_v1_2d (S := QcS) i0 j0 i1 j1 dx beta b0 b1 gcw u f0 f1 alpha agcw a rgcw res bc n s z c v0 v1 ->
  (0 < beta)%Qc ->
  (forall d, 0 <= d < 2 -> (0 < dx d)%Qc) ->
  (forall i j, i0 <= i <= i1 + 1 -> j0 <= j <= j1 -> (0 < v0 i j)%Qc) ->
  (forall i j, i0 <= i <= i1 -> j0 <= j <= j1 + 1 -> (0 < v1 i j)%Qc) ->
  (forall f, 0 <= f < 4 -> sound true (bc f)) ->
  roomy 2 (ends2 i0 j0) (ends2 i1 j1) bc ->
  (forall f, 0 <= f < 4 -> b_kind (bc f) = 0 -> b_order (bc f) = 1) ->
  total2 (S := QcS) i0 j0 i1 j1 (fun i j => r i j * z i j)%Qc =
  total2 (S := QcS) i0 j0 i1 j1 (fun i j => s i j * w i j)%Qc.
Proof. exact @fsym_v1_2d. Qed.
Print Assumptions C76_symmetric_v1_2d.

Example C76_symmetric_v1_2d_example :
  filled_v1_2d (S := QcS) 0 0 1 1 ex_h (ex_q 2) (0%nat, 0) (1%nat, 0) 1 (4%nat, 0) (5%nat, 0) (6%nat, 0) (ex_q 0) 0 (3%nat, 0) 0 (8%nat, 0) (ex_bk 3) (ex_so 16 ex_any) (kr_v1_2d 3 ex_any) (kw_v1_2d 3 ex_any) c_v1_2d v0_v1_2d v1_v1_2d /\
  filled_v1_2d (S := QcS) 0 0 1 1 ex_h (ex_q 2) (0%nat, 0) (1%nat, 0) 1 (4%nat, 0) (5%nat, 0) (6%nat, 0) (ex_q 0) 0 (3%nat, 0) 0 (8%nat, 0) (ex_bk 3) (ex_so 16 ex_high) (kr_v1_2d 3 ex_high) (kw_v1_2d 3 ex_high) c_v1_2d v0_v1_2d v1_v1_2d /\
  (0 < (ex_q 2))%Qc /\
  (forall d, 0 <= d < 2 -> (0 < ex_h d)%Qc) /\
  (forall i j, 0 <= i <= 1 + 1 -> 0 <= j <= 1 -> (0 < v0_v1_2d i j)%Qc) /\
  (forall i j, 0 <= i <= 1 -> 0 <= j <= 1 + 1 -> (0 < v1_v1_2d i j)%Qc) /\
  (forall f, 0 <= f < 4 -> sound true ((ex_bk 3) f)) /\
  roomy 2 (ends2 0 0) (ends2 1 1) (ex_bk 3) /\
  (forall f, 0 <= f < 4 -> b_kind ((ex_bk 3) f) = 0 -> b_order ((ex_bk 3) f) = 1).
Proof.
  split; [exact kex_any_v1_2d|].
  split; [exact kex_high_v1_2d|].
  split; [now apply lt|].
  split; [exact (ex_h_pos 2)|].
  split; [exact kv0_v1_2d|].
  split; [exact kv1_v1_2d|].
  split; [intros f _; apply ex_bk_sound|].
  split; [exact kroomy_v1_2d|].
  intros f _; apply ex_bk_simple.
Qed.

Theorem C76_symmetric_v2_2d : forall i0 j0 i1 j1 (dx : Z -> Qc) (beta : Qc) b0 b1 gcw u f0 f1 (alpha : Qc) rgcw res bc (m n : mem QcS) (r w s z v0 v1 : Z -> Z -> Qc),
  filled_v2_2d (S := QcS) i0 j0 i1 j1 dx beta b0 b1 gcw u f0 f1 alpha rgcw res bc m r w v0 v1 ->
  filled_v2_2d (S := QcS) i0 j0 i1 j1 dx beta b0 b1 gcw u f0 f1 alpha rgcw res bc n s z v0 v1 ->
  (0 < beta)%Qc ->
  (forall d, 0 <= d < 2 -> (0 < dx d)%Qc) ->
  (forall i j, i0 <= i <= i1 + 1 -> j0 <= j <= j1 -> (0 < v0 i j)%Qc) ->
  (forall i j, i0 <= i <= i1 -> j0 <= j <= j1 + 1 -> (0 < v1 i j)%Qc) ->
  (forall f, 0 <= f < 4 -> sound true (bc f)) ->
  roomy 2 (ends2 i0 j0) (ends2 i1 j1) bc ->
  (forall f, 0 <= f < 4 -> b_kind (bc f) = 0 -> b_order (bc f) = 1) ->
  total2 (S := QcS) i0 j0 i1 j1 (fun i j => r i j * z i j)%Qc =
  total2 (S := QcS) i0 j0 i1 j1 (fun i j => s i j * w i j)%Qc.
Proof. exact @fsym_v2_2d. Qed.
Print Assumptions C76_symmetric_v2_2d.

Example C76_symmetric_v2_2d_example :
  filled_v2_2d (S := QcS) 0 0 1 1 ex_h (ex_q 2) (0%nat, 0) (1%nat, 0) 1 (4%nat, 0) (5%nat, 0) (6%nat, 0) (ex_q 0) 0 (8%nat, 0) (ex_bk 3) (ex_so 16 ex_any) (kr_v2_2d 3 ex_any) (kw_v2_2d 3 ex_any) v0_v2_2d v1_v2_2d /\
  filled_v2_2d (S := QcS) 0 0 1 1 ex_h (ex_q 2) (0%nat, 0) (1%nat, 0) 1 (4%nat, 0) (5%nat, 0) (6%nat, 0) (ex_q 0) 0 (8%nat, 0) (ex_bk 3) (ex_so 16 ex_high) (kr_v2_2d 3 ex_high) (kw_v2_2d 3 ex_high) v0_v2_2d v1_v2_2d /\
  (0 < (ex_q 2))%Qc /\
  (forall d, 0 <= d < 2 -> (0 < ex_h d)%Qc) /\
  (forall i j, 0 <= i <= 1 + 1 -> 0 <= j <= 1 -> (0 < v0_v2_2d i j)%Qc) /\
  (forall i j, 0 <= i <= 1 -> 0 <= j <= 1 + 1 -> (0 < v1_v2_2d i j)%Qc) /\
  (forall f, 0 <= f < 4 -> sound true ((ex_bk 3) f)) /\
  roomy 2 (ends2 0 0) (ends2 1 1) (ex_bk 3) /\
  (forall f, 0 <= f < 4 -> b_kind ((ex_bk 3) f) = 0 -> b_order ((ex_bk 3) f) = 1).
Proof.
  split; [exact kex_any_v2_2d|].
  split; [exact kex_high_v2_2d|].
  split; [now apply lt|].
  split; [exact (ex_h_pos 2)|].
  split; [exact kv0_v2_2d|].
  split; [exact kv1_v2_2d|].
  split; [intros f _; apply ex_bk_sound|].
  split; [exact kroomy_v2_2d|].
  intros f _; apply ex_bk_simple.
Qed.

Theorem C76_symmetric_poisson_2d : forall i0 j0 i1 j1 (dx : Z -> Qc) (beta : Qc) gcw u f0 f1 rgcw res bc (m n : mem QcS) (r w s z : Z -> Z -> Qc),
  filled_poisson_2d (S := QcS) i0 j0 i1 j1 dx beta gcw u f0 f1 rgcw res bc m r w ->
  filled_poisson_2d (S := QcS) i0 j0 i1 j1 dx beta gcw u f0 f1 rgcw res bc n s z ->
  (0 < beta)%Qc ->
  (forall d, 0 <= d < 2 -> (0 < dx d)%Qc) ->
  (forall f, 0 <= f < 4 -> sound false (bc f)) ->
  roomy 2 (ends2 i0 j0) (ends2 i1 j1) bc ->
  (forall f, 0 <= f < 4 -> b_kind (bc f) = 0 -> b_order (bc f) = 1) ->
  total2 (S := QcS) i0 j0 i1 j1 (fun i j => r i j * z i j)%Qc =
  total2 (S := QcS) i0 j0 i1 j1 (fun i j => s i j * w i j)%Qc.
Proof. exact @fsym_poisson_2d. Qed.
Print Assumptions C76_symmetric_poisson_2d.

Example C76_symmetric_poisson_2d_example :
  filled_poisson_2d (S := QcS) 0 0 1 1 ex_h (ex_q 2) 1 (4%nat, 0) (5%nat, 0) (6%nat, 0) 0 (8%nat, 0) (ex_bk 3) (ex_so 16 ex_any) (kr_poisson_2d 3 ex_any) (kw_poisson_2d 3 ex_any)  /\
  filled_poisson_2d (S := QcS) 0 0 1 1 ex_h (ex_q 2) 1 (4%nat, 0) (5%nat, 0) (6%nat, 0) 0 (8%nat, 0) (ex_bk 3) (ex_so 16 ex_high) (kr_poisson_2d 3 ex_high) (kw_poisson_2d 3 ex_high)  /\
  (0 < (ex_q 2))%Qc /\
  (forall d, 0 <= d < 2 -> (0 < ex_h d)%Qc) /\
  (forall f, 0 <= f < 4 -> sound false ((ex_bk 3) f)) /\
  roomy 2 (ends2 0 0) (ends2 1 1) (ex_bk 3) /\
  (forall f, 0 <= f < 4 -> b_kind ((ex_bk 3) f) = 0 -> b_order ((ex_bk 3) f) = 1).
Proof.
  split; [exact kex_any_poisson_2d|].
  split; [exact kex_high_poisson_2d|].
  split; [now apply lt|].
  split; [exact (ex_h_pos 2)|].
  split; [intros f _; apply ex_bk_sound|].
  split; [exact kroomy_poisson_2d|].
  intros f _; apply ex_bk_simple.
Qed.

Theorem C76_symmetric_v1_3d : forall i0 j0 k0 i1 j1 k1 (dx : Z -> Qc) (beta : Qc) b0 b1 b2 gcw u f0 f1 f2 (alpha : Qc) agcw a rgcw res bc (m n : mem QcS) (r w s z c v0 v1 v2 : Z -> Z -> Z -> Qc),
  filled_v1_3d (S := QcS) i0 j0 k0 i1 j1 k1 dx beta b0 b1 b2 gcw u f0 f1 f2 alpha agcw a rgcw res bc m r w c v0 v1 v2 ->
  filled_v1_3d (S := QcS) i0 j0 k0 i1 j1 k1 dx beta b0 b1 b2 gcw u f0 f1 f2 alpha agcw a rgcw res bc n s z c v0 v1 v2 ->
  (0 < beta)%Qc ->
  (forall d, 0 <= d < 3 -> (0 < dx d)%Qc) ->
  (forall i j k, i0 <= i <= i1 + 1 -> j0 <= j <= j1 -> k0 <= k <= k1 -> (0 < v0 i j k)%Qc) ->
  (forall i j k, i0 <= i <= i1 -> j0 <= j <= j1 + 1 -> k0 <= k <= k1 -> (0 < v1 i j k)%Qc) ->
  (forall i j k, i0 <= i <= i1 -> j0 <= j <= j1 -> k0 <= k <= k1 + 1 -> (0 < v2 i j k)%Qc) ->
  (forall f, 0 <= f < 6 -> sound true (bc f)) ->
  roomy 3 (ends3 i0 j0 k0) (ends3 i1 j1 k1) bc ->
  (forall f, 0 <= f < 6 -> b_kind (bc f) = 0 -> b_order (bc f) = 1) ->
  total3 (S := QcS) i0 j0 k0 i1 j1 k1 (fun i j k => r i j k * z i j k)%Qc =
  total3 (S := QcS) i0 j0 k0 i1 j1 k1 (fun i j k => s i j k * w i j k)%Qc.
Proof. exact @fsym_v1_3d. Qed.
Print Assumptions C76_symmetric_v1_3d.

Example C76_symmetric_v1_3d_example :
  filled_v1_3d (S := QcS) 0 0 0 1 1 0 ex_h (ex_q 2) (0%nat, 0) (1%nat, 0) (2%nat, 0) 1 (4%nat, 0) (5%nat, 0) (6%nat, 0) (7%nat, 0) (ex_q 0) 0 (3%nat, 0) 0 (8%nat, 0) (ex_bk 5) (ex_so 48 ex_any) (kr_v1_3d 5 ex_any) (kw_v1_3d 5 ex_any) c_v1_3d v0_v1_3d v1_v1_3d v2_v1_3d /\
  filled_v1_3d (S := QcS) 0 0 0 1 1 0 ex_h (ex_q 2) (0%nat, 0) (1%nat, 0) (2%nat, 0) 1 (4%nat, 0) (5%nat, 0) (6%nat, 0) (7%nat, 0) (ex_q 0) 0 (3%nat, 0) 0 (8%nat, 0) (ex_bk 5) (ex_so 48 ex_high) (kr_v1_3d 5 ex_high) (kw_v1_3d 5 ex_high) c_v1_3d v0_v1_3d v1_v1_3d v2_v1_3d /\
  (0 < (ex_q 2))%Qc /\
  (forall d, 0 <= d < 3 -> (0 < ex_h d)%Qc) /\
  (forall i j k, 0 <= i <= 1 + 1 -> 0 <= j <= 1 -> 0 <= k <= 0 -> (0 < v0_v1_3d i j k)%Qc) /\
  (forall i j k, 0 <= i <= 1 -> 0 <= j <= 1 + 1 -> 0 <= k <= 0 -> (0 < v1_v1_3d i j k)%Qc) /\
  (forall i j k, 0 <= i <= 1 -> 0 <= j <= 1 -> 0 <= k <= 0 + 1 -> (0 < v2_v1_3d i j k)%Qc) /\
  (forall f, 0 <= f < 6 -> sound true ((ex_bk 5) f)) /\
  roomy 3 (ends3 0 0 0) (ends3 1 1 0) (ex_bk 5) /\
  (forall f, 0 <= f < 6 -> b_kind ((ex_bk 5) f) = 0 -> b_order ((ex_bk 5) f) = 1).
Proof.
  split; [exact kex_any_v1_3d|].
  split; [exact kex_high_v1_3d|].
  split; [now apply lt|].
  split; [exact (ex_h_pos 3)|].
  split; [exact kv0_v1_3d|].
  split; [exact kv1_v1_3d|].
  split; [exact kv2_v1_3d|].
  split; [intros f _; apply ex_bk_sound|].
  split; [exact kroomy_v1_3d|].
  intros f _; apply ex_bk_simple.
Qed.

Theorem C76_symmetric_v2_3d : forall i0 j0 k0 i1 j1 k1 (dx : Z -> Qc) (beta : Qc) b0 b1 b2 gcw u f0 f1 f2 (alpha : Qc) rgcw res bc (m n : mem QcS) (r w s z v0 v1 v2 : Z -> Z -> Z -> Qc),
  filled_v2_3d (S := QcS) i0 j0 k0 i1 j1 k1 dx beta b0 b1 b2 gcw u f0 f1 f2 alpha rgcw res bc m r w v0 v1 v2 ->
  filled_v2_3d (S := QcS) i0 j0 k0 i1 j1 k1 dx beta b0 b1 b2 gcw u f0 f1 f2 alpha rgcw res bc n s z v0 v1 v2 ->
  (0 < beta)%Qc ->
  (forall d, 0 <= d < 3 -> (0 < dx d)%Qc) ->
  (forall i j k, i0 <= i <= i1 + 1 -> j0 <= j <= j1 -> k0 <= k <= k1 -> (0 < v0 i j k)%Qc) ->
  (forall i j k, i0 <= i <= i1 -> j0 <= j <= j1 + 1 -> k0 <= k <= k1 -> (0 < v1 i j k)%Qc) ->
  (forall i j k, i0 <= i <= i1 -> j0 <= j <= j1 -> k0 <= k <= k1 + 1 -> (0 < v2 i j k)%Qc) ->
  (forall f, 0 <= f < 6 -> sound true (bc f)) ->
  roomy 3 (ends3 i0 j0 k0) (ends3 i1 j1 k1) bc ->
  (forall f, 0 <= f < 6 -> b_kind (bc f) = 0 -> b_order (bc f) = 1) ->
  total3 (S := QcS) i0 j0 k0 i1 j1 k1 (fun i j k => r i j k * z i j k)%Qc =
  total3 (S := QcS) i0 j0 k0 i1 j1 k1 (fun i j k => s i j k * w i j k)%Qc.
Proof. exact @fsym_v2_3d. Qed.
Print Assumptions C76_symmetric_v2_3d.

Example C76_symmetric_v2_3d_example :
  filled_v2_3d (S := QcS) 0 0 0 1 1 0 ex_h (ex_q 2) (0%nat, 0) (1%nat, 0) (2%nat, 0) 1 (4%nat, 0) (5%nat, 0) (6%nat, 0) (7%nat, 0) (ex_q 0) 0 (8%nat, 0) (ex_bk 5) (ex_so 48 ex_any) (kr_v2_3d 5 ex_any) (kw_v2_3d 5 ex_any) v0_v2_3d v1_v2_3d v2_v2_3d /\
  filled_v2_3d (S := QcS) 0 0 0 1 1 0 ex_h (ex_q 2) (0%nat, 0) (1%nat, 0) (2%nat, 0) 1 (4%nat, 0) (5%nat, 0) (6%nat, 0) (7%nat, 0) (ex_q 0) 0 (8%nat, 0) (ex_bk 5) (ex_so 48 ex_high) (kr_v2_3d 5 ex_high) (kw_v2_3d 5 ex_high) v0_v2_3d v1_v2_3d v2_v2_3d /\
  (0 < (ex_q 2))%Qc /\
  (forall d, 0 <= d < 3 -> (0 < ex_h d)%Qc) /\
  (forall i j k, 0 <= i <= 1 + 1 -> 0 <= j <= 1 -> 0 <= k <= 0 -> (0 < v0_v2_3d i j k)%Qc) /\
  (forall i j k, 0 <= i <= 1 -> 0 <= j <= 1 + 1 -> 0 <= k <= 0 -> (0 < v1_v2_3d i j k)%Qc) /\
  (forall i j k, 0 <= i <= 1 -> 0 <= j <= 1 -> 0 <= k <= 0 + 1 -> (0 < v2_v2_3d i j k)%Qc) /\
  (forall f, 0 <= f < 6 -> sound true ((ex_bk 5) f)) /\
  roomy 3 (ends3 0 0 0) (ends3 1 1 0) (ex_bk 5) /\
  (forall f, 0 <= f < 6 -> b_kind ((ex_bk 5) f) = 0 -> b_order ((ex_bk 5) f) = 1).
Proof.
  split; [exact kex_any_v2_3d|].
  split; [exact kex_high_v2_3d|].
  split; [now apply lt|].
  split; [exact (ex_h_pos 3)|].
  split; [exact kv0_v2_3d|].
  split; [exact kv1_v2_3d|].
  split; [exact kv2_v2_3d|].
  split; [intros f _; apply ex_bk_sound|].
  split; [exact kroomy_v2_3d|].
  intros f _; apply ex_bk_simple.
Qed.

Theorem C76_symmetric_poisson_3d : forall i0 j0 k0 i1 j1 k1 (dx : Z -> Qc) (beta : Qc) gcw u f0 f1 f2 rgcw res bc (m n : mem QcS) (r w s z : Z -> Z -> Z -> Qc),
  filled_poisson_3d (S := QcS) i0 j0 k0 i1 j1 k1 dx beta gcw u f0 f1 f2 rgcw res bc m r w ->
  filled_poisson_3d (S := QcS) i0 j0 k0 i1 j1 k1 dx beta gcw u f0 f1 f2 rgcw res bc n s z ->
  (0 < beta)%Qc ->
  (forall d, 0 <= d < 3 -> (0 < dx d)%Qc) ->
  (forall f, 0 <= f < 6 -> sound false (bc f)) ->
  roomy 3 (ends3 i0 j0 k0) (ends3 i1 j1 k1) bc ->
  (forall f, 0 <= f < 6 -> b_kind (bc f) = 0 -> b_order (bc f) = 1) ->
  total3 (S := QcS) i0 j0 k0 i1 j1 k1 (fun i j k => r i j k * z i j k)%Qc =
  total3 (S := QcS) i0 j0 k0 i1 j1 k1 (fun i j k => s i j k * w i j k)%Qc.
Proof. exact @fsym_poisson_3d. Qed.
Print Assumptions C76_symmetric_poisson_3d.

Example C76_symmetric_poisson_3d_example :
  filled_poisson_3d (S := QcS) 0 0 0 1 1 0 ex_h (ex_q 2) 1 (4%nat, 0) (5%nat, 0) (6%nat, 0) (7%nat, 0) 0 (8%nat, 0) (ex_bk 5) (ex_so 48 ex_any) (kr_poisson_3d 5 ex_any) (kw_poisson_3d 5 ex_any)  /\
  filled_poisson_3d (S := QcS) 0 0 0 1 1 0 ex_h (ex_q 2) 1 (4%nat, 0) (5%nat, 0) (6%nat, 0) (7%nat, 0) 0 (8%nat, 0) (ex_bk 5) (ex_so 48 ex_high) (kr_poisson_3d 5 ex_high) (kw_poisson_3d 5 ex_high)  /\
  (0 < (ex_q 2))%Qc /\
  (forall d, 0 <= d < 3 -> (0 < ex_h d)%Qc) /\
  (forall f, 0 <= f < 6 -> sound false ((ex_bk 5) f)) /\
  roomy 3 (ends3 0 0 0) (ends3 1 1 0) (ex_bk 5) /\
  (forall f, 0 <= f < 6 -> b_kind ((ex_bk 5) f) = 0 -> b_order ((ex_bk 5) f) = 1).
Proof.
  split; [exact kex_any_poisson_3d|].
  split; [exact kex_high_poisson_3d|].
  split; [now apply lt|].
  split; [exact (ex_h_pos 3)|].
  split; [intros f _; apply ex_bk_sound|].
  split; [exact kroomy_poisson_3d|].
  intros f _; apply ex_bk_simple.
Qed.

(** The form of a function with itself is not negative. *)

Theorem C76_nonneg_v1_1d : forall i0 i1 (dx : Z -> Qc) (beta : Qc) b0 gcw u f0 (alpha : Qc) agcw a rgcw res bc (m : mem QcS) (r w c v0 : Z -> Qc),
  filled_v1_1d (S := QcS) i0 i1 dx beta b0 gcw u f0 alpha agcw a rgcw res bc m r w c v0 ->
  (0 < beta)%Qc ->
  (forall d, 0 <= d < 1 -> (0 < dx d)%Qc) ->
  (0 <= alpha)%Qc ->
  (forall i, patch1 i0 i1 i -> (0 <= c i)%Qc) ->
  (forall i, i0 <= i <= i1 + 1 -> (0 < v0 i)%Qc) ->
  (forall f, 0 <= f < 2 -> sound true (bc f)) ->
  roomy 1 (ends1 i0) (ends1 i1) bc ->
  (forall f, 0 <= f < 2 -> b_kind (bc f) = 0 -> b_order (bc f) = 1) ->
  (0 <= total (S := QcS) i0 i1 (fun i => r i * w i)%Qc)%Qc.
Proof. exact @fnonneg_v1_1d. Qed.
Print Assumptions C76_nonneg_v1_1d.

Example C76_nonneg_v1_1d_example :
  filled_v1_1d (S := QcS) 0 1 ex_h (ex_q 2) (0%nat, 0) 1 (4%nat, 0) (5%nat, 0) (ex_q 0) 0 (3%nat, 0) 0 (8%nat, 0) (ex_bk 1) (ex_so 4 ex_any) (kr_v1_1d 1 ex_any) (kw_v1_1d 1 ex_any) c_v1_1d v0_v1_1d /\
  (0 < (ex_q 2))%Qc /\
  (forall d, 0 <= d < 1 -> (0 < ex_h d)%Qc) /\
  (0 <= (ex_q 0))%Qc /\
  (forall i, patch1 0 1 i -> (0 <= c_v1_1d i)%Qc) /\
  (forall i, 0 <= i <= 1 + 1 -> (0 < v0_v1_1d i)%Qc) /\
  (forall f, 0 <= f < 2 -> sound true ((ex_bk 1) f)) /\
  roomy 1 (ends1 0) (ends1 1) (ex_bk 1) /\
  (forall f, 0 <= f < 2 -> b_kind ((ex_bk 1) f) = 0 -> b_order ((ex_bk 1) f) = 1).
Proof.
  split; [exact kex_any_v1_1d|].
  split; [now apply lt|].
  split; [exact (ex_h_pos 1)|].
  split; [now apply le|].
  split; [exact cpos_v1_1d|].
  split; [exact kv0_v1_1d|].
  split; [intros f _; apply ex_bk_sound|].
  split; [exact kroomy_v1_1d|].
  intros f _; apply ex_bk_simple.
Qed.

Theorem C76_nonneg_v2_1d : forall i0 i1 (dx : Z -> Qc) (beta : Qc) b0 gcw u f0 (alpha : Qc) rgcw res bc (m : mem QcS) (r w v0 : Z -> Qc),
  filled_v2_1d (S := QcS) i0 i1 dx beta b0 gcw u f0 alpha rgcw res bc m r w v0 ->
  (0 < beta)%Qc ->
  (forall d, 0 <= d < 1 -> (0 < dx d)%Qc) ->
  (0 <= alpha)%Qc ->
  (forall i, i0 <= i <= i1 + 1 -> (0 < v0 i)%Qc) ->
  (forall f, 0 <= f < 2 -> sound true (bc f)) ->
  roomy 1 (ends1 i0) (ends1 i1) bc ->
  (forall f, 0 <= f < 2 -> b_kind (bc f) = 0 -> b_order (bc f) = 1) ->
  (0 <= total (S := QcS) i0 i1 (fun i => r i * w i)%Qc)%Qc.
Proof. exact @fnonneg_v2_1d. Qed.
Print Assumptions C76_nonneg_v2_1d.

Example C76_nonneg_v2_1d_example :
  filled_v2_1d (S := QcS) 0 1 ex_h (ex_q 2) (0%nat, 0) 1 (4%nat, 0) (5%nat, 0) (ex_q 0) 0 (8%nat, 0) (ex_bk 1) (ex_so 4 ex_any) (kr_v2_1d 1 ex_any) (kw_v2_1d 1 ex_any) v0_v2_1d /\
  (0 < (ex_q 2))%Qc /\
  (forall d, 0 <= d < 1 -> (0 < ex_h d)%Qc) /\
  (0 <= (ex_q 0))%Qc /\
  (forall i, 0 <= i <= 1 + 1 -> (0 < v0_v2_1d i)%Qc) /\
  (forall f, 0 <= f < 2 -> sound true ((ex_bk 1) f)) /\
  roomy 1 (ends1 0) (ends1 1) (ex_bk 1) /\
  (forall f, 0 <= f < 2 -> b_kind ((ex_bk 1) f) = 0 -> b_order ((ex_bk 1) f) = 1).
Proof.
  split; [exact kex_any_v2_1d|].
  split; [now apply lt|].
  split; [exact (ex_h_pos 1)|].
  split; [now apply le|].
  split; [exact kv0_v2_1d|].
  split; [intros f _; apply ex_bk_sound|].
  split; [exact kroomy_v2_1d|].
  intros f _; apply ex_bk_simple.
Qed.

Theorem C76_nonneg_poisson_1d : forall i0 i1 (dx : Z -> Qc) (beta : Qc) gcw u f0 rgcw res bc (m : mem QcS) (r w : Z -> Qc),
  filled_poisson_1d (S := QcS) i0 i1 dx beta gcw u f0 rgcw res bc m r w ->
  (0 < beta)%Qc ->
  (forall d, 0 <= d < 1 -> (0 < dx d)%Qc) ->
  (forall f, 0 <= f < 2 -> sound false (bc f)) ->
  roomy 1 (ends1 i0) (ends1 i1) bc ->
  (forall f, 0 <= f < 2 -> b_kind (bc f) = 0 -> b_order (bc f) = 1) ->
  (0 <= total (S := QcS) i0 i1 (fun i => r i * w i)%Qc)%Qc.
Proof. exact @fnonneg_poisson_1d. Qed.
Print Assumptions C76_nonneg_poisson_1d.

Example C76_nonneg_poisson_1d_example :
  filled_poisson_1d (S := QcS) 0 1 ex_h (ex_q 2) 1 (4%nat, 0) (5%nat, 0) 0 (8%nat, 0) (ex_bk 1) (ex_so 4 ex_any) (kr_poisson_1d 1 ex_any) (kw_poisson_1d 1 ex_any)  /\
  (0 < (ex_q 2))%Qc /\
  (forall d, 0 <= d < 1 -> (0 < ex_h d)%Qc) /\
  (forall f, 0 <= f < 2 -> sound false ((ex_bk 1) f)) /\
  roomy 1 (ends1 0) (ends1 1) (ex_bk 1) /\
  (forall f, 0 <= f < 2 -> b_kind ((ex_bk 1) f) = 0 -> b_order ((ex_bk 1) f) = 1).
Proof.
  split; [exact kex_any_poisson_1d|].
  split; [now apply lt|].
  split; [exact (ex_h_pos 1)|].
  split; [intros f _; apply ex_bk_sound|].
  split; [exact kroomy_poisson_1d|].
  intros f _; apply ex_bk_simple.
Qed.

Theorem C76_nonneg_v1_2d : forall i0 j0 i1 j1 (dx : Z -> Qc) (beta : Qc) b0 b1 gcw u f0 f1 (alpha : Qc) agcw a rgcw res bc (m : mem QcS) (r w c v0 v1 : Z -> Z -> Qc),
  filled_v1_2d (S := QcS) i0 j0 i1 j1 dx beta b0 b1 gcw u f0 f1 alpha agcw a rgcw res bc m r w c v0 v1 ->
  (0 < beta)%Qc ->
  (forall d, 0 <= d < 2 -> (0 < dx d)%Qc) ->
  (0 <= alpha)%Qc ->
  (forall i j, patch2 i0 j0 i1 j1 i j -> (0 <= c i j)%Qc) ->
  (forall i j, i0 <= i <= i1 + 1 -> j0 <= j <= j1 -> (0 < v0 i j)%Qc) ->
  (forall i j, i0 <= i <= i1 -> j0 <= j <= j1 + 1 -> (0 < v1 i j)%Qc) ->
  (forall f, 0 <= f < 4 -> sound true (bc f)) ->
  roomy 2 (ends2 i0 j0) (ends2 i1 j1) bc ->
  (forall f, 0 <= f < 4 -> b_kind (bc f) = 0 -> b_order (bc f) = 1) ->
  (0 <= total2 (S := QcS) i0 j0 i1 j1 (fun i j => r i j * w i j)%Qc)%Qc.
Proof. exact @fnonneg_v1_2d. Qed.
Print Assumptions C76_nonneg_v1_2d.

Example C76_nonneg_v1_2d_example :
  filled_v1_2d (S := QcS) 0 0 1 1 ex_h (ex_q 2) (0%nat, 0) (1%nat, 0) 1 (4%nat, 0) (5%nat, 0) (6%nat, 0) (ex_q 0) 0 (3%nat, 0) 0 (8%nat, 0) (ex_bk 3) (ex_so 16 ex_any) (kr_v1_2d 3 ex_any) (kw_v1_2d 3 ex_any) c_v1_2d v0_v1_2d v1_v1_2d /\
  (0 < (ex_q 2))%Qc /\
  (forall d, 0 <= d < 2 -> (0 < ex_h d)%Qc) /\
  (0 <= (ex_q 0))%Qc /\
  (forall i j, patch2 0 0 1 1 i j -> (0 <= c_v1_2d i j)%Qc) /\
  (forall i j, 0 <= i <= 1 + 1 -> 0 <= j <= 1 -> (0 < v0_v1_2d i j)%Qc) /\
  (forall i j, 0 <= i <= 1 -> 0 <= j <= 1 + 1 -> (0 < v1_v1_2d i j)%Qc) /\
  (forall f, 0 <= f < 4 -> sound true ((ex_bk 3) f)) /\
  roomy 2 (ends2 0 0) (ends2 1 1) (ex_bk 3) /\
  (forall f, 0 <= f < 4 -> b_kind ((ex_bk 3) f) = 0 -> b_order ((ex_bk 3) f) = 1).
Proof.
  split; [exact kex_any_v1_2d|].
  split; [now apply lt|].
  split; [exact (ex_h_pos 2)|].
  split; [now apply le|].
  split; [exact cpos_v1_2d|].
  split; [exact kv0_v1_2d|].
  split; [exact kv1_v1_2d|].
  split; [intros f _; apply ex_bk_sound|].
  split; [exact kroomy_v1_2d|].
  intros f _; apply ex_bk_simple.
Qed.

Theorem C76_nonneg_v2_2d : forall i0 j0 i1 j1 (dx : Z -> Qc) (beta : Qc) b0 b1 gcw u f0 f1 (alpha : Qc) rgcw res bc (m : mem QcS) (r w v0 v1 : Z -> Z -> Qc),
  filled_v2_2d (S := QcS) i0 j0 i1 j1 dx beta b0 b1 gcw u f0 f1 alpha rgcw res bc m r w v0 v1 ->
  (0 < beta)%Qc ->
  (forall d, 0 <= d < 2 -> (0 < dx d)%Qc) ->
  (0 <= alpha)%Qc ->
  (forall i j, i0 <= i <= i1 + 1 -> j0 <= j <= j1 -> (0 < v0 i j)%Qc) ->
  (forall i j, i0 <= i <= i1 -> j0 <= j <= j1 + 1 -> (0 < v1 i j)%Qc) ->
  (forall f, 0 <= f < 4 -> sound true (bc f)) ->
  roomy 2 (ends2 i0 j0) (ends2 i1 j1) bc ->
  (forall f, 0 <= f < 4 -> b_kind (bc f) = 0 -> b_order (bc f) = 1) ->
  (0 <= total2 (S := QcS) i0 j0 i1 j1 (fun i j => r i j * w i j)%Qc)%Qc.
Proof. exact @fnonneg_v2_2d. Qed.
Print Assumptions C76_nonneg_v2_2d.

Example C76_nonneg_v2_2d_example :
  filled_v2_2d (S := QcS) 0 0 1 1 ex_h (ex_q 2) (0%nat, 0) (1%nat, 0) 1 (4%nat, 0) (5%nat, 0) (6%nat, 0) (ex_q 0) 0 (8%nat, 0) (ex_bk 3) (ex_so 16 ex_any) (kr_v2_2d 3 ex_any) (kw_v2_2d 3 ex_any) v0_v2_2d v1_v2_2d /\
  (0 < (ex_q 2))%Qc /\
  (forall d, 0 <= d < 2 -> (0 < ex_h d)%Qc) /\
  (0 <= (ex_q 0))%Qc /\
  (forall i j, 0 <= i <= 1 + 1 -> 0 <= j <= 1 -> (0 < v0_v2_2d i j)%Qc) /\
  (forall i j, 0 <= i <= 1 -> 0 <= j <= 1 + 1 -> (0 < v1_v2_2d i j)%Qc) /\
  (forall f, 0 <= f < 4 -> sound true ((ex_bk 3) f)) /\
  roomy 2 (ends2 0 0) (ends2 1 1) (ex_bk 3) /\
  (forall f, 0 <= f < 4 -> b_kind ((ex_bk 3) f) = 0 -> b_order ((ex_bk 3) f) = 1).
Proof.
  split; [exact kex_any_v2_2d|].
  split; [now apply lt|].
  split; [exact (ex_h_pos 2)|].
  split; [now apply le|].
  split; [exact kv0_v2_2d|].
  split; [exact kv1_v2_2d|].
  split; [intros f _; apply ex_bk_sound|].
  split; [exact kroomy_v2_2d|].
  intros f _; apply ex_bk_simple.
Qed.

Theorem C76_nonneg_poisson_2d : forall i0 j0 i1 j1 (dx : Z -> Qc) (beta : Qc) gcw u f0 f1 rgcw res bc (m : mem QcS) (r w : Z -> Z -> Qc),
  filled_poisson_2d (S := QcS) i0 j0 i1 j1 dx beta gcw u f0 f1 rgcw res bc m r w ->
  (0 < beta)%Qc ->
  (forall d, 0 <= d < 2 -> (0 < dx d)%Qc) ->
  (forall f, 0 <= f < 4 -> sound false (bc f)) ->
  roomy 2 (ends2 i0 j0) (ends2 i1 j1) bc ->
  (forall f, 0 <= f < 4 -> b_kind (bc f) = 0 -> b_order (bc f) = 1) ->
  (0 <= total2 (S := QcS) i0 j0 i1 j1 (fun i j => r i j * w i j)%Qc)%Qc.
Proof. exact @fnonneg_poisson_2d. Qed.
Print Assumptions C76_nonneg_poisson_2d.

Example C76_nonneg_poisson_2d_example :
  filled_poisson_2d (S := QcS) 0 0 1 1 ex_h (ex_q 2) 1 (4%nat, 0) (5%nat, 0) (6%nat, 0) 0 (8%nat, 0) (ex_bk 3) (ex_so 16 ex_any) (kr_poisson_2d 3 ex_any) (kw_poisson_2d 3 ex_any)  /\
  (0 < (ex_q 2))%Qc /\
  (forall d, 0 <= d < 2 -> (0 < ex_h d)%Qc) /\
  (forall f, 0 <= f < 4 -> sound false ((ex_bk 3) f)) /\
  roomy 2 (ends2 0 0) (ends2 1 1) (ex_bk 3) /\
  (forall f, 0 <= f < 4 -> b_kind ((ex_bk 3) f) = 0 -> b_order ((ex_bk 3) f) = 1).
Proof.
  split; [exact kex_any_poisson_2d|].
  split; [now apply lt|].
  split; [exact (ex_h_pos 2)|].
  split; [intros f _; apply ex_bk_sound|].
  split; [exact kroomy_poisson_2d|].
  intros f _; apply ex_bk_simple.
Qed.

Theorem C76_nonneg_v1_3d : forall i0 j0 k0 i1 j1 k1 (dx : Z -> Qc) (beta : Qc) b0 b1 b2 gcw u f0 f1 f2 (alpha : Qc) agcw a rgcw res bc (m : mem QcS) (r w c v0 v1 v2 : Z -> Z -> Z -> Qc),
  filled_v1_3d (S := QcS) i0 j0 k0 i1 j1 k1 dx beta b0 b1 b2 gcw u f0 f1 f2 alpha agcw a rgcw res bc m r w c v0 v1 v2 ->
  (0 < beta)%Qc ->
  (forall d, 0 <= d < 3 -> (0 < dx d)%Qc) ->
  (0 <= alpha)%Qc ->
  (forall i j k, patch3 i0 j0 k0 i1 j1 k1 i j k -> (0 <= c i j k)%Qc) ->
  (forall i j k, i0 <= i <= i1 + 1 -> j0 <= j <= j1 -> k0 <= k <= k1 -> (0 < v0 i j k)%Qc) ->
  (forall i j k, i0 <= i <= i1 -> j0 <= j <= j1 + 1 -> k0 <= k <= k1 -> (0 < v1 i j k)%Qc) ->
  (forall i j k, i0 <= i <= i1 -> j0 <= j <= j1 -> k0 <= k <= k1 + 1 -> (0 < v2 i j k)%Qc) ->
  (forall f, 0 <= f < 6 -> sound true (bc f)) ->
  roomy 3 (ends3 i0 j0 k0) (ends3 i1 j1 k1) bc ->
  (forall f, 0 <= f < 6 -> b_kind (bc f) = 0 -> b_order (bc f) = 1) ->
  (0 <= total3 (S := QcS) i0 j0 k0 i1 j1 k1 (fun i j k => r i j k * w i j k)%Qc)%Qc.
Proof. exact @fnonneg_v1_3d. Qed.
Print Assumptions C76_nonneg_v1_3d.

Example C76_nonneg_v1_3d_example :
  filled_v1_3d (S := QcS) 0 0 0 1 1 0 ex_h (ex_q 2) (0%nat, 0) (1%nat, 0) (2%nat, 0) 1 (4%nat, 0) (5%nat, 0) (6%nat, 0) (7%nat, 0) (ex_q 0) 0 (3%nat, 0) 0 (8%nat, 0) (ex_bk 5) (ex_so 48 ex_any) (kr_v1_3d 5 ex_any) (kw_v1_3d 5 ex_any) c_v1_3d v0_v1_3d v1_v1_3d v2_v1_3d /\
  (0 < (ex_q 2))%Qc /\
  (forall d, 0 <= d < 3 -> (0 < ex_h d)%Qc) /\
  (0 <= (ex_q 0))%Qc /\
  (forall i j k, patch3 0 0 0 1 1 0 i j k -> (0 <= c_v1_3d i j k)%Qc) /\
  (forall i j k, 0 <= i <= 1 + 1 -> 0 <= j <= 1 -> 0 <= k <= 0 -> (0 < v0_v1_3d i j k)%Qc) /\
  (forall i j k, 0 <= i <= 1 -> 0 <= j <= 1 + 1 -> 0 <= k <= 0 -> (0 < v1_v1_3d i j k)%Qc) /\
  (forall i j k, 0 <= i <= 1 -> 0 <= j <= 1 -> 0 <= k <= 0 + 1 -> (0 < v2_v1_3d i j k)%Qc) /\
  (forall f, 0 <= f < 6 -> sound true ((ex_bk 5) f)) /\
  roomy 3 (ends3 0 0 0) (ends3 1 1 0) (ex_bk 5) /\
  (forall f, 0 <= f < 6 -> b_kind ((ex_bk 5) f) = 0 -> b_order ((ex_bk 5) f) = 1).
Proof.
  split; [exact kex_any_v1_3d|].
  split; [now apply lt|].
  split; [exact (ex_h_pos 3)|].
  split; [now apply le|].
  split; [exact cpos_v1_3d|].
  split; [exact kv0_v1_3d|].
  split; [exact kv1_v1_3d|].
  split; [exact kv2_v1_3d|].
  split; [intros f _; apply ex_bk_sound|].
  split; [exact kroomy_v1_3d|].
  intros f _; apply ex_bk_simple.
Qed.

Theorem C76_nonneg_v2_3d : forall i0 j0 k0 i1 j1 k1 (dx : Z -> Qc) (beta : Qc) b0 b1 b2 gcw u f0 f1 f2 (alpha : Qc) rgcw res bc (m : mem QcS) (r w v0 v1 v2 : Z -> Z -> Z -> Qc),
  filled_v2_3d (S := QcS) i0 j0 k0 i1 j1 k1 dx beta b0 b1 b2 gcw u f0 f1 f2 alpha rgcw res bc m r w v0 v1 v2 ->
  (0 < beta)%Qc ->
  (forall d, 0 <= d < 3 -> (0 < dx d)%Qc) ->
  (0 <= alpha)%Qc ->
  (forall i j k, i0 <= i <= i1 + 1 -> j0 <= j <= j1 -> k0 <= k <= k1 -> (0 < v0 i j k)%Qc) ->
  (forall i j k, i0 <= i <= i1 -> j0 <= j <= j1 + 1 -> k0 <= k <= k1 -> (0 < v1 i j k)%Qc) ->
  (forall i j k, i0 <= i <= i1 -> j0 <= j <= j1 -> k0 <= k <= k1 + 1 -> (0 < v2 i j k)%Qc) ->
  (forall f, 0 <= f < 6 -> sound true (bc f)) ->
  roomy 3 (ends3 i0 j0 k0) (ends3 i1 j1 k1) bc ->
  (forall f, 0 <= f < 6 -> b_kind (bc f) = 0 -> b_order (bc f) = 1) ->
  (0 <= total3 (S := QcS) i0 j0 k0 i1 j1 k1 (fun i j k => r i j k * w i j k)%Qc)%Qc.
Proof. exact @fnonneg_v2_3d. Qed.
Print Assumptions C76_nonneg_v2_3d.

Example C76_nonneg_v2_3d_example :
  filled_v2_3d (S := QcS) 0 0 0 1 1 0 ex_h (ex_q 2) (0%nat, 0) (1%nat, 0) (2%nat, 0) 1 (4%nat, 0) (5%nat, 0) (6%nat, 0) (7%nat, 0) (ex_q 0) 0 (8%nat, 0) (ex_bk 5) (ex_so 48 ex_any) (kr_v2_3d 5 ex_any) (kw_v2_3d 5 ex_any) v0_v2_3d v1_v2_3d v2_v2_3d /\
  (0 < (ex_q 2))%Qc /\
  (forall d, 0 <= d < 3 -> (0 < ex_h d)%Qc) /\
  (0 <= (ex_q 0))%Qc /\
  (forall i j k, 0 <= i <= 1 + 1 -> 0 <= j <= 1 -> 0 <= k <= 0 -> (0 < v0_v2_3d i j k)%Qc) /\
  (forall i j k, 0 <= i <= 1 -> 0 <= j <= 1 + 1 -> 0 <= k <= 0 -> (0 < v1_v2_3d i j k)%Qc) /\
  (forall i j k, 0 <= i <= 1 -> 0 <= j <= 1 -> 0 <= k <= 0 + 1 -> (0 < v2_v2_3d i j k)%Qc) /\
  (forall f, 0 <= f < 6 -> sound true ((ex_bk 5) f)) /\
  roomy 3 (ends3 0 0 0) (ends3 1 1 0) (ex_bk 5) /\
  (forall f, 0 <= f < 6 -> b_kind ((ex_bk 5) f) = 0 -> b_order ((ex_bk 5) f) = 1).
Proof.
  split; [exact kex_any_v2_3d|].
  split; [now apply lt|].
  split; [exact (ex_h_pos 3)|].
  split; [now apply le|].
  split; [exact kv0_v2_3d|].
  split; [exact kv1_v2_3d|].
  split; [exact kv2_v2_3d|].
  split; [intros f _; apply ex_bk_sound|].
  split; [exact kroomy_v2_3d|].
  intros f _; apply ex_bk_simple.
Qed.

Theorem C76_nonneg_poisson_3d : forall i0 j0 k0 i1 j1 k1 (dx : Z -> Qc) (beta : Qc) gcw u f0 f1 f2 rgcw res bc (m : mem QcS) (r w : Z -> Z -> Z -> Qc),
  filled_poisson_3d (S := QcS) i0 j0 k0 i1 j1 k1 dx beta gcw u f0 f1 f2 rgcw res bc m r w ->
  (0 < beta)%Qc ->
  (forall d, 0 <= d < 3 -> (0 < dx d)%Qc) ->
  (forall f, 0 <= f < 6 -> sound false (bc f)) ->
  roomy 3 (ends3 i0 j0 k0) (ends3 i1 j1 k1) bc ->
  (forall f, 0 <= f < 6 -> b_kind (bc f) = 0 -> b_order (bc f) = 1) ->
  (0 <= total3 (S := QcS) i0 j0 k0 i1 j1 k1 (fun i j k => r i j k * w i j k)%Qc)%Qc.
Proof. exact @fnonneg_poisson_3d. Qed.
Print Assumptions C76_nonneg_poisson_3d.

Example C76_nonneg_poisson_3d_example :
  filled_poisson_3d (S := QcS) 0 0 0 1 1 0 ex_h (ex_q 2) 1 (4%nat, 0) (5%nat, 0) (6%nat, 0) (7%nat, 0) 0 (8%nat, 0) (ex_bk 5) (ex_so 48 ex_any) (kr_poisson_3d 5 ex_any) (kw_poisson_3d 5 ex_any)  /\
  (0 < (ex_q 2))%Qc /\
  (forall d, 0 <= d < 3 -> (0 < ex_h d)%Qc) /\
  (forall f, 0 <= f < 6 -> sound false ((ex_bk 5) f)) /\
  roomy 3 (ends3 0 0 0) (ends3 1 1 0) (ex_bk 5) /\
  (forall f, 0 <= f < 6 -> b_kind ((ex_bk 5) f) = 0 -> b_order ((ex_bk 5) f) = 1).
Proof.
  split; [exact kex_any_poisson_3d|].
  split; [now apply lt|].
  split; [exact (ex_h_pos 3)|].
  split; [intros f _; apply ex_bk_sound|].
  split; [exact kroomy_poisson_3d|].
  intros f _; apply ex_bk_simple.
Qed.

(** With an anchored face or a reaction it is positive unless the function is zero. *)

Theorem C76_definite_v1_1d : forall i0 i1 (dx : Z -> Qc) (beta : Qc) b0 gcw u f0 (alpha : Qc) agcw a rgcw res bc (m : mem QcS) (r w c v0 : Z -> Qc),
  filled_v1_1d (S := QcS) i0 i1 dx beta b0 gcw u f0 alpha agcw a rgcw res bc m r w c v0 ->
  (0 < beta)%Qc ->
  (forall d, 0 <= d < 1 -> (0 < dx d)%Qc) ->
  (0 <= alpha)%Qc ->
  (forall i, patch1 i0 i1 i -> (0 <= c i)%Qc) ->
  (forall i, i0 <= i <= i1 + 1 -> (0 < v0 i)%Qc) ->
  (forall f, 0 <= f < 2 -> sound true (bc f)) ->
  roomy 1 (ends1 i0) (ends1 i1) bc ->
  (forall f, 0 <= f < 2 -> b_kind (bc f) = 0 -> b_order (bc f) = 1) ->
  ((exists f, 0 <= f < 2 /\ b_kind (bc f) <> 1) \/ (0 < alpha)%Qc /\ (exists i, patch1 i0 i1 i /\ (0 < c i)%Qc)) ->
  forall i, patch1 i0 i1 i -> w i <> 0%Qc -> (0 < total (S := QcS) i0 i1 (fun i => r i * w i)%Qc)%Qc.
Proof. exact @fdefinite_v1_1d. Qed.
Print Assumptions C76_definite_v1_1d.

Example C76_definite_v1_1d_example :
  filled_v1_1d (S := QcS) 0 1 ex_h (ex_q 2) (0%nat, 0) 1 (4%nat, 0) (5%nat, 0) (ex_q 0) 0 (3%nat, 0) 0 (8%nat, 0) (ex_bk 1) (ex_so 4 ex_any) (kr_v1_1d 1 ex_any) (kw_v1_1d 1 ex_any) c_v1_1d v0_v1_1d /\
  (0 < (ex_q 2))%Qc /\
  (forall d, 0 <= d < 1 -> (0 < ex_h d)%Qc) /\
  (0 <= (ex_q 0))%Qc /\
  (forall i, patch1 0 1 i -> (0 <= c_v1_1d i)%Qc) /\
  (forall i, 0 <= i <= 1 + 1 -> (0 < v0_v1_1d i)%Qc) /\
  (forall f, 0 <= f < 2 -> sound true ((ex_bk 1) f)) /\
  roomy 1 (ends1 0) (ends1 1) (ex_bk 1) /\
  (forall f, 0 <= f < 2 -> b_kind ((ex_bk 1) f) = 0 -> b_order ((ex_bk 1) f) = 1) /\
  (exists f, 0 <= f < 2 /\ b_kind (ex_bk 1 f) <> 1) /\
  patch1 0 1 0 /\
  kw_v1_1d 1 ex_any 0 <> 0%Qc.
Proof.
  split; [exact kex_any_v1_1d|].
  split; [now apply lt|].
  split; [exact (ex_h_pos 1)|].
  split; [now apply le|].
  split; [exact cpos_v1_1d|].
  split; [exact kv0_v1_1d|].
  split; [intros f _; apply ex_bk_sound|].
  split; [exact kroomy_v1_1d|].
  split; [intros f _; apply ex_bk_simple|].
  split; [exists 1; split; [lia|discriminate]|].
  split; [unfold patch1; lia|].
  intros C; apply (f_equal this) in C; vm_compute in C; discriminate.
Qed.

Theorem C76_definite_v2_1d : forall i0 i1 (dx : Z -> Qc) (beta : Qc) b0 gcw u f0 (alpha : Qc) rgcw res bc (m : mem QcS) (r w v0 : Z -> Qc),
  filled_v2_1d (S := QcS) i0 i1 dx beta b0 gcw u f0 alpha rgcw res bc m r w v0 ->
  (0 < beta)%Qc ->
  (forall d, 0 <= d < 1 -> (0 < dx d)%Qc) ->
  (0 <= alpha)%Qc ->
  (forall i, i0 <= i <= i1 + 1 -> (0 < v0 i)%Qc) ->
  (forall f, 0 <= f < 2 -> sound true (bc f)) ->
  roomy 1 (ends1 i0) (ends1 i1) bc ->
  (forall f, 0 <= f < 2 -> b_kind (bc f) = 0 -> b_order (bc f) = 1) ->
  ((exists f, 0 <= f < 2 /\ b_kind (bc f) <> 1) \/ (0 < alpha)%Qc) ->
  forall i, patch1 i0 i1 i -> w i <> 0%Qc -> (0 < total (S := QcS) i0 i1 (fun i => r i * w i)%Qc)%Qc.
Proof. exact @fdefinite_v2_1d. Qed.
Print Assumptions C76_definite_v2_1d.

Example C76_definite_v2_1d_example :
  filled_v2_1d (S := QcS) 0 1 ex_h (ex_q 2) (0%nat, 0) 1 (4%nat, 0) (5%nat, 0) (ex_q 0) 0 (8%nat, 0) (ex_bk 1) (ex_so 4 ex_any) (kr_v2_1d 1 ex_any) (kw_v2_1d 1 ex_any) v0_v2_1d /\
  (0 < (ex_q 2))%Qc /\
  (forall d, 0 <= d < 1 -> (0 < ex_h d)%Qc) /\
  (0 <= (ex_q 0))%Qc /\
  (forall i, 0 <= i <= 1 + 1 -> (0 < v0_v2_1d i)%Qc) /\
  (forall f, 0 <= f < 2 -> sound true ((ex_bk 1) f)) /\
  roomy 1 (ends1 0) (ends1 1) (ex_bk 1) /\
  (forall f, 0 <= f < 2 -> b_kind ((ex_bk 1) f) = 0 -> b_order ((ex_bk 1) f) = 1) /\
  (exists f, 0 <= f < 2 /\ b_kind (ex_bk 1 f) <> 1) /\
  patch1 0 1 0 /\
  kw_v2_1d 1 ex_any 0 <> 0%Qc.
Proof.
  split; [exact kex_any_v2_1d|].
  split; [now apply lt|].
  split; [exact (ex_h_pos 1)|].
  split; [now apply le|].
  split; [exact kv0_v2_1d|].
  split; [intros f _; apply ex_bk_sound|].
  split; [exact kroomy_v2_1d|].
  split; [intros f _; apply ex_bk_simple|].
  split; [exists 1; split; [lia|discriminate]|].
  split; [unfold patch1; lia|].
  intros C; apply (f_equal this) in C; vm_compute in C; discriminate.
Qed.

Theorem C76_definite_poisson_1d : forall i0 i1 (dx : Z -> Qc) (beta : Qc) gcw u f0 rgcw res bc (m : mem QcS) (r w : Z -> Qc),
  filled_poisson_1d (S := QcS) i0 i1 dx beta gcw u f0 rgcw res bc m r w ->
  (0 < beta)%Qc ->
  (forall d, 0 <= d < 1 -> (0 < dx d)%Qc) ->
  (forall f, 0 <= f < 2 -> sound false (bc f)) ->
  roomy 1 (ends1 i0) (ends1 i1) bc ->
  (forall f, 0 <= f < 2 -> b_kind (bc f) = 0 -> b_order (bc f) = 1) ->
  (exists f, 0 <= f < 2 /\ b_kind (bc f) <> 1) ->
  forall i, patch1 i0 i1 i -> w i <> 0%Qc -> (0 < total (S := QcS) i0 i1 (fun i => r i * w i)%Qc)%Qc.
Proof. exact @fdefinite_poisson_1d. Qed.
Print Assumptions C76_definite_poisson_1d.

Example C76_definite_poisson_1d_example :
  filled_poisson_1d (S := QcS) 0 1 ex_h (ex_q 2) 1 (4%nat, 0) (5%nat, 0) 0 (8%nat, 0) (ex_bk 1) (ex_so 4 ex_any) (kr_poisson_1d 1 ex_any) (kw_poisson_1d 1 ex_any)  /\
  (0 < (ex_q 2))%Qc /\
  (forall d, 0 <= d < 1 -> (0 < ex_h d)%Qc) /\
  (forall f, 0 <= f < 2 -> sound false ((ex_bk 1) f)) /\
  roomy 1 (ends1 0) (ends1 1) (ex_bk 1) /\
  (forall f, 0 <= f < 2 -> b_kind ((ex_bk 1) f) = 0 -> b_order ((ex_bk 1) f) = 1) /\
  (exists f, 0 <= f < 2 /\ b_kind (ex_bk 1 f) <> 1) /\
  patch1 0 1 0 /\
  kw_poisson_1d 1 ex_any 0 <> 0%Qc.
Proof.
  split; [exact kex_any_poisson_1d|].
  split; [now apply lt|].
  split; [exact (ex_h_pos 1)|].
  split; [intros f _; apply ex_bk_sound|].
  split; [exact kroomy_poisson_1d|].
  split; [intros f _; apply ex_bk_simple|].
  split; [exists 1; split; [lia|discriminate]|].
  split; [unfold patch1; lia|].
  intros C; apply (f_equal this) in C; vm_compute in C; discriminate.
Qed.

Theorem C76_definite_v1_2d : forall i0 j0 i1 j1 (dx : Z -> Qc) (beta : Qc) b0 b1 gcw u f0 f1 (alpha : Qc) agcw a rgcw res bc (m : mem QcS) (r w c v0 v1 : Z -> Z -> Qc),
  filled_v1_2d (S := QcS) i0 j0 i1 j1 dx beta b0 b1 gcw u f0 f1 alpha agcw a rgcw res bc m r w c v0 v1 ->
  (0 < beta)%Qc ->
  (forall d, 0 <= d < 2 -> (0 < dx d)%Qc) ->
  (0 <= alpha)%Qc ->
  (forall i j, patch2 i0 j0 i1 j1 i j -> (0 <= c i j)%Qc) ->
  (forall i j, i0 <= i <= i1 + 1 -> j0 <= j <= j1 -> (0 < v0 i j)%Qc) ->
  (forall i j, i0 <= i <= i1 -> j0 <= j <= j1 + 1 -> (0 < v1 i j)%Qc) ->
  (forall f, 0 <= f < 4 -> sound true (bc f)) ->
  roomy 2 (ends2 i0 j0) (ends2 i1 j1) bc ->
  (forall f, 0 <= f < 4 -> b_kind (bc f) = 0 -> b_order (bc f) = 1) ->
  ((exists f, 0 <= f < 4 /\ b_kind (bc f) <> 1) \/ (0 < alpha)%Qc /\ (exists i j, patch2 i0 j0 i1 j1 i j /\ (0 < c i j)%Qc)) ->
  forall i j, patch2 i0 j0 i1 j1 i j -> w i j <> 0%Qc -> (0 < total2 (S := QcS) i0 j0 i1 j1 (fun i j => r i j * w i j)%Qc)%Qc.
Proof. exact @fdefinite_v1_2d. Qed.
Print Assumptions C76_definite_v1_2d.

Example C76_definite_v1_2d_example :
  filled_v1_2d (S := QcS) 0 0 1 1 ex_h (ex_q 2) (0%nat, 0) (1%nat, 0) 1 (4%nat, 0) (5%nat, 0) (6%nat, 0) (ex_q 0) 0 (3%nat, 0) 0 (8%nat, 0) (ex_bk 3) (ex_so 16 ex_any) (kr_v1_2d 3 ex_any) (kw_v1_2d 3 ex_any) c_v1_2d v0_v1_2d v1_v1_2d /\
  (0 < (ex_q 2))%Qc /\
  (forall d, 0 <= d < 2 -> (0 < ex_h d)%Qc) /\
  (0 <= (ex_q 0))%Qc /\
  (forall i j, patch2 0 0 1 1 i j -> (0 <= c_v1_2d i j)%Qc) /\
  (forall i j, 0 <= i <= 1 + 1 -> 0 <= j <= 1 -> (0 < v0_v1_2d i j)%Qc) /\
  (forall i j, 0 <= i <= 1 -> 0 <= j <= 1 + 1 -> (0 < v1_v1_2d i j)%Qc) /\
  (forall f, 0 <= f < 4 -> sound true ((ex_bk 3) f)) /\
  roomy 2 (ends2 0 0) (ends2 1 1) (ex_bk 3) /\
  (forall f, 0 <= f < 4 -> b_kind ((ex_bk 3) f) = 0 -> b_order ((ex_bk 3) f) = 1) /\
  (exists f, 0 <= f < 4 /\ b_kind (ex_bk 3 f) <> 1) /\
  patch2 0 0 1 1 0 0 /\
  kw_v1_2d 3 ex_any 0 0 <> 0%Qc.
Proof.
  split; [exact kex_any_v1_2d|].
  split; [now apply lt|].
  split; [exact (ex_h_pos 2)|].
  split; [now apply le|].
  split; [exact cpos_v1_2d|].
  split; [exact kv0_v1_2d|].
  split; [exact kv1_v1_2d|].
  split; [intros f _; apply ex_bk_sound|].
  split; [exact kroomy_v1_2d|].
  split; [intros f _; apply ex_bk_simple|].
  split; [exists 3; split; [lia|discriminate]|].
  split; [unfold patch2; lia|].
  intros C; apply (f_equal this) in C; vm_compute in C; discriminate.
Qed.

Theorem C76_definite_v2_2d : forall i0 j0 i1 j1 (dx : Z -> Qc) (beta : Qc) b0 b1 gcw u f0 f1 (alpha : Qc) rgcw res bc (m : mem QcS) (r w v0 v1 : Z -> Z -> Qc),
  filled_v2_2d (S := QcS) i0 j0 i1 j1 dx beta b0 b1 gcw u f0 f1 alpha rgcw res bc m r w v0 v1 ->
  (0 < beta)%Qc ->
  (forall d, 0 <= d < 2 -> (0 < dx d)%Qc) ->
  (0 <= alpha)%Qc ->
  (forall i j, i0 <= i <= i1 + 1 -> j0 <= j <= j1 -> (0 < v0 i j)%Qc) ->
  (forall i j, i0 <= i <= i1 -> j0 <= j <= j1 + 1 -> (0 < v1 i j)%Qc) ->
  (forall f, 0 <= f < 4 -> sound true (bc f)) ->
  roomy 2 (ends2 i0 j0) (ends2 i1 j1) bc ->
  (forall f, 0 <= f < 4 -> b_kind (bc f) = 0 -> b_order (bc f) = 1) ->
  ((exists f, 0 <= f < 4 /\ b_kind (bc f) <> 1) \/ (0 < alpha)%Qc) ->
  forall i j, patch2 i0 j0 i1 j1 i j -> w i j <> 0%Qc -> (0 < total2 (S := QcS) i0 j0 i1 j1 (fun i j => r i j * w i j)%Qc)%Qc.
Proof. exact @fdefinite_v2_2d. Qed.
Print Assumptions C76_definite_v2_2d.

Example C76_definite_v2_2d_example :
  filled_v2_2d (S := QcS) 0 0 1 1 ex_h (ex_q 2) (0%nat, 0) (1%nat, 0) 1 (4%nat, 0) (5%nat, 0) (6%nat, 0) (ex_q 0) 0 (8%nat, 0) (ex_bk 3) (ex_so 16 ex_any) (kr_v2_2d 3 ex_any) (kw_v2_2d 3 ex_any) v0_v2_2d v1_v2_2d /\
  (0 < (ex_q 2))%Qc /\
  (forall d, 0 <= d < 2 -> (0 < ex_h d)%Qc) /\
  (0 <= (ex_q 0))%Qc /\
  (forall i j, 0 <= i <= 1 + 1 -> 0 <= j <= 1 -> (0 < v0_v2_2d i j)%Qc) /\
  (forall i j, 0 <= i <= 1 -> 0 <= j <= 1 + 1 -> (0 < v1_v2_2d i j)%Qc) /\
  (forall f, 0 <= f < 4 -> sound true ((ex_bk 3) f)) /\
  roomy 2 (ends2 0 0) (ends2 1 1) (ex_bk 3) /\
  (forall f, 0 <= f < 4 -> b_kind ((ex_bk 3) f) = 0 -> b_order ((ex_bk 3) f) = 1) /\
  (exists f, 0 <= f < 4 /\ b_kind (ex_bk 3 f) <> 1) /\
  patch2 0 0 1 1 0 0 /\
  kw_v2_2d 3 ex_any 0 0 <> 0%Qc.
Proof.
  split; [exact kex_any_v2_2d|].
  split; [now apply lt|].
  split; [exact (ex_h_pos 2)|].
  split; [now apply le|].
  split; [exact kv0_v2_2d|].
  split; [exact kv1_v2_2d|].
  split; [intros f _; apply ex_bk_sound|].
  split; [exact kroomy_v2_2d|].
  split; [intros f _; apply ex_bk_simple|].
  split; [exists 3; split; [lia|discriminate]|].
  split; [unfold patch2; lia|].
  intros C; apply (f_equal this) in C; vm_compute in C; discriminate.
Qed.

Theorem C76_definite_poisson_2d : forall i0 j0 i1 j1 (dx : Z -> Qc) (beta : Qc) gcw u f0 f1 rgcw res bc (m : mem QcS) (r w : Z -> Z -> Qc),
  filled_poisson_2d (S := QcS) i0 j0 i1 j1 dx beta gcw u f0 f1 rgcw res bc m r w ->
  (0 < beta)%Qc ->
  (forall d, 0 <= d < 2 -> (0 < dx d)%Qc) ->
  (forall f, 0 <= f < 4 -> sound false (bc f)) ->
  roomy 2 (ends2 i0 j0) (ends2 i1 j1) bc ->
  (forall f, 0 <= f < 4 -> b_kind (bc f) = 0 -> b_order (bc f) = 1) ->
  (exists f, 0 <= f < 4 /\ b_kind (bc f) <> 1) ->
  forall i j, patch2 i0 j0 i1 j1 i j -> w i j <> 0%Qc -> (0 < total2 (S := QcS) i0 j0 i1 j1 (fun i j => r i j * w i j)%Qc)%Qc.
Proof. exact @fdefinite_poisson_2d. Qed.
Print Assumptions C76_definite_poisson_2d.

Example C76_definite_poisson_2d_example :
  filled_poisson_2d (S := QcS) 0 0 1 1 ex_h (ex_q 2) 1 (4%nat, 0) (5%nat, 0) (6%nat, 0) 0 (8%nat, 0) (ex_bk 3) (ex_so 16 ex_any) (kr_poisson_2d 3 ex_any) (kw_poisson_2d 3 ex_any)  /\
  (0 < (ex_q 2))%Qc /\
  (forall d, 0 <= d < 2 -> (0 < ex_h d)%Qc) /\
  (forall f, 0 <= f < 4 -> sound false ((ex_bk 3) f)) /\
  roomy 2 (ends2 0 0) (ends2 1 1) (ex_bk 3) /\
  (forall f, 0 <= f < 4 -> b_kind ((ex_bk 3) f) = 0 -> b_order ((ex_bk 3) f) = 1) /\
  (exists f, 0 <= f < 4 /\ b_kind (ex_bk 3 f) <> 1) /\
  patch2 0 0 1 1 0 0 /\
  kw_poisson_2d 3 ex_any 0 0 <> 0%Qc.
Proof.
  split; [exact kex_any_poisson_2d|].
  split; [now apply lt|].
  split; [exact (ex_h_pos 2)|].
  split; [intros f _; apply ex_bk_sound|].
  split; [exact kroomy_poisson_2d|].
  split; [intros f _; apply ex_bk_simple|].
  split; [exists 3; split; [lia|discriminate]|].
  split; [unfold patch2; lia|].
  intros C; apply (f_equal this) in C; vm_compute in C; discriminate.
Qed.

Theorem C76_definite_v1_3d : forall i0 j0 k0 i1 j1 k1 (dx : Z -> Qc) (beta : Qc) b0 b1 b2 gcw u f0 f1 f2 (alpha : Qc) agcw a rgcw res bc (m : mem QcS) (r w c v0 v1 v2 : Z -> Z -> Z -> Qc),
  filled_v1_3d (S := QcS) i0 j0 k0 i1 j1 k1 dx beta b0 b1 b2 gcw u f0 f1 f2 alpha agcw a rgcw res bc m r w c v0 v1 v2 ->
  (0 < beta)%Qc ->
  (forall d, 0 <= d < 3 -> (0 < dx d)%Qc) ->
  (0 <= alpha)%Qc ->
  (forall i j k, patch3 i0 j0 k0 i1 j1 k1 i j k -> (0 <= c i j k)%Qc) ->
  (forall i j k, i0 <= i <= i1 + 1 -> j0 <= j <= j1 -> k0 <= k <= k1 -> (0 < v0 i j k)%Qc) ->
  (forall i j k, i0 <= i <= i1 -> j0 <= j <= j1 + 1 -> k0 <= k <= k1 -> (0 < v1 i j k)%Qc) ->
  (forall i j k, i0 <= i <= i1 -> j0 <= j <= j1 -> k0 <= k <= k1 + 1 -> (0 < v2 i j k)%Qc) ->
  (forall f, 0 <= f < 6 -> sound true (bc f)) ->
  roomy 3 (ends3 i0 j0 k0) (ends3 i1 j1 k1) bc ->
  (forall f, 0 <= f < 6 -> b_kind (bc f) = 0 -> b_order (bc f) = 1) ->
  ((exists f, 0 <= f < 6 /\ b_kind (bc f) <> 1) \/ (0 < alpha)%Qc /\ (exists i j k, patch3 i0 j0 k0 i1 j1 k1 i j k /\ (0 < c i j k)%Qc)) ->
  forall i j k, patch3 i0 j0 k0 i1 j1 k1 i j k -> w i j k <> 0%Qc -> (0 < total3 (S := QcS) i0 j0 k0 i1 j1 k1 (fun i j k => r i j k * w i j k)%Qc)%Qc.
Proof. exact @fdefinite_v1_3d. Qed.
Print Assumptions C76_definite_v1_3d.

Example C76_definite_v1_3d_example :
  filled_v1_3d (S := QcS) 0 0 0 1 1 0 ex_h (ex_q 2) (0%nat, 0) (1%nat, 0) (2%nat, 0) 1 (4%nat, 0) (5%nat, 0) (6%nat, 0) (7%nat, 0) (ex_q 0) 0 (3%nat, 0) 0 (8%nat, 0) (ex_bk 5) (ex_so 48 ex_any) (kr_v1_3d 5 ex_any) (kw_v1_3d 5 ex_any) c_v1_3d v0_v1_3d v1_v1_3d v2_v1_3d /\
  (0 < (ex_q 2))%Qc /\
  (forall d, 0 <= d < 3 -> (0 < ex_h d)%Qc) /\
  (0 <= (ex_q 0))%Qc /\
  (forall i j k, patch3 0 0 0 1 1 0 i j k -> (0 <= c_v1_3d i j k)%Qc) /\
  (forall i j k, 0 <= i <= 1 + 1 -> 0 <= j <= 1 -> 0 <= k <= 0 -> (0 < v0_v1_3d i j k)%Qc) /\
  (forall i j k, 0 <= i <= 1 -> 0 <= j <= 1 + 1 -> 0 <= k <= 0 -> (0 < v1_v1_3d i j k)%Qc) /\
  (forall i j k, 0 <= i <= 1 -> 0 <= j <= 1 -> 0 <= k <= 0 + 1 -> (0 < v2_v1_3d i j k)%Qc) /\
  (forall f, 0 <= f < 6 -> sound true ((ex_bk 5) f)) /\
  roomy 3 (ends3 0 0 0) (ends3 1 1 0) (ex_bk 5) /\
  (forall f, 0 <= f < 6 -> b_kind ((ex_bk 5) f) = 0 -> b_order ((ex_bk 5) f) = 1) /\
  (exists f, 0 <= f < 6 /\ b_kind (ex_bk 5 f) <> 1) /\
  patch3 0 0 0 1 1 0 0 0 0 /\
  kw_v1_3d 5 ex_any 0 0 0 <> 0%Qc.
Proof.
  split; [exact kex_any_v1_3d|].
  split; [now apply lt|].
  split; [exact (ex_h_pos 3)|].
  split; [now apply le|].
  split; [exact cpos_v1_3d|].
  split; [exact kv0_v1_3d|].
  split; [exact kv1_v1_3d|].
  split; [exact kv2_v1_3d|].
  split; [intros f _; apply ex_bk_sound|].
  split; [exact kroomy_v1_3d|].
  split; [intros f _; apply ex_bk_simple|].
  split; [exists 5; split; [lia|discriminate]|].
  split; [unfold patch3; lia|].
  intros C; apply (f_equal this) in C; vm_compute in C; discriminate.
Qed.

Theorem C76_definite_v2_3d : forall i0 j0 k0 i1 j1 k1 (dx : Z -> Qc) (beta : Qc) b0 b1 b2 gcw u f0 f1 f2 (alpha : Qc) rgcw res bc (m : mem QcS) (r w v0 v1 v2 : Z -> Z -> Z -> Qc),
  filled_v2_3d (S := QcS) i0 j0 k0 i1 j1 k1 dx beta b0 b1 b2 gcw u f0 f1 f2 alpha rgcw res bc m r w v0 v1 v2 ->
  (0 < beta)%Qc ->
  (forall d, 0 <= d < 3 -> (0 < dx d)%Qc) ->
  (0 <= alpha)%Qc ->
  (forall i j k, i0 <= i <= i1 + 1 -> j0 <= j <= j1 -> k0 <= k <= k1 -> (0 < v0 i j k)%Qc) ->
  (forall i j k, i0 <= i <= i1 -> j0 <= j <= j1 + 1 -> k0 <= k <= k1 -> (0 < v1 i j k)%Qc) ->
  (forall i j k, i0 <= i <= i1 -> j0 <= j <= j1 -> k0 <= k <= k1 + 1 -> (0 < v2 i j k)%Qc) ->
  (forall f, 0 <= f < 6 -> sound true (bc f)) ->
  roomy 3 (ends3 i0 j0 k0) (ends3 i1 j1 k1) bc ->
  (forall f, 0 <= f < 6 -> b_kind (bc f) = 0 -> b_order (bc f) = 1) ->
  ((exists f, 0 <= f < 6 /\ b_kind (bc f) <> 1) \/ (0 < alpha)%Qc) ->
  forall i j k, patch3 i0 j0 k0 i1 j1 k1 i j k -> w i j k <> 0%Qc -> (0 < total3 (S := QcS) i0 j0 k0 i1 j1 k1 (fun i j k => r i j k * w i j k)%Qc)%Qc.
Proof. exact @fdefinite_v2_3d. Qed.
Print Assumptions C76_definite_v2_3d.

Example C76_definite_v2_3d_example :
  filled_v2_3d (S := QcS) 0 0 0 1 1 0 ex_h (ex_q 2) (0%nat, 0) (1%nat, 0) (2%nat, 0) 1 (4%nat, 0) (5%nat, 0) (6%nat, 0) (7%nat, 0) (ex_q 0) 0 (8%nat, 0) (ex_bk 5) (ex_so 48 ex_any) (kr_v2_3d 5 ex_any) (kw_v2_3d 5 ex_any) v0_v2_3d v1_v2_3d v2_v2_3d /\
  (0 < (ex_q 2))%Qc /\
  (forall d, 0 <= d < 3 -> (0 < ex_h d)%Qc) /\
  (0 <= (ex_q 0))%Qc /\
  (forall i j k, 0 <= i <= 1 + 1 -> 0 <= j <= 1 -> 0 <= k <= 0 -> (0 < v0_v2_3d i j k)%Qc) /\
  (forall i j k, 0 <= i <= 1 -> 0 <= j <= 1 + 1 -> 0 <= k <= 0 -> (0 < v1_v2_3d i j k)%Qc) /\
  (forall i j k, 0 <= i <= 1 -> 0 <= j <= 1 -> 0 <= k <= 0 + 1 -> (0 < v2_v2_3d i j k)%Qc) /\
  (forall f, 0 <= f < 6 -> sound true ((ex_bk 5) f)) /\
  roomy 3 (ends3 0 0 0) (ends3 1 1 0) (ex_bk 5) /\
  (forall f, 0 <= f < 6 -> b_kind ((ex_bk 5) f) = 0 -> b_order ((ex_bk 5) f) = 1) /\
  (exists f, 0 <= f < 6 /\ b_kind (ex_bk 5 f) <> 1) /\
  patch3 0 0 0 1 1 0 0 0 0 /\
  kw_v2_3d 5 ex_any 0 0 0 <> 0%Qc.
Proof.
  split; [exact kex_any_v2_3d|].
  split; [now apply lt|].
  split; [exact (ex_h_pos 3)|].
  split; [now apply le|].
  split; [exact kv0_v2_3d|].
  split; [exact kv1_v2_3d|].
  split; [exact kv2_v2_3d|].
  split; [intros f _; apply ex_bk_sound|].
  split; [exact kroomy_v2_3d|].
  split; [intros f _; apply ex_bk_simple|].
  split; [exists 5; split; [lia|discriminate]|].
  split; [unfold patch3; lia|].
  intros C; apply (f_equal this) in C; vm_compute in C; discriminate.
Qed.

Theorem C76_definite_poisson_3d : forall i0 j0 k0 i1 j1 k1 (dx : Z -> Qc) (beta : Qc) gcw u f0 f1 f2 rgcw res bc (m : mem QcS) (r w : Z -> Z -> Z -> Qc),
  filled_poisson_3d (S := QcS) i0 j0 k0 i1 j1 k1 dx beta gcw u f0 f1 f2 rgcw res bc m r w ->
  (0 < beta)%Qc ->
  (forall d, 0 <= d < 3 -> (0 < dx d)%Qc) ->
  (forall f, 0 <= f < 6 -> sound false (bc f)) ->
  roomy 3 (ends3 i0 j0 k0) (ends3 i1 j1 k1) bc ->
  (forall f, 0 <= f < 6 -> b_kind (bc f) = 0 -> b_order (bc f) = 1) ->
  (exists f, 0 <= f < 6 /\ b_kind (bc f) <> 1) ->
  forall i j k, patch3 i0 j0 k0 i1 j1 k1 i j k -> w i j k <> 0%Qc -> (0 < total3 (S := QcS) i0 j0 k0 i1 j1 k1 (fun i j k => r i j k * w i j k)%Qc)%Qc.
Proof. exact @fdefinite_poisson_3d. Qed.
Print Assumptions C76_definite_poisson_3d.

Example C76_definite_poisson_3d_example :
  filled_poisson_3d (S := QcS) 0 0 0 1 1 0 ex_h (ex_q 2) 1 (4%nat, 0) (5%nat, 0) (6%nat, 0) (7%nat, 0) 0 (8%nat, 0) (ex_bk 5) (ex_so 48 ex_any) (kr_poisson_3d 5 ex_any) (kw_poisson_3d 5 ex_any)  /\
  (0 < (ex_q 2))%Qc /\
  (forall d, 0 <= d < 3 -> (0 < ex_h d)%Qc) /\
  (forall f, 0 <= f < 6 -> sound false ((ex_bk 5) f)) /\
  roomy 3 (ends3 0 0 0) (ends3 1 1 0) (ex_bk 5) /\
  (forall f, 0 <= f < 6 -> b_kind ((ex_bk 5) f) = 0 -> b_order ((ex_bk 5) f) = 1) /\
  (exists f, 0 <= f < 6 /\ b_kind (ex_bk 5 f) <> 1) /\
  patch3 0 0 0 1 1 0 0 0 0 /\
  kw_poisson_3d 5 ex_any 0 0 0 <> 0%Qc.
Proof.
  split; [exact kex_any_poisson_3d|].
  split; [now apply lt|].
  split; [exact (ex_h_pos 3)|].
  split; [intros f _; apply ex_bk_sound|].
  split; [exact kroomy_poisson_3d|].
  split; [intros f _; apply ex_bk_simple|].
  split; [exists 5; split; [lia|discriminate]|].
  split; [unfold patch3; lia|].
  intros C; apply (f_equal this) in C; vm_compute in C; discriminate.
Qed.

(** The solution [w] for the data [r] has the least energy: [(L z, z) - 2 (r, z)] is not
    smaller for any other [z]. *)

Theorem C76_energy_v1_1d : forall i0 i1 (dx : Z -> Qc) (beta : Qc) b0 gcw u f0 (alpha : Qc) agcw a rgcw res bc (m n : mem QcS) (r w s z c v0 : Z -> Qc),
  filled_v1_1d (S := QcS) i0 i1 dx beta b0 gcw u f0 alpha agcw a rgcw res bc m r w c v0 ->
  filled_v1_1d (S := QcS) i0 i1 dx beta b0 gcw u f0 alpha agcw a rgcw res bc n s z c v0 ->
  (0 < beta)%Qc ->
  (forall d, 0 <= d < 1 -> (0 < dx d)%Qc) ->
  (0 <= alpha)%Qc ->
  (forall i, patch1 i0 i1 i -> (0 <= c i)%Qc) ->
  (forall i, i0 <= i <= i1 + 1 -> (0 < v0 i)%Qc) ->
  (forall f, 0 <= f < 2 -> sound true (bc f)) ->
  roomy 1 (ends1 i0) (ends1 i1) bc ->
  (forall f, 0 <= f < 2 -> b_kind (bc f) = 0 -> b_order (bc f) = 1) ->
  (total (S := QcS) i0 i1 (fun i => r i * w i)%Qc - (1 + 1) * total (S := QcS) i0 i1 (fun i => r i * w i)%Qc <=
   total (S := QcS) i0 i1 (fun i => s i * z i)%Qc - (1 + 1) * total (S := QcS) i0 i1 (fun i => r i * z i)%Qc)%Qc.
Proof. exact @fenergy_v1_1d. Qed.
Print Assumptions C76_energy_v1_1d.

Example C76_energy_v1_1d_example :
  filled_v1_1d (S := QcS) 0 1 ex_h (ex_q 2) (0%nat, 0) 1 (4%nat, 0) (5%nat, 0) (ex_q 0) 0 (3%nat, 0) 0 (8%nat, 0) (ex_bk 1) (ex_so 4 ex_any) (kr_v1_1d 1 ex_any) (kw_v1_1d 1 ex_any) c_v1_1d v0_v1_1d /\
  filled_v1_1d (S := QcS) 0 1 ex_h (ex_q 2) (0%nat, 0) 1 (4%nat, 0) (5%nat, 0) (ex_q 0) 0 (3%nat, 0) 0 (8%nat, 0) (ex_bk 1) (ex_so 4 ex_high) (kr_v1_1d 1 ex_high) (kw_v1_1d 1 ex_high) c_v1_1d v0_v1_1d /\
  (0 < (ex_q 2))%Qc /\
  (forall d, 0 <= d < 1 -> (0 < ex_h d)%Qc) /\
  (0 <= (ex_q 0))%Qc /\
  (forall i, patch1 0 1 i -> (0 <= c_v1_1d i)%Qc) /\
  (forall i, 0 <= i <= 1 + 1 -> (0 < v0_v1_1d i)%Qc) /\
  (forall f, 0 <= f < 2 -> sound true ((ex_bk 1) f)) /\
  roomy 1 (ends1 0) (ends1 1) (ex_bk 1) /\
  (forall f, 0 <= f < 2 -> b_kind ((ex_bk 1) f) = 0 -> b_order ((ex_bk 1) f) = 1).
Proof.
  split; [exact kex_any_v1_1d|].
  split; [exact kex_high_v1_1d|].
  split; [now apply lt|].
  split; [exact (ex_h_pos 1)|].
  split; [now apply le|].
  split; [exact cpos_v1_1d|].
  split; [exact kv0_v1_1d|].
  split; [intros f _; apply ex_bk_sound|].
  split; [exact kroomy_v1_1d|].
  intros f _; apply ex_bk_simple.
Qed.

Theorem C76_energy_v2_1d : forall i0 i1 (dx : Z -> Qc) (beta : Qc) b0 gcw u f0 (alpha : Qc) rgcw res bc (m n : mem QcS) (r w s z v0 : Z -> Qc),
  filled_v2_1d (S := QcS) i0 i1 dx beta b0 gcw u f0 alpha rgcw res bc m r w v0 ->
  filled_v2_1d (S := QcS) i0 i1 dx beta b0 gcw u f0 alpha rgcw res bc n s z v0 ->
  (0 < beta)%Qc ->
  (forall d, 0 <= d < 1 -> (0 < dx d)%Qc) ->
  (0 <= alpha)%Qc ->
  (forall i, i0 <= i <= i1 + 1 -> (0 < v0 i)%Qc) ->
  (forall f, 0 <= f < 2 -> sound true (bc f)) ->
  roomy 1 (ends1 i0) (ends1 i1) bc ->
  (forall f, 0 <= f < 2 -> b_kind (bc f) = 0 -> b_order (bc f) = 1) ->
  (total (S := QcS) i0 i1 (fun i => r i * w i)%Qc - (1 + 1) * total (S := QcS) i0 i1 (fun i => r i * w i)%Qc <=
   total (S := QcS) i0 i1 (fun i => s i * z i)%Qc - (1 + 1) * total (S := QcS) i0 i1 (fun i => r i * z i)%Qc)%Qc.
Proof. exact @fenergy_v2_1d. Qed.
Print Assumptions C76_energy_v2_1d.

Example C76_energy_v2_1d_example :
  filled_v2_1d (S := QcS) 0 1 ex_h (ex_q 2) (0%nat, 0) 1 (4%nat, 0) (5%nat, 0) (ex_q 0) 0 (8%nat, 0) (ex_bk 1) (ex_so 4 ex_any) (kr_v2_1d 1 ex_any) (kw_v2_1d 1 ex_any) v0_v2_1d /\
  filled_v2_1d (S := QcS) 0 1 ex_h (ex_q 2) (0%nat, 0) 1 (4%nat, 0) (5%nat, 0) (ex_q 0) 0 (8%nat, 0) (ex_bk 1) (ex_so 4 ex_high) (kr_v2_1d 1 ex_high) (kw_v2_1d 1 ex_high) v0_v2_1d /\
  (0 < (ex_q 2))%Qc /\
  (forall d, 0 <= d < 1 -> (0 < ex_h d)%Qc) /\
  (0 <= (ex_q 0))%Qc /\
  (forall i, 0 <= i <= 1 + 1 -> (0 < v0_v2_1d i)%Qc) /\
  (forall f, 0 <= f < 2 -> sound true ((ex_bk 1) f)) /\
  roomy 1 (ends1 0) (ends1 1) (ex_bk 1) /\
  (forall f, 0 <= f < 2 -> b_kind ((ex_bk 1) f) = 0 -> b_order ((ex_bk 1) f) = 1).
Proof.
  split; [exact kex_any_v2_1d|].
  split; [exact kex_high_v2_1d|].
  split; [now apply lt|].
  split; [exact (ex_h_pos 1)|].
  split; [now apply le|].
  split; [exact kv0_v2_1d|].
  split; [intros f _; apply ex_bk_sound|].
  split; [exact kroomy_v2_1d|].
  intros f _; apply ex_bk_simple.
Qed.

Theorem C76_energy_poisson_1d : forall i0 i1 (dx : Z -> Qc) (beta : Qc) gcw u f0 rgcw res bc (m n : mem QcS) (r w s z : Z -> Qc),
  filled_poisson_1d (S := QcS) i0 i1 dx beta gcw u f0 rgcw res bc m r w ->
  filled_poisson_1d (S := QcS) i0 i1 dx beta gcw u f0 rgcw res bc n s z ->
  (0 < beta)%Qc ->
  (forall d, 0 <= d < 1 -> (0 < dx d)%Qc) ->
  (forall f, 0 <= f < 2 -> sound false (bc f)) ->
  roomy 1 (ends1 i0) (ends1 i1) bc ->
  (forall f, 0 <= f < 2 -> b_kind (bc f) = 0 -> b_order (bc f) = 1) ->
  (total (S := QcS) i0 i1 (fun i => r i * w i)%Qc - (1 + 1) * total (S := QcS) i0 i1 (fun i => r i * w i)%Qc <=
   total (S := QcS) i0 i1 (fun i => s i * z i)%Qc - (1 + 1) * total (S := QcS) i0 i1 (fun i => r i * z i)%Qc)%Qc.
Proof. exact @fenergy_poisson_1d. Qed.
Print Assumptions C76_energy_poisson_1d.

Example C76_energy_poisson_1d_example :
  filled_poisson_1d (S := QcS) 0 1 ex_h (ex_q 2) 1 (4%nat, 0) (5%nat, 0) 0 (8%nat, 0) (ex_bk 1) (ex_so 4 ex_any) (kr_poisson_1d 1 ex_any) (kw_poisson_1d 1 ex_any)  /\
  filled_poisson_1d (S := QcS) 0 1 ex_h (ex_q 2) 1 (4%nat, 0) (5%nat, 0) 0 (8%nat, 0) (ex_bk 1) (ex_so 4 ex_high) (kr_poisson_1d 1 ex_high) (kw_poisson_1d 1 ex_high)  /\
  (0 < (ex_q 2))%Qc /\
  (forall d, 0 <= d < 1 -> (0 < ex_h d)%Qc) /\
  (forall f, 0 <= f < 2 -> sound false ((ex_bk 1) f)) /\
  roomy 1 (ends1 0) (ends1 1) (ex_bk 1) /\
  (forall f, 0 <= f < 2 -> b_kind ((ex_bk 1) f) = 0 -> b_order ((ex_bk 1) f) = 1).
Proof.
  split; [exact kex_any_poisson_1d|].
  split; [exact kex_high_poisson_1d|].
  split; [now apply lt|].
  split; [exact (ex_h_pos 1)|].
  split; [intros f _; apply ex_bk_sound|].
  split; [exact kroomy_poisson_1d|].
  intros f _; apply ex_bk_simple.
Qed.

Theorem C76_energy_v1_2d : forall i0 j0 i1 j1 (dx : Z -> Qc) (beta : Qc) b0 b1 gcw u f0 f1 (alpha : Qc) agcw a rgcw res bc (m n : mem QcS) (r w s z c v0 v1 : Z -> Z -> Qc),
  filled_v1_2d (S := QcS) i0 j0 i1 j1 dx beta b0 b1 gcw u f0 f1 alpha agcw a rgcw res bc m r w c v0 v1 ->
  filled_v1_2d (S := QcS) i0 j0 i1 j1 dx beta b0 b1 gcw u f0 f1 alpha agcw a rgcw res bc n s z c v0 v1 ->
  (0 < beta)%Qc ->
  (forall d, 0 <= d < 2 -> (0 < dx d)%Qc) ->
  (0 <= alpha)%Qc ->
  (forall i j, patch2 i0 j0 i1 j1 i j -> (0 <= c i j)%Qc) ->
  (forall i j, i0 <= i <= i1 + 1 -> j0 <= j <= j1 -> (0 < v0 i j)%Qc) ->
  (forall i j, i0 <= i <= i1 -> j0 <= j <= j1 + 1 -> (0 < v1 i j)%Qc) ->
  (forall f, 0 <= f < 4 -> sound true (bc f)) ->
  roomy 2 (ends2 i0 j0) (ends2 i1 j1) bc ->
  (forall f, 0 <= f < 4 -> b_kind (bc f) = 0 -> b_order (bc f) = 1) ->
  (total2 (S := QcS) i0 j0 i1 j1 (fun i j => r i j * w i j)%Qc - (1 + 1) * total2 (S := QcS) i0 j0 i1 j1 (fun i j => r i j * w i j)%Qc <=
   total2 (S := QcS) i0 j0 i1 j1 (fun i j => s i j * z i j)%Qc - (1 + 1) * total2 (S := QcS) i0 j0 i1 j1 (fun i j => r i j * z i j)%Qc)%Qc.
Proof. exact @fenergy_v1_2d. Qed.
Print Assumptions C76_energy_v1_2d.

Example C76_energy_v1_2d_example :
  filled_v1_2d (S := QcS) 0 0 1 1 ex_h (ex_q 2) (0%nat, 0) (1%nat, 0) 1 (4%nat, 0) (5%nat, 0) (6%nat, 0) (ex_q 0) 0 (3%nat, 0) 0 (8%nat, 0) (ex_bk 3) (ex_so 16 ex_any) (kr_v1_2d 3 ex_any) (kw_v1_2d 3 ex_any) c_v1_2d v0_v1_2d v1_v1_2d /\
  filled_v1_2d (S := QcS) 0 0 1 1 ex_h (ex_q 2) (0%nat, 0) (1%nat, 0) 1 (4%nat, 0) (5%nat, 0) (6%nat, 0) (ex_q 0) 0 (3%nat, 0) 0 (8%nat, 0) (ex_bk 3) (ex_so 16 ex_high) (kr_v1_2d 3 ex_high) (kw_v1_2d 3 ex_high) c_v1_2d v0_v1_2d v1_v1_2d /\
  (0 < (ex_q 2))%Qc /\
  (forall d, 0 <= d < 2 -> (0 < ex_h d)%Qc) /\
  (0 <= (ex_q 0))%Qc /\
  (forall i j, patch2 0 0 1 1 i j -> (0 <= c_v1_2d i j)%Qc) /\
  (forall i j, 0 <= i <= 1 + 1 -> 0 <= j <= 1 -> (0 < v0_v1_2d i j)%Qc) /\
  (forall i j, 0 <= i <= 1 -> 0 <= j <= 1 + 1 -> (0 < v1_v1_2d i j)%Qc) /\
  (forall f, 0 <= f < 4 -> sound true ((ex_bk 3) f)) /\
  roomy 2 (ends2 0 0) (ends2 1 1) (ex_bk 3) /\
  (forall f, 0 <= f < 4 -> b_kind ((ex_bk 3) f) = 0 -> b_order ((ex_bk 3) f) = 1).
Proof.
  split; [exact kex_any_v1_2d|].
  split; [exact kex_high_v1_2d|].
  split; [now apply lt|].
  split; [exact (ex_h_pos 2)|].
  split; [now apply le|].
  split; [exact cpos_v1_2d|].
  split; [exact kv0_v1_2d|].
  split; [exact kv1_v1_2d|].
  split; [intros f _; apply ex_bk_sound|].
  split; [exact kroomy_v1_2d|].
  intros f _; apply ex_bk_simple.
Qed.

Theorem C76_energy_v2_2d : forall i0 j0 i1 j1 (dx : Z -> Qc) (beta : Qc) b0 b1 gcw u f0 f1 (alpha : Qc) rgcw res bc (m n : mem QcS) (r w s z v0 v1 : Z -> Z -> Qc),
  filled_v2_2d (S := QcS) i0 j0 i1 j1 dx beta b0 b1 gcw u f0 f1 alpha rgcw res bc m r w v0 v1 ->
  filled_v2_2d (S := QcS) i0 j0 i1 j1 dx beta b0 b1 gcw u f0 f1 alpha rgcw res bc n s z v0 v1 ->
  (0 < beta)%Qc ->
  (forall d, 0 <= d < 2 -> (0 < dx d)%Qc) ->
  (0 <= alpha)%Qc ->
  (forall i j, i0 <= i <= i1 + 1 -> j0 <= j <= j1 -> (0 < v0 i j)%Qc) ->
  (forall i j, i0 <= i <= i1 -> j0 <= j <= j1 + 1 -> (0 < v1 i j)%Qc) ->
  (forall f, 0 <= f < 4 -> sound true (bc f)) ->
  roomy 2 (ends2 i0 j0) (ends2 i1 j1) bc ->
  (forall f, 0 <= f < 4 -> b_kind (bc f) = 0 -> b_order (bc f) = 1) ->
  (total2 (S := QcS) i0 j0 i1 j1 (fun i j => r i j * w i j)%Qc - (1 + 1) * total2 (S := QcS) i0 j0 i1 j1 (fun i j => r i j * w i j)%Qc <=
   total2 (S := QcS) i0 j0 i1 j1 (fun i j => s i j * z i j)%Qc - (1 + 1) * total2 (S := QcS) i0 j0 i1 j1 (fun i j => r i j * z i j)%Qc)%Qc.
Proof. exact @fenergy_v2_2d. Qed.
Print Assumptions C76_energy_v2_2d.

Example C76_energy_v2_2d_example :
  filled_v2_2d (S := QcS) 0 0 1 1 ex_h (ex_q 2) (0%nat, 0) (1%nat, 0) 1 (4%nat, 0) (5%nat, 0) (6%nat, 0) (ex_q 0) 0 (8%nat, 0) (ex_bk 3) (ex_so 16 ex_any) (kr_v2_2d 3 ex_any) (kw_v2_2d 3 ex_any) v0_v2_2d v1_v2_2d /\
  filled_v2_2d (S := QcS) 0 0 1 1 ex_h (ex_q 2) (0%nat, 0) (1%nat, 0) 1 (4%nat, 0) (5%nat, 0) (6%nat, 0) (ex_q 0) 0 (8%nat, 0) (ex_bk 3) (ex_so 16 ex_high) (kr_v2_2d 3 ex_high) (kw_v2_2d 3 ex_high) v0_v2_2d v1_v2_2d /\
  (0 < (ex_q 2))%Qc /\
  (forall d, 0 <= d < 2 -> (0 < ex_h d)%Qc) /\
  (0 <= (ex_q 0))%Qc /\
  (forall i j, 0 <= i <= 1 + 1 -> 0 <= j <= 1 -> (0 < v0_v2_2d i j)%Qc) /\
  (forall i j, 0 <= i <= 1 -> 0 <= j <= 1 + 1 -> (0 < v1_v2_2d i j)%Qc) /\
  (forall f, 0 <= f < 4 -> sound true ((ex_bk 3) f)) /\
  roomy 2 (ends2 0 0) (ends2 1 1) (ex_bk 3) /\
  (forall f, 0 <= f < 4 -> b_kind ((ex_bk 3) f) = 0 -> b_order ((ex_bk 3) f) = 1).
Proof.
  split; [exact kex_any_v2_2d|].
  split; [exact kex_high_v2_2d|].
  split; [now apply lt|].
  split; [exact (ex_h_pos 2)|].
  split; [now apply le|].
  split; [exact kv0_v2_2d|].
  split; [exact kv1_v2_2d|].
  split; [intros f _; apply ex_bk_sound|].
  split; [exact kroomy_v2_2d|].
  intros f _; apply ex_bk_simple.
Qed.

Theorem C76_energy_poisson_2d : forall i0 j0 i1 j1 (dx : Z -> Qc) (beta : Qc) gcw u f0 f1 rgcw res bc (m n : mem QcS) (r w s z : Z -> Z -> Qc),
  filled_poisson_2d (S := QcS) i0 j0 i1 j1 dx beta gcw u f0 f1 rgcw res bc m r w ->
  filled_poisson_2d (S := QcS) i0 j0 i1 j1 dx beta gcw u f0 f1 rgcw res bc n s z ->
  (0 < beta)%Qc ->
  (forall d, 0 <= d < 2 -> (0 < dx d)%Qc) ->
  (forall f, 0 <= f < 4 -> sound false (bc f)) ->
  roomy 2 (ends2 i0 j0) (ends2 i1 j1) bc ->
  (forall f, 0 <= f < 4 -> b_kind (bc f) = 0 -> b_order (bc f) = 1) ->
  (total2 (S := QcS) i0 j0 i1 j1 (fun i j => r i j * w i j)%Qc - (1 + 1) * total2 (S := QcS) i0 j0 i1 j1 (fun i j => r i j * w i j)%Qc <=
   total2 (S := QcS) i0 j0 i1 j1 (fun i j => s i j * z i j)%Qc - (1 + 1) * total2 (S := QcS) i0 j0 i1 j1 (fun i j => r i j * z i j)%Qc)%Qc.
Proof. exact @fenergy_poisson_2d. Qed.
Print Assumptions C76_energy_poisson_2d.

Example C76_energy_poisson_2d_example :
  filled_poisson_2d (S := QcS) 0 0 1 1 ex_h (ex_q 2) 1 (4%nat, 0) (5%nat, 0) (6%nat, 0) 0 (8%nat, 0) (ex_bk 3) (ex_so 16 ex_any) (kr_poisson_2d 3 ex_any) (kw_poisson_2d 3 ex_any)  /\
  filled_poisson_2d (S := QcS) 0 0 1 1 ex_h (ex_q 2) 1 (4%nat, 0) (5%nat, 0) (6%nat, 0) 0 (8%nat, 0) (ex_bk 3) (ex_so 16 ex_high) (kr_poisson_2d 3 ex_high) (kw_poisson_2d 3 ex_high)  /\
  (0 < (ex_q 2))%Qc /\
  (forall d, 0 <= d < 2 -> (0 < ex_h d)%Qc) /\
  (forall f, 0 <= f < 4 -> sound false ((ex_bk 3) f)) /\
  roomy 2 (ends2 0 0) (ends2 1 1) (ex_bk 3) /\
  (forall f, 0 <= f < 4 -> b_kind ((ex_bk 3) f) = 0 -> b_order ((ex_bk 3) f) = 1).
Proof.
  split; [exact kex_any_poisson_2d|].
  split; [exact kex_high_poisson_2d|].
  split; [now apply lt|].
  split; [exact (ex_h_pos 2)|].
  split; [intros f _; apply ex_bk_sound|].
  split; [exact kroomy_poisson_2d|].
  intros f _; apply ex_bk_simple.
Qed.

Theorem C76_energy_v1_3d : forall i0 j0 k0 i1 j1 k1 (dx : Z -> Qc) (beta : Qc) b0 b1 b2 gcw u f0 f1 f2 (alpha : Qc) agcw a rgcw res bc (m n : mem QcS) (r w s z c v0 v1 v2 : Z -> Z -> Z -> Qc),
  filled_v1_3d (S := QcS) i0 j0 k0 i1 j1 k1 dx beta b0 b1 b2 gcw u f0 f1 f2 alpha agcw a rgcw res bc m r w c v0 v1 v2 ->
  filled_v1_3d (S := QcS) i0 j0 k0 i1 j1 k1 dx beta b0 b1 b2 gcw u f0 f1 f2 alpha agcw a rgcw res bc n s z c v0 v1 v2 ->
  (0 < beta)%Qc ->
  (forall d, 0 <= d < 3 -> (0 < dx d)%Qc) ->
  (0 <= alpha)%Qc ->
  (forall i j k, patch3 i0 j0 k0 i1 j1 k1 i j k -> (0 <= c i j k)%Qc) ->
  (forall i j k, i0 <= i <= i1 + 1 -> j0 <= j <= j1 -> k0 <= k <= k1 -> (0 < v0 i j k)%Qc) ->
  (forall i j k, i0 <= i <= i1 -> j0 <= j <= j1 + 1 -> k0 <= k <= k1 -> (0 < v1 i j k)%Qc) ->
  (forall i j k, i0 <= i <= i1 -> j0 <= j <= j1 -> k0 <= k <= k1 + 1 -> (0 < v2 i j k)%Qc) ->
  (forall f, 0 <= f < 6 -> sound true (bc f)) ->
  roomy 3 (ends3 i0 j0 k0) (ends3 i1 j1 k1) bc ->
  (forall f, 0 <= f < 6 -> b_kind (bc f) = 0 -> b_order (bc f) = 1) ->
  (total3 (S := QcS) i0 j0 k0 i1 j1 k1 (fun i j k => r i j k * w i j k)%Qc - (1 + 1) * total3 (S := QcS) i0 j0 k0 i1 j1 k1 (fun i j k => r i j k * w i j k)%Qc <=
   total3 (S := QcS) i0 j0 k0 i1 j1 k1 (fun i j k => s i j k * z i j k)%Qc - (1 + 1) * total3 (S := QcS) i0 j0 k0 i1 j1 k1 (fun i j k => r i j k * z i j k)%Qc)%Qc.
Proof. exact @fenergy_v1_3d. Qed.
Print Assumptions C76_energy_v1_3d.

Example C76_energy_v1_3d_example :
  filled_v1_3d (S := QcS) 0 0 0 1 1 0 ex_h (ex_q 2) (0%nat, 0) (1%nat, 0) (2%nat, 0) 1 (4%nat, 0) (5%nat, 0) (6%nat, 0) (7%nat, 0) (ex_q 0) 0 (3%nat, 0) 0 (8%nat, 0) (ex_bk 5) (ex_so 48 ex_any) (kr_v1_3d 5 ex_any) (kw_v1_3d 5 ex_any) c_v1_3d v0_v1_3d v1_v1_3d v2_v1_3d /\
  filled_v1_3d (S := QcS) 0 0 0 1 1 0 ex_h (ex_q 2) (0%nat, 0) (1%nat, 0) (2%nat, 0) 1 (4%nat, 0) (5%nat, 0) (6%nat, 0) (7%nat, 0) (ex_q 0) 0 (3%nat, 0) 0 (8%nat, 0) (ex_bk 5) (ex_so 48 ex_high) (kr_v1_3d 5 ex_high) (kw_v1_3d 5 ex_high) c_v1_3d v0_v1_3d v1_v1_3d v2_v1_3d /\
  (0 < (ex_q 2))%Qc /\
  (forall d, 0 <= d < 3 -> (0 < ex_h d)%Qc) /\
  (0 <= (ex_q 0))%Qc /\
  (forall i j k, patch3 0 0 0 1 1 0 i j k -> (0 <= c_v1_3d i j k)%Qc) /\
  (forall i j k, 0 <= i <= 1 + 1 -> 0 <= j <= 1 -> 0 <= k <= 0 -> (0 < v0_v1_3d i j k)%Qc) /\
  (forall i j k, 0 <= i <= 1 -> 0 <= j <= 1 + 1 -> 0 <= k <= 0 -> (0 < v1_v1_3d i j k)%Qc) /\
  (forall i j k, 0 <= i <= 1 -> 0 <= j <= 1 -> 0 <= k <= 0 + 1 -> (0 < v2_v1_3d i j k)%Qc) /\
  (forall f, 0 <= f < 6 -> sound true ((ex_bk 5) f)) /\
  roomy 3 (ends3 0 0 0) (ends3 1 1 0) (ex_bk 5) /\
  (forall f, 0 <= f < 6 -> b_kind ((ex_bk 5) f) = 0 -> b_order ((ex_bk 5) f) = 1).
Proof.
  split; [exact kex_any_v1_3d|].
  split; [exact kex_high_v1_3d|].
  split; [now apply lt|].
  split; [exact (ex_h_pos 3)|].
  split; [now apply le|].
  split; [exact cpos_v1_3d|].
  split; [exact kv0_v1_3d|].
  split; [exact kv1_v1_3d|].
  split; [exact kv2_v1_3d|].
  split; [intros f _; apply ex_bk_sound|].
  split; [exact kroomy_v1_3d|].
  intros f _; apply ex_bk_simple.
Qed.

Theorem C76_energy_v2_3d : forall i0 j0 k0 i1 j1 k1 (dx : Z -> Qc) (beta : Qc) b0 b1 b2 gcw u f0 f1 f2 (alpha : Qc) rgcw res bc (m n : mem QcS) (r w s z v0 v1 v2 : Z -> Z -> Z -> Qc),
  filled_v2_3d (S := QcS) i0 j0 k0 i1 j1 k1 dx beta b0 b1 b2 gcw u f0 f1 f2 alpha rgcw res bc m r w v0 v1 v2 ->
  filled_v2_3d (S := QcS) i0 j0 k0 i1 j1 k1 dx beta b0 b1 b2 gcw u f0 f1 f2 alpha rgcw res bc n s z v0 v1 v2 ->
  (0 < beta)%Qc ->
  (forall d, 0 <= d < 3 -> (0 < dx d)%Qc) ->
  (0 <= alpha)%Qc ->
  (forall i j k, i0 <= i <= i1 + 1 -> j0 <= j <= j1 -> k0 <= k <= k1 -> (0 < v0 i j k)%Qc) ->
  (forall i j k, i0 <= i <= i1 -> j0 <= j <= j1 + 1 -> k0 <= k <= k1 -> (0 < v1 i j k)%Qc) ->
  (forall i j k, i0 <= i <= i1 -> j0 <= j <= j1 -> k0 <= k <= k1 + 1 -> (0 < v2 i j k)%Qc) ->
  (forall f, 0 <= f < 6 -> sound true (bc f)) ->
  roomy 3 (ends3 i0 j0 k0) (ends3 i1 j1 k1) bc ->
  (forall f, 0 <= f < 6 -> b_kind (bc f) = 0 -> b_order (bc f) = 1) ->
  (total3 (S := QcS) i0 j0 k0 i1 j1 k1 (fun i j k => r i j k * w i j k)%Qc - (1 + 1) * total3 (S := QcS) i0 j0 k0 i1 j1 k1 (fun i j k => r i j k * w i j k)%Qc <=
   total3 (S := QcS) i0 j0 k0 i1 j1 k1 (fun i j k => s i j k * z i j k)%Qc - (1 + 1) * total3 (S := QcS) i0 j0 k0 i1 j1 k1 (fun i j k => r i j k * z i j k)%Qc)%Qc.
Proof. exact @fenergy_v2_3d. Qed.
Print Assumptions C76_energy_v2_3d.

Example C76_energy_v2_3d_example :
  filled_v2_3d (S := QcS) 0 0 0 1 1 0 ex_h (ex_q 2) (0%nat, 0) (1%nat, 0) (2%nat, 0) 1 (4%nat, 0) (5%nat, 0) (6%nat, 0) (7%nat, 0) (ex_q 0) 0 (8%nat, 0) (ex_bk 5) (ex_so 48 ex_any) (kr_v2_3d 5 ex_any) (kw_v2_3d 5 ex_any) v0_v2_3d v1_v2_3d v2_v2_3d /\
  filled_v2_3d (S := QcS) 0 0 0 1 1 0 ex_h (ex_q 2) (0%nat, 0) (1%nat, 0) (2%nat, 0) 1 (4%nat, 0) (5%nat, 0) (6%nat, 0) (7%nat, 0) (ex_q 0) 0 (8%nat, 0) (ex_bk 5) (ex_so 48 ex_high) (kr_v2_3d 5 ex_high) (kw_v2_3d 5 ex_high) v0_v2_3d v1_v2_3d v2_v2_3d /\
  (0 < (ex_q 2))%Qc /\
  (forall d, 0 <= d < 3 -> (0 < ex_h d)%Qc) /\
  (0 <= (ex_q 0))%Qc /\
  (forall i j k, 0 <= i <= 1 + 1 -> 0 <= j <= 1 -> 0 <= k <= 0 -> (0 < v0_v2_3d i j k)%Qc) /\
  (forall i j k, 0 <= i <= 1 -> 0 <= j <= 1 + 1 -> 0 <= k <= 0 -> (0 < v1_v2_3d i j k)%Qc) /\
  (forall i j k, 0 <= i <= 1 -> 0 <= j <= 1 -> 0 <= k <= 0 + 1 -> (0 < v2_v2_3d i j k)%Qc) /\
  (forall f, 0 <= f < 6 -> sound true ((ex_bk 5) f)) /\
  roomy 3 (ends3 0 0 0) (ends3 1 1 0) (ex_bk 5) /\
  (forall f, 0 <= f < 6 -> b_kind ((ex_bk 5) f) = 0 -> b_order ((ex_bk 5) f) = 1).
Proof.
  split; [exact kex_any_v2_3d|].
  split; [exact kex_high_v2_3d|].
  split; [now apply lt|].
  split; [exact (ex_h_pos 3)|].
  split; [now apply le|].
  split; [exact kv0_v2_3d|].
  split; [exact kv1_v2_3d|].
  split; [exact kv2_v2_3d|].
  split; [intros f _; apply ex_bk_sound|].
  split; [exact kroomy_v2_3d|].
  intros f _; apply ex_bk_simple.
Qed.

Theorem C76_energy_poisson_3d : forall i0 j0 k0 i1 j1 k1 (dx : Z -> Qc) (beta : Qc) gcw u f0 f1 f2 rgcw res bc (m n : mem QcS) (r w s z : Z -> Z -> Z -> Qc),
  filled_poisson_3d (S := QcS) i0 j0 k0 i1 j1 k1 dx beta gcw u f0 f1 f2 rgcw res bc m r w ->
  filled_poisson_3d (S := QcS) i0 j0 k0 i1 j1 k1 dx beta gcw u f0 f1 f2 rgcw res bc n s z ->
  (0 < beta)%Qc ->
  (forall d, 0 <= d < 3 -> (0 < dx d)%Qc) ->
  (forall f, 0 <= f < 6 -> sound false (bc f)) ->
  roomy 3 (ends3 i0 j0 k0) (ends3 i1 j1 k1) bc ->
  (forall f, 0 <= f < 6 -> b_kind (bc f) = 0 -> b_order (bc f) = 1) ->
  (total3 (S := QcS) i0 j0 k0 i1 j1 k1 (fun i j k => r i j k * w i j k)%Qc - (1 + 1) * total3 (S := QcS) i0 j0 k0 i1 j1 k1 (fun i j k => r i j k * w i j k)%Qc <=
   total3 (S := QcS) i0 j0 k0 i1 j1 k1 (fun i j k => s i j k * z i j k)%Qc - (1 + 1) * total3 (S := QcS) i0 j0 k0 i1 j1 k1 (fun i j k => r i j k * z i j k)%Qc)%Qc.
Proof. exact @fenergy_poisson_3d. Qed.
Print Assumptions C76_energy_poisson_3d.

Example C76_energy_poisson_3d_example :
  filled_poisson_3d (S := QcS) 0 0 0 1 1 0 ex_h (ex_q 2) 1 (4%nat, 0) (5%nat, 0) (6%nat, 0) (7%nat, 0) 0 (8%nat, 0) (ex_bk 5) (ex_so 48 ex_any) (kr_poisson_3d 5 ex_any) (kw_poisson_3d 5 ex_any)  /\
  filled_poisson_3d (S := QcS) 0 0 0 1 1 0 ex_h (ex_q 2) 1 (4%nat, 0) (5%nat, 0) (6%nat, 0) (7%nat, 0) 0 (8%nat, 0) (ex_bk 5) (ex_so 48 ex_high) (kr_poisson_3d 5 ex_high) (kw_poisson_3d 5 ex_high)  /\
  (0 < (ex_q 2))%Qc /\
  (forall d, 0 <= d < 3 -> (0 < ex_h d)%Qc) /\
  (forall f, 0 <= f < 6 -> sound false ((ex_bk 5) f)) /\
  roomy 3 (ends3 0 0 0) (ends3 1 1 0) (ex_bk 5) /\
  (forall f, 0 <= f < 6 -> b_kind ((ex_bk 5) f) = 0 -> b_order ((ex_bk 5) f) = 1).
Proof.
  split; [exact kex_any_poisson_3d|].
  split; [exact kex_high_poisson_3d|].
  split; [now apply lt|].
  split; [exact (ex_h_pos 3)|].
  split; [intros f _; apply ex_bk_sound|].
  split; [exact kroomy_poisson_3d|].
  intros f _; apply ex_bk_simple.
Qed.

(** Dirichlet conditions of order 2 are not symmetric. *)
Theorem C76_symmetric_poisson_1d_order2_refuted : ~ (forall i0 i1 (dx : Z -> Qc) (beta : Qc) gcw u f0 rgcw res bc (m n : mem QcS) (r w s z : Z -> Qc),
  filled_poisson_1d (S := QcS) i0 i1 dx beta gcw u f0 rgcw res bc m r w ->
  filled_poisson_1d (S := QcS) i0 i1 dx beta gcw u f0 rgcw res bc n s z ->
  (0 < beta)%Qc ->
  (forall d, 0 <= d < 1 -> (0 < dx d)%Qc) ->
  (forall f, 0 <= f < 2 -> sound false (bc f)) ->
  roomy 1 (ends1 i0) (ends1 i1) bc ->
  total (S := QcS) i0 i1 (fun i => r i * z i)%Qc =
  total (S := QcS) i0 i1 (fun i => s i * w i)%Qc).
Proof.
  intros H.
  specialize (H _ _ _ _ _ _ _ _ _ _ _ _ _ _ _ _ bex_any_poisson_1d bex_rise_poisson_1d ltac:(now apply lt) (ex_h_pos 1) (fun f _ => ex_sound false f) broomy_poisson_1d).
  apply (f_equal this) in H. vm_compute in H. discriminate.
Qed.
Print Assumptions C76_symmetric_poisson_1d_order2_refuted.

(** The numbers of the examples. *)
Example C76_values :
  (total2 (S := QcS) 0 0 1 1 (fun i j => kr_v1_2d 3 ex_any i j * kw_v1_2d 3 ex_high i j) <> 0)%Qc /\
  (0 < total2 (S := QcS) 0 0 1 1 (fun i j => kr_v1_2d 3 ex_any i j * kw_v1_2d 3 ex_any i j))%Qc.
Proof. split; [intros C; apply (f_equal this) in C; vm_compute in C; discriminate|apply lt; vm_compute; reflexivity]. Qed.
