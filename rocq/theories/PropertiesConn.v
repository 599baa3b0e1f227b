(** * One anchored face suffices; the closed problem (C75)

    The setting is that of PropertiesBvp.  With positive coefficients on all faces the
    cells of a patch are connected: a Dirichlet or Robin condition on any one face, or a
    reaction in any one cell, makes the problem well posed.  With Neumann conditions all
    around and no reaction it is solvable exactly for data of sum zero, up to a constant.
    [total] is the sum over the patch (SpecRow). *)

From Coq Require Import QArith Qcanon.
From Verif Require Import Base FortranBase SpecKernel Instances SpecBCOrder SpecBCCalls SpecRow SpecSolve LemSolve LemSolveOp LemSolveMem LemSolveCase SpecBvp LemBvpCase LemBvpConn LemBvpConnCase.
Import ListNotations.
Open Scope Z_scope.

(** Larger data, larger solution. *)

Theorem C75_compare_v1_1d : forall i0 i1 (dx : Z -> Qc) (beta : Qc) b0 gcw u f0 (alpha : Qc) agcw a rgcw res bc (m n : mem QcS) (r w s z c v0 : Z -> Qc),
  filled_v1_1d (S := QcS) i0 i1 dx beta b0 gcw u f0 alpha agcw a rgcw res bc m r w c v0 ->
  filled_v1_1d (S := QcS) i0 i1 dx beta b0 gcw u f0 alpha agcw a rgcw res bc n s z c v0 ->
  (0 < beta)%Qc ->
  (forall d, 0 <= d < 1 -> (0 < dx d)%Qc) ->
  (0 <= alpha)%Qc ->
  (forall i, patch1 i0 i1 i -> (0 <= c i)%Qc) ->
  (forall i, i0 <= i <= i1 + 1 -> (0 < v0 i)%Qc) ->
  (forall f, 0 <= f < 2 -> sound true (bc f)) ->
  roomy 1 (ends1 i0) (ends1 i1) bc ->
  ((exists f, 0 <= f < 2 /\ b_kind (bc f) <> 1) \/ (0 < alpha)%Qc /\ (exists i, patch1 i0 i1 i /\ (0 < c i)%Qc)) ->
  (forall i, patch1 i0 i1 i -> (r i <= s i)%Qc) ->
  forall i, patch1 i0 i1 i -> (w i <= z i)%Qc.
Proof. exact @acompare_v1_1d. Qed.
Print Assumptions C75_compare_v1_1d.

Example C75_compare_v1_1d_example :
  filled_v1_1d (S := QcS) 0 1 ex_h (ex_q 2) (0%nat, 0) 1 (4%nat, 0) (5%nat, 0) (ex_q 0) 0 (3%nat, 0) 0 (8%nat, 0) (ex_bk 1) (ex_so 4 ex_flat) (kr_v1_1d 1 ex_flat) (kw_v1_1d 1 ex_flat) c_v1_1d v0_v1_1d /\
  filled_v1_1d (S := QcS) 0 1 ex_h (ex_q 2) (0%nat, 0) 1 (4%nat, 0) (5%nat, 0) (ex_q 0) 0 (3%nat, 0) 0 (8%nat, 0) (ex_bk 1) (ex_so 4 ex_high) (kr_v1_1d 1 ex_high) (kw_v1_1d 1 ex_high) c_v1_1d v0_v1_1d /\
  (0 < (ex_q 2))%Qc /\
  (forall d, 0 <= d < 1 -> (0 < ex_h d)%Qc) /\
  (0 <= (ex_q 0))%Qc /\
  (forall i, patch1 0 1 i -> (0 <= c_v1_1d i)%Qc) /\
  (forall i, 0 <= i <= 1 + 1 -> (0 < v0_v1_1d i)%Qc) /\
  (forall f, 0 <= f < 2 -> sound true ((ex_bk 1) f)) /\
  roomy 1 (ends1 0) (ends1 1) (ex_bk 1) /\
  (exists f, 0 <= f < 2 /\ b_kind (ex_bk 1 f) <> 1) /\
  (forall i, patch1 0 1 i -> (kr_v1_1d 1 ex_flat i <= kr_v1_1d 1 ex_high i)%Qc).
Proof.
  split; [exact kex_flat_v1_1d|].
  split; [exact kex_high_v1_1d|].
  split; [now apply lt|].
  split; [exact (ex_h_pos 1)|].
  split; [now apply le|].
  split; [exact cpos_v1_1d|].
  split; [exact kv0_v1_1d|].
  split; [intros f _; apply ex_bk_sound|].
  split; [exact kroomy_v1_1d|].
  split; [exists 1; split; [lia|discriminate]|].
  exact kmore_v1_1d.
Qed.

Theorem C75_compare_v2_1d : forall i0 i1 (dx : Z -> Qc) (beta : Qc) b0 gcw u f0 (alpha : Qc) rgcw res bc (m n : mem QcS) (r w s z v0 : Z -> Qc),
  filled_v2_1d (S := QcS) i0 i1 dx beta b0 gcw u f0 alpha rgcw res bc m r w v0 ->
  filled_v2_1d (S := QcS) i0 i1 dx beta b0 gcw u f0 alpha rgcw res bc n s z v0 ->
  (0 < beta)%Qc ->
  (forall d, 0 <= d < 1 -> (0 < dx d)%Qc) ->
  (0 <= alpha)%Qc ->
  (forall i, i0 <= i <= i1 + 1 -> (0 < v0 i)%Qc) ->
  (forall f, 0 <= f < 2 -> sound true (bc f)) ->
  roomy 1 (ends1 i0) (ends1 i1) bc ->
  ((exists f, 0 <= f < 2 /\ b_kind (bc f) <> 1) \/ (0 < alpha)%Qc) ->
  (forall i, patch1 i0 i1 i -> (r i <= s i)%Qc) ->
  forall i, patch1 i0 i1 i -> (w i <= z i)%Qc.
Proof. exact @acompare_v2_1d. Qed.
Print Assumptions C75_compare_v2_1d.

Example C75_compare_v2_1d_example :
  filled_v2_1d (S := QcS) 0 1 ex_h (ex_q 2) (0%nat, 0) 1 (4%nat, 0) (5%nat, 0) (ex_q 0) 0 (8%nat, 0) (ex_bk 1) (ex_so 4 ex_flat) (kr_v2_1d 1 ex_flat) (kw_v2_1d 1 ex_flat) v0_v2_1d /\
  filled_v2_1d (S := QcS) 0 1 ex_h (ex_q 2) (0%nat, 0) 1 (4%nat, 0) (5%nat, 0) (ex_q 0) 0 (8%nat, 0) (ex_bk 1) (ex_so 4 ex_high) (kr_v2_1d 1 ex_high) (kw_v2_1d 1 ex_high) v0_v2_1d /\
  (0 < (ex_q 2))%Qc /\
  (forall d, 0 <= d < 1 -> (0 < ex_h d)%Qc) /\
  (0 <= (ex_q 0))%Qc /\
  (forall i, 0 <= i <= 1 + 1 -> (0 < v0_v2_1d i)%Qc) /\
  (forall f, 0 <= f < 2 -> sound true ((ex_bk 1) f)) /\
  roomy 1 (ends1 0) (ends1 1) (ex_bk 1) /\
  (exists f, 0 <= f < 2 /\ b_kind (ex_bk 1 f) <> 1) /\
  (forall i, patch1 0 1 i -> (kr_v2_1d 1 ex_flat i <= kr_v2_1d 1 ex_high i)%Qc).
Proof.
  split; [exact kex_flat_v2_1d|].
  split; [exact kex_high_v2_1d|].
  split; [now apply lt|].
  split; [exact (ex_h_pos 1)|].
  split; [now apply le|].
  split; [exact kv0_v2_1d|].
  split; [intros f _; apply ex_bk_sound|].
  split; [exact kroomy_v2_1d|].
  split; [exists 1; split; [lia|discriminate]|].
  exact kmore_v2_1d.
Qed.

Theorem C75_compare_poisson_1d : forall i0 i1 (dx : Z -> Qc) (beta : Qc) gcw u f0 rgcw res bc (m n : mem QcS) (r w s z : Z -> Qc),
  filled_poisson_1d (S := QcS) i0 i1 dx beta gcw u f0 rgcw res bc m r w ->
  filled_poisson_1d (S := QcS) i0 i1 dx beta gcw u f0 rgcw res bc n s z ->
  (0 < beta)%Qc ->
  (forall d, 0 <= d < 1 -> (0 < dx d)%Qc) ->
  (forall f, 0 <= f < 2 -> sound false (bc f)) ->
  roomy 1 (ends1 i0) (ends1 i1) bc ->
  (exists f, 0 <= f < 2 /\ b_kind (bc f) <> 1) ->
  (forall i, patch1 i0 i1 i -> (r i <= s i)%Qc) ->
  forall i, patch1 i0 i1 i -> (w i <= z i)%Qc.
Proof. exact @acompare_poisson_1d. Qed.
Print Assumptions C75_compare_poisson_1d.

Example C75_compare_poisson_1d_example :
  filled_poisson_1d (S := QcS) 0 1 ex_h (ex_q 2) 1 (4%nat, 0) (5%nat, 0) 0 (8%nat, 0) (ex_bk 1) (ex_so 4 ex_flat) (kr_poisson_1d 1 ex_flat) (kw_poisson_1d 1 ex_flat)  /\
  filled_poisson_1d (S := QcS) 0 1 ex_h (ex_q 2) 1 (4%nat, 0) (5%nat, 0) 0 (8%nat, 0) (ex_bk 1) (ex_so 4 ex_high) (kr_poisson_1d 1 ex_high) (kw_poisson_1d 1 ex_high)  /\
  (0 < (ex_q 2))%Qc /\
  (forall d, 0 <= d < 1 -> (0 < ex_h d)%Qc) /\
  (forall f, 0 <= f < 2 -> sound false ((ex_bk 1) f)) /\
  roomy 1 (ends1 0) (ends1 1) (ex_bk 1) /\
  (exists f, 0 <= f < 2 /\ b_kind (ex_bk 1 f) <> 1) /\
  (forall i, patch1 0 1 i -> (kr_poisson_1d 1 ex_flat i <= kr_poisson_1d 1 ex_high i)%Qc).
Proof.
  split; [exact kex_flat_poisson_1d|].
  split; [exact kex_high_poisson_1d|].
  split; [now apply lt|].
  split; [exact (ex_h_pos 1)|].
  split; [intros f _; apply ex_bk_sound|].
  split; [exact kroomy_poisson_1d|].
  split; [exists 1; split; [lia|discriminate]|].
  exact kmore_poisson_1d.
Qed.

Theorem C75_compare_v1_2d : forall i0 j0 i1 j1 (dx : Z -> Qc) (beta : Qc) b0 b1 gcw u f0 f1 (alpha : Qc) agcw a rgcw res bc (m n : mem QcS) (r w s z c v0 v1 : Z -> Z -> Qc),
  filled_v1_2d (S := QcS) i0 j0 i1 j1 dx beta b0 b1 gcw u f0 f1 alpha agcw a rgcw res bc m r w c v0 v1 ->
  filled_v1_2d (S := QcS) i0 j0 i1 j1 dx beta b0 b1 gcw u f0 f1 alpha agcw a rgcw res bc n s z c v0 v1 ->
  (0 < beta)%Qc ->
  (forall d, 0 <= d < 2 -> (0 < dx d)%Qc) ->
  (0 <= alpha)%Qc ->
  (forall i j, patch2 i0 j0 i1 j1 i j -> (0 <= c i j)%Qc) ->
  (forall i j, i0 <= i <= i1 + 1 -> j0 <= j <= j1 -> (0 < v0 i j)%Qc) ->
  (forall i j, i0 <= i <= i1 -> j0 <= j <= j1 + 1 -> (0 < v1 i j)%Qc) ->
  (forall f, 0 <= f < 4 -> sound true (bc f)) ->
  roomy 2 (ends2 i0 j0) (ends2 i1 j1) bc ->
  ((exists f, 0 <= f < 4 /\ b_kind (bc f) <> 1) \/ (0 < alpha)%Qc /\ (exists i j, patch2 i0 j0 i1 j1 i j /\ (0 < c i j)%Qc)) ->
  (forall i j, patch2 i0 j0 i1 j1 i j -> (r i j <= s i j)%Qc) ->
  forall i j, patch2 i0 j0 i1 j1 i j -> (w i j <= z i j)%Qc.
Proof. exact @acompare_v1_2d. Qed.
Print Assumptions C75_compare_v1_2d.

Example C75_compare_v1_2d_example :
  filled_v1_2d (S := QcS) 0 0 1 1 ex_h (ex_q 2) (0%nat, 0) (1%nat, 0) 1 (4%nat, 0) (5%nat, 0) (6%nat, 0) (ex_q 0) 0 (3%nat, 0) 0 (8%nat, 0) (ex_bk 3) (ex_so 16 ex_flat) (kr_v1_2d 3 ex_flat) (kw_v1_2d 3 ex_flat) c_v1_2d v0_v1_2d v1_v1_2d /\
  filled_v1_2d (S := QcS) 0 0 1 1 ex_h (ex_q 2) (0%nat, 0) (1%nat, 0) 1 (4%nat, 0) (5%nat, 0) (6%nat, 0) (ex_q 0) 0 (3%nat, 0) 0 (8%nat, 0) (ex_bk 3) (ex_so 16 ex_high) (kr_v1_2d 3 ex_high) (kw_v1_2d 3 ex_high) c_v1_2d v0_v1_2d v1_v1_2d /\
  (0 < (ex_q 2))%Qc /\
  (forall d, 0 <= d < 2 -> (0 < ex_h d)%Qc) /\
  (0 <= (ex_q 0))%Qc /\
  (forall i j, patch2 0 0 1 1 i j -> (0 <= c_v1_2d i j)%Qc) /\
  (forall i j, 0 <= i <= 1 + 1 -> 0 <= j <= 1 -> (0 < v0_v1_2d i j)%Qc) /\
  (forall i j, 0 <= i <= 1 -> 0 <= j <= 1 + 1 -> (0 < v1_v1_2d i j)%Qc) /\
  (forall f, 0 <= f < 4 -> sound true ((ex_bk 3) f)) /\
  roomy 2 (ends2 0 0) (ends2 1 1) (ex_bk 3) /\
  (exists f, 0 <= f < 4 /\ b_kind (ex_bk 3 f) <> 1) /\
  (forall i j, patch2 0 0 1 1 i j -> (kr_v1_2d 3 ex_flat i j <= kr_v1_2d 3 ex_high i j)%Qc).
Proof.
  split; [exact kex_flat_v1_2d|].
  split; [exact kex_high_v1_2d|].
  split; [now apply lt|].
  split; [exact (ex_h_pos 2)|].
  split; [now apply le|].
  split; [exact cpos_v1_2d|].
  split; [exact kv0_v1_2d|].
  split; [exact kv1_v1_2d|].
  split; [intros f _; apply ex_bk_sound|].
  split; [exact kroomy_v1_2d|].
  split; [exists 3; split; [lia|discriminate]|].
  exact kmore_v1_2d.
Qed.

Theorem C75_compare_v2_2d : forall i0 j0 i1 j1 (dx : Z -> Qc) (beta : Qc) b0 b1 gcw u f0 f1 (alpha : Qc) rgcw res bc (m n : mem QcS) (r w s z v0 v1 : Z -> Z -> Qc),
  filled_v2_2d (S := QcS) i0 j0 i1 j1 dx beta b0 b1 gcw u f0 f1 alpha rgcw res bc m r w v0 v1 ->
  filled_v2_2d (S := QcS) i0 j0 i1 j1 dx beta b0 b1 gcw u f0 f1 alpha rgcw res bc n s z v0 v1 ->
  (0 < beta)%Qc ->
  (forall d, 0 <= d < 2 -> (0 < dx d)%Qc) ->
  (0 <= alpha)%Qc ->
  (forall i j, i0 <= i <= i1 + 1 -> j0 <= j <= j1 -> (0 < v0 i j)%Qc) ->
  (forall i j, i0 <= i <= i1 -> j0 <= j <= j1 + 1 -> (0 < v1 i j)%Qc) ->
  (forall f, 0 <= f < 4 -> sound true (bc f)) ->
  roomy 2 (ends2 i0 j0) (ends2 i1 j1) bc ->
  ((exists f, 0 <= f < 4 /\ b_kind (bc f) <> 1) \/ (0 < alpha)%Qc) ->
  (forall i j, patch2 i0 j0 i1 j1 i j -> (r i j <= s i j)%Qc) ->
  forall i j, patch2 i0 j0 i1 j1 i j -> (w i j <= z i j)%Qc.
Proof. exact @acompare_v2_2d. Qed.
Print Assumptions C75_compare_v2_2d.

Example C75_compare_v2_2d_example :
  filled_v2_2d (S := QcS) 0 0 1 1 ex_h (ex_q 2) (0%nat, 0) (1%nat, 0) 1 (4%nat, 0) (5%nat, 0) (6%nat, 0) (ex_q 0) 0 (8%nat, 0) (ex_bk 3) (ex_so 16 ex_flat) (kr_v2_2d 3 ex_flat) (kw_v2_2d 3 ex_flat) v0_v2_2d v1_v2_2d /\
  filled_v2_2d (S := QcS) 0 0 1 1 ex_h (ex_q 2) (0%nat, 0) (1%nat, 0) 1 (4%nat, 0) (5%nat, 0) (6%nat, 0) (ex_q 0) 0 (8%nat, 0) (ex_bk 3) (ex_so 16 ex_high) (kr_v2_2d 3 ex_high) (kw_v2_2d 3 ex_high) v0_v2_2d v1_v2_2d /\
  (0 < (ex_q 2))%Qc /\
  (forall d, 0 <= d < 2 -> (0 < ex_h d)%Qc) /\
  (0 <= (ex_q 0))%Qc /\
  (forall i j, 0 <= i <= 1 + 1 -> 0 <= j <= 1 -> (0 < v0_v2_2d i j)%Qc) /\
  (forall i j, 0 <= i <= 1 -> 0 <= j <= 1 + 1 -> (0 < v1_v2_2d i j)%Qc) /\
  (forall f, 0 <= f < 4 -> sound true ((ex_bk 3) f)) /\
  roomy 2 (ends2 0 0) (ends2 1 1) (ex_bk 3) /\
  (exists f, 0 <= f < 4 /\ b_kind (ex_bk 3 f) <> 1) /\
  (forall i j, patch2 0 0 1 1 i j -> (kr_v2_2d 3 ex_flat i j <= kr_v2_2d 3 ex_high i j)%Qc).
Proof.
  split; [exact kex_flat_v2_2d|].
  split; [exact kex_high_v2_2d|].
  split; [now apply lt|].
  split; [exact (ex_h_pos 2)|].
  split; [now apply le|].
  split; [exact kv0_v2_2d|].
  split; [exact kv1_v2_2d|].
  split; [intros f _; apply ex_bk_sound|].
  split; [exact kroomy_v2_2d|].
  split; [exists 3; split; [lia|discriminate]|].
  exact kmore_v2_2d.
Qed.

Theorem C75_compare_poisson_2d : forall i0 j0 i1 j1 (dx : Z -> Qc) (beta : Qc) gcw u f0 f1 rgcw res bc (m n : mem QcS) (r w s z : Z -> Z -> Qc),
  filled_poisson_2d (S := QcS) i0 j0 i1 j1 dx beta gcw u f0 f1 rgcw res bc m r w ->
  filled_poisson_2d (S := QcS) i0 j0 i1 j1 dx beta gcw u f0 f1 rgcw res bc n s z ->
  (0 < beta)%Qc ->
  (forall d, 0 <= d < 2 -> (0 < dx d)%Qc) ->
  (forall f, 0 <= f < 4 -> sound false (bc f)) ->
  roomy 2 (ends2 i0 j0) (ends2 i1 j1) bc ->
  (exists f, 0 <= f < 4 /\ b_kind (bc f) <> 1) ->
  (forall i j, patch2 i0 j0 i1 j1 i j -> (r i j <= s i j)%Qc) ->
  forall i j, patch2 i0 j0 i1 j1 i j -> (w i j <= z i j)%Qc.
Proof. exact @acompare_poisson_2d. Qed.
Print Assumptions C75_compare_poisson_2d.

Example C75_compare_poisson_2d_example :
  filled_poisson_2d (S := QcS) 0 0 1 1 ex_h (ex_q 2) 1 (4%nat, 0) (5%nat, 0) (6%nat, 0) 0 (8%nat, 0) (ex_bk 3) (ex_so 16 ex_flat) (kr_poisson_2d 3 ex_flat) (kw_poisson_2d 3 ex_flat)  /\
  filled_poisson_2d (S := QcS) 0 0 1 1 ex_h (ex_q 2) 1 (4%nat, 0) (5%nat, 0) (6%nat, 0) 0 (8%nat, 0) (ex_bk 3) (ex_so 16 ex_high) (kr_poisson_2d 3 ex_high) (kw_poisson_2d 3 ex_high)  /\
  (0 < (ex_q 2))%Qc /\
  (forall d, 0 <= d < 2 -> (0 < ex_h d)%Qc) /\
  (forall f, 0 <= f < 4 -> sound false ((ex_bk 3) f)) /\
  roomy 2 (ends2 0 0) (ends2 1 1) (ex_bk 3) /\
  (exists f, 0 <= f < 4 /\ b_kind (ex_bk 3 f) <> 1) /\
  (forall i j, patch2 0 0 1 1 i j -> (kr_poisson_2d 3 ex_flat i j <= kr_poisson_2d 3 ex_high i j)%Qc).
Proof.
  split; [exact kex_flat_poisson_2d|].
  split; [exact kex_high_poisson_2d|].
  split; [now apply lt|].
  split; [exact (ex_h_pos 2)|].
  split; [intros f _; apply ex_bk_sound|].
  split; [exact kroomy_poisson_2d|].
  split; [exists 3; split; [lia|discriminate]|].
  exact kmore_poisson_2d.
Qed.

Theorem C75_compare_v1_3d : forall i0 j0 k0 i1 j1 k1 (dx : Z -> Qc) (beta : Qc) b0 b1 b2 gcw u f0 f1 f2 (alpha : Qc) agcw a rgcw res bc (m n : mem QcS) (r w s z c v0 v1 v2 : Z -> Z -> Z -> Qc),
  filled_v1_3d (S := QcS) i0 j0 k0 i1 j1 k1 dx beta b0 b1 b2 gcw u f0 f1 f2 alpha agcw a rgcw res bc m r w c v0 v1 v2 ->
  filled_v1_3d (S := QcS) i0 j0 k0 i1 j1 k1 dx beta b0 b1 b2 gcw u f0 f1 f2 alpha agcw a rgcw res bc n s z c v0 v1 v2 ->
  (0 < beta)%Qc ->
  (forall d, 0 <= d < 3 -> (0 < dx d)%Qc) ->
  (0 <= alpha)%Qc ->
  (forall i j k, patch3 i0 j0 k0 i1 j1 k1 i j k -> (0 <= c i j k)%Qc) ->
  (forall i j k, i0 <= i <= i1 + 1 -> j0 <= j <= j1 -> k0 <= k <= k1 -> (0 < v0 i j k)%Qc) ->
  (forall i j k, i0 <= i <= i1 -> j0 <= j <= j1 + 1 -> k0 <= k <= k1 -> (0 < v1 i j k)%Qc) ->
  (forall i j k, i0 <= i <= i1 -> j0 <= j <= j1 -> k0 <= k <= k1 + 1 -> (0 < v2 i j k)%Qc) ->
  (forall f, 0 <= f < 6 -> sound true (bc f)) ->
  roomy 3 (ends3 i0 j0 k0) (ends3 i1 j1 k1) bc ->
  ((exists f, 0 <= f < 6 /\ b_kind (bc f) <> 1) \/ (0 < alpha)%Qc /\ (exists i j k, patch3 i0 j0 k0 i1 j1 k1 i j k /\ (0 < c i j k)%Qc)) ->
  (forall i j k, patch3 i0 j0 k0 i1 j1 k1 i j k -> (r i j k <= s i j k)%Qc) ->
  forall i j k, patch3 i0 j0 k0 i1 j1 k1 i j k -> (w i j k <= z i j k)%Qc.
Proof. exact @acompare_v1_3d. Qed.
Print Assumptions C75_compare_v1_3d.

Example C75_compare_v1_3d_example :
  filled_v1_3d (S := QcS) 0 0 0 1 1 0 ex_h (ex_q 2) (0%nat, 0) (1%nat, 0) (2%nat, 0) 1 (4%nat, 0) (5%nat, 0) (6%nat, 0) (7%nat, 0) (ex_q 0) 0 (3%nat, 0) 0 (8%nat, 0) (ex_bk 5) (ex_so 48 ex_flat) (kr_v1_3d 5 ex_flat) (kw_v1_3d 5 ex_flat) c_v1_3d v0_v1_3d v1_v1_3d v2_v1_3d /\
  filled_v1_3d (S := QcS) 0 0 0 1 1 0 ex_h (ex_q 2) (0%nat, 0) (1%nat, 0) (2%nat, 0) 1 (4%nat, 0) (5%nat, 0) (6%nat, 0) (7%nat, 0) (ex_q 0) 0 (3%nat, 0) 0 (8%nat, 0) (ex_bk 5) (ex_so 48 ex_high) (kr_v1_3d 5 ex_high) (kw_v1_3d 5 ex_high) c_v1_3d v0_v1_3d v1_v1_3d v2_v1_3d /\
  (0 < (ex_q 2))%Qc /\
  (forall d, 0 <= d < 3 -> (0 < ex_h d)%Qc) /\
  (0 <= (ex_q 0))%Qc /\
  (forall i j k, patch3 0 0 0 1 1 0 i j k -> (0 <= c_v1_3d i j k)%Qc) /\
  (forall i j k, 0 <= i <= 1 + 1 -> 0 <= j <= 1 -> 0 <= k <= 0 -> (0 < v0_v1_3d i j k)%Qc) /\
  (forall i j k, 0 <= i <= 1 -> 0 <= j <= 1 + 1 -> 0 <= k <= 0 -> (0 < v1_v1_3d i j k)%Qc) /\
  (forall i j k, 0 <= i <= 1 -> 0 <= j <= 1 -> 0 <= k <= 0 + 1 -> (0 < v2_v1_3d i j k)%Qc) /\
  (forall f, 0 <= f < 6 -> sound true ((ex_bk 5) f)) /\
  roomy 3 (ends3 0 0 0) (ends3 1 1 0) (ex_bk 5) /\
  (exists f, 0 <= f < 6 /\ b_kind (ex_bk 5 f) <> 1) /\
  (forall i j k, patch3 0 0 0 1 1 0 i j k -> (kr_v1_3d 5 ex_flat i j k <= kr_v1_3d 5 ex_high i j k)%Qc).
Proof.
  split; [exact kex_flat_v1_3d|].
  split; [exact kex_high_v1_3d|].
  split; [now apply lt|].
  split; [exact (ex_h_pos 3)|].
  split; [now apply le|].
  split; [exact cpos_v1_3d|].
  split; [exact kv0_v1_3d|].
  split; [exact kv1_v1_3d|].
  split; [exact kv2_v1_3d|].
  split; [intros f _; apply ex_bk_sound|].
  split; [exact kroomy_v1_3d|].
  split; [exists 5; split; [lia|discriminate]|].
  exact kmore_v1_3d.
Qed.

Theorem C75_compare_v2_3d : forall i0 j0 k0 i1 j1 k1 (dx : Z -> Qc) (beta : Qc) b0 b1 b2 gcw u f0 f1 f2 (alpha : Qc) rgcw res bc (m n : mem QcS) (r w s z v0 v1 v2 : Z -> Z -> Z -> Qc),
  filled_v2_3d (S := QcS) i0 j0 k0 i1 j1 k1 dx beta b0 b1 b2 gcw u f0 f1 f2 alpha rgcw res bc m r w v0 v1 v2 ->
  filled_v2_3d (S := QcS) i0 j0 k0 i1 j1 k1 dx beta b0 b1 b2 gcw u f0 f1 f2 alpha rgcw res bc n s z v0 v1 v2 ->
  (0 < beta)%Qc ->
  (forall d, 0 <= d < 3 -> (0 < dx d)%Qc) ->
  (0 <= alpha)%Qc ->
  (forall i j k, i0 <= i <= i1 + 1 -> j0 <= j <= j1 -> k0 <= k <= k1 -> (0 < v0 i j k)%Qc) ->
  (forall i j k, i0 <= i <= i1 -> j0 <= j <= j1 + 1 -> k0 <= k <= k1 -> (0 < v1 i j k)%Qc) ->
  (forall i j k, i0 <= i <= i1 -> j0 <= j <= j1 -> k0 <= k <= k1 + 1 -> (0 < v2 i j k)%Qc) ->
  (forall f, 0 <= f < 6 -> sound true (bc f)) ->
  roomy 3 (ends3 i0 j0 k0) (ends3 i1 j1 k1) bc ->
  ((exists f, 0 <= f < 6 /\ b_kind (bc f) <> 1) \/ (0 < alpha)%Qc) ->
  (forall i j k, patch3 i0 j0 k0 i1 j1 k1 i j k -> (r i j k <= s i j k)%Qc) ->
  forall i j k, patch3 i0 j0 k0 i1 j1 k1 i j k -> (w i j k <= z i j k)%Qc.
Proof. exact @acompare_v2_3d. Qed.
Print Assumptions C75_compare_v2_3d.

Example C75_compare_v2_3d_example :
  filled_v2_3d (S := QcS) 0 0 0 1 1 0 ex_h (ex_q 2) (0%nat, 0) (1%nat, 0) (2%nat, 0) 1 (4%nat, 0) (5%nat, 0) (6%nat, 0) (7%nat, 0) (ex_q 0) 0 (8%nat, 0) (ex_bk 5) (ex_so 48 ex_flat) (kr_v2_3d 5 ex_flat) (kw_v2_3d 5 ex_flat) v0_v2_3d v1_v2_3d v2_v2_3d /\
  filled_v2_3d (S := QcS) 0 0 0 1 1 0 ex_h (ex_q 2) (0%nat, 0) (1%nat, 0) (2%nat, 0) 1 (4%nat, 0) (5%nat, 0) (6%nat, 0) (7%nat, 0) (ex_q 0) 0 (8%nat, 0) (ex_bk 5) (ex_so 48 ex_high) (kr_v2_3d 5 ex_high) (kw_v2_3d 5 ex_high) v0_v2_3d v1_v2_3d v2_v2_3d /\
  (0 < (ex_q 2))%Qc /\
  (forall d, 0 <= d < 3 -> (0 < ex_h d)%Qc) /\
  (0 <= (ex_q 0))%Qc /\
  (forall i j k, 0 <= i <= 1 + 1 -> 0 <= j <= 1 -> 0 <= k <= 0 -> (0 < v0_v2_3d i j k)%Qc) /\
  (forall i j k, 0 <= i <= 1 -> 0 <= j <= 1 + 1 -> 0 <= k <= 0 -> (0 < v1_v2_3d i j k)%Qc) /\
  (forall i j k, 0 <= i <= 1 -> 0 <= j <= 1 -> 0 <= k <= 0 + 1 -> (0 < v2_v2_3d i j k)%Qc) /\
  (forall f, 0 <= f < 6 -> sound true ((ex_bk 5) f)) /\
  roomy 3 (ends3 0 0 0) (ends3 1 1 0) (ex_bk 5) /\
  (exists f, 0 <= f < 6 /\ b_kind (ex_bk 5 f) <> 1) /\
  (forall i j k, patch3 0 0 0 1 1 0 i j k -> (kr_v2_3d 5 ex_flat i j k <= kr_v2_3d 5 ex_high i j k)%Qc).
Proof.
  split; [exact kex_flat_v2_3d|].
  split; [exact kex_high_v2_3d|].
  split; [now apply lt|].
  split; [exact (ex_h_pos 3)|].
  split; [now apply le|].
  split; [exact kv0_v2_3d|].
  split; [exact kv1_v2_3d|].
  split; [exact kv2_v2_3d|].
  split; [intros f _; apply ex_bk_sound|].
  split; [exact kroomy_v2_3d|].
  split; [exists 5; split; [lia|discriminate]|].
  exact kmore_v2_3d.
Qed.

Theorem C75_compare_poisson_3d : forall i0 j0 k0 i1 j1 k1 (dx : Z -> Qc) (beta : Qc) gcw u f0 f1 f2 rgcw res bc (m n : mem QcS) (r w s z : Z -> Z -> Z -> Qc),
  filled_poisson_3d (S := QcS) i0 j0 k0 i1 j1 k1 dx beta gcw u f0 f1 f2 rgcw res bc m r w ->
  filled_poisson_3d (S := QcS) i0 j0 k0 i1 j1 k1 dx beta gcw u f0 f1 f2 rgcw res bc n s z ->
  (0 < beta)%Qc ->
  (forall d, 0 <= d < 3 -> (0 < dx d)%Qc) ->
  (forall f, 0 <= f < 6 -> sound false (bc f)) ->
  roomy 3 (ends3 i0 j0 k0) (ends3 i1 j1 k1) bc ->
  (exists f, 0 <= f < 6 /\ b_kind (bc f) <> 1) ->
  (forall i j k, patch3 i0 j0 k0 i1 j1 k1 i j k -> (r i j k <= s i j k)%Qc) ->
  forall i j k, patch3 i0 j0 k0 i1 j1 k1 i j k -> (w i j k <= z i j k)%Qc.
Proof. exact @acompare_poisson_3d. Qed.
Print Assumptions C75_compare_poisson_3d.

Example C75_compare_poisson_3d_example :
  filled_poisson_3d (S := QcS) 0 0 0 1 1 0 ex_h (ex_q 2) 1 (4%nat, 0) (5%nat, 0) (6%nat, 0) (7%nat, 0) 0 (8%nat, 0) (ex_bk 5) (ex_so 48 ex_flat) (kr_poisson_3d 5 ex_flat) (kw_poisson_3d 5 ex_flat)  /\
  filled_poisson_3d (S := QcS) 0 0 0 1 1 0 ex_h (ex_q 2) 1 (4%nat, 0) (5%nat, 0) (6%nat, 0) (7%nat, 0) 0 (8%nat, 0) (ex_bk 5) (ex_so 48 ex_high) (kr_poisson_3d 5 ex_high) (kw_poisson_3d 5 ex_high)  /\
  (0 < (ex_q 2))%Qc /\
  (forall d, 0 <= d < 3 -> (0 < ex_h d)%Qc) /\
  (forall f, 0 <= f < 6 -> sound false ((ex_bk 5) f)) /\
  roomy 3 (ends3 0 0 0) (ends3 1 1 0) (ex_bk 5) /\
  (exists f, 0 <= f < 6 /\ b_kind (ex_bk 5 f) <> 1) /\
  (forall i j k, patch3 0 0 0 1 1 0 i j k -> (kr_poisson_3d 5 ex_flat i j k <= kr_poisson_3d 5 ex_high i j k)%Qc).
Proof.
  split; [exact kex_flat_poisson_3d|].
  split; [exact kex_high_poisson_3d|].
  split; [now apply lt|].
  split; [exact (ex_h_pos 3)|].
  split; [intros f _; apply ex_bk_sound|].
  split; [exact kroomy_poisson_3d|].
  split; [exists 5; split; [lia|discriminate]|].
  exact kmore_poisson_3d.
Qed.

(** A solution, in memory. *)

Theorem C75_solve_v1_1d : forall i0 i1 (dx : Z -> Qc) (beta : Qc) b0 gcw u f0 (alpha : Qc) agcw a rgcw res bc (m : mem QcS) (r w c v0 f : Z -> Qc),
  filled_v1_1d (S := QcS) i0 i1 dx beta b0 gcw u f0 alpha agcw a rgcw res bc m r w c v0 ->
  (0 < beta)%Qc ->
  (forall d, 0 <= d < 1 -> (0 < dx d)%Qc) ->
  (0 <= alpha)%Qc ->
  (forall i, patch1 i0 i1 i -> (0 <= c i)%Qc) ->
  (forall i, i0 <= i <= i1 + 1 -> (0 < v0 i)%Qc) ->
  (forall f, 0 <= f < 2 -> sound true (bc f)) ->
  roomy 1 (ends1 i0) (ends1 i1) bc ->
  ((exists f, 0 <= f < 2 /\ b_kind (bc f) <> 1) \/ (0 < alpha)%Qc /\ (exists i, patch1 i0 i1 i /\ (0 < c i)%Qc)) ->
  exists (n : mem QcS) (z : Z -> Qc), filled_v1_1d (S := QcS) i0 i1 dx beta b0 gcw u f0 alpha agcw a rgcw res bc n f z c v0 /\
    shape n = shape m /\ ints n = ints m /\
    (forall p, (forall i, patch1 i0 i1 i -> faddr (mkFa u (CELL1d i0 i1 gcw)) [i] <> p) -> load n p = load m p).
Proof. exact @asolve_v1_1d. Qed.
Print Assumptions C75_solve_v1_1d.

Example C75_solve_v1_1d_example :
  filled_v1_1d (S := QcS) 0 1 ex_h (ex_q 2) (0%nat, 0) 1 (4%nat, 0) (5%nat, 0) (ex_q 0) 0 (3%nat, 0) 0 (8%nat, 0) (ex_bk 1) (ex_so 4 ex_any) (kr_v1_1d 1 ex_any) (kw_v1_1d 1 ex_any) c_v1_1d v0_v1_1d /\
  (0 < (ex_q 2))%Qc /\
  (forall d, 0 <= d < 1 -> (0 < ex_h d)%Qc) /\
  (0 <= (ex_q 0))%Qc /\
  (forall i, patch1 0 1 i -> (0 <= c_v1_1d i)%Qc) /\
  (forall i, 0 <= i <= 1 + 1 -> (0 < v0_v1_1d i)%Qc) /\
  (forall f, 0 <= f < 2 -> sound true ((ex_bk 1) f)) /\
  roomy 1 (ends1 0) (ends1 1) (ex_bk 1) /\
  (exists f, 0 <= f < 2 /\ b_kind (ex_bk 1 f) <> 1).
Proof.
  split; [exact kex_any_v1_1d|].
  split; [now apply lt|].
  split; [exact (ex_h_pos 1)|].
  split; [now apply le|].
  split; [exact cpos_v1_1d|].
  split; [exact kv0_v1_1d|].
  split; [intros f _; apply ex_bk_sound|].
  split; [exact kroomy_v1_1d|].
  exists 1; split; [lia|discriminate].
Qed.

Theorem C75_solve_v2_1d : forall i0 i1 (dx : Z -> Qc) (beta : Qc) b0 gcw u f0 (alpha : Qc) rgcw res bc (m : mem QcS) (r w v0 f : Z -> Qc),
  filled_v2_1d (S := QcS) i0 i1 dx beta b0 gcw u f0 alpha rgcw res bc m r w v0 ->
  (0 < beta)%Qc ->
  (forall d, 0 <= d < 1 -> (0 < dx d)%Qc) ->
  (0 <= alpha)%Qc ->
  (forall i, i0 <= i <= i1 + 1 -> (0 < v0 i)%Qc) ->
  (forall f, 0 <= f < 2 -> sound true (bc f)) ->
  roomy 1 (ends1 i0) (ends1 i1) bc ->
  ((exists f, 0 <= f < 2 /\ b_kind (bc f) <> 1) \/ (0 < alpha)%Qc) ->
  exists (n : mem QcS) (z : Z -> Qc), filled_v2_1d (S := QcS) i0 i1 dx beta b0 gcw u f0 alpha rgcw res bc n f z v0 /\
    shape n = shape m /\ ints n = ints m /\
    (forall p, (forall i, patch1 i0 i1 i -> faddr (mkFa u (CELL1d i0 i1 gcw)) [i] <> p) -> load n p = load m p).
Proof. exact @asolve_v2_1d. Qed.
Print Assumptions C75_solve_v2_1d.

Example C75_solve_v2_1d_example :
  filled_v2_1d (S := QcS) 0 1 ex_h (ex_q 2) (0%nat, 0) 1 (4%nat, 0) (5%nat, 0) (ex_q 0) 0 (8%nat, 0) (ex_bk 1) (ex_so 4 ex_any) (kr_v2_1d 1 ex_any) (kw_v2_1d 1 ex_any) v0_v2_1d /\
  (0 < (ex_q 2))%Qc /\
  (forall d, 0 <= d < 1 -> (0 < ex_h d)%Qc) /\
  (0 <= (ex_q 0))%Qc /\
  (forall i, 0 <= i <= 1 + 1 -> (0 < v0_v2_1d i)%Qc) /\
  (forall f, 0 <= f < 2 -> sound true ((ex_bk 1) f)) /\
  roomy 1 (ends1 0) (ends1 1) (ex_bk 1) /\
  (exists f, 0 <= f < 2 /\ b_kind (ex_bk 1 f) <> 1).
Proof.
  split; [exact kex_any_v2_1d|].
  split; [now apply lt|].
  split; [exact (ex_h_pos 1)|].
  split; [now apply le|].
  split; [exact kv0_v2_1d|].
  split; [intros f _; apply ex_bk_sound|].
  split; [exact kroomy_v2_1d|].
  exists 1; split; [lia|discriminate].
Qed.

Theorem C75_solve_poisson_1d : forall i0 i1 (dx : Z -> Qc) (beta : Qc) gcw u f0 rgcw res bc (m : mem QcS) (r w f : Z -> Qc),
  filled_poisson_1d (S := QcS) i0 i1 dx beta gcw u f0 rgcw res bc m r w ->
  (0 < beta)%Qc ->
  (forall d, 0 <= d < 1 -> (0 < dx d)%Qc) ->
  (forall f, 0 <= f < 2 -> sound false (bc f)) ->
  roomy 1 (ends1 i0) (ends1 i1) bc ->
  (exists f, 0 <= f < 2 /\ b_kind (bc f) <> 1) ->
  exists (n : mem QcS) (z : Z -> Qc), filled_poisson_1d (S := QcS) i0 i1 dx beta gcw u f0 rgcw res bc n f z /\
    shape n = shape m /\ ints n = ints m /\
    (forall p, (forall i, patch1 i0 i1 i -> faddr (mkFa u (CELL1d i0 i1 gcw)) [i] <> p) -> load n p = load m p).
Proof. exact @asolve_poisson_1d. Qed.
Print Assumptions C75_solve_poisson_1d.

Example C75_solve_poisson_1d_example :
  filled_poisson_1d (S := QcS) 0 1 ex_h (ex_q 2) 1 (4%nat, 0) (5%nat, 0) 0 (8%nat, 0) (ex_bk 1) (ex_so 4 ex_any) (kr_poisson_1d 1 ex_any) (kw_poisson_1d 1 ex_any)  /\
  (0 < (ex_q 2))%Qc /\
  (forall d, 0 <= d < 1 -> (0 < ex_h d)%Qc) /\
  (forall f, 0 <= f < 2 -> sound false ((ex_bk 1) f)) /\
  roomy 1 (ends1 0) (ends1 1) (ex_bk 1) /\
  (exists f, 0 <= f < 2 /\ b_kind (ex_bk 1 f) <> 1).
Proof.
  split; [exact kex_any_poisson_1d|].
  split; [now apply lt|].
  split; [exact (ex_h_pos 1)|].
  split; [intros f _; apply ex_bk_sound|].
  split; [exact kroomy_poisson_1d|].
  exists 1; split; [lia|discriminate].
Qed.

Theorem C75_solve_v1_2d : forall i0 j0 i1 j1 (dx : Z -> Qc) (beta : Qc) b0 b1 gcw u f0 f1 (alpha : Qc) agcw a rgcw res bc (m : mem QcS) (r w c v0 v1 f : Z -> Z -> Qc),
  filled_v1_2d (S := QcS) i0 j0 i1 j1 dx beta b0 b1 gcw u f0 f1 alpha agcw a rgcw res bc m r w c v0 v1 ->
  (0 < beta)%Qc ->
  (forall d, 0 <= d < 2 -> (0 < dx d)%Qc) ->
  (0 <= alpha)%Qc ->
  (forall i j, patch2 i0 j0 i1 j1 i j -> (0 <= c i j)%Qc) ->
  (forall i j, i0 <= i <= i1 + 1 -> j0 <= j <= j1 -> (0 < v0 i j)%Qc) ->
  (forall i j, i0 <= i <= i1 -> j0 <= j <= j1 + 1 -> (0 < v1 i j)%Qc) ->
  (forall f, 0 <= f < 4 -> sound true (bc f)) ->
  roomy 2 (ends2 i0 j0) (ends2 i1 j1) bc ->
  ((exists f, 0 <= f < 4 /\ b_kind (bc f) <> 1) \/ (0 < alpha)%Qc /\ (exists i j, patch2 i0 j0 i1 j1 i j /\ (0 < c i j)%Qc)) ->
  exists (n : mem QcS) (z : Z -> Z -> Qc), filled_v1_2d (S := QcS) i0 j0 i1 j1 dx beta b0 b1 gcw u f0 f1 alpha agcw a rgcw res bc n f z c v0 v1 /\
    shape n = shape m /\ ints n = ints m /\
    (forall p, (forall i j, patch2 i0 j0 i1 j1 i j -> faddr (mkFa u (CELL2d i0 j0 i1 j1 gcw)) [i; j] <> p) -> load n p = load m p).
Proof. exact @asolve_v1_2d. Qed.
Print Assumptions C75_solve_v1_2d.

Example C75_solve_v1_2d_example :
  filled_v1_2d (S := QcS) 0 0 1 1 ex_h (ex_q 2) (0%nat, 0) (1%nat, 0) 1 (4%nat, 0) (5%nat, 0) (6%nat, 0) (ex_q 0) 0 (3%nat, 0) 0 (8%nat, 0) (ex_bk 3) (ex_so 16 ex_any) (kr_v1_2d 3 ex_any) (kw_v1_2d 3 ex_any) c_v1_2d v0_v1_2d v1_v1_2d /\
  (0 < (ex_q 2))%Qc /\
  (forall d, 0 <= d < 2 -> (0 < ex_h d)%Qc) /\
  (0 <= (ex_q 0))%Qc /\
  (forall i j, patch2 0 0 1 1 i j -> (0 <= c_v1_2d i j)%Qc) /\
  (forall i j, 0 <= i <= 1 + 1 -> 0 <= j <= 1 -> (0 < v0_v1_2d i j)%Qc) /\
  (forall i j, 0 <= i <= 1 -> 0 <= j <= 1 + 1 -> (0 < v1_v1_2d i j)%Qc) /\
  (forall f, 0 <= f < 4 -> sound true ((ex_bk 3) f)) /\
  roomy 2 (ends2 0 0) (ends2 1 1) (ex_bk 3) /\
  (exists f, 0 <= f < 4 /\ b_kind (ex_bk 3 f) <> 1).
Proof.
  split; [exact kex_any_v1_2d|].
  split; [now apply lt|].
  split; [exact (ex_h_pos 2)|].
  split; [now apply le|].
  split; [exact cpos_v1_2d|].
  split; [exact kv0_v1_2d|].
  split; [exact kv1_v1_2d|].
  split; [intros f _; apply ex_bk_sound|].
  split; [exact kroomy_v1_2d|].
  exists 3; split; [lia|discriminate].
Qed.

Theorem C75_solve_v2_2d : forall i0 j0 i1 j1 (dx : Z -> Qc) (beta : Qc) b0 b1 gcw u f0 f1 (alpha : Qc) rgcw res bc (m : mem QcS) (r w v0 v1 f : Z -> Z -> Qc),
  filled_v2_2d (S := QcS) i0 j0 i1 j1 dx beta b0 b1 gcw u f0 f1 alpha rgcw res bc m r w v0 v1 ->
  (0 < beta)%Qc ->
  (forall d, 0 <= d < 2 -> (0 < dx d)%Qc) ->
  (0 <= alpha)%Qc ->
  (forall i j, i0 <= i <= i1 + 1 -> j0 <= j <= j1 -> (0 < v0 i j)%Qc) ->
  (forall i j, i0 <= i <= i1 -> j0 <= j <= j1 + 1 -> (0 < v1 i j)%Qc) ->
  (forall f, 0 <= f < 4 -> sound true (bc f)) ->
  roomy 2 (ends2 i0 j0) (ends2 i1 j1) bc ->
  ((exists f, 0 <= f < 4 /\ b_kind (bc f) <> 1) \/ (0 < alpha)%Qc) ->
  exists (n : mem QcS) (z : Z -> Z -> Qc), filled_v2_2d (S := QcS) i0 j0 i1 j1 dx beta b0 b1 gcw u f0 f1 alpha rgcw res bc n f z v0 v1 /\
    shape n = shape m /\ ints n = ints m /\
    (forall p, (forall i j, patch2 i0 j0 i1 j1 i j -> faddr (mkFa u (CELL2d i0 j0 i1 j1 gcw)) [i; j] <> p) -> load n p = load m p).
Proof. exact @asolve_v2_2d. Qed.
Print Assumptions C75_solve_v2_2d.

Example C75_solve_v2_2d_example :
  filled_v2_2d (S := QcS) 0 0 1 1 ex_h (ex_q 2) (0%nat, 0) (1%nat, 0) 1 (4%nat, 0) (5%nat, 0) (6%nat, 0) (ex_q 0) 0 (8%nat, 0) (ex_bk 3) (ex_so 16 ex_any) (kr_v2_2d 3 ex_any) (kw_v2_2d 3 ex_any) v0_v2_2d v1_v2_2d /\
  (0 < (ex_q 2))%Qc /\
  (forall d, 0 <= d < 2 -> (0 < ex_h d)%Qc) /\
  (0 <= (ex_q 0))%Qc /\
  (forall i j, 0 <= i <= 1 + 1 -> 0 <= j <= 1 -> (0 < v0_v2_2d i j)%Qc) /\
  (forall i j, 0 <= i <= 1 -> 0 <= j <= 1 + 1 -> (0 < v1_v2_2d i j)%Qc) /\
  (forall f, 0 <= f < 4 -> sound true ((ex_bk 3) f)) /\
  roomy 2 (ends2 0 0) (ends2 1 1) (ex_bk 3) /\
  (exists f, 0 <= f < 4 /\ b_kind (ex_bk 3 f) <> 1).
Proof.
  split; [exact kex_any_v2_2d|].
  split; [now apply lt|].
  split; [exact (ex_h_pos 2)|].
  split; [now apply le|].
  split; [exact kv0_v2_2d|].
  split; [exact kv1_v2_2d|].
  split; [intros f _; apply ex_bk_sound|].
  split; [exact kroomy_v2_2d|].
  exists 3; split; [lia|discriminate].
Qed.

Theorem C75_solve_poisson_2d : forall i0 j0 i1 j1 (dx : Z -> Qc) (beta : Qc) gcw u f0 f1 rgcw res bc (m : mem QcS) (r w f : Z -> Z -> Qc),
  filled_poisson_2d (S := QcS) i0 j0 i1 j1 dx beta gcw u f0 f1 rgcw res bc m r w ->
  (0 < beta)%Qc ->
  (forall d, 0 <= d < 2 -> (0 < dx d)%Qc) ->
  (forall f, 0 <= f < 4 -> sound false (bc f)) ->
  roomy 2 (ends2 i0 j0) (ends2 i1 j1) bc ->
  (exists f, 0 <= f < 4 /\ b_kind (bc f) <> 1) ->
  exists (n : mem QcS) (z : Z -> Z -> Qc), filled_poisson_2d (S := QcS) i0 j0 i1 j1 dx beta gcw u f0 f1 rgcw res bc n f z /\
    shape n = shape m /\ ints n = ints m /\
    (forall p, (forall i j, patch2 i0 j0 i1 j1 i j -> faddr (mkFa u (CELL2d i0 j0 i1 j1 gcw)) [i; j] <> p) -> load n p = load m p).
Proof. exact @asolve_poisson_2d. Qed.
Print Assumptions C75_solve_poisson_2d.

Example C75_solve_poisson_2d_example :
  filled_poisson_2d (S := QcS) 0 0 1 1 ex_h (ex_q 2) 1 (4%nat, 0) (5%nat, 0) (6%nat, 0) 0 (8%nat, 0) (ex_bk 3) (ex_so 16 ex_any) (kr_poisson_2d 3 ex_any) (kw_poisson_2d 3 ex_any)  /\
  (0 < (ex_q 2))%Qc /\
  (forall d, 0 <= d < 2 -> (0 < ex_h d)%Qc) /\
  (forall f, 0 <= f < 4 -> sound false ((ex_bk 3) f)) /\
  roomy 2 (ends2 0 0) (ends2 1 1) (ex_bk 3) /\
  (exists f, 0 <= f < 4 /\ b_kind (ex_bk 3 f) <> 1).
Proof.
  split; [exact kex_any_poisson_2d|].
  split; [now apply lt|].
  split; [exact (ex_h_pos 2)|].
  split; [intros f _; apply ex_bk_sound|].
  split; [exact kroomy_poisson_2d|].
  exists 3; split; [lia|discriminate].
Qed.

Theorem C75_solve_v1_3d : forall i0 j0 k0 i1 j1 k1 (dx : Z -> Qc) (beta : Qc) b0 b1 b2 gcw u f0 f1 f2 (alpha : Qc) agcw a rgcw res bc (m : mem QcS) (r w c v0 v1 v2 f : Z -> Z -> Z -> Qc),
  filled_v1_3d (S := QcS) i0 j0 k0 i1 j1 k1 dx beta b0 b1 b2 gcw u f0 f1 f2 alpha agcw a rgcw res bc m r w c v0 v1 v2 ->
  (0 < beta)%Qc ->
  (forall d, 0 <= d < 3 -> (0 < dx d)%Qc) ->
  (0 <= alpha)%Qc ->
  (forall i j k, patch3 i0 j0 k0 i1 j1 k1 i j k -> (0 <= c i j k)%Qc) ->
  (forall i j k, i0 <= i <= i1 + 1 -> j0 <= j <= j1 -> k0 <= k <= k1 -> (0 < v0 i j k)%Qc) ->
  (forall i j k, i0 <= i <= i1 -> j0 <= j <= j1 + 1 -> k0 <= k <= k1 -> (0 < v1 i j k)%Qc) ->
  (forall i j k, i0 <= i <= i1 -> j0 <= j <= j1 -> k0 <= k <= k1 + 1 -> (0 < v2 i j k)%Qc) ->
  (forall f, 0 <= f < 6 -> sound true (bc f)) ->
  roomy 3 (ends3 i0 j0 k0) (ends3 i1 j1 k1) bc ->
  ((exists f, 0 <= f < 6 /\ b_kind (bc f) <> 1) \/ (0 < alpha)%Qc /\ (exists i j k, patch3 i0 j0 k0 i1 j1 k1 i j k /\ (0 < c i j k)%Qc)) ->
  exists (n : mem QcS) (z : Z -> Z -> Z -> Qc), filled_v1_3d (S := QcS) i0 j0 k0 i1 j1 k1 dx beta b0 b1 b2 gcw u f0 f1 f2 alpha agcw a rgcw res bc n f z c v0 v1 v2 /\
    shape n = shape m /\ ints n = ints m /\
    (forall p, (forall i j k, patch3 i0 j0 k0 i1 j1 k1 i j k -> faddr (mkFa u (CELL3d i0 j0 k0 i1 j1 k1 gcw)) [i; j; k] <> p) -> load n p = load m p).
Proof. exact @asolve_v1_3d. Qed.
Print Assumptions C75_solve_v1_3d.

Example C75_solve_v1_3d_example :
  filled_v1_3d (S := QcS) 0 0 0 1 1 0 ex_h (ex_q 2) (0%nat, 0) (1%nat, 0) (2%nat, 0) 1 (4%nat, 0) (5%nat, 0) (6%nat, 0) (7%nat, 0) (ex_q 0) 0 (3%nat, 0) 0 (8%nat, 0) (ex_bk 5) (ex_so 48 ex_any) (kr_v1_3d 5 ex_any) (kw_v1_3d 5 ex_any) c_v1_3d v0_v1_3d v1_v1_3d v2_v1_3d /\
  (0 < (ex_q 2))%Qc /\
  (forall d, 0 <= d < 3 -> (0 < ex_h d)%Qc) /\
  (0 <= (ex_q 0))%Qc /\
  (forall i j k, patch3 0 0 0 1 1 0 i j k -> (0 <= c_v1_3d i j k)%Qc) /\
  (forall i j k, 0 <= i <= 1 + 1 -> 0 <= j <= 1 -> 0 <= k <= 0 -> (0 < v0_v1_3d i j k)%Qc) /\
  (forall i j k, 0 <= i <= 1 -> 0 <= j <= 1 + 1 -> 0 <= k <= 0 -> (0 < v1_v1_3d i j k)%Qc) /\
  (forall i j k, 0 <= i <= 1 -> 0 <= j <= 1 -> 0 <= k <= 0 + 1 -> (0 < v2_v1_3d i j k)%Qc) /\
  (forall f, 0 <= f < 6 -> sound true ((ex_bk 5) f)) /\
  roomy 3 (ends3 0 0 0) (ends3 1 1 0) (ex_bk 5) /\
  (exists f, 0 <= f < 6 /\ b_kind (ex_bk 5 f) <> 1).
Proof.
  split; [exact kex_any_v1_3d|].
  split; [now apply lt|].
  split; [exact (ex_h_pos 3)|].
  split; [now apply le|].
  split; [exact cpos_v1_3d|].
  split; [exact kv0_v1_3d|].
  split; [exact kv1_v1_3d|].
  split; [exact kv2_v1_3d|].
  split; [intros f _; apply ex_bk_sound|].
  split; [exact kroomy_v1_3d|].
  exists 5; split; [lia|discriminate].
Qed.

Theorem C75_solve_v2_3d : forall i0 j0 k0 i1 j1 k1 (dx : Z -> Qc) (beta : Qc) b0 b1 b2 gcw u f0 f1 f2 (alpha : Qc) rgcw res bc (m : mem QcS) (r w v0 v1 v2 f : Z -> Z -> Z -> Qc),
  filled_v2_3d (S := QcS) i0 j0 k0 i1 j1 k1 dx beta b0 b1 b2 gcw u f0 f1 f2 alpha rgcw res bc m r w v0 v1 v2 ->
  (0 < beta)%Qc ->
  (forall d, 0 <= d < 3 -> (0 < dx d)%Qc) ->
  (0 <= alpha)%Qc ->
  (forall i j k, i0 <= i <= i1 + 1 -> j0 <= j <= j1 -> k0 <= k <= k1 -> (0 < v0 i j k)%Qc) ->
  (forall i j k, i0 <= i <= i1 -> j0 <= j <= j1 + 1 -> k0 <= k <= k1 -> (0 < v1 i j k)%Qc) ->
  (forall i j k, i0 <= i <= i1 -> j0 <= j <= j1 -> k0 <= k <= k1 + 1 -> (0 < v2 i j k)%Qc) ->
  (forall f, 0 <= f < 6 -> sound true (bc f)) ->
  roomy 3 (ends3 i0 j0 k0) (ends3 i1 j1 k1) bc ->
  ((exists f, 0 <= f < 6 /\ b_kind (bc f) <> 1) \/ (0 < alpha)%Qc) ->
  exists (n : mem QcS) (z : Z -> Z -> Z -> Qc), filled_v2_3d (S := QcS) i0 j0 k0 i1 j1 k1 dx beta b0 b1 b2 gcw u f0 f1 f2 alpha rgcw res bc n f z v0 v1 v2 /\
    shape n = shape m /\ ints n = ints m /\
    (forall p, (forall i j k, patch3 i0 j0 k0 i1 j1 k1 i j k -> faddr (mkFa u (CELL3d i0 j0 k0 i1 j1 k1 gcw)) [i; j; k] <> p) -> load n p = load m p).
Proof. exact @asolve_v2_3d. Qed.
Print Assumptions C75_solve_v2_3d.

Example C75_solve_v2_3d_example :
  filled_v2_3d (S := QcS) 0 0 0 1 1 0 ex_h (ex_q 2) (0%nat, 0) (1%nat, 0) (2%nat, 0) 1 (4%nat, 0) (5%nat, 0) (6%nat, 0) (7%nat, 0) (ex_q 0) 0 (8%nat, 0) (ex_bk 5) (ex_so 48 ex_any) (kr_v2_3d 5 ex_any) (kw_v2_3d 5 ex_any) v0_v2_3d v1_v2_3d v2_v2_3d /\
  (0 < (ex_q 2))%Qc /\
  (forall d, 0 <= d < 3 -> (0 < ex_h d)%Qc) /\
  (0 <= (ex_q 0))%Qc /\
  (forall i j k, 0 <= i <= 1 + 1 -> 0 <= j <= 1 -> 0 <= k <= 0 -> (0 < v0_v2_3d i j k)%Qc) /\
  (forall i j k, 0 <= i <= 1 -> 0 <= j <= 1 + 1 -> 0 <= k <= 0 -> (0 < v1_v2_3d i j k)%Qc) /\
  (forall i j k, 0 <= i <= 1 -> 0 <= j <= 1 -> 0 <= k <= 0 + 1 -> (0 < v2_v2_3d i j k)%Qc) /\
  (forall f, 0 <= f < 6 -> sound true ((ex_bk 5) f)) /\
  roomy 3 (ends3 0 0 0) (ends3 1 1 0) (ex_bk 5) /\
  (exists f, 0 <= f < 6 /\ b_kind (ex_bk 5 f) <> 1).
Proof.
  split; [exact kex_any_v2_3d|].
  split; [now apply lt|].
  split; [exact (ex_h_pos 3)|].
  split; [now apply le|].
  split; [exact kv0_v2_3d|].
  split; [exact kv1_v2_3d|].
  split; [exact kv2_v2_3d|].
  split; [intros f _; apply ex_bk_sound|].
  split; [exact kroomy_v2_3d|].
  exists 5; split; [lia|discriminate].
Qed.

Theorem C75_solve_poisson_3d : forall i0 j0 k0 i1 j1 k1 (dx : Z -> Qc) (beta : Qc) gcw u f0 f1 f2 rgcw res bc (m : mem QcS) (r w f : Z -> Z -> Z -> Qc),
  filled_poisson_3d (S := QcS) i0 j0 k0 i1 j1 k1 dx beta gcw u f0 f1 f2 rgcw res bc m r w ->
  (0 < beta)%Qc ->
  (forall d, 0 <= d < 3 -> (0 < dx d)%Qc) ->
  (forall f, 0 <= f < 6 -> sound false (bc f)) ->
  roomy 3 (ends3 i0 j0 k0) (ends3 i1 j1 k1) bc ->
  (exists f, 0 <= f < 6 /\ b_kind (bc f) <> 1) ->
  exists (n : mem QcS) (z : Z -> Z -> Z -> Qc), filled_poisson_3d (S := QcS) i0 j0 k0 i1 j1 k1 dx beta gcw u f0 f1 f2 rgcw res bc n f z /\
    shape n = shape m /\ ints n = ints m /\
    (forall p, (forall i j k, patch3 i0 j0 k0 i1 j1 k1 i j k -> faddr (mkFa u (CELL3d i0 j0 k0 i1 j1 k1 gcw)) [i; j; k] <> p) -> load n p = load m p).
Proof. exact @asolve_poisson_3d. Qed.
Print Assumptions C75_solve_poisson_3d.

Example C75_solve_poisson_3d_example :
  filled_poisson_3d (S := QcS) 0 0 0 1 1 0 ex_h (ex_q 2) 1 (4%nat, 0) (5%nat, 0) (6%nat, 0) (7%nat, 0) 0 (8%nat, 0) (ex_bk 5) (ex_so 48 ex_any) (kr_poisson_3d 5 ex_any) (kw_poisson_3d 5 ex_any)  /\
  (0 < (ex_q 2))%Qc /\
  (forall d, 0 <= d < 3 -> (0 < ex_h d)%Qc) /\
  (forall f, 0 <= f < 6 -> sound false ((ex_bk 5) f)) /\
  roomy 3 (ends3 0 0 0) (ends3 1 1 0) (ex_bk 5) /\
  (exists f, 0 <= f < 6 /\ b_kind (ex_bk 5 f) <> 1).
Proof.
  split; [exact kex_any_poisson_3d|].
  split; [now apply lt|].
  split; [exact (ex_h_pos 3)|].
  split; [intros f _; apply ex_bk_sound|].
  split; [exact kroomy_poisson_3d|].
  exists 5; split; [lia|discriminate].
Qed.

(** The data of a closed problem sum to zero. *)

Theorem C75_closed_sum_v1_1d : forall i0 i1 (dx : Z -> Qc) (beta : Qc) b0 gcw u f0 (alpha : Qc) agcw a rgcw res bc (m : mem QcS) (r w c v0 : Z -> Qc),
  filled_v1_1d (S := QcS) i0 i1 dx beta b0 gcw u f0 alpha agcw a rgcw res bc m r w c v0 ->
  (0 < beta)%Qc ->
  (forall d, 0 <= d < 1 -> (0 < dx d)%Qc) ->
  (alpha = 0%Qc \/ forall i, patch1 i0 i1 i -> c i = 0%Qc) ->
  (forall i, i0 <= i <= i1 + 1 -> (0 < v0 i)%Qc) ->
  (forall f, 0 <= f < 2 -> b_kind (bc f) = 1) ->
  i0 <= i1 ->
  total (S := QcS) i0 i1 r = 0%Qc.
Proof. exact @csum_v1_1d. Qed.
Print Assumptions C75_closed_sum_v1_1d.

Example C75_closed_sum_v1_1d_example :
  filled_v1_1d (S := QcS) 0 1 ex_h (ex_q 2) (0%nat, 0) 1 (4%nat, 0) (5%nat, 0) (ex_q 0) 0 (3%nat, 0) 0 (8%nat, 0) (ex_bk (-1)) (ex_so 4 ex_any) (kr_v1_1d (-1) ex_any) (kw_v1_1d (-1) ex_any) c_v1_1d v0_v1_1d /\
  (0 < (ex_q 2))%Qc /\
  (forall d, 0 <= d < 1 -> (0 < ex_h d)%Qc) /\
  ((ex_q 0) = 0%Qc \/ forall i, patch1 0 1 i -> c_v1_1d i = 0%Qc) /\
  (forall i, 0 <= i <= 1 + 1 -> (0 < v0_v1_1d i)%Qc) /\
  (forall f, 0 <= f < 2 -> b_kind ((ex_bk (-1)) f) = 1) /\
  0 <= 1.
Proof.
  split; [exact nex_any_v1_1d|].
  split; [now apply lt|].
  split; [exact (ex_h_pos 1)|].
  split; [left; now apply same|].
  split; [exact kv0_v1_1d|].
  split; [intros f Hf; apply ex_bk_closed; lia|].
  lia.
Qed.

Theorem C75_closed_sum_v2_1d : forall i0 i1 (dx : Z -> Qc) (beta : Qc) b0 gcw u f0 (alpha : Qc) rgcw res bc (m : mem QcS) (r w v0 : Z -> Qc),
  filled_v2_1d (S := QcS) i0 i1 dx beta b0 gcw u f0 alpha rgcw res bc m r w v0 ->
  (0 < beta)%Qc ->
  (forall d, 0 <= d < 1 -> (0 < dx d)%Qc) ->
  alpha = 0%Qc ->
  (forall i, i0 <= i <= i1 + 1 -> (0 < v0 i)%Qc) ->
  (forall f, 0 <= f < 2 -> b_kind (bc f) = 1) ->
  i0 <= i1 ->
  total (S := QcS) i0 i1 r = 0%Qc.
Proof. exact @csum_v2_1d. Qed.
Print Assumptions C75_closed_sum_v2_1d.

Example C75_closed_sum_v2_1d_example :
  filled_v2_1d (S := QcS) 0 1 ex_h (ex_q 2) (0%nat, 0) 1 (4%nat, 0) (5%nat, 0) (ex_q 0) 0 (8%nat, 0) (ex_bk (-1)) (ex_so 4 ex_any) (kr_v2_1d (-1) ex_any) (kw_v2_1d (-1) ex_any) v0_v2_1d /\
  (0 < (ex_q 2))%Qc /\
  (forall d, 0 <= d < 1 -> (0 < ex_h d)%Qc) /\
  (ex_q 0) = 0%Qc /\
  (forall i, 0 <= i <= 1 + 1 -> (0 < v0_v2_1d i)%Qc) /\
  (forall f, 0 <= f < 2 -> b_kind ((ex_bk (-1)) f) = 1) /\
  0 <= 1.
Proof.
  split; [exact nex_any_v2_1d|].
  split; [now apply lt|].
  split; [exact (ex_h_pos 1)|].
  split; [now apply same|].
  split; [exact kv0_v2_1d|].
  split; [intros f Hf; apply ex_bk_closed; lia|].
  lia.
Qed.

Theorem C75_closed_sum_poisson_1d : forall i0 i1 (dx : Z -> Qc) (beta : Qc) gcw u f0 rgcw res bc (m : mem QcS) (r w : Z -> Qc),
  filled_poisson_1d (S := QcS) i0 i1 dx beta gcw u f0 rgcw res bc m r w ->
  (0 < beta)%Qc ->
  (forall d, 0 <= d < 1 -> (0 < dx d)%Qc) ->
  (forall f, 0 <= f < 2 -> b_kind (bc f) = 1) ->
  i0 <= i1 ->
  total (S := QcS) i0 i1 r = 0%Qc.
Proof. exact @csum_poisson_1d. Qed.
Print Assumptions C75_closed_sum_poisson_1d.

Example C75_closed_sum_poisson_1d_example :
  filled_poisson_1d (S := QcS) 0 1 ex_h (ex_q 2) 1 (4%nat, 0) (5%nat, 0) 0 (8%nat, 0) (ex_bk (-1)) (ex_so 4 ex_any) (kr_poisson_1d (-1) ex_any) (kw_poisson_1d (-1) ex_any)  /\
  (0 < (ex_q 2))%Qc /\
  (forall d, 0 <= d < 1 -> (0 < ex_h d)%Qc) /\
  (forall f, 0 <= f < 2 -> b_kind ((ex_bk (-1)) f) = 1) /\
  0 <= 1.
Proof.
  split; [exact nex_any_poisson_1d|].
  split; [now apply lt|].
  split; [exact (ex_h_pos 1)|].
  split; [intros f Hf; apply ex_bk_closed; lia|].
  lia.
Qed.

Theorem C75_closed_sum_v1_2d : forall i0 j0 i1 j1 (dx : Z -> Qc) (beta : Qc) b0 b1 gcw u f0 f1 (alpha : Qc) agcw a rgcw res bc (m : mem QcS) (r w c v0 v1 : Z -> Z -> Qc),
  filled_v1_2d (S := QcS) i0 j0 i1 j1 dx beta b0 b1 gcw u f0 f1 alpha agcw a rgcw res bc m r w c v0 v1 ->
  (0 < beta)%Qc ->
  (forall d, 0 <= d < 2 -> (0 < dx d)%Qc) ->
  (alpha = 0%Qc \/ forall i j, patch2 i0 j0 i1 j1 i j -> c i j = 0%Qc) ->
  (forall i j, i0 <= i <= i1 + 1 -> j0 <= j <= j1 -> (0 < v0 i j)%Qc) ->
  (forall i j, i0 <= i <= i1 -> j0 <= j <= j1 + 1 -> (0 < v1 i j)%Qc) ->
  (forall f, 0 <= f < 4 -> b_kind (bc f) = 1) ->
  i0 <= i1 ->
  j0 <= j1 ->
  total2 (S := QcS) i0 j0 i1 j1 r = 0%Qc.
Proof. exact @csum_v1_2d. Qed.
Print Assumptions C75_closed_sum_v1_2d.

Example C75_closed_sum_v1_2d_example :
  filled_v1_2d (S := QcS) 0 0 1 1 ex_h (ex_q 2) (0%nat, 0) (1%nat, 0) 1 (4%nat, 0) (5%nat, 0) (6%nat, 0) (ex_q 0) 0 (3%nat, 0) 0 (8%nat, 0) (ex_bk (-1)) (ex_so 16 ex_any) (kr_v1_2d (-1) ex_any) (kw_v1_2d (-1) ex_any) c_v1_2d v0_v1_2d v1_v1_2d /\
  (0 < (ex_q 2))%Qc /\
  (forall d, 0 <= d < 2 -> (0 < ex_h d)%Qc) /\
  ((ex_q 0) = 0%Qc \/ forall i j, patch2 0 0 1 1 i j -> c_v1_2d i j = 0%Qc) /\
  (forall i j, 0 <= i <= 1 + 1 -> 0 <= j <= 1 -> (0 < v0_v1_2d i j)%Qc) /\
  (forall i j, 0 <= i <= 1 -> 0 <= j <= 1 + 1 -> (0 < v1_v1_2d i j)%Qc) /\
  (forall f, 0 <= f < 4 -> b_kind ((ex_bk (-1)) f) = 1) /\
  0 <= 1 /\
  0 <= 1.
Proof.
  split; [exact nex_any_v1_2d|].
  split; [now apply lt|].
  split; [exact (ex_h_pos 2)|].
  split; [left; now apply same|].
  split; [exact kv0_v1_2d|].
  split; [exact kv1_v1_2d|].
  split; [intros f Hf; apply ex_bk_closed; lia|].
  split; [lia|].
  lia.
Qed.

Theorem C75_closed_sum_v2_2d : forall i0 j0 i1 j1 (dx : Z -> Qc) (beta : Qc) b0 b1 gcw u f0 f1 (alpha : Qc) rgcw res bc (m : mem QcS) (r w v0 v1 : Z -> Z -> Qc),
  filled_v2_2d (S := QcS) i0 j0 i1 j1 dx beta b0 b1 gcw u f0 f1 alpha rgcw res bc m r w v0 v1 ->
  (0 < beta)%Qc ->
  (forall d, 0 <= d < 2 -> (0 < dx d)%Qc) ->
  alpha = 0%Qc ->
  (forall i j, i0 <= i <= i1 + 1 -> j0 <= j <= j1 -> (0 < v0 i j)%Qc) ->
  (forall i j, i0 <= i <= i1 -> j0 <= j <= j1 + 1 -> (0 < v1 i j)%Qc) ->
  (forall f, 0 <= f < 4 -> b_kind (bc f) = 1) ->
  i0 <= i1 ->
  j0 <= j1 ->
  total2 (S := QcS) i0 j0 i1 j1 r = 0%Qc.
Proof. exact @csum_v2_2d. Qed.
Print Assumptions C75_closed_sum_v2_2d.

Example C75_closed_sum_v2_2d_example :
  filled_v2_2d (S := QcS) 0 0 1 1 ex_h (ex_q 2) (0%nat, 0) (1%nat, 0) 1 (4%nat, 0) (5%nat, 0) (6%nat, 0) (ex_q 0) 0 (8%nat, 0) (ex_bk (-1)) (ex_so 16 ex_any) (kr_v2_2d (-1) ex_any) (kw_v2_2d (-1) ex_any) v0_v2_2d v1_v2_2d /\
  (0 < (ex_q 2))%Qc /\
  (forall d, 0 <= d < 2 -> (0 < ex_h d)%Qc) /\
  (ex_q 0) = 0%Qc /\
  (forall i j, 0 <= i <= 1 + 1 -> 0 <= j <= 1 -> (0 < v0_v2_2d i j)%Qc) /\
  (forall i j, 0 <= i <= 1 -> 0 <= j <= 1 + 1 -> (0 < v1_v2_2d i j)%Qc) /\
  (forall f, 0 <= f < 4 -> b_kind ((ex_bk (-1)) f) = 1) /\
  0 <= 1 /\
  0 <= 1.
Proof.
  split; [exact nex_any_v2_2d|].
  split; [now apply lt|].
  split; [exact (ex_h_pos 2)|].
  split; [now apply same|].
  split; [exact kv0_v2_2d|].
  split; [exact kv1_v2_2d|].
  split; [intros f Hf; apply ex_bk_closed; lia|].
  split; [lia|].
  lia.
Qed.

Theorem C75_closed_sum_poisson_2d : forall i0 j0 i1 j1 (dx : Z -> Qc) (beta : Qc) gcw u f0 f1 rgcw res bc (m : mem QcS) (r w : Z -> Z -> Qc),
  filled_poisson_2d (S := QcS) i0 j0 i1 j1 dx beta gcw u f0 f1 rgcw res bc m r w ->
  (0 < beta)%Qc ->
  (forall d, 0 <= d < 2 -> (0 < dx d)%Qc) ->
  (forall f, 0 <= f < 4 -> b_kind (bc f) = 1) ->
  i0 <= i1 ->
  j0 <= j1 ->
  total2 (S := QcS) i0 j0 i1 j1 r = 0%Qc.
Proof. exact @csum_poisson_2d. Qed.
Print Assumptions C75_closed_sum_poisson_2d.

Example C75_closed_sum_poisson_2d_example :
  filled_poisson_2d (S := QcS) 0 0 1 1 ex_h (ex_q 2) 1 (4%nat, 0) (5%nat, 0) (6%nat, 0) 0 (8%nat, 0) (ex_bk (-1)) (ex_so 16 ex_any) (kr_poisson_2d (-1) ex_any) (kw_poisson_2d (-1) ex_any)  /\
  (0 < (ex_q 2))%Qc /\
  (forall d, 0 <= d < 2 -> (0 < ex_h d)%Qc) /\
  (forall f, 0 <= f < 4 -> b_kind ((ex_bk (-1)) f) = 1) /\
  0 <= 1 /\
  0 <= 1.
Proof.
  split; [exact nex_any_poisson_2d|].
  split; [now apply lt|].
  split; [exact (ex_h_pos 2)|].
  split; [intros f Hf; apply ex_bk_closed; lia|].
  split; [lia|].
  lia.
Qed.

Theorem C75_closed_sum_v1_3d : forall i0 j0 k0 i1 j1 k1 (dx : Z -> Qc) (beta : Qc) b0 b1 b2 gcw u f0 f1 f2 (alpha : Qc) agcw a rgcw res bc (m : mem QcS) (r w c v0 v1 v2 : Z -> Z -> Z -> Qc),
  filled_v1_3d (S := QcS) i0 j0 k0 i1 j1 k1 dx beta b0 b1 b2 gcw u f0 f1 f2 alpha agcw a rgcw res bc m r w c v0 v1 v2 ->
  (0 < beta)%Qc ->
  (forall d, 0 <= d < 3 -> (0 < dx d)%Qc) ->
  (alpha = 0%Qc \/ forall i j k, patch3 i0 j0 k0 i1 j1 k1 i j k -> c i j k = 0%Qc) ->
  (forall i j k, i0 <= i <= i1 + 1 -> j0 <= j <= j1 -> k0 <= k <= k1 -> (0 < v0 i j k)%Qc) ->
  (forall i j k, i0 <= i <= i1 -> j0 <= j <= j1 + 1 -> k0 <= k <= k1 -> (0 < v1 i j k)%Qc) ->
  (forall i j k, i0 <= i <= i1 -> j0 <= j <= j1 -> k0 <= k <= k1 + 1 -> (0 < v2 i j k)%Qc) ->
  (forall f, 0 <= f < 6 -> b_kind (bc f) = 1) ->
  i0 <= i1 ->
  j0 <= j1 ->
  k0 <= k1 ->
  total3 (S := QcS) i0 j0 k0 i1 j1 k1 r = 0%Qc.
Proof. exact @csum_v1_3d. Qed.
Print Assumptions C75_closed_sum_v1_3d.

Example C75_closed_sum_v1_3d_example :
  filled_v1_3d (S := QcS) 0 0 0 1 1 0 ex_h (ex_q 2) (0%nat, 0) (1%nat, 0) (2%nat, 0) 1 (4%nat, 0) (5%nat, 0) (6%nat, 0) (7%nat, 0) (ex_q 0) 0 (3%nat, 0) 0 (8%nat, 0) (ex_bk (-1)) (ex_so 48 ex_any) (kr_v1_3d (-1) ex_any) (kw_v1_3d (-1) ex_any) c_v1_3d v0_v1_3d v1_v1_3d v2_v1_3d /\
  (0 < (ex_q 2))%Qc /\
  (forall d, 0 <= d < 3 -> (0 < ex_h d)%Qc) /\
  ((ex_q 0) = 0%Qc \/ forall i j k, patch3 0 0 0 1 1 0 i j k -> c_v1_3d i j k = 0%Qc) /\
  (forall i j k, 0 <= i <= 1 + 1 -> 0 <= j <= 1 -> 0 <= k <= 0 -> (0 < v0_v1_3d i j k)%Qc) /\
  (forall i j k, 0 <= i <= 1 -> 0 <= j <= 1 + 1 -> 0 <= k <= 0 -> (0 < v1_v1_3d i j k)%Qc) /\
  (forall i j k, 0 <= i <= 1 -> 0 <= j <= 1 -> 0 <= k <= 0 + 1 -> (0 < v2_v1_3d i j k)%Qc) /\
  (forall f, 0 <= f < 6 -> b_kind ((ex_bk (-1)) f) = 1) /\
  0 <= 1 /\
  0 <= 1 /\
  0 <= 0.
Proof.
  split; [exact nex_any_v1_3d|].
  split; [now apply lt|].
  split; [exact (ex_h_pos 3)|].
  split; [left; now apply same|].
  split; [exact kv0_v1_3d|].
  split; [exact kv1_v1_3d|].
  split; [exact kv2_v1_3d|].
  split; [intros f Hf; apply ex_bk_closed; lia|].
  split; [lia|].
  split; [lia|].
  lia.
Qed.

Theorem C75_closed_sum_v2_3d : forall i0 j0 k0 i1 j1 k1 (dx : Z -> Qc) (beta : Qc) b0 b1 b2 gcw u f0 f1 f2 (alpha : Qc) rgcw res bc (m : mem QcS) (r w v0 v1 v2 : Z -> Z -> Z -> Qc),
  filled_v2_3d (S := QcS) i0 j0 k0 i1 j1 k1 dx beta b0 b1 b2 gcw u f0 f1 f2 alpha rgcw res bc m r w v0 v1 v2 ->
  (0 < beta)%Qc ->
  (forall d, 0 <= d < 3 -> (0 < dx d)%Qc) ->
  alpha = 0%Qc ->
  (forall i j k, i0 <= i <= i1 + 1 -> j0 <= j <= j1 -> k0 <= k <= k1 -> (0 < v0 i j k)%Qc) ->
  (forall i j k, i0 <= i <= i1 -> j0 <= j <= j1 + 1 -> k0 <= k <= k1 -> (0 < v1 i j k)%Qc) ->
  (forall i j k, i0 <= i <= i1 -> j0 <= j <= j1 -> k0 <= k <= k1 + 1 -> (0 < v2 i j k)%Qc) ->
  (forall f, 0 <= f < 6 -> b_kind (bc f) = 1) ->
  i0 <= i1 ->
  j0 <= j1 ->
  k0 <= k1 ->
  total3 (S := QcS) i0 j0 k0 i1 j1 k1 r = 0%Qc.
Proof. exact @csum_v2_3d. Qed.
Print Assumptions C75_closed_sum_v2_3d.

Example C75_closed_sum_v2_3d_example :
  filled_v2_3d (S := QcS) 0 0 0 1 1 0 ex_h (ex_q 2) (0%nat, 0) (1%nat, 0) (2%nat, 0) 1 (4%nat, 0) (5%nat, 0) (6%nat, 0) (7%nat, 0) (ex_q 0) 0 (8%nat, 0) (ex_bk (-1)) (ex_so 48 ex_any) (kr_v2_3d (-1) ex_any) (kw_v2_3d (-1) ex_any) v0_v2_3d v1_v2_3d v2_v2_3d /\
  (0 < (ex_q 2))%Qc /\
  (forall d, 0 <= d < 3 -> (0 < ex_h d)%Qc) /\
  (ex_q 0) = 0%Qc /\
  (forall i j k, 0 <= i <= 1 + 1 -> 0 <= j <= 1 -> 0 <= k <= 0 -> (0 < v0_v2_3d i j k)%Qc) /\
  (forall i j k, 0 <= i <= 1 -> 0 <= j <= 1 + 1 -> 0 <= k <= 0 -> (0 < v1_v2_3d i j k)%Qc) /\
  (forall i j k, 0 <= i <= 1 -> 0 <= j <= 1 -> 0 <= k <= 0 + 1 -> (0 < v2_v2_3d i j k)%Qc) /\
  (forall f, 0 <= f < 6 -> b_kind ((ex_bk (-1)) f) = 1) /\
  0 <= 1 /\
  0 <= 1 /\
  0 <= 0.
Proof.
  split; [exact nex_any_v2_3d|].
  split; [now apply lt|].
  split; [exact (ex_h_pos 3)|].
  split; [now apply same|].
  split; [exact kv0_v2_3d|].
  split; [exact kv1_v2_3d|].
  split; [exact kv2_v2_3d|].
  split; [intros f Hf; apply ex_bk_closed; lia|].
  split; [lia|].
  split; [lia|].
  lia.
Qed.

Theorem C75_closed_sum_poisson_3d : forall i0 j0 k0 i1 j1 k1 (dx : Z -> Qc) (beta : Qc) gcw u f0 f1 f2 rgcw res bc (m : mem QcS) (r w : Z -> Z -> Z -> Qc),
  filled_poisson_3d (S := QcS) i0 j0 k0 i1 j1 k1 dx beta gcw u f0 f1 f2 rgcw res bc m r w ->
  (0 < beta)%Qc ->
  (forall d, 0 <= d < 3 -> (0 < dx d)%Qc) ->
  (forall f, 0 <= f < 6 -> b_kind (bc f) = 1) ->
  i0 <= i1 ->
  j0 <= j1 ->
  k0 <= k1 ->
  total3 (S := QcS) i0 j0 k0 i1 j1 k1 r = 0%Qc.
Proof. exact @csum_poisson_3d. Qed.
Print Assumptions C75_closed_sum_poisson_3d.

Example C75_closed_sum_poisson_3d_example :
  filled_poisson_3d (S := QcS) 0 0 0 1 1 0 ex_h (ex_q 2) 1 (4%nat, 0) (5%nat, 0) (6%nat, 0) (7%nat, 0) 0 (8%nat, 0) (ex_bk (-1)) (ex_so 48 ex_any) (kr_poisson_3d (-1) ex_any) (kw_poisson_3d (-1) ex_any)  /\
  (0 < (ex_q 2))%Qc /\
  (forall d, 0 <= d < 3 -> (0 < ex_h d)%Qc) /\
  (forall f, 0 <= f < 6 -> b_kind ((ex_bk (-1)) f) = 1) /\
  0 <= 1 /\
  0 <= 1 /\
  0 <= 0.
Proof.
  split; [exact nex_any_poisson_3d|].
  split; [now apply lt|].
  split; [exact (ex_h_pos 3)|].
  split; [intros f Hf; apply ex_bk_closed; lia|].
  split; [lia|].
  split; [lia|].
  lia.
Qed.

(** Two solutions of a closed problem differ by a constant. *)

Theorem C75_closed_unique_v1_1d : forall i0 i1 (dx : Z -> Qc) (beta : Qc) b0 gcw u f0 (alpha : Qc) agcw a rgcw res bc (m n : mem QcS) (r w s z c v0 : Z -> Qc),
  filled_v1_1d (S := QcS) i0 i1 dx beta b0 gcw u f0 alpha agcw a rgcw res bc m r w c v0 ->
  filled_v1_1d (S := QcS) i0 i1 dx beta b0 gcw u f0 alpha agcw a rgcw res bc n s z c v0 ->
  (0 < beta)%Qc ->
  (forall d, 0 <= d < 1 -> (0 < dx d)%Qc) ->
  (alpha = 0%Qc \/ forall i, patch1 i0 i1 i -> c i = 0%Qc) ->
  (forall i, i0 <= i <= i1 + 1 -> (0 < v0 i)%Qc) ->
  (forall f, 0 <= f < 2 -> b_kind (bc f) = 1) ->
  i0 <= i1 ->
  (forall i, patch1 i0 i1 i -> r i = s i) ->
  exists t : Qc, forall i, patch1 i0 i1 i -> z i = (w i + t)%Qc.
Proof. exact @cunique_v1_1d. Qed.
Print Assumptions C75_closed_unique_v1_1d.

Example C75_closed_unique_v1_1d_example :
  filled_v1_1d (S := QcS) 0 1 ex_h (ex_q 2) (0%nat, 0) 1 (4%nat, 0) (5%nat, 0) (ex_q 0) 0 (3%nat, 0) 0 (8%nat, 0) (ex_bk (-1)) (ex_so 4 ex_any) (kr_v1_1d (-1) ex_any) (kw_v1_1d (-1) ex_any) c_v1_1d v0_v1_1d /\
  filled_v1_1d (S := QcS) 0 1 ex_h (ex_q 2) (0%nat, 0) 1 (4%nat, 0) (5%nat, 0) (ex_q 0) 0 (3%nat, 0) 0 (8%nat, 0) (ex_bk (-1)) (ex_so 4 ex_up) (kr_v1_1d (-1) ex_up) (kw_v1_1d (-1) ex_up) c_v1_1d v0_v1_1d /\
  (0 < (ex_q 2))%Qc /\
  (forall d, 0 <= d < 1 -> (0 < ex_h d)%Qc) /\
  ((ex_q 0) = 0%Qc \/ forall i, patch1 0 1 i -> c_v1_1d i = 0%Qc) /\
  (forall i, 0 <= i <= 1 + 1 -> (0 < v0_v1_1d i)%Qc) /\
  (forall f, 0 <= f < 2 -> b_kind ((ex_bk (-1)) f) = 1) /\
  0 <= 1 /\
  (forall i, patch1 0 1 i -> kr_v1_1d (-1) ex_any i = kr_v1_1d (-1) ex_up i).
Proof.
  split; [exact nex_any_v1_1d|].
  split; [exact nex_up_v1_1d|].
  split; [now apply lt|].
  split; [exact (ex_h_pos 1)|].
  split; [left; now apply same|].
  split; [exact kv0_v1_1d|].
  split; [intros f Hf; apply ex_bk_closed; lia|].
  split; [lia|].
  exact ksame_v1_1d.
Qed.

Theorem C75_closed_unique_v2_1d : forall i0 i1 (dx : Z -> Qc) (beta : Qc) b0 gcw u f0 (alpha : Qc) rgcw res bc (m n : mem QcS) (r w s z v0 : Z -> Qc),
  filled_v2_1d (S := QcS) i0 i1 dx beta b0 gcw u f0 alpha rgcw res bc m r w v0 ->
  filled_v2_1d (S := QcS) i0 i1 dx beta b0 gcw u f0 alpha rgcw res bc n s z v0 ->
  (0 < beta)%Qc ->
  (forall d, 0 <= d < 1 -> (0 < dx d)%Qc) ->
  alpha = 0%Qc ->
  (forall i, i0 <= i <= i1 + 1 -> (0 < v0 i)%Qc) ->
  (forall f, 0 <= f < 2 -> b_kind (bc f) = 1) ->
  i0 <= i1 ->
  (forall i, patch1 i0 i1 i -> r i = s i) ->
  exists t : Qc, forall i, patch1 i0 i1 i -> z i = (w i + t)%Qc.
Proof. exact @cunique_v2_1d. Qed.
Print Assumptions C75_closed_unique_v2_1d.

Example C75_closed_unique_v2_1d_example :
  filled_v2_1d (S := QcS) 0 1 ex_h (ex_q 2) (0%nat, 0) 1 (4%nat, 0) (5%nat, 0) (ex_q 0) 0 (8%nat, 0) (ex_bk (-1)) (ex_so 4 ex_any) (kr_v2_1d (-1) ex_any) (kw_v2_1d (-1) ex_any) v0_v2_1d /\
  filled_v2_1d (S := QcS) 0 1 ex_h (ex_q 2) (0%nat, 0) 1 (4%nat, 0) (5%nat, 0) (ex_q 0) 0 (8%nat, 0) (ex_bk (-1)) (ex_so 4 ex_up) (kr_v2_1d (-1) ex_up) (kw_v2_1d (-1) ex_up) v0_v2_1d /\
  (0 < (ex_q 2))%Qc /\
  (forall d, 0 <= d < 1 -> (0 < ex_h d)%Qc) /\
  (ex_q 0) = 0%Qc /\
  (forall i, 0 <= i <= 1 + 1 -> (0 < v0_v2_1d i)%Qc) /\
  (forall f, 0 <= f < 2 -> b_kind ((ex_bk (-1)) f) = 1) /\
  0 <= 1 /\
  (forall i, patch1 0 1 i -> kr_v2_1d (-1) ex_any i = kr_v2_1d (-1) ex_up i).
Proof.
  split; [exact nex_any_v2_1d|].
  split; [exact nex_up_v2_1d|].
  split; [now apply lt|].
  split; [exact (ex_h_pos 1)|].
  split; [now apply same|].
  split; [exact kv0_v2_1d|].
  split; [intros f Hf; apply ex_bk_closed; lia|].
  split; [lia|].
  exact ksame_v2_1d.
Qed.

Theorem C75_closed_unique_poisson_1d : forall i0 i1 (dx : Z -> Qc) (beta : Qc) gcw u f0 rgcw res bc (m n : mem QcS) (r w s z : Z -> Qc),
  filled_poisson_1d (S := QcS) i0 i1 dx beta gcw u f0 rgcw res bc m r w ->
  filled_poisson_1d (S := QcS) i0 i1 dx beta gcw u f0 rgcw res bc n s z ->
  (0 < beta)%Qc ->
  (forall d, 0 <= d < 1 -> (0 < dx d)%Qc) ->
  (forall f, 0 <= f < 2 -> b_kind (bc f) = 1) ->
  i0 <= i1 ->
  (forall i, patch1 i0 i1 i -> r i = s i) ->
  exists t : Qc, forall i, patch1 i0 i1 i -> z i = (w i + t)%Qc.
Proof. exact @cunique_poisson_1d. Qed.
Print Assumptions C75_closed_unique_poisson_1d.

Example C75_closed_unique_poisson_1d_example :
  filled_poisson_1d (S := QcS) 0 1 ex_h (ex_q 2) 1 (4%nat, 0) (5%nat, 0) 0 (8%nat, 0) (ex_bk (-1)) (ex_so 4 ex_any) (kr_poisson_1d (-1) ex_any) (kw_poisson_1d (-1) ex_any)  /\
  filled_poisson_1d (S := QcS) 0 1 ex_h (ex_q 2) 1 (4%nat, 0) (5%nat, 0) 0 (8%nat, 0) (ex_bk (-1)) (ex_so 4 ex_up) (kr_poisson_1d (-1) ex_up) (kw_poisson_1d (-1) ex_up)  /\
  (0 < (ex_q 2))%Qc /\
  (forall d, 0 <= d < 1 -> (0 < ex_h d)%Qc) /\
  (forall f, 0 <= f < 2 -> b_kind ((ex_bk (-1)) f) = 1) /\
  0 <= 1 /\
  (forall i, patch1 0 1 i -> kr_poisson_1d (-1) ex_any i = kr_poisson_1d (-1) ex_up i).
Proof.
  split; [exact nex_any_poisson_1d|].
  split; [exact nex_up_poisson_1d|].
  split; [now apply lt|].
  split; [exact (ex_h_pos 1)|].
  split; [intros f Hf; apply ex_bk_closed; lia|].
  split; [lia|].
  exact ksame_poisson_1d.
Qed.

Theorem C75_closed_unique_v1_2d : forall i0 j0 i1 j1 (dx : Z -> Qc) (beta : Qc) b0 b1 gcw u f0 f1 (alpha : Qc) agcw a rgcw res bc (m n : mem QcS) (r w s z c v0 v1 : Z -> Z -> Qc),
  filled_v1_2d (S := QcS) i0 j0 i1 j1 dx beta b0 b1 gcw u f0 f1 alpha agcw a rgcw res bc m r w c v0 v1 ->
  filled_v1_2d (S := QcS) i0 j0 i1 j1 dx beta b0 b1 gcw u f0 f1 alpha agcw a rgcw res bc n s z c v0 v1 ->
  (0 < beta)%Qc ->
  (forall d, 0 <= d < 2 -> (0 < dx d)%Qc) ->
  (alpha = 0%Qc \/ forall i j, patch2 i0 j0 i1 j1 i j -> c i j = 0%Qc) ->
  (forall i j, i0 <= i <= i1 + 1 -> j0 <= j <= j1 -> (0 < v0 i j)%Qc) ->
  (forall i j, i0 <= i <= i1 -> j0 <= j <= j1 + 1 -> (0 < v1 i j)%Qc) ->
  (forall f, 0 <= f < 4 -> b_kind (bc f) = 1) ->
  i0 <= i1 ->
  j0 <= j1 ->
  (forall i j, patch2 i0 j0 i1 j1 i j -> r i j = s i j) ->
  exists t : Qc, forall i j, patch2 i0 j0 i1 j1 i j -> z i j = (w i j + t)%Qc.
Proof. exact @cunique_v1_2d. Qed.
Print Assumptions C75_closed_unique_v1_2d.

Example C75_closed_unique_v1_2d_example :
  filled_v1_2d (S := QcS) 0 0 1 1 ex_h (ex_q 2) (0%nat, 0) (1%nat, 0) 1 (4%nat, 0) (5%nat, 0) (6%nat, 0) (ex_q 0) 0 (3%nat, 0) 0 (8%nat, 0) (ex_bk (-1)) (ex_so 16 ex_any) (kr_v1_2d (-1) ex_any) (kw_v1_2d (-1) ex_any) c_v1_2d v0_v1_2d v1_v1_2d /\
  filled_v1_2d (S := QcS) 0 0 1 1 ex_h (ex_q 2) (0%nat, 0) (1%nat, 0) 1 (4%nat, 0) (5%nat, 0) (6%nat, 0) (ex_q 0) 0 (3%nat, 0) 0 (8%nat, 0) (ex_bk (-1)) (ex_so 16 ex_up) (kr_v1_2d (-1) ex_up) (kw_v1_2d (-1) ex_up) c_v1_2d v0_v1_2d v1_v1_2d /\
  (0 < (ex_q 2))%Qc /\
  (forall d, 0 <= d < 2 -> (0 < ex_h d)%Qc) /\
  ((ex_q 0) = 0%Qc \/ forall i j, patch2 0 0 1 1 i j -> c_v1_2d i j = 0%Qc) /\
  (forall i j, 0 <= i <= 1 + 1 -> 0 <= j <= 1 -> (0 < v0_v1_2d i j)%Qc) /\
  (forall i j, 0 <= i <= 1 -> 0 <= j <= 1 + 1 -> (0 < v1_v1_2d i j)%Qc) /\
  (forall f, 0 <= f < 4 -> b_kind ((ex_bk (-1)) f) = 1) /\
  0 <= 1 /\
  0 <= 1 /\
  (forall i j, patch2 0 0 1 1 i j -> kr_v1_2d (-1) ex_any i j = kr_v1_2d (-1) ex_up i j).
Proof.
  split; [exact nex_any_v1_2d|].
  split; [exact nex_up_v1_2d|].
  split; [now apply lt|].
  split; [exact (ex_h_pos 2)|].
  split; [left; now apply same|].
  split; [exact kv0_v1_2d|].
  split; [exact kv1_v1_2d|].
  split; [intros f Hf; apply ex_bk_closed; lia|].
  split; [lia|].
  split; [lia|].
  exact ksame_v1_2d.
Qed.

Theorem C75_closed_unique_v2_2d : forall i0 j0 i1 j1 (dx : Z -> Qc) (beta : Qc) b0 b1 gcw u f0 f1 (alpha : Qc) rgcw res bc (m n : mem QcS) (r w s z v0 v1 : Z -> Z -> Qc),
  filled_v2_2d (S := QcS) i0 j0 i1 j1 dx beta b0 b1 gcw u f0 f1 alpha rgcw res bc m r w v0 v1 ->
  filled_v2_2d (S := QcS) i0 j0 i1 j1 dx beta b0 b1 gcw u f0 f1 alpha rgcw res bc n s z v0 v1 ->
  (0 < beta)%Qc ->
  (forall d, 0 <= d < 2 -> (0 < dx d)%Qc) ->
  alpha = 0%Qc ->
  (forall i j, i0 <= i <= i1 + 1 -> j0 <= j <= j1 -> (0 < v0 i j)%Qc) ->
  (forall i j, i0 <= i <= i1 -> j0 <= j <= j1 + 1 -> (0 < v1 i j)%Qc) ->
  (forall f, 0 <= f < 4 -> b_kind (bc f) = 1) ->
  i0 <= i1 ->
  j0 <= j1 ->
  (forall i j, patch2 i0 j0 i1 j1 i j -> r i j = s i j) ->
  exists t : Qc, forall i j, patch2 i0 j0 i1 j1 i j -> z i j = (w i j + t)%Qc.
Proof. exact @cunique_v2_2d. Qed.
Print Assumptions C75_closed_unique_v2_2d.

Example C75_closed_unique_v2_2d_example :
  filled_v2_2d (S := QcS) 0 0 1 1 ex_h (ex_q 2) (0%nat, 0) (1%nat, 0) 1 (4%nat, 0) (5%nat, 0) (6%nat, 0) (ex_q 0) 0 (8%nat, 0) (ex_bk (-1)) (ex_so 16 ex_any) (kr_v2_2d (-1) ex_any) (kw_v2_2d (-1) ex_any) v0_v2_2d v1_v2_2d /\
  filled_v2_2d (S := QcS) 0 0 1 1 ex_h (ex_q 2) (0%nat, 0) (1%nat, 0) 1 (4%nat, 0) (5%nat, 0) (6%nat, 0) (ex_q 0) 0 (8%nat, 0) (ex_bk (-1)) (ex_so 16 ex_up) (kr_v2_2d (-1) ex_up) (kw_v2_2d (-1) ex_up) v0_v2_2d v1_v2_2d /\
  (0 < (ex_q 2))%Qc /\
  (forall d, 0 <= d < 2 -> (0 < ex_h d)%Qc) /\
  (ex_q 0) = 0%Qc /\
  (forall i j, 0 <= i <= 1 + 1 -> 0 <= j <= 1 -> (0 < v0_v2_2d i j)%Qc) /\
  (forall i j, 0 <= i <= 1 -> 0 <= j <= 1 + 1 -> (0 < v1_v2_2d i j)%Qc) /\
  (forall f, 0 <= f < 4 -> b_kind ((ex_bk (-1)) f) = 1) /\
  0 <= 1 /\
  0 <= 1 /\
  (forall i j, patch2 0 0 1 1 i j -> kr_v2_2d (-1) ex_any i j = kr_v2_2d (-1) ex_up i j).
Proof.
  split; [exact nex_any_v2_2d|].
  split; [exact nex_up_v2_2d|].
  split; [now apply lt|].
  split; [exact (ex_h_pos 2)|].
  split; [now apply same|].
  split; [exact kv0_v2_2d|].
  split; [exact kv1_v2_2d|].
  split; [intros f Hf; apply ex_bk_closed; lia|].
  split; [lia|].
  split; [lia|].
  exact ksame_v2_2d.
Qed.

Theorem C75_closed_unique_poisson_2d : forall i0 j0 i1 j1 (dx : Z -> Qc) (beta : Qc) gcw u f0 f1 rgcw res bc (m n : mem QcS) (r w s z : Z -> Z -> Qc),
  filled_poisson_2d (S := QcS) i0 j0 i1 j1 dx beta gcw u f0 f1 rgcw res bc m r w ->
  filled_poisson_2d (S := QcS) i0 j0 i1 j1 dx beta gcw u f0 f1 rgcw res bc n s z ->
  (0 < beta)%Qc ->
  (forall d, 0 <= d < 2 -> (0 < dx d)%Qc) ->
  (forall f, 0 <= f < 4 -> b_kind (bc f) = 1) ->
  i0 <= i1 ->
  j0 <= j1 ->
  (forall i j, patch2 i0 j0 i1 j1 i j -> r i j = s i j) ->
  exists t : Qc, forall i j, patch2 i0 j0 i1 j1 i j -> z i j = (w i j + t)%Qc.
Proof. exact @cunique_poisson_2d. Qed.
Print Assumptions C75_closed_unique_poisson_2d.

Example C75_closed_unique_poisson_2d_example :
  filled_poisson_2d (S := QcS) 0 0 1 1 ex_h (ex_q 2) 1 (4%nat, 0) (5%nat, 0) (6%nat, 0) 0 (8%nat, 0) (ex_bk (-1)) (ex_so 16 ex_any) (kr_poisson_2d (-1) ex_any) (kw_poisson_2d (-1) ex_any)  /\
  filled_poisson_2d (S := QcS) 0 0 1 1 ex_h (ex_q 2) 1 (4%nat, 0) (5%nat, 0) (6%nat, 0) 0 (8%nat, 0) (ex_bk (-1)) (ex_so 16 ex_up) (kr_poisson_2d (-1) ex_up) (kw_poisson_2d (-1) ex_up)  /\
  (0 < (ex_q 2))%Qc /\
  (forall d, 0 <= d < 2 -> (0 < ex_h d)%Qc) /\
  (forall f, 0 <= f < 4 -> b_kind ((ex_bk (-1)) f) = 1) /\
  0 <= 1 /\
  0 <= 1 /\
  (forall i j, patch2 0 0 1 1 i j -> kr_poisson_2d (-1) ex_any i j = kr_poisson_2d (-1) ex_up i j).
Proof.
  split; [exact nex_any_poisson_2d|].
  split; [exact nex_up_poisson_2d|].
  split; [now apply lt|].
  split; [exact (ex_h_pos 2)|].
  split; [intros f Hf; apply ex_bk_closed; lia|].
  split; [lia|].
  split; [lia|].
  exact ksame_poisson_2d.
Qed.

Theorem C75_closed_unique_v1_3d : forall i0 j0 k0 i1 j1 k1 (dx : Z -> Qc) (beta : Qc) b0 b1 b2 gcw u f0 f1 f2 (alpha : Qc) agcw a rgcw res bc (m n : mem QcS) (r w s z c v0 v1 v2 : Z -> Z -> Z -> Qc),
  filled_v1_3d (S := QcS) i0 j0 k0 i1 j1 k1 dx beta b0 b1 b2 gcw u f0 f1 f2 alpha agcw a rgcw res bc m r w c v0 v1 v2 ->
  filled_v1_3d (S := QcS) i0 j0 k0 i1 j1 k1 dx beta b0 b1 b2 gcw u f0 f1 f2 alpha agcw a rgcw res bc n s z c v0 v1 v2 ->
  (0 < beta)%Qc ->
  (forall d, 0 <= d < 3 -> (0 < dx d)%Qc) ->
  (alpha = 0%Qc \/ forall i j k, patch3 i0 j0 k0 i1 j1 k1 i j k -> c i j k = 0%Qc) ->
  (forall i j k, i0 <= i <= i1 + 1 -> j0 <= j <= j1 -> k0 <= k <= k1 -> (0 < v0 i j k)%Qc) ->
  (forall i j k, i0 <= i <= i1 -> j0 <= j <= j1 + 1 -> k0 <= k <= k1 -> (0 < v1 i j k)%Qc) ->
  (forall i j k, i0 <= i <= i1 -> j0 <= j <= j1 -> k0 <= k <= k1 + 1 -> (0 < v2 i j k)%Qc) ->
  (forall f, 0 <= f < 6 -> b_kind (bc f) = 1) ->
  i0 <= i1 ->
  j0 <= j1 ->
  k0 <= k1 ->
  (forall i j k, patch3 i0 j0 k0 i1 j1 k1 i j k -> r i j k = s i j k) ->
  exists t : Qc, forall i j k, patch3 i0 j0 k0 i1 j1 k1 i j k -> z i j k = (w i j k + t)%Qc.
Proof. exact @cunique_v1_3d. Qed.
Print Assumptions C75_closed_unique_v1_3d.

Example C75_closed_unique_v1_3d_example :
  filled_v1_3d (S := QcS) 0 0 0 1 1 0 ex_h (ex_q 2) (0%nat, 0) (1%nat, 0) (2%nat, 0) 1 (4%nat, 0) (5%nat, 0) (6%nat, 0) (7%nat, 0) (ex_q 0) 0 (3%nat, 0) 0 (8%nat, 0) (ex_bk (-1)) (ex_so 48 ex_any) (kr_v1_3d (-1) ex_any) (kw_v1_3d (-1) ex_any) c_v1_3d v0_v1_3d v1_v1_3d v2_v1_3d /\
  filled_v1_3d (S := QcS) 0 0 0 1 1 0 ex_h (ex_q 2) (0%nat, 0) (1%nat, 0) (2%nat, 0) 1 (4%nat, 0) (5%nat, 0) (6%nat, 0) (7%nat, 0) (ex_q 0) 0 (3%nat, 0) 0 (8%nat, 0) (ex_bk (-1)) (ex_so 48 ex_up) (kr_v1_3d (-1) ex_up) (kw_v1_3d (-1) ex_up) c_v1_3d v0_v1_3d v1_v1_3d v2_v1_3d /\
  (0 < (ex_q 2))%Qc /\
  (forall d, 0 <= d < 3 -> (0 < ex_h d)%Qc) /\
  ((ex_q 0) = 0%Qc \/ forall i j k, patch3 0 0 0 1 1 0 i j k -> c_v1_3d i j k = 0%Qc) /\
  (forall i j k, 0 <= i <= 1 + 1 -> 0 <= j <= 1 -> 0 <= k <= 0 -> (0 < v0_v1_3d i j k)%Qc) /\
  (forall i j k, 0 <= i <= 1 -> 0 <= j <= 1 + 1 -> 0 <= k <= 0 -> (0 < v1_v1_3d i j k)%Qc) /\
  (forall i j k, 0 <= i <= 1 -> 0 <= j <= 1 -> 0 <= k <= 0 + 1 -> (0 < v2_v1_3d i j k)%Qc) /\
  (forall f, 0 <= f < 6 -> b_kind ((ex_bk (-1)) f) = 1) /\
  0 <= 1 /\
  0 <= 1 /\
  0 <= 0 /\
  (forall i j k, patch3 0 0 0 1 1 0 i j k -> kr_v1_3d (-1) ex_any i j k = kr_v1_3d (-1) ex_up i j k).
Proof.
  split; [exact nex_any_v1_3d|].
  split; [exact nex_up_v1_3d|].
  split; [now apply lt|].
  split; [exact (ex_h_pos 3)|].
  split; [left; now apply same|].
  split; [exact kv0_v1_3d|].
  split; [exact kv1_v1_3d|].
  split; [exact kv2_v1_3d|].
  split; [intros f Hf; apply ex_bk_closed; lia|].
  split; [lia|].
  split; [lia|].
  split; [lia|].
  exact ksame_v1_3d.
Qed.

Theorem C75_closed_unique_v2_3d : forall i0 j0 k0 i1 j1 k1 (dx : Z -> Qc) (beta : Qc) b0 b1 b2 gcw u f0 f1 f2 (alpha : Qc) rgcw res bc (m n : mem QcS) (r w s z v0 v1 v2 : Z -> Z -> Z -> Qc),
  filled_v2_3d (S := QcS) i0 j0 k0 i1 j1 k1 dx beta b0 b1 b2 gcw u f0 f1 f2 alpha rgcw res bc m r w v0 v1 v2 ->
  filled_v2_3d (S := QcS) i0 j0 k0 i1 j1 k1 dx beta b0 b1 b2 gcw u f0 f1 f2 alpha rgcw res bc n s z v0 v1 v2 ->
  (0 < beta)%Qc ->
  (forall d, 0 <= d < 3 -> (0 < dx d)%Qc) ->
  alpha = 0%Qc ->
  (forall i j k, i0 <= i <= i1 + 1 -> j0 <= j <= j1 -> k0 <= k <= k1 -> (0 < v0 i j k)%Qc) ->
  (forall i j k, i0 <= i <= i1 -> j0 <= j <= j1 + 1 -> k0 <= k <= k1 -> (0 < v1 i j k)%Qc) ->
  (forall i j k, i0 <= i <= i1 -> j0 <= j <= j1 -> k0 <= k <= k1 + 1 -> (0 < v2 i j k)%Qc) ->
  (forall f, 0 <= f < 6 -> b_kind (bc f) = 1) ->
  i0 <= i1 ->
  j0 <= j1 ->
  k0 <= k1 ->
  (forall i j k, patch3 i0 j0 k0 i1 j1 k1 i j k -> r i j k = s i j k) ->
  exists t : Qc, forall i j k, patch3 i0 j0 k0 i1 j1 k1 i j k -> z i j k = (w i j k + t)%Qc.
Proof. exact @cunique_v2_3d. Qed.
Print Assumptions C75_closed_unique_v2_3d.

Example C75_closed_unique_v2_3d_example :
  filled_v2_3d (S := QcS) 0 0 0 1 1 0 ex_h (ex_q 2) (0%nat, 0) (1%nat, 0) (2%nat, 0) 1 (4%nat, 0) (5%nat, 0) (6%nat, 0) (7%nat, 0) (ex_q 0) 0 (8%nat, 0) (ex_bk (-1)) (ex_so 48 ex_any) (kr_v2_3d (-1) ex_any) (kw_v2_3d (-1) ex_any) v0_v2_3d v1_v2_3d v2_v2_3d /\
  filled_v2_3d (S := QcS) 0 0 0 1 1 0 ex_h (ex_q 2) (0%nat, 0) (1%nat, 0) (2%nat, 0) 1 (4%nat, 0) (5%nat, 0) (6%nat, 0) (7%nat, 0) (ex_q 0) 0 (8%nat, 0) (ex_bk (-1)) (ex_so 48 ex_up) (kr_v2_3d (-1) ex_up) (kw_v2_3d (-1) ex_up) v0_v2_3d v1_v2_3d v2_v2_3d /\
  (0 < (ex_q 2))%Qc /\
  (forall d, 0 <= d < 3 -> (0 < ex_h d)%Qc) /\
  (ex_q 0) = 0%Qc /\
  (forall i j k, 0 <= i <= 1 + 1 -> 0 <= j <= 1 -> 0 <= k <= 0 -> (0 < v0_v2_3d i j k)%Qc) /\
  (forall i j k, 0 <= i <= 1 -> 0 <= j <= 1 + 1 -> 0 <= k <= 0 -> (0 < v1_v2_3d i j k)%Qc) /\
  (forall i j k, 0 <= i <= 1 -> 0 <= j <= 1 -> 0 <= k <= 0 + 1 -> (0 < v2_v2_3d i j k)%Qc) /\
  (forall f, 0 <= f < 6 -> b_kind ((ex_bk (-1)) f) = 1) /\
  0 <= 1 /\
  0 <= 1 /\
  0 <= 0 /\
  (forall i j k, patch3 0 0 0 1 1 0 i j k -> kr_v2_3d (-1) ex_any i j k = kr_v2_3d (-1) ex_up i j k).
Proof.
  split; [exact nex_any_v2_3d|].
  split; [exact nex_up_v2_3d|].
  split; [now apply lt|].
  split; [exact (ex_h_pos 3)|].
  split; [now apply same|].
  split; [exact kv0_v2_3d|].
  split; [exact kv1_v2_3d|].
  split; [exact kv2_v2_3d|].
  split; [intros f Hf; apply ex_bk_closed; lia|].
  split; [lia|].
  split; [lia|].
  split; [lia|].
  exact ksame_v2_3d.
Qed.

Theorem C75_closed_unique_poisson_3d : forall i0 j0 k0 i1 j1 k1 (dx : Z -> Qc) (beta : Qc) gcw u f0 f1 f2 rgcw res bc (m n : mem QcS) (r w s z : Z -> Z -> Z -> Qc),
  filled_poisson_3d (S := QcS) i0 j0 k0 i1 j1 k1 dx beta gcw u f0 f1 f2 rgcw res bc m r w ->
  filled_poisson_3d (S := QcS) i0 j0 k0 i1 j1 k1 dx beta gcw u f0 f1 f2 rgcw res bc n s z ->
  (0 < beta)%Qc ->
  (forall d, 0 <= d < 3 -> (0 < dx d)%Qc) ->
  (forall f, 0 <= f < 6 -> b_kind (bc f) = 1) ->
  i0 <= i1 ->
  j0 <= j1 ->
  k0 <= k1 ->
  (forall i j k, patch3 i0 j0 k0 i1 j1 k1 i j k -> r i j k = s i j k) ->
  exists t : Qc, forall i j k, patch3 i0 j0 k0 i1 j1 k1 i j k -> z i j k = (w i j k + t)%Qc.
Proof. exact @cunique_poisson_3d. Qed.
Print Assumptions C75_closed_unique_poisson_3d.

Example C75_closed_unique_poisson_3d_example :
  filled_poisson_3d (S := QcS) 0 0 0 1 1 0 ex_h (ex_q 2) 1 (4%nat, 0) (5%nat, 0) (6%nat, 0) (7%nat, 0) 0 (8%nat, 0) (ex_bk (-1)) (ex_so 48 ex_any) (kr_poisson_3d (-1) ex_any) (kw_poisson_3d (-1) ex_any)  /\
  filled_poisson_3d (S := QcS) 0 0 0 1 1 0 ex_h (ex_q 2) 1 (4%nat, 0) (5%nat, 0) (6%nat, 0) (7%nat, 0) 0 (8%nat, 0) (ex_bk (-1)) (ex_so 48 ex_up) (kr_poisson_3d (-1) ex_up) (kw_poisson_3d (-1) ex_up)  /\
  (0 < (ex_q 2))%Qc /\
  (forall d, 0 <= d < 3 -> (0 < ex_h d)%Qc) /\
  (forall f, 0 <= f < 6 -> b_kind ((ex_bk (-1)) f) = 1) /\
  0 <= 1 /\
  0 <= 1 /\
  0 <= 0 /\
  (forall i j k, patch3 0 0 0 1 1 0 i j k -> kr_poisson_3d (-1) ex_any i j k = kr_poisson_3d (-1) ex_up i j k).
Proof.
  split; [exact nex_any_poisson_3d|].
  split; [exact nex_up_poisson_3d|].
  split; [now apply lt|].
  split; [exact (ex_h_pos 3)|].
  split; [intros f Hf; apply ex_bk_closed; lia|].
  split; [lia|].
  split; [lia|].
  split; [lia|].
  exact ksame_poisson_3d.
Qed.

(** For data of sum zero there is a solution with any given value in any given cell. *)

Theorem C75_closed_solve_v1_1d : forall i0 i1 (dx : Z -> Qc) (beta : Qc) b0 gcw u f0 (alpha : Qc) agcw a rgcw res bc (m : mem QcS) (r w c v0 f : Z -> Qc),
  filled_v1_1d (S := QcS) i0 i1 dx beta b0 gcw u f0 alpha agcw a rgcw res bc m r w c v0 ->
  (0 < beta)%Qc ->
  (forall d, 0 <= d < 1 -> (0 < dx d)%Qc) ->
  (alpha = 0%Qc \/ forall i, patch1 i0 i1 i -> c i = 0%Qc) ->
  (forall i, i0 <= i <= i1 + 1 -> (0 < v0 i)%Qc) ->
  (forall f, 0 <= f < 2 -> b_kind (bc f) = 1) ->
  i0 <= i1 ->
  total (S := QcS) i0 i1 f = 0%Qc ->
  forall x (g : Qc), patch1 i0 i1 x ->
  exists (n : mem QcS) (z : Z -> Qc), filled_v1_1d (S := QcS) i0 i1 dx beta b0 gcw u f0 alpha agcw a rgcw res bc n f z c v0 /\ z x = g /\
    shape n = shape m /\ ints n = ints m /\
    (forall p, (forall i, patch1 i0 i1 i -> faddr (mkFa u (CELL1d i0 i1 gcw)) [i] <> p) -> load n p = load m p).
Proof. exact @csolve_v1_1d. Qed.
Print Assumptions C75_closed_solve_v1_1d.

Example C75_closed_solve_v1_1d_example :
  filled_v1_1d (S := QcS) 0 1 ex_h (ex_q 2) (0%nat, 0) 1 (4%nat, 0) (5%nat, 0) (ex_q 0) 0 (3%nat, 0) 0 (8%nat, 0) (ex_bk (-1)) (ex_so 4 ex_any) (kr_v1_1d (-1) ex_any) (kw_v1_1d (-1) ex_any) c_v1_1d v0_v1_1d /\
  (0 < (ex_q 2))%Qc /\
  (forall d, 0 <= d < 1 -> (0 < ex_h d)%Qc) /\
  ((ex_q 0) = 0%Qc \/ forall i, patch1 0 1 i -> c_v1_1d i = 0%Qc) /\
  (forall i, 0 <= i <= 1 + 1 -> (0 < v0_v1_1d i)%Qc) /\
  (forall f, 0 <= f < 2 -> b_kind ((ex_bk (-1)) f) = 1) /\
  0 <= 1 /\
  total (S := QcS) 0 1 (kr_v1_1d (-1) ex_any) = 0%Qc /\
  patch1 0 1 0.
Proof.
  split; [exact nex_any_v1_1d|].
  split; [now apply lt|].
  split; [exact (ex_h_pos 1)|].
  split; [left; now apply same|].
  split; [exact kv0_v1_1d|].
  split; [intros f Hf; apply ex_bk_closed; lia|].
  split; [lia|].
  split; [exact kzero_v1_1d|].
  unfold patch1; lia.
Qed.

Theorem C75_closed_solve_v2_1d : forall i0 i1 (dx : Z -> Qc) (beta : Qc) b0 gcw u f0 (alpha : Qc) rgcw res bc (m : mem QcS) (r w v0 f : Z -> Qc),
  filled_v2_1d (S := QcS) i0 i1 dx beta b0 gcw u f0 alpha rgcw res bc m r w v0 ->
  (0 < beta)%Qc ->
  (forall d, 0 <= d < 1 -> (0 < dx d)%Qc) ->
  alpha = 0%Qc ->
  (forall i, i0 <= i <= i1 + 1 -> (0 < v0 i)%Qc) ->
  (forall f, 0 <= f < 2 -> b_kind (bc f) = 1) ->
  i0 <= i1 ->
  total (S := QcS) i0 i1 f = 0%Qc ->
  forall x (g : Qc), patch1 i0 i1 x ->
  exists (n : mem QcS) (z : Z -> Qc), filled_v2_1d (S := QcS) i0 i1 dx beta b0 gcw u f0 alpha rgcw res bc n f z v0 /\ z x = g /\
    shape n = shape m /\ ints n = ints m /\
    (forall p, (forall i, patch1 i0 i1 i -> faddr (mkFa u (CELL1d i0 i1 gcw)) [i] <> p) -> load n p = load m p).
Proof. exact @csolve_v2_1d. Qed.
Print Assumptions C75_closed_solve_v2_1d.

Example C75_closed_solve_v2_1d_example :
  filled_v2_1d (S := QcS) 0 1 ex_h (ex_q 2) (0%nat, 0) 1 (4%nat, 0) (5%nat, 0) (ex_q 0) 0 (8%nat, 0) (ex_bk (-1)) (ex_so 4 ex_any) (kr_v2_1d (-1) ex_any) (kw_v2_1d (-1) ex_any) v0_v2_1d /\
  (0 < (ex_q 2))%Qc /\
  (forall d, 0 <= d < 1 -> (0 < ex_h d)%Qc) /\
  (ex_q 0) = 0%Qc /\
  (forall i, 0 <= i <= 1 + 1 -> (0 < v0_v2_1d i)%Qc) /\
  (forall f, 0 <= f < 2 -> b_kind ((ex_bk (-1)) f) = 1) /\
  0 <= 1 /\
  total (S := QcS) 0 1 (kr_v2_1d (-1) ex_any) = 0%Qc /\
  patch1 0 1 0.
Proof.
  split; [exact nex_any_v2_1d|].
  split; [now apply lt|].
  split; [exact (ex_h_pos 1)|].
  split; [now apply same|].
  split; [exact kv0_v2_1d|].
  split; [intros f Hf; apply ex_bk_closed; lia|].
  split; [lia|].
  split; [exact kzero_v2_1d|].
  unfold patch1; lia.
Qed.

Theorem C75_closed_solve_poisson_1d : forall i0 i1 (dx : Z -> Qc) (beta : Qc) gcw u f0 rgcw res bc (m : mem QcS) (r w f : Z -> Qc),
  filled_poisson_1d (S := QcS) i0 i1 dx beta gcw u f0 rgcw res bc m r w ->
  (0 < beta)%Qc ->
  (forall d, 0 <= d < 1 -> (0 < dx d)%Qc) ->
  (forall f, 0 <= f < 2 -> b_kind (bc f) = 1) ->
  i0 <= i1 ->
  total (S := QcS) i0 i1 f = 0%Qc ->
  forall x (g : Qc), patch1 i0 i1 x ->
  exists (n : mem QcS) (z : Z -> Qc), filled_poisson_1d (S := QcS) i0 i1 dx beta gcw u f0 rgcw res bc n f z /\ z x = g /\
    shape n = shape m /\ ints n = ints m /\
    (forall p, (forall i, patch1 i0 i1 i -> faddr (mkFa u (CELL1d i0 i1 gcw)) [i] <> p) -> load n p = load m p).
Proof. exact @csolve_poisson_1d. Qed.
Print Assumptions C75_closed_solve_poisson_1d.

Example C75_closed_solve_poisson_1d_example :
  filled_poisson_1d (S := QcS) 0 1 ex_h (ex_q 2) 1 (4%nat, 0) (5%nat, 0) 0 (8%nat, 0) (ex_bk (-1)) (ex_so 4 ex_any) (kr_poisson_1d (-1) ex_any) (kw_poisson_1d (-1) ex_any)  /\
  (0 < (ex_q 2))%Qc /\
  (forall d, 0 <= d < 1 -> (0 < ex_h d)%Qc) /\
  (forall f, 0 <= f < 2 -> b_kind ((ex_bk (-1)) f) = 1) /\
  0 <= 1 /\
  total (S := QcS) 0 1 (kr_poisson_1d (-1) ex_any) = 0%Qc /\
  patch1 0 1 0.
Proof.
  split; [exact nex_any_poisson_1d|].
  split; [now apply lt|].
  split; [exact (ex_h_pos 1)|].
  split; [intros f Hf; apply ex_bk_closed; lia|].
  split; [lia|].
  split; [exact kzero_poisson_1d|].
  unfold patch1; lia.
Qed.

Theorem C75_closed_solve_v1_2d : forall i0 j0 i1 j1 (dx : Z -> Qc) (beta : Qc) b0 b1 gcw u f0 f1 (alpha : Qc) agcw a rgcw res bc (m : mem QcS) (r w c v0 v1 f : Z -> Z -> Qc),
  filled_v1_2d (S := QcS) i0 j0 i1 j1 dx beta b0 b1 gcw u f0 f1 alpha agcw a rgcw res bc m r w c v0 v1 ->
  (0 < beta)%Qc ->
  (forall d, 0 <= d < 2 -> (0 < dx d)%Qc) ->
  (alpha = 0%Qc \/ forall i j, patch2 i0 j0 i1 j1 i j -> c i j = 0%Qc) ->
  (forall i j, i0 <= i <= i1 + 1 -> j0 <= j <= j1 -> (0 < v0 i j)%Qc) ->
  (forall i j, i0 <= i <= i1 -> j0 <= j <= j1 + 1 -> (0 < v1 i j)%Qc) ->
  (forall f, 0 <= f < 4 -> b_kind (bc f) = 1) ->
  i0 <= i1 ->
  j0 <= j1 ->
  total2 (S := QcS) i0 j0 i1 j1 f = 0%Qc ->
  forall x y (g : Qc), patch2 i0 j0 i1 j1 x y ->
  exists (n : mem QcS) (z : Z -> Z -> Qc), filled_v1_2d (S := QcS) i0 j0 i1 j1 dx beta b0 b1 gcw u f0 f1 alpha agcw a rgcw res bc n f z c v0 v1 /\ z x y = g /\
    shape n = shape m /\ ints n = ints m /\
    (forall p, (forall i j, patch2 i0 j0 i1 j1 i j -> faddr (mkFa u (CELL2d i0 j0 i1 j1 gcw)) [i; j] <> p) -> load n p = load m p).
Proof. exact @csolve_v1_2d. Qed.
Print Assumptions C75_closed_solve_v1_2d.

Example C75_closed_solve_v1_2d_example :
  filled_v1_2d (S := QcS) 0 0 1 1 ex_h (ex_q 2) (0%nat, 0) (1%nat, 0) 1 (4%nat, 0) (5%nat, 0) (6%nat, 0) (ex_q 0) 0 (3%nat, 0) 0 (8%nat, 0) (ex_bk (-1)) (ex_so 16 ex_any) (kr_v1_2d (-1) ex_any) (kw_v1_2d (-1) ex_any) c_v1_2d v0_v1_2d v1_v1_2d /\
  (0 < (ex_q 2))%Qc /\
  (forall d, 0 <= d < 2 -> (0 < ex_h d)%Qc) /\
  ((ex_q 0) = 0%Qc \/ forall i j, patch2 0 0 1 1 i j -> c_v1_2d i j = 0%Qc) /\
  (forall i j, 0 <= i <= 1 + 1 -> 0 <= j <= 1 -> (0 < v0_v1_2d i j)%Qc) /\
  (forall i j, 0 <= i <= 1 -> 0 <= j <= 1 + 1 -> (0 < v1_v1_2d i j)%Qc) /\
  (forall f, 0 <= f < 4 -> b_kind ((ex_bk (-1)) f) = 1) /\
  0 <= 1 /\
  0 <= 1 /\
  total2 (S := QcS) 0 0 1 1 (kr_v1_2d (-1) ex_any) = 0%Qc /\
  patch2 0 0 1 1 0 0.
Proof.
  split; [exact nex_any_v1_2d|].
  split; [now apply lt|].
  split; [exact (ex_h_pos 2)|].
  split; [left; now apply same|].
  split; [exact kv0_v1_2d|].
  split; [exact kv1_v1_2d|].
  split; [intros f Hf; apply ex_bk_closed; lia|].
  split; [lia|].
  split; [lia|].
  split; [exact kzero_v1_2d|].
  unfold patch2; lia.
Qed.

Theorem C75_closed_solve_v2_2d : forall i0 j0 i1 j1 (dx : Z -> Qc) (beta : Qc) b0 b1 gcw u f0 f1 (alpha : Qc) rgcw res bc (m : mem QcS) (r w v0 v1 f : Z -> Z -> Qc),
  filled_v2_2d (S := QcS) i0 j0 i1 j1 dx beta b0 b1 gcw u f0 f1 alpha rgcw res bc m r w v0 v1 ->
  (0 < beta)%Qc ->
  (forall d, 0 <= d < 2 -> (0 < dx d)%Qc) ->
  alpha = 0%Qc ->
  (forall i j, i0 <= i <= i1 + 1 -> j0 <= j <= j1 -> (0 < v0 i j)%Qc) ->
  (forall i j, i0 <= i <= i1 -> j0 <= j <= j1 + 1 -> (0 < v1 i j)%Qc) ->
  (forall f, 0 <= f < 4 -> b_kind (bc f) = 1) ->
  i0 <= i1 ->
  j0 <= j1 ->
  total2 (S := QcS) i0 j0 i1 j1 f = 0%Qc ->
  forall x y (g : Qc), patch2 i0 j0 i1 j1 x y ->
  exists (n : mem QcS) (z : Z -> Z -> Qc), filled_v2_2d (S := QcS) i0 j0 i1 j1 dx beta b0 b1 gcw u f0 f1 alpha rgcw res bc n f z v0 v1 /\ z x y = g /\
    shape n = shape m /\ ints n = ints m /\
    (forall p, (forall i j, patch2 i0 j0 i1 j1 i j -> faddr (mkFa u (CELL2d i0 j0 i1 j1 gcw)) [i; j] <> p) -> load n p = load m p).
Proof. exact @csolve_v2_2d. Qed.
Print Assumptions C75_closed_solve_v2_2d.

Example C75_closed_solve_v2_2d_example :
  filled_v2_2d (S := QcS) 0 0 1 1 ex_h (ex_q 2) (0%nat, 0) (1%nat, 0) 1 (4%nat, 0) (5%nat, 0) (6%nat, 0) (ex_q 0) 0 (8%nat, 0) (ex_bk (-1)) (ex_so 16 ex_any) (kr_v2_2d (-1) ex_any) (kw_v2_2d (-1) ex_any) v0_v2_2d v1_v2_2d /\
  (0 < (ex_q 2))%Qc /\
  (forall d, 0 <= d < 2 -> (0 < ex_h d)%Qc) /\
  (ex_q 0) = 0%Qc /\
  (forall i j, 0 <= i <= 1 + 1 -> 0 <= j <= 1 -> (0 < v0_v2_2d i j)%Qc) /\
  (forall i j, 0 <= i <= 1 -> 0 <= j <= 1 + 1 -> (0 < v1_v2_2d i j)%Qc) /\
  (forall f, 0 <= f < 4 -> b_kind ((ex_bk (-1)) f) = 1) /\
  0 <= 1 /\
  0 <= 1 /\
  total2 (S := QcS) 0 0 1 1 (kr_v2_2d (-1) ex_any) = 0%Qc /\
  patch2 0 0 1 1 0 0.
Proof.
  split; [exact nex_any_v2_2d|].
  split; [now apply lt|].
  split; [exact (ex_h_pos 2)|].
  split; [now apply same|].
  split; [exact kv0_v2_2d|].
  split; [exact kv1_v2_2d|].
  split; [intros f Hf; apply ex_bk_closed; lia|].
  split; [lia|].
  split; [lia|].
  split; [exact kzero_v2_2d|].
  unfold patch2; lia.
Qed.

Theorem C75_closed_solve_poisson_2d : forall i0 j0 i1 j1 (dx : Z -> Qc) (beta : Qc) gcw u f0 f1 rgcw res bc (m : mem QcS) (r w f : Z -> Z -> Qc),
  filled_poisson_2d (S := QcS) i0 j0 i1 j1 dx beta gcw u f0 f1 rgcw res bc m r w ->
  (0 < beta)%Qc ->
  (forall d, 0 <= d < 2 -> (0 < dx d)%Qc) ->
  (forall f, 0 <= f < 4 -> b_kind (bc f) = 1) ->
  i0 <= i1 ->
  j0 <= j1 ->
  total2 (S := QcS) i0 j0 i1 j1 f = 0%Qc ->
  forall x y (g : Qc), patch2 i0 j0 i1 j1 x y ->
  exists (n : mem QcS) (z : Z -> Z -> Qc), filled_poisson_2d (S := QcS) i0 j0 i1 j1 dx beta gcw u f0 f1 rgcw res bc n f z /\ z x y = g /\
    shape n = shape m /\ ints n = ints m /\
    (forall p, (forall i j, patch2 i0 j0 i1 j1 i j -> faddr (mkFa u (CELL2d i0 j0 i1 j1 gcw)) [i; j] <> p) -> load n p = load m p).
Proof. exact @csolve_poisson_2d. Qed.
Print Assumptions C75_closed_solve_poisson_2d.

Example C75_closed_solve_poisson_2d_example :
  filled_poisson_2d (S := QcS) 0 0 1 1 ex_h (ex_q 2) 1 (4%nat, 0) (5%nat, 0) (6%nat, 0) 0 (8%nat, 0) (ex_bk (-1)) (ex_so 16 ex_any) (kr_poisson_2d (-1) ex_any) (kw_poisson_2d (-1) ex_any)  /\
  (0 < (ex_q 2))%Qc /\
  (forall d, 0 <= d < 2 -> (0 < ex_h d)%Qc) /\
  (forall f, 0 <= f < 4 -> b_kind ((ex_bk (-1)) f) = 1) /\
  0 <= 1 /\
  0 <= 1 /\
  total2 (S := QcS) 0 0 1 1 (kr_poisson_2d (-1) ex_any) = 0%Qc /\
  patch2 0 0 1 1 0 0.
Proof.
  split; [exact nex_any_poisson_2d|].
  split; [now apply lt|].
  split; [exact (ex_h_pos 2)|].
  split; [intros f Hf; apply ex_bk_closed; lia|].
  split; [lia|].
  split; [lia|].
  split; [exact kzero_poisson_2d|].
  unfold patch2; lia.
Qed.

Theorem C75_closed_solve_v1_3d : forall i0 j0 k0 i1 j1 k1 (dx : Z -> Qc) (beta : Qc) b0 b1 b2 gcw u f0 f1 f2 (alpha : Qc) agcw a rgcw res bc (m : mem QcS) (r w c v0 v1 v2 f : Z -> Z -> Z -> Qc),
  filled_v1_3d (S := QcS) i0 j0 k0 i1 j1 k1 dx beta b0 b1 b2 gcw u f0 f1 f2 alpha agcw a rgcw res bc m r w c v0 v1 v2 ->
  (0 < beta)%Qc ->
  (forall d, 0 <= d < 3 -> (0 < dx d)%Qc) ->
  (alpha = 0%Qc \/ forall i j k, patch3 i0 j0 k0 i1 j1 k1 i j k -> c i j k = 0%Qc) ->
  (forall i j k, i0 <= i <= i1 + 1 -> j0 <= j <= j1 -> k0 <= k <= k1 -> (0 < v0 i j k)%Qc) ->
  (forall i j k, i0 <= i <= i1 -> j0 <= j <= j1 + 1 -> k0 <= k <= k1 -> (0 < v1 i j k)%Qc) ->
  (forall i j k, i0 <= i <= i1 -> j0 <= j <= j1 -> k0 <= k <= k1 + 1 -> (0 < v2 i j k)%Qc) ->
  (forall f, 0 <= f < 6 -> b_kind (bc f) = 1) ->
  i0 <= i1 ->
  j0 <= j1 ->
  k0 <= k1 ->
  total3 (S := QcS) i0 j0 k0 i1 j1 k1 f = 0%Qc ->
  forall x y t (g : Qc), patch3 i0 j0 k0 i1 j1 k1 x y t ->
  exists (n : mem QcS) (z : Z -> Z -> Z -> Qc), filled_v1_3d (S := QcS) i0 j0 k0 i1 j1 k1 dx beta b0 b1 b2 gcw u f0 f1 f2 alpha agcw a rgcw res bc n f z c v0 v1 v2 /\ z x y t = g /\
    shape n = shape m /\ ints n = ints m /\
    (forall p, (forall i j k, patch3 i0 j0 k0 i1 j1 k1 i j k -> faddr (mkFa u (CELL3d i0 j0 k0 i1 j1 k1 gcw)) [i; j; k] <> p) -> load n p = load m p).
Proof. exact @csolve_v1_3d. Qed.
Print Assumptions C75_closed_solve_v1_3d.

Example C75_closed_solve_v1_3d_example :
  filled_v1_3d (S := QcS) 0 0 0 1 1 0 ex_h (ex_q 2) (0%nat, 0) (1%nat, 0) (2%nat, 0) 1 (4%nat, 0) (5%nat, 0) (6%nat, 0) (7%nat, 0) (ex_q 0) 0 (3%nat, 0) 0 (8%nat, 0) (ex_bk (-1)) (ex_so 48 ex_any) (kr_v1_3d (-1) ex_any) (kw_v1_3d (-1) ex_any) c_v1_3d v0_v1_3d v1_v1_3d v2_v1_3d /\
  (0 < (ex_q 2))%Qc /\
  (forall d, 0 <= d < 3 -> (0 < ex_h d)%Qc) /\
  ((ex_q 0) = 0%Qc \/ forall i j k, patch3 0 0 0 1 1 0 i j k -> c_v1_3d i j k = 0%Qc) /\
  (forall i j k, 0 <= i <= 1 + 1 -> 0 <= j <= 1 -> 0 <= k <= 0 -> (0 < v0_v1_3d i j k)%Qc) /\
  (forall i j k, 0 <= i <= 1 -> 0 <= j <= 1 + 1 -> 0 <= k <= 0 -> (0 < v1_v1_3d i j k)%Qc) /\
  (forall i j k, 0 <= i <= 1 -> 0 <= j <= 1 -> 0 <= k <= 0 + 1 -> (0 < v2_v1_3d i j k)%Qc) /\
  (forall f, 0 <= f < 6 -> b_kind ((ex_bk (-1)) f) = 1) /\
  0 <= 1 /\
  0 <= 1 /\
  0 <= 0 /\
  total3 (S := QcS) 0 0 0 1 1 0 (kr_v1_3d (-1) ex_any) = 0%Qc /\
  patch3 0 0 0 1 1 0 0 0 0.
Proof.
  split; [exact nex_any_v1_3d|].
  split; [now apply lt|].
  split; [exact (ex_h_pos 3)|].
  split; [left; now apply same|].
  split; [exact kv0_v1_3d|].
  split; [exact kv1_v1_3d|].
  split; [exact kv2_v1_3d|].
  split; [intros f Hf; apply ex_bk_closed; lia|].
  split; [lia|].
  split; [lia|].
  split; [lia|].
  split; [exact kzero_v1_3d|].
  unfold patch3; lia.
Qed.

Theorem C75_closed_solve_v2_3d : forall i0 j0 k0 i1 j1 k1 (dx : Z -> Qc) (beta : Qc) b0 b1 b2 gcw u f0 f1 f2 (alpha : Qc) rgcw res bc (m : mem QcS) (r w v0 v1 v2 f : Z -> Z -> Z -> Qc),
  filled_v2_3d (S := QcS) i0 j0 k0 i1 j1 k1 dx beta b0 b1 b2 gcw u f0 f1 f2 alpha rgcw res bc m r w v0 v1 v2 ->
  (0 < beta)%Qc ->
  (forall d, 0 <= d < 3 -> (0 < dx d)%Qc) ->
  alpha = 0%Qc ->
  (forall i j k, i0 <= i <= i1 + 1 -> j0 <= j <= j1 -> k0 <= k <= k1 -> (0 < v0 i j k)%Qc) ->
  (forall i j k, i0 <= i <= i1 -> j0 <= j <= j1 + 1 -> k0 <= k <= k1 -> (0 < v1 i j k)%Qc) ->
  (forall i j k, i0 <= i <= i1 -> j0 <= j <= j1 -> k0 <= k <= k1 + 1 -> (0 < v2 i j k)%Qc) ->
  (forall f, 0 <= f < 6 -> b_kind (bc f) = 1) ->
  i0 <= i1 ->
  j0 <= j1 ->
  k0 <= k1 ->
  total3 (S := QcS) i0 j0 k0 i1 j1 k1 f = 0%Qc ->
  forall x y t (g : Qc), patch3 i0 j0 k0 i1 j1 k1 x y t ->
  exists (n : mem QcS) (z : Z -> Z -> Z -> Qc), filled_v2_3d (S := QcS) i0 j0 k0 i1 j1 k1 dx beta b0 b1 b2 gcw u f0 f1 f2 alpha rgcw res bc n f z v0 v1 v2 /\ z x y t = g /\
    shape n = shape m /\ ints n = ints m /\
    (forall p, (forall i j k, patch3 i0 j0 k0 i1 j1 k1 i j k -> faddr (mkFa u (CELL3d i0 j0 k0 i1 j1 k1 gcw)) [i; j; k] <> p) -> load n p = load m p).
Proof. exact @csolve_v2_3d. Qed.
Print Assumptions C75_closed_solve_v2_3d.

Example C75_closed_solve_v2_3d_example :
  filled_v2_3d (S := QcS) 0 0 0 1 1 0 ex_h (ex_q 2) (0%nat, 0) (1%nat, 0) (2%nat, 0) 1 (4%nat, 0) (5%nat, 0) (6%nat, 0) (7%nat, 0) (ex_q 0) 0 (8%nat, 0) (ex_bk (-1)) (ex_so 48 ex_any) (kr_v2_3d (-1) ex_any) (kw_v2_3d (-1) ex_any) v0_v2_3d v1_v2_3d v2_v2_3d /\
  (0 < (ex_q 2))%Qc /\
  (forall d, 0 <= d < 3 -> (0 < ex_h d)%Qc) /\
  (ex_q 0) = 0%Qc /\
  (forall i j k, 0 <= i <= 1 + 1 -> 0 <= j <= 1 -> 0 <= k <= 0 -> (0 < v0_v2_3d i j k)%Qc) /\
  (forall i j k, 0 <= i <= 1 -> 0 <= j <= 1 + 1 -> 0 <= k <= 0 -> (0 < v1_v2_3d i j k)%Qc) /\
  (forall i j k, 0 <= i <= 1 -> 0 <= j <= 1 -> 0 <= k <= 0 + 1 -> (0 < v2_v2_3d i j k)%Qc) /\
  (forall f, 0 <= f < 6 -> b_kind ((ex_bk (-1)) f) = 1) /\
  0 <= 1 /\
  0 <= 1 /\
  0 <= 0 /\
  total3 (S := QcS) 0 0 0 1 1 0 (kr_v2_3d (-1) ex_any) = 0%Qc /\
  patch3 0 0 0 1 1 0 0 0 0.
Proof.
  split; [exact nex_any_v2_3d|].
  split; [now apply lt|].
  split; [exact (ex_h_pos 3)|].
  split; [now apply same|].
  split; [exact kv0_v2_3d|].
  split; [exact kv1_v2_3d|].
  split; [exact kv2_v2_3d|].
  split; [intros f Hf; apply ex_bk_closed; lia|].
  split; [lia|].
  split; [lia|].
  split; [lia|].
  split; [exact kzero_v2_3d|].
  unfold patch3; lia.
Qed.

Theorem C75_closed_solve_poisson_3d : forall i0 j0 k0 i1 j1 k1 (dx : Z -> Qc) (beta : Qc) gcw u f0 f1 f2 rgcw res bc (m : mem QcS) (r w f : Z -> Z -> Z -> Qc),
  filled_poisson_3d (S := QcS) i0 j0 k0 i1 j1 k1 dx beta gcw u f0 f1 f2 rgcw res bc m r w ->
  (0 < beta)%Qc ->
  (forall d, 0 <= d < 3 -> (0 < dx d)%Qc) ->
  (forall f, 0 <= f < 6 -> b_kind (bc f) = 1) ->
  i0 <= i1 ->
  j0 <= j1 ->
  k0 <= k1 ->
  total3 (S := QcS) i0 j0 k0 i1 j1 k1 f = 0%Qc ->
  forall x y t (g : Qc), patch3 i0 j0 k0 i1 j1 k1 x y t ->
  exists (n : mem QcS) (z : Z -> Z -> Z -> Qc), filled_poisson_3d (S := QcS) i0 j0 k0 i1 j1 k1 dx beta gcw u f0 f1 f2 rgcw res bc n f z /\ z x y t = g /\
    shape n = shape m /\ ints n = ints m /\
    (forall p, (forall i j k, patch3 i0 j0 k0 i1 j1 k1 i j k -> faddr (mkFa u (CELL3d i0 j0 k0 i1 j1 k1 gcw)) [i; j; k] <> p) -> load n p = load m p).
Proof. exact @csolve_poisson_3d. Qed.
Print Assumptions C75_closed_solve_poisson_3d.

Example C75_closed_solve_poisson_3d_example :
  filled_poisson_3d (S := QcS) 0 0 0 1 1 0 ex_h (ex_q 2) 1 (4%nat, 0) (5%nat, 0) (6%nat, 0) (7%nat, 0) 0 (8%nat, 0) (ex_bk (-1)) (ex_so 48 ex_any) (kr_poisson_3d (-1) ex_any) (kw_poisson_3d (-1) ex_any)  /\
  (0 < (ex_q 2))%Qc /\
  (forall d, 0 <= d < 3 -> (0 < ex_h d)%Qc) /\
  (forall f, 0 <= f < 6 -> b_kind ((ex_bk (-1)) f) = 1) /\
  0 <= 1 /\
  0 <= 1 /\
  0 <= 0 /\
  total3 (S := QcS) 0 0 0 1 1 0 (kr_poisson_3d (-1) ex_any) = 0%Qc /\
  patch3 0 0 0 1 1 0 0 0 0.
Proof.
  split; [exact nex_any_poisson_3d|].
  split; [now apply lt|].
  split; [exact (ex_h_pos 3)|].
  split; [intros f Hf; apply ex_bk_closed; lia|].
  split; [lia|].
  split; [lia|].
  split; [lia|].
  split; [exact kzero_poisson_3d|].
  unfold patch3; lia.
Qed.

(** The numbers of the examples are not constant, and the data not zero. *)
Example C75_values : kr_v1_2d (-1) ex_any 0 0 <> 0%Qc /\ kw_v1_2d (-1) ex_any 0 0 <> kw_v1_2d (-1) ex_any 1 0 /\ kr_poisson_1d (-1) ex_any 0 <> 0%Qc.
Proof. repeat split; intros C; apply (f_equal this) in C; vm_compute in C; discriminate. Qed.
