(** * The boundary value problem on a patch (C74)

    Ghost cells filled by one call of a boundary kernel for each face, then the flux
    kernel and the operator kernel.  The meaning of [filled_...], [sound] and [roomy]
    is in SpecBvp, that of [patch] in SpecSolve.  The examples are on the arrays of
    LemBvpCase. *)

From Coq Require Import QArith Qcanon.
From Verif Require Import Base FortranBase SpecKernel Instances SpecBCOrder SpecBCCalls SpecSolve LemSolve LemSolveOp LemSolveMem LemSolveCase SpecBvp LemBvpMem LemBvpCase.
Import ListNotations.
Open Scope Z_scope.

(** Larger data, larger solution. *)

Theorem C74_compare_v1_1d : forall i0 i1 (dx : Z -> Qc) (beta : Qc) b0 gcw u f0 (alpha : Qc) agcw a rgcw res bc (m n : mem QcS) (r w s z c v0 : Z -> Qc),
  filled_v1_1d (S := QcS) i0 i1 dx beta b0 gcw u f0 alpha agcw a rgcw res bc m r w c v0 ->
  filled_v1_1d (S := QcS) i0 i1 dx beta b0 gcw u f0 alpha agcw a rgcw res bc n s z c v0 ->
  (0 < beta)%Qc ->
  (forall d, 0 <= d < 1 -> (0 < dx d)%Qc) ->
  (0 <= alpha)%Qc ->
  (forall i, patch1 i0 i1 i -> (0 <= c i)%Qc) ->
  (forall i, i0 <= i <= i1 + 1 -> (0 < v0 i)%Qc) ->
  (forall f, 0 <= f < 2 -> sound true (bc f)) ->
  roomy 1 (ends1 i0) (ends1 i1) bc ->
  (b_kind (bc 0) <> 1 \/ b_kind (bc 1) <> 1 \/ ((0 < alpha)%Qc /\ forall i, patch1 i0 i1 i -> (0 < c i)%Qc)) ->
  (forall i, patch1 i0 i1 i -> (r i <= s i)%Qc) ->
  forall i, patch1 i0 i1 i -> (w i <= z i)%Qc.
Proof. exact @bcompare_v1_1d. Qed.
Print Assumptions C74_compare_v1_1d.

Example C74_compare_v1_1d_example :
  filled_v1_1d (S := QcS) 0 1 ex_h (ex_q 2) (0%nat, 0) 1 (4%nat, 0) (5%nat, 0) (ex_q 3) 0 (3%nat, 0) 0 (8%nat, 0) (ex_bc true) (ex_so 4 ex_rise) (br_v1_1d ex_rise) (bw_v1_1d ex_rise) c_v1_1d v0_v1_1d /\
  filled_v1_1d (S := QcS) 0 1 ex_h (ex_q 2) (0%nat, 0) 1 (4%nat, 0) (5%nat, 0) (ex_q 3) 0 (3%nat, 0) 0 (8%nat, 0) (ex_bc true) (ex_so 4 ex_twice) (br_v1_1d ex_twice) (bw_v1_1d ex_twice) c_v1_1d v0_v1_1d /\
  (0 < (ex_q 2))%Qc /\
  (forall d, 0 <= d < 1 -> (0 < ex_h d)%Qc) /\
  (0 <= (ex_q 3))%Qc /\
  (forall i, patch1 0 1 i -> (0 <= c_v1_1d i)%Qc) /\
  (forall i, 0 <= i <= 1 + 1 -> (0 < v0_v1_1d i)%Qc) /\
  (forall f, 0 <= f < 2 -> sound true ((ex_bc true) f)) /\
  roomy 1 (ends1 0) (ends1 1) (ex_bc true) /\
  b_kind (ex_bc true 0) <> 1 /\
  (forall i, patch1 0 1 i -> (br_v1_1d ex_rise i <= br_v1_1d ex_twice i)%Qc).
Proof.
  split; [exact bex_rise_v1_1d|].
  split; [exact bex_twice_v1_1d|].
  split; [now apply lt|].
  split; [exact (ex_h_pos 1)|].
  split; [now apply le|].
  split; [exact cpos_v1_1d|].
  split; [exact v0pos_v1_1d|].
  split; [intros f _; apply ex_sound|].
  split; [exact broomy_v1_1d|].
  split; [discriminate|].
  exact bmore_v1_1d.
Qed.

Theorem C74_compare_v2_1d : forall i0 i1 (dx : Z -> Qc) (beta : Qc) b0 gcw u f0 (alpha : Qc) rgcw res bc (m n : mem QcS) (r w s z v0 : Z -> Qc),
  filled_v2_1d (S := QcS) i0 i1 dx beta b0 gcw u f0 alpha rgcw res bc m r w v0 ->
  filled_v2_1d (S := QcS) i0 i1 dx beta b0 gcw u f0 alpha rgcw res bc n s z v0 ->
  (0 < beta)%Qc ->
  (forall d, 0 <= d < 1 -> (0 < dx d)%Qc) ->
  (0 <= alpha)%Qc ->
  (forall i, i0 <= i <= i1 + 1 -> (0 < v0 i)%Qc) ->
  (forall f, 0 <= f < 2 -> sound true (bc f)) ->
  roomy 1 (ends1 i0) (ends1 i1) bc ->
  (b_kind (bc 0) <> 1 \/ b_kind (bc 1) <> 1 \/ (0 < alpha)%Qc) ->
  (forall i, patch1 i0 i1 i -> (r i <= s i)%Qc) ->
  forall i, patch1 i0 i1 i -> (w i <= z i)%Qc.
Proof. exact @bcompare_v2_1d. Qed.
Print Assumptions C74_compare_v2_1d.

Example C74_compare_v2_1d_example :
  filled_v2_1d (S := QcS) 0 1 ex_h (ex_q 2) (0%nat, 0) 1 (4%nat, 0) (5%nat, 0) (ex_q 3) 0 (8%nat, 0) (ex_bc true) (ex_so 4 ex_rise) (br_v2_1d ex_rise) (bw_v2_1d ex_rise) v0_v2_1d /\
  filled_v2_1d (S := QcS) 0 1 ex_h (ex_q 2) (0%nat, 0) 1 (4%nat, 0) (5%nat, 0) (ex_q 3) 0 (8%nat, 0) (ex_bc true) (ex_so 4 ex_twice) (br_v2_1d ex_twice) (bw_v2_1d ex_twice) v0_v2_1d /\
  (0 < (ex_q 2))%Qc /\
  (forall d, 0 <= d < 1 -> (0 < ex_h d)%Qc) /\
  (0 <= (ex_q 3))%Qc /\
  (forall i, 0 <= i <= 1 + 1 -> (0 < v0_v2_1d i)%Qc) /\
  (forall f, 0 <= f < 2 -> sound true ((ex_bc true) f)) /\
  roomy 1 (ends1 0) (ends1 1) (ex_bc true) /\
  b_kind (ex_bc true 0) <> 1 /\
  (forall i, patch1 0 1 i -> (br_v2_1d ex_rise i <= br_v2_1d ex_twice i)%Qc).
Proof.
  split; [exact bex_rise_v2_1d|].
  split; [exact bex_twice_v2_1d|].
  split; [now apply lt|].
  split; [exact (ex_h_pos 1)|].
  split; [now apply le|].
  split; [exact v0pos_v2_1d|].
  split; [intros f _; apply ex_sound|].
  split; [exact broomy_v2_1d|].
  split; [discriminate|].
  exact bmore_v2_1d.
Qed.

Theorem C74_compare_poisson_1d : forall i0 i1 (dx : Z -> Qc) (beta : Qc) gcw u f0 rgcw res bc (m n : mem QcS) (r w s z : Z -> Qc),
  filled_poisson_1d (S := QcS) i0 i1 dx beta gcw u f0 rgcw res bc m r w ->
  filled_poisson_1d (S := QcS) i0 i1 dx beta gcw u f0 rgcw res bc n s z ->
  (0 < beta)%Qc ->
  (forall d, 0 <= d < 1 -> (0 < dx d)%Qc) ->
  (forall f, 0 <= f < 2 -> sound false (bc f)) ->
  roomy 1 (ends1 i0) (ends1 i1) bc ->
  (b_kind (bc 0) <> 1 \/ b_kind (bc 1) <> 1) ->
  (forall i, patch1 i0 i1 i -> (r i <= s i)%Qc) ->
  forall i, patch1 i0 i1 i -> (w i <= z i)%Qc.
Proof. exact @bcompare_poisson_1d. Qed.
Print Assumptions C74_compare_poisson_1d.

Example C74_compare_poisson_1d_example :
  filled_poisson_1d (S := QcS) 0 1 ex_h (ex_q 2) 1 (4%nat, 0) (5%nat, 0) 0 (8%nat, 0) (ex_bc false) (ex_so 4 ex_rise) (br_poisson_1d ex_rise) (bw_poisson_1d ex_rise)  /\
  filled_poisson_1d (S := QcS) 0 1 ex_h (ex_q 2) 1 (4%nat, 0) (5%nat, 0) 0 (8%nat, 0) (ex_bc false) (ex_so 4 ex_twice) (br_poisson_1d ex_twice) (bw_poisson_1d ex_twice)  /\
  (0 < (ex_q 2))%Qc /\
  (forall d, 0 <= d < 1 -> (0 < ex_h d)%Qc) /\
  (forall f, 0 <= f < 2 -> sound false ((ex_bc false) f)) /\
  roomy 1 (ends1 0) (ends1 1) (ex_bc false) /\
  b_kind (ex_bc false 0) <> 1 /\
  (forall i, patch1 0 1 i -> (br_poisson_1d ex_rise i <= br_poisson_1d ex_twice i)%Qc).
Proof.
  split; [exact bex_rise_poisson_1d|].
  split; [exact bex_twice_poisson_1d|].
  split; [now apply lt|].
  split; [exact (ex_h_pos 1)|].
  split; [intros f _; apply ex_sound|].
  split; [exact broomy_poisson_1d|].
  split; [discriminate|].
  exact bmore_poisson_1d.
Qed.

Theorem C74_compare_v1_2d : forall i0 j0 i1 j1 (dx : Z -> Qc) (beta : Qc) b0 b1 gcw u f0 f1 (alpha : Qc) agcw a rgcw res bc (m n : mem QcS) (r w s z c v0 v1 : Z -> Z -> Qc),
  filled_v1_2d (S := QcS) i0 j0 i1 j1 dx beta b0 b1 gcw u f0 f1 alpha agcw a rgcw res bc m r w c v0 v1 ->
  filled_v1_2d (S := QcS) i0 j0 i1 j1 dx beta b0 b1 gcw u f0 f1 alpha agcw a rgcw res bc n s z c v0 v1 ->
  (0 < beta)%Qc ->
  (forall d, 0 <= d < 2 -> (0 < dx d)%Qc) ->
  (0 <= alpha)%Qc ->
  (forall i j, patch2 i0 j0 i1 j1 i j -> (0 <= c i j)%Qc) ->
  (forall i j, i0 <= i <= i1 + 1 -> j0 <= j <= j1 -> (0 < v0 i j)%Qc) ->
  (forall i j, i0 <= i <= i1 -> j0 <= j <= j1 + 1 -> (0 <= v1 i j)%Qc) ->
  (forall f, 0 <= f < 4 -> sound true (bc f)) ->
  roomy 2 (ends2 i0 j0) (ends2 i1 j1) bc ->
  (b_kind (bc 0) <> 1 \/ b_kind (bc 1) <> 1 \/ ((0 < alpha)%Qc /\ forall i j, patch2 i0 j0 i1 j1 i j -> (0 < c i j)%Qc)) ->
  (forall i j, patch2 i0 j0 i1 j1 i j -> (r i j <= s i j)%Qc) ->
  forall i j, patch2 i0 j0 i1 j1 i j -> (w i j <= z i j)%Qc.
Proof. exact @bcompare_v1_2d. Qed.
Print Assumptions C74_compare_v1_2d.

Example C74_compare_v1_2d_example :
  filled_v1_2d (S := QcS) 0 0 1 1 ex_h (ex_q 2) (0%nat, 0) (1%nat, 0) 1 (4%nat, 0) (5%nat, 0) (6%nat, 0) (ex_q 3) 0 (3%nat, 0) 0 (8%nat, 0) (ex_bc true) (ex_so 16 ex_rise) (br_v1_2d ex_rise) (bw_v1_2d ex_rise) c_v1_2d v0_v1_2d v1_v1_2d /\
  filled_v1_2d (S := QcS) 0 0 1 1 ex_h (ex_q 2) (0%nat, 0) (1%nat, 0) 1 (4%nat, 0) (5%nat, 0) (6%nat, 0) (ex_q 3) 0 (3%nat, 0) 0 (8%nat, 0) (ex_bc true) (ex_so 16 ex_twice) (br_v1_2d ex_twice) (bw_v1_2d ex_twice) c_v1_2d v0_v1_2d v1_v1_2d /\
  (0 < (ex_q 2))%Qc /\
  (forall d, 0 <= d < 2 -> (0 < ex_h d)%Qc) /\
  (0 <= (ex_q 3))%Qc /\
  (forall i j, patch2 0 0 1 1 i j -> (0 <= c_v1_2d i j)%Qc) /\
  (forall i j, 0 <= i <= 1 + 1 -> 0 <= j <= 1 -> (0 < v0_v1_2d i j)%Qc) /\
  (forall i j, 0 <= i <= 1 -> 0 <= j <= 1 + 1 -> (0 <= v1_v1_2d i j)%Qc) /\
  (forall f, 0 <= f < 4 -> sound true ((ex_bc true) f)) /\
  roomy 2 (ends2 0 0) (ends2 1 1) (ex_bc true) /\
  b_kind (ex_bc true 0) <> 1 /\
  (forall i j, patch2 0 0 1 1 i j -> (br_v1_2d ex_rise i j <= br_v1_2d ex_twice i j)%Qc).
Proof.
  split; [exact bex_rise_v1_2d|].
  split; [exact bex_twice_v1_2d|].
  split; [now apply lt|].
  split; [exact (ex_h_pos 2)|].
  split; [now apply le|].
  split; [exact cpos_v1_2d|].
  split; [exact v0pos_v1_2d|].
  split; [exact v1pos_v1_2d|].
  split; [intros f _; apply ex_sound|].
  split; [exact broomy_v1_2d|].
  split; [discriminate|].
  exact bmore_v1_2d.
Qed.

Theorem C74_compare_v2_2d : forall i0 j0 i1 j1 (dx : Z -> Qc) (beta : Qc) b0 b1 gcw u f0 f1 (alpha : Qc) rgcw res bc (m n : mem QcS) (r w s z v0 v1 : Z -> Z -> Qc),
  filled_v2_2d (S := QcS) i0 j0 i1 j1 dx beta b0 b1 gcw u f0 f1 alpha rgcw res bc m r w v0 v1 ->
  filled_v2_2d (S := QcS) i0 j0 i1 j1 dx beta b0 b1 gcw u f0 f1 alpha rgcw res bc n s z v0 v1 ->
  (0 < beta)%Qc ->
  (forall d, 0 <= d < 2 -> (0 < dx d)%Qc) ->
  (0 <= alpha)%Qc ->
  (forall i j, i0 <= i <= i1 + 1 -> j0 <= j <= j1 -> (0 < v0 i j)%Qc) ->
  (forall i j, i0 <= i <= i1 -> j0 <= j <= j1 + 1 -> (0 <= v1 i j)%Qc) ->
  (forall f, 0 <= f < 4 -> sound true (bc f)) ->
  roomy 2 (ends2 i0 j0) (ends2 i1 j1) bc ->
  (b_kind (bc 0) <> 1 \/ b_kind (bc 1) <> 1 \/ (0 < alpha)%Qc) ->
  (forall i j, patch2 i0 j0 i1 j1 i j -> (r i j <= s i j)%Qc) ->
  forall i j, patch2 i0 j0 i1 j1 i j -> (w i j <= z i j)%Qc.
Proof. exact @bcompare_v2_2d. Qed.
Print Assumptions C74_compare_v2_2d.

Example C74_compare_v2_2d_example :
  filled_v2_2d (S := QcS) 0 0 1 1 ex_h (ex_q 2) (0%nat, 0) (1%nat, 0) 1 (4%nat, 0) (5%nat, 0) (6%nat, 0) (ex_q 3) 0 (8%nat, 0) (ex_bc true) (ex_so 16 ex_rise) (br_v2_2d ex_rise) (bw_v2_2d ex_rise) v0_v2_2d v1_v2_2d /\
  filled_v2_2d (S := QcS) 0 0 1 1 ex_h (ex_q 2) (0%nat, 0) (1%nat, 0) 1 (4%nat, 0) (5%nat, 0) (6%nat, 0) (ex_q 3) 0 (8%nat, 0) (ex_bc true) (ex_so 16 ex_twice) (br_v2_2d ex_twice) (bw_v2_2d ex_twice) v0_v2_2d v1_v2_2d /\
  (0 < (ex_q 2))%Qc /\
  (forall d, 0 <= d < 2 -> (0 < ex_h d)%Qc) /\
  (0 <= (ex_q 3))%Qc /\
  (forall i j, 0 <= i <= 1 + 1 -> 0 <= j <= 1 -> (0 < v0_v2_2d i j)%Qc) /\
  (forall i j, 0 <= i <= 1 -> 0 <= j <= 1 + 1 -> (0 <= v1_v2_2d i j)%Qc) /\
  (forall f, 0 <= f < 4 -> sound true ((ex_bc true) f)) /\
  roomy 2 (ends2 0 0) (ends2 1 1) (ex_bc true) /\
  b_kind (ex_bc true 0) <> 1 /\
  (forall i j, patch2 0 0 1 1 i j -> (br_v2_2d ex_rise i j <= br_v2_2d ex_twice i j)%Qc).
Proof.
  split; [exact bex_rise_v2_2d|].
  split; [exact bex_twice_v2_2d|].
  split; [now apply lt|].
  split; [exact (ex_h_pos 2)|].
  split; [now apply le|].
  split; [exact v0pos_v2_2d|].
  split; [exact v1pos_v2_2d|].
  split; [intros f _; apply ex_sound|].
  split; [exact broomy_v2_2d|].
  split; [discriminate|].
  exact bmore_v2_2d.
Qed.

Theorem C74_compare_poisson_2d : forall i0 j0 i1 j1 (dx : Z -> Qc) (beta : Qc) gcw u f0 f1 rgcw res bc (m n : mem QcS) (r w s z : Z -> Z -> Qc),
  filled_poisson_2d (S := QcS) i0 j0 i1 j1 dx beta gcw u f0 f1 rgcw res bc m r w ->
  filled_poisson_2d (S := QcS) i0 j0 i1 j1 dx beta gcw u f0 f1 rgcw res bc n s z ->
  (0 < beta)%Qc ->
  (forall d, 0 <= d < 2 -> (0 < dx d)%Qc) ->
  (forall f, 0 <= f < 4 -> sound false (bc f)) ->
  roomy 2 (ends2 i0 j0) (ends2 i1 j1) bc ->
  (b_kind (bc 0) <> 1 \/ b_kind (bc 1) <> 1) ->
  (forall i j, patch2 i0 j0 i1 j1 i j -> (r i j <= s i j)%Qc) ->
  forall i j, patch2 i0 j0 i1 j1 i j -> (w i j <= z i j)%Qc.
Proof. exact @bcompare_poisson_2d. Qed.
Print Assumptions C74_compare_poisson_2d.

Example C74_compare_poisson_2d_example :
  filled_poisson_2d (S := QcS) 0 0 1 1 ex_h (ex_q 2) 1 (4%nat, 0) (5%nat, 0) (6%nat, 0) 0 (8%nat, 0) (ex_bc false) (ex_so 16 ex_rise) (br_poisson_2d ex_rise) (bw_poisson_2d ex_rise)  /\
  filled_poisson_2d (S := QcS) 0 0 1 1 ex_h (ex_q 2) 1 (4%nat, 0) (5%nat, 0) (6%nat, 0) 0 (8%nat, 0) (ex_bc false) (ex_so 16 ex_twice) (br_poisson_2d ex_twice) (bw_poisson_2d ex_twice)  /\
  (0 < (ex_q 2))%Qc /\
  (forall d, 0 <= d < 2 -> (0 < ex_h d)%Qc) /\
  (forall f, 0 <= f < 4 -> sound false ((ex_bc false) f)) /\
  roomy 2 (ends2 0 0) (ends2 1 1) (ex_bc false) /\
  b_kind (ex_bc false 0) <> 1 /\
  (forall i j, patch2 0 0 1 1 i j -> (br_poisson_2d ex_rise i j <= br_poisson_2d ex_twice i j)%Qc).
Proof.
  split; [exact bex_rise_poisson_2d|].
  split; [exact bex_twice_poisson_2d|].
  split; [now apply lt|].
  split; [exact (ex_h_pos 2)|].
  split; [intros f _; apply ex_sound|].
  split; [exact broomy_poisson_2d|].
  split; [discriminate|].
  exact bmore_poisson_2d.
Qed.

Theorem C74_compare_v1_3d : forall i0 j0 k0 i1 j1 k1 (dx : Z -> Qc) (beta : Qc) b0 b1 b2 gcw u f0 f1 f2 (alpha : Qc) agcw a rgcw res bc (m n : mem QcS) (r w s z c v0 v1 v2 : Z -> Z -> Z -> Qc),
  filled_v1_3d (S := QcS) i0 j0 k0 i1 j1 k1 dx beta b0 b1 b2 gcw u f0 f1 f2 alpha agcw a rgcw res bc m r w c v0 v1 v2 ->
  filled_v1_3d (S := QcS) i0 j0 k0 i1 j1 k1 dx beta b0 b1 b2 gcw u f0 f1 f2 alpha agcw a rgcw res bc n s z c v0 v1 v2 ->
  (0 < beta)%Qc ->
  (forall d, 0 <= d < 3 -> (0 < dx d)%Qc) ->
  (0 <= alpha)%Qc ->
  (forall i j k, patch3 i0 j0 k0 i1 j1 k1 i j k -> (0 <= c i j k)%Qc) ->
  (forall i j k, i0 <= i <= i1 + 1 -> j0 <= j <= j1 -> k0 <= k <= k1 -> (0 < v0 i j k)%Qc) ->
  (forall i j k, i0 <= i <= i1 -> j0 <= j <= j1 + 1 -> k0 <= k <= k1 -> (0 <= v1 i j k)%Qc) ->
  (forall i j k, i0 <= i <= i1 -> j0 <= j <= j1 -> k0 <= k <= k1 + 1 -> (0 <= v2 i j k)%Qc) ->
  (forall f, 0 <= f < 6 -> sound true (bc f)) ->
  roomy 3 (ends3 i0 j0 k0) (ends3 i1 j1 k1) bc ->
  (b_kind (bc 0) <> 1 \/ b_kind (bc 1) <> 1 \/ ((0 < alpha)%Qc /\ forall i j k, patch3 i0 j0 k0 i1 j1 k1 i j k -> (0 < c i j k)%Qc)) ->
  (forall i j k, patch3 i0 j0 k0 i1 j1 k1 i j k -> (r i j k <= s i j k)%Qc) ->
  forall i j k, patch3 i0 j0 k0 i1 j1 k1 i j k -> (w i j k <= z i j k)%Qc.
Proof. exact @bcompare_v1_3d. Qed.
Print Assumptions C74_compare_v1_3d.

Example C74_compare_v1_3d_example :
  filled_v1_3d (S := QcS) 0 0 0 1 1 0 ex_h (ex_q 2) (0%nat, 0) (1%nat, 0) (2%nat, 0) 1 (4%nat, 0) (5%nat, 0) (6%nat, 0) (7%nat, 0) (ex_q 3) 0 (3%nat, 0) 0 (8%nat, 0) (ex_bc true) (ex_so 48 ex_rise) (br_v1_3d ex_rise) (bw_v1_3d ex_rise) c_v1_3d v0_v1_3d v1_v1_3d v2_v1_3d /\
  filled_v1_3d (S := QcS) 0 0 0 1 1 0 ex_h (ex_q 2) (0%nat, 0) (1%nat, 0) (2%nat, 0) 1 (4%nat, 0) (5%nat, 0) (6%nat, 0) (7%nat, 0) (ex_q 3) 0 (3%nat, 0) 0 (8%nat, 0) (ex_bc true) (ex_so 48 ex_twice) (br_v1_3d ex_twice) (bw_v1_3d ex_twice) c_v1_3d v0_v1_3d v1_v1_3d v2_v1_3d /\
  (0 < (ex_q 2))%Qc /\
  (forall d, 0 <= d < 3 -> (0 < ex_h d)%Qc) /\
  (0 <= (ex_q 3))%Qc /\
  (forall i j k, patch3 0 0 0 1 1 0 i j k -> (0 <= c_v1_3d i j k)%Qc) /\
  (forall i j k, 0 <= i <= 1 + 1 -> 0 <= j <= 1 -> 0 <= k <= 0 -> (0 < v0_v1_3d i j k)%Qc) /\
  (forall i j k, 0 <= i <= 1 -> 0 <= j <= 1 + 1 -> 0 <= k <= 0 -> (0 <= v1_v1_3d i j k)%Qc) /\
  (forall i j k, 0 <= i <= 1 -> 0 <= j <= 1 -> 0 <= k <= 0 + 1 -> (0 <= v2_v1_3d i j k)%Qc) /\
  (forall f, 0 <= f < 6 -> sound true ((ex_bc true) f)) /\
  roomy 3 (ends3 0 0 0) (ends3 1 1 0) (ex_bc true) /\
  b_kind (ex_bc true 0) <> 1 /\
  (forall i j k, patch3 0 0 0 1 1 0 i j k -> (br_v1_3d ex_rise i j k <= br_v1_3d ex_twice i j k)%Qc).
Proof.
  split; [exact bex_rise_v1_3d|].
  split; [exact bex_twice_v1_3d|].
  split; [now apply lt|].
  split; [exact (ex_h_pos 3)|].
  split; [now apply le|].
  split; [exact cpos_v1_3d|].
  split; [exact v0pos_v1_3d|].
  split; [exact v1pos_v1_3d|].
  split; [exact v2pos_v1_3d|].
  split; [intros f _; apply ex_sound|].
  split; [exact broomy_v1_3d|].
  split; [discriminate|].
  exact bmore_v1_3d.
Qed.

Theorem C74_compare_v2_3d : forall i0 j0 k0 i1 j1 k1 (dx : Z -> Qc) (beta : Qc) b0 b1 b2 gcw u f0 f1 f2 (alpha : Qc) rgcw res bc (m n : mem QcS) (r w s z v0 v1 v2 : Z -> Z -> Z -> Qc),
  filled_v2_3d (S := QcS) i0 j0 k0 i1 j1 k1 dx beta b0 b1 b2 gcw u f0 f1 f2 alpha rgcw res bc m r w v0 v1 v2 ->
  filled_v2_3d (S := QcS) i0 j0 k0 i1 j1 k1 dx beta b0 b1 b2 gcw u f0 f1 f2 alpha rgcw res bc n s z v0 v1 v2 ->
  (0 < beta)%Qc ->
  (forall d, 0 <= d < 3 -> (0 < dx d)%Qc) ->
  (0 <= alpha)%Qc ->
  (forall i j k, i0 <= i <= i1 + 1 -> j0 <= j <= j1 -> k0 <= k <= k1 -> (0 < v0 i j k)%Qc) ->
  (forall i j k, i0 <= i <= i1 -> j0 <= j <= j1 + 1 -> k0 <= k <= k1 -> (0 <= v1 i j k)%Qc) ->
  (forall i j k, i0 <= i <= i1 -> j0 <= j <= j1 -> k0 <= k <= k1 + 1 -> (0 <= v2 i j k)%Qc) ->
  (forall f, 0 <= f < 6 -> sound true (bc f)) ->
  roomy 3 (ends3 i0 j0 k0) (ends3 i1 j1 k1) bc ->
  (b_kind (bc 0) <> 1 \/ b_kind (bc 1) <> 1 \/ (0 < alpha)%Qc) ->
  (forall i j k, patch3 i0 j0 k0 i1 j1 k1 i j k -> (r i j k <= s i j k)%Qc) ->
  forall i j k, patch3 i0 j0 k0 i1 j1 k1 i j k -> (w i j k <= z i j k)%Qc.
Proof. exact @bcompare_v2_3d. Qed.
Print Assumptions C74_compare_v2_3d.

Example C74_compare_v2_3d_example :
  filled_v2_3d (S := QcS) 0 0 0 1 1 0 ex_h (ex_q 2) (0%nat, 0) (1%nat, 0) (2%nat, 0) 1 (4%nat, 0) (5%nat, 0) (6%nat, 0) (7%nat, 0) (ex_q 3) 0 (8%nat, 0) (ex_bc true) (ex_so 48 ex_rise) (br_v2_3d ex_rise) (bw_v2_3d ex_rise) v0_v2_3d v1_v2_3d v2_v2_3d /\
  filled_v2_3d (S := QcS) 0 0 0 1 1 0 ex_h (ex_q 2) (0%nat, 0) (1%nat, 0) (2%nat, 0) 1 (4%nat, 0) (5%nat, 0) (6%nat, 0) (7%nat, 0) (ex_q 3) 0 (8%nat, 0) (ex_bc true) (ex_so 48 ex_twice) (br_v2_3d ex_twice) (bw_v2_3d ex_twice) v0_v2_3d v1_v2_3d v2_v2_3d /\
  (0 < (ex_q 2))%Qc /\
  (forall d, 0 <= d < 3 -> (0 < ex_h d)%Qc) /\
  (0 <= (ex_q 3))%Qc /\
  (forall i j k, 0 <= i <= 1 + 1 -> 0 <= j <= 1 -> 0 <= k <= 0 -> (0 < v0_v2_3d i j k)%Qc) /\
  (forall i j k, 0 <= i <= 1 -> 0 <= j <= 1 + 1 -> 0 <= k <= 0 -> (0 <= v1_v2_3d i j k)%Qc) /\
  (forall i j k, 0 <= i <= 1 -> 0 <= j <= 1 -> 0 <= k <= 0 + 1 -> (0 <= v2_v2_3d i j k)%Qc) /\
  (forall f, 0 <= f < 6 -> sound true ((ex_bc true) f)) /\
  roomy 3 (ends3 0 0 0) (ends3 1 1 0) (ex_bc true) /\
  b_kind (ex_bc true 0) <> 1 /\
  (forall i j k, patch3 0 0 0 1 1 0 i j k -> (br_v2_3d ex_rise i j k <= br_v2_3d ex_twice i j k)%Qc).
Proof.
  split; [exact bex_rise_v2_3d|].
  split; [exact bex_twice_v2_3d|].
  split; [now apply lt|].
  split; [exact (ex_h_pos 3)|].
  split; [now apply le|].
  split; [exact v0pos_v2_3d|].
  split; [exact v1pos_v2_3d|].
  split; [exact v2pos_v2_3d|].
  split; [intros f _; apply ex_sound|].
  split; [exact broomy_v2_3d|].
  split; [discriminate|].
  exact bmore_v2_3d.
Qed.

Theorem C74_compare_poisson_3d : forall i0 j0 k0 i1 j1 k1 (dx : Z -> Qc) (beta : Qc) gcw u f0 f1 f2 rgcw res bc (m n : mem QcS) (r w s z : Z -> Z -> Z -> Qc),
  filled_poisson_3d (S := QcS) i0 j0 k0 i1 j1 k1 dx beta gcw u f0 f1 f2 rgcw res bc m r w ->
  filled_poisson_3d (S := QcS) i0 j0 k0 i1 j1 k1 dx beta gcw u f0 f1 f2 rgcw res bc n s z ->
  (0 < beta)%Qc ->
  (forall d, 0 <= d < 3 -> (0 < dx d)%Qc) ->
  (forall f, 0 <= f < 6 -> sound false (bc f)) ->
  roomy 3 (ends3 i0 j0 k0) (ends3 i1 j1 k1) bc ->
  (b_kind (bc 0) <> 1 \/ b_kind (bc 1) <> 1) ->
  (forall i j k, patch3 i0 j0 k0 i1 j1 k1 i j k -> (r i j k <= s i j k)%Qc) ->
  forall i j k, patch3 i0 j0 k0 i1 j1 k1 i j k -> (w i j k <= z i j k)%Qc.
Proof. exact @bcompare_poisson_3d. Qed.
Print Assumptions C74_compare_poisson_3d.

Example C74_compare_poisson_3d_example :
  filled_poisson_3d (S := QcS) 0 0 0 1 1 0 ex_h (ex_q 2) 1 (4%nat, 0) (5%nat, 0) (6%nat, 0) (7%nat, 0) 0 (8%nat, 0) (ex_bc false) (ex_so 48 ex_rise) (br_poisson_3d ex_rise) (bw_poisson_3d ex_rise)  /\
  filled_poisson_3d (S := QcS) 0 0 0 1 1 0 ex_h (ex_q 2) 1 (4%nat, 0) (5%nat, 0) (6%nat, 0) (7%nat, 0) 0 (8%nat, 0) (ex_bc false) (ex_so 48 ex_twice) (br_poisson_3d ex_twice) (bw_poisson_3d ex_twice)  /\
  (0 < (ex_q 2))%Qc /\
  (forall d, 0 <= d < 3 -> (0 < ex_h d)%Qc) /\
  (forall f, 0 <= f < 6 -> sound false ((ex_bc false) f)) /\
  roomy 3 (ends3 0 0 0) (ends3 1 1 0) (ex_bc false) /\
  b_kind (ex_bc false 0) <> 1 /\
  (forall i j k, patch3 0 0 0 1 1 0 i j k -> (br_poisson_3d ex_rise i j k <= br_poisson_3d ex_twice i j k)%Qc).
Proof.
  split; [exact bex_rise_poisson_3d|].
  split; [exact bex_twice_poisson_3d|].
  split; [now apply lt|].
  split; [exact (ex_h_pos 3)|].
  split; [intros f _; apply ex_sound|].
  split; [exact broomy_poisson_3d|].
  split; [discriminate|].
  exact bmore_poisson_3d.
Qed.

(** At most one solution. *)

Theorem C74_unique_v1_1d : forall i0 i1 (dx : Z -> Qc) (beta : Qc) b0 gcw u f0 (alpha : Qc) agcw a rgcw res bc (m n : mem QcS) (r w s z c v0 : Z -> Qc),
  filled_v1_1d (S := QcS) i0 i1 dx beta b0 gcw u f0 alpha agcw a rgcw res bc m r w c v0 ->
  filled_v1_1d (S := QcS) i0 i1 dx beta b0 gcw u f0 alpha agcw a rgcw res bc n s z c v0 ->
  (0 < beta)%Qc ->
  (forall d, 0 <= d < 1 -> (0 < dx d)%Qc) ->
  (0 <= alpha)%Qc ->
  (forall i, patch1 i0 i1 i -> (0 <= c i)%Qc) ->
  (forall i, i0 <= i <= i1 + 1 -> (0 < v0 i)%Qc) ->
  (forall f, 0 <= f < 2 -> sound true (bc f)) ->
  roomy 1 (ends1 i0) (ends1 i1) bc ->
  (b_kind (bc 0) <> 1 \/ b_kind (bc 1) <> 1 \/ ((0 < alpha)%Qc /\ forall i, patch1 i0 i1 i -> (0 < c i)%Qc)) ->
  (forall i, patch1 i0 i1 i -> r i = s i) ->
  forall i, patch1 i0 i1 i -> w i = z i.
Proof. exact @bunique_v1_1d. Qed.
Print Assumptions C74_unique_v1_1d.

Example C74_unique_v1_1d_example :
  filled_v1_1d (S := QcS) 0 1 ex_h (ex_q 2) (0%nat, 0) 1 (4%nat, 0) (5%nat, 0) (ex_q 3) 0 (3%nat, 0) 0 (8%nat, 0) (ex_bc true) (ex_so 4 ex_any) (br_v1_1d ex_any) (bw_v1_1d ex_any) c_v1_1d v0_v1_1d /\
  (0 < (ex_q 2))%Qc /\
  (forall d, 0 <= d < 1 -> (0 < ex_h d)%Qc) /\
  (0 <= (ex_q 3))%Qc /\
  (forall i, patch1 0 1 i -> (0 <= c_v1_1d i)%Qc) /\
  (forall i, 0 <= i <= 1 + 1 -> (0 < v0_v1_1d i)%Qc) /\
  (forall f, 0 <= f < 2 -> sound true ((ex_bc true) f)) /\
  roomy 1 (ends1 0) (ends1 1) (ex_bc true) /\
  b_kind (ex_bc true 0) <> 1.
Proof.
  split; [exact bex_any_v1_1d|].
  split; [now apply lt|].
  split; [exact (ex_h_pos 1)|].
  split; [now apply le|].
  split; [exact cpos_v1_1d|].
  split; [exact v0pos_v1_1d|].
  split; [intros f _; apply ex_sound|].
  split; [exact broomy_v1_1d|].
  discriminate.
Qed.

Theorem C74_unique_v2_1d : forall i0 i1 (dx : Z -> Qc) (beta : Qc) b0 gcw u f0 (alpha : Qc) rgcw res bc (m n : mem QcS) (r w s z v0 : Z -> Qc),
  filled_v2_1d (S := QcS) i0 i1 dx beta b0 gcw u f0 alpha rgcw res bc m r w v0 ->
  filled_v2_1d (S := QcS) i0 i1 dx beta b0 gcw u f0 alpha rgcw res bc n s z v0 ->
  (0 < beta)%Qc ->
  (forall d, 0 <= d < 1 -> (0 < dx d)%Qc) ->
  (0 <= alpha)%Qc ->
  (forall i, i0 <= i <= i1 + 1 -> (0 < v0 i)%Qc) ->
  (forall f, 0 <= f < 2 -> sound true (bc f)) ->
  roomy 1 (ends1 i0) (ends1 i1) bc ->
  (b_kind (bc 0) <> 1 \/ b_kind (bc 1) <> 1 \/ (0 < alpha)%Qc) ->
  (forall i, patch1 i0 i1 i -> r i = s i) ->
  forall i, patch1 i0 i1 i -> w i = z i.
Proof. exact @bunique_v2_1d. Qed.
Print Assumptions C74_unique_v2_1d.

Example C74_unique_v2_1d_example :
  filled_v2_1d (S := QcS) 0 1 ex_h (ex_q 2) (0%nat, 0) 1 (4%nat, 0) (5%nat, 0) (ex_q 3) 0 (8%nat, 0) (ex_bc true) (ex_so 4 ex_any) (br_v2_1d ex_any) (bw_v2_1d ex_any) v0_v2_1d /\
  (0 < (ex_q 2))%Qc /\
  (forall d, 0 <= d < 1 -> (0 < ex_h d)%Qc) /\
  (0 <= (ex_q 3))%Qc /\
  (forall i, 0 <= i <= 1 + 1 -> (0 < v0_v2_1d i)%Qc) /\
  (forall f, 0 <= f < 2 -> sound true ((ex_bc true) f)) /\
  roomy 1 (ends1 0) (ends1 1) (ex_bc true) /\
  b_kind (ex_bc true 0) <> 1.
Proof.
  split; [exact bex_any_v2_1d|].
  split; [now apply lt|].
  split; [exact (ex_h_pos 1)|].
  split; [now apply le|].
  split; [exact v0pos_v2_1d|].
  split; [intros f _; apply ex_sound|].
  split; [exact broomy_v2_1d|].
  discriminate.
Qed.

Theorem C74_unique_poisson_1d : forall i0 i1 (dx : Z -> Qc) (beta : Qc) gcw u f0 rgcw res bc (m n : mem QcS) (r w s z : Z -> Qc),
  filled_poisson_1d (S := QcS) i0 i1 dx beta gcw u f0 rgcw res bc m r w ->
  filled_poisson_1d (S := QcS) i0 i1 dx beta gcw u f0 rgcw res bc n s z ->
  (0 < beta)%Qc ->
  (forall d, 0 <= d < 1 -> (0 < dx d)%Qc) ->
  (forall f, 0 <= f < 2 -> sound false (bc f)) ->
  roomy 1 (ends1 i0) (ends1 i1) bc ->
  (b_kind (bc 0) <> 1 \/ b_kind (bc 1) <> 1) ->
  (forall i, patch1 i0 i1 i -> r i = s i) ->
  forall i, patch1 i0 i1 i -> w i = z i.
Proof. exact @bunique_poisson_1d. Qed.
Print Assumptions C74_unique_poisson_1d.

Example C74_unique_poisson_1d_example :
  filled_poisson_1d (S := QcS) 0 1 ex_h (ex_q 2) 1 (4%nat, 0) (5%nat, 0) 0 (8%nat, 0) (ex_bc false) (ex_so 4 ex_any) (br_poisson_1d ex_any) (bw_poisson_1d ex_any)  /\
  (0 < (ex_q 2))%Qc /\
  (forall d, 0 <= d < 1 -> (0 < ex_h d)%Qc) /\
  (forall f, 0 <= f < 2 -> sound false ((ex_bc false) f)) /\
  roomy 1 (ends1 0) (ends1 1) (ex_bc false) /\
  b_kind (ex_bc false 0) <> 1.
Proof.
  split; [exact bex_any_poisson_1d|].
  split; [now apply lt|].
  split; [exact (ex_h_pos 1)|].
  split; [intros f _; apply ex_sound|].
  split; [exact broomy_poisson_1d|].
  discriminate.
Qed.

Theorem C74_unique_v1_2d : forall i0 j0 i1 j1 (dx : Z -> Qc) (beta : Qc) b0 b1 gcw u f0 f1 (alpha : Qc) agcw a rgcw res bc (m n : mem QcS) (r w s z c v0 v1 : Z -> Z -> Qc),
  filled_v1_2d (S := QcS) i0 j0 i1 j1 dx beta b0 b1 gcw u f0 f1 alpha agcw a rgcw res bc m r w c v0 v1 ->
  filled_v1_2d (S := QcS) i0 j0 i1 j1 dx beta b0 b1 gcw u f0 f1 alpha agcw a rgcw res bc n s z c v0 v1 ->
  (0 < beta)%Qc ->
  (forall d, 0 <= d < 2 -> (0 < dx d)%Qc) ->
  (0 <= alpha)%Qc ->
  (forall i j, patch2 i0 j0 i1 j1 i j -> (0 <= c i j)%Qc) ->
  (forall i j, i0 <= i <= i1 + 1 -> j0 <= j <= j1 -> (0 < v0 i j)%Qc) ->
  (forall i j, i0 <= i <= i1 -> j0 <= j <= j1 + 1 -> (0 <= v1 i j)%Qc) ->
  (forall f, 0 <= f < 4 -> sound true (bc f)) ->
  roomy 2 (ends2 i0 j0) (ends2 i1 j1) bc ->
  (b_kind (bc 0) <> 1 \/ b_kind (bc 1) <> 1 \/ ((0 < alpha)%Qc /\ forall i j, patch2 i0 j0 i1 j1 i j -> (0 < c i j)%Qc)) ->
  (forall i j, patch2 i0 j0 i1 j1 i j -> r i j = s i j) ->
  forall i j, patch2 i0 j0 i1 j1 i j -> w i j = z i j.
Proof. exact @bunique_v1_2d. Qed.
Print Assumptions C74_unique_v1_2d.

Example C74_unique_v1_2d_example :
  filled_v1_2d (S := QcS) 0 0 1 1 ex_h (ex_q 2) (0%nat, 0) (1%nat, 0) 1 (4%nat, 0) (5%nat, 0) (6%nat, 0) (ex_q 3) 0 (3%nat, 0) 0 (8%nat, 0) (ex_bc true) (ex_so 16 ex_any) (br_v1_2d ex_any) (bw_v1_2d ex_any) c_v1_2d v0_v1_2d v1_v1_2d /\
  (0 < (ex_q 2))%Qc /\
  (forall d, 0 <= d < 2 -> (0 < ex_h d)%Qc) /\
  (0 <= (ex_q 3))%Qc /\
  (forall i j, patch2 0 0 1 1 i j -> (0 <= c_v1_2d i j)%Qc) /\
  (forall i j, 0 <= i <= 1 + 1 -> 0 <= j <= 1 -> (0 < v0_v1_2d i j)%Qc) /\
  (forall i j, 0 <= i <= 1 -> 0 <= j <= 1 + 1 -> (0 <= v1_v1_2d i j)%Qc) /\
  (forall f, 0 <= f < 4 -> sound true ((ex_bc true) f)) /\
  roomy 2 (ends2 0 0) (ends2 1 1) (ex_bc true) /\
  b_kind (ex_bc true 0) <> 1.
Proof.
  split; [exact bex_any_v1_2d|].
  split; [now apply lt|].
  split; [exact (ex_h_pos 2)|].
  split; [now apply le|].
  split; [exact cpos_v1_2d|].
  split; [exact v0pos_v1_2d|].
  split; [exact v1pos_v1_2d|].
  split; [intros f _; apply ex_sound|].
  split; [exact broomy_v1_2d|].
  discriminate.
Qed.

Theorem C74_unique_v2_2d : forall i0 j0 i1 j1 (dx : Z -> Qc) (beta : Qc) b0 b1 gcw u f0 f1 (alpha : Qc) rgcw res bc (m n : mem QcS) (r w s z v0 v1 : Z -> Z -> Qc),
  filled_v2_2d (S := QcS) i0 j0 i1 j1 dx beta b0 b1 gcw u f0 f1 alpha rgcw res bc m r w v0 v1 ->
  filled_v2_2d (S := QcS) i0 j0 i1 j1 dx beta b0 b1 gcw u f0 f1 alpha rgcw res bc n s z v0 v1 ->
  (0 < beta)%Qc ->
  (forall d, 0 <= d < 2 -> (0 < dx d)%Qc) ->
  (0 <= alpha)%Qc ->
  (forall i j, i0 <= i <= i1 + 1 -> j0 <= j <= j1 -> (0 < v0 i j)%Qc) ->
  (forall i j, i0 <= i <= i1 -> j0 <= j <= j1 + 1 -> (0 <= v1 i j)%Qc) ->
  (forall f, 0 <= f < 4 -> sound true (bc f)) ->
  roomy 2 (ends2 i0 j0) (ends2 i1 j1) bc ->
  (b_kind (bc 0) <> 1 \/ b_kind (bc 1) <> 1 \/ (0 < alpha)%Qc) ->
  (forall i j, patch2 i0 j0 i1 j1 i j -> r i j = s i j) ->
  forall i j, patch2 i0 j0 i1 j1 i j -> w i j = z i j.
Proof. exact @bunique_v2_2d. Qed.
Print Assumptions C74_unique_v2_2d.

Example C74_unique_v2_2d_example :
  filled_v2_2d (S := QcS) 0 0 1 1 ex_h (ex_q 2) (0%nat, 0) (1%nat, 0) 1 (4%nat, 0) (5%nat, 0) (6%nat, 0) (ex_q 3) 0 (8%nat, 0) (ex_bc true) (ex_so 16 ex_any) (br_v2_2d ex_any) (bw_v2_2d ex_any) v0_v2_2d v1_v2_2d /\
  (0 < (ex_q 2))%Qc /\
  (forall d, 0 <= d < 2 -> (0 < ex_h d)%Qc) /\
  (0 <= (ex_q 3))%Qc /\
  (forall i j, 0 <= i <= 1 + 1 -> 0 <= j <= 1 -> (0 < v0_v2_2d i j)%Qc) /\
  (forall i j, 0 <= i <= 1 -> 0 <= j <= 1 + 1 -> (0 <= v1_v2_2d i j)%Qc) /\
  (forall f, 0 <= f < 4 -> sound true ((ex_bc true) f)) /\
  roomy 2 (ends2 0 0) (ends2 1 1) (ex_bc true) /\
  b_kind (ex_bc true 0) <> 1.
Proof.
  split; [exact bex_any_v2_2d|].
  split; [now apply lt|].
  split; [exact (ex_h_pos 2)|].
  split; [now apply le|].
  split; [exact v0pos_v2_2d|].
  split; [exact v1pos_v2_2d|].
  split; [intros f _; apply ex_sound|].
  split; [exact broomy_v2_2d|].
  discriminate.
Qed.

Theorem C74_unique_poisson_2d : forall i0 j0 i1 j1 (dx : Z -> Qc) (beta : Qc) gcw u f0 f1 rgcw res bc (m n : mem QcS) (r w s z : Z -> Z -> Qc),
  filled_poisson_2d (S := QcS) i0 j0 i1 j1 dx beta gcw u f0 f1 rgcw res bc m r w ->
  filled_poisson_2d (S := QcS) i0 j0 i1 j1 dx beta gcw u f0 f1 rgcw res bc n s z ->
  (0 < beta)%Qc ->
  (forall d, 0 <= d < 2 -> (0 < dx d)%Qc) ->
  (forall f, 0 <= f < 4 -> sound false (bc f)) ->
  roomy 2 (ends2 i0 j0) (ends2 i1 j1) bc ->
  (b_kind (bc 0) <> 1 \/ b_kind (bc 1) <> 1) ->
  (forall i j, patch2 i0 j0 i1 j1 i j -> r i j = s i j) ->
  forall i j, patch2 i0 j0 i1 j1 i j -> w i j = z i j.
Proof. exact @bunique_poisson_2d. Qed.
Print Assumptions C74_unique_poisson_2d.

Example C74_unique_poisson_2d_example :
  filled_poisson_2d (S := QcS) 0 0 1 1 ex_h (ex_q 2) 1 (4%nat, 0) (5%nat, 0) (6%nat, 0) 0 (8%nat, 0) (ex_bc false) (ex_so 16 ex_any) (br_poisson_2d ex_any) (bw_poisson_2d ex_any)  /\
  (0 < (ex_q 2))%Qc /\
  (forall d, 0 <= d < 2 -> (0 < ex_h d)%Qc) /\
  (forall f, 0 <= f < 4 -> sound false ((ex_bc false) f)) /\
  roomy 2 (ends2 0 0) (ends2 1 1) (ex_bc false) /\
  b_kind (ex_bc false 0) <> 1.
Proof.
  split; [exact bex_any_poisson_2d|].
  split; [now apply lt|].
  split; [exact (ex_h_pos 2)|].
  split; [intros f _; apply ex_sound|].
  split; [exact broomy_poisson_2d|].
  discriminate.
Qed.

Theorem C74_unique_v1_3d : forall i0 j0 k0 i1 j1 k1 (dx : Z -> Qc) (beta : Qc) b0 b1 b2 gcw u f0 f1 f2 (alpha : Qc) agcw a rgcw res bc (m n : mem QcS) (r w s z c v0 v1 v2 : Z -> Z -> Z -> Qc),
  filled_v1_3d (S := QcS) i0 j0 k0 i1 j1 k1 dx beta b0 b1 b2 gcw u f0 f1 f2 alpha agcw a rgcw res bc m r w c v0 v1 v2 ->
  filled_v1_3d (S := QcS) i0 j0 k0 i1 j1 k1 dx beta b0 b1 b2 gcw u f0 f1 f2 alpha agcw a rgcw res bc n s z c v0 v1 v2 ->
  (0 < beta)%Qc ->
  (forall d, 0 <= d < 3 -> (0 < dx d)%Qc) ->
  (0 <= alpha)%Qc ->
  (forall i j k, patch3 i0 j0 k0 i1 j1 k1 i j k -> (0 <= c i j k)%Qc) ->
  (forall i j k, i0 <= i <= i1 + 1 -> j0 <= j <= j1 -> k0 <= k <= k1 -> (0 < v0 i j k)%Qc) ->
  (forall i j k, i0 <= i <= i1 -> j0 <= j <= j1 + 1 -> k0 <= k <= k1 -> (0 <= v1 i j k)%Qc) ->
  (forall i j k, i0 <= i <= i1 -> j0 <= j <= j1 -> k0 <= k <= k1 + 1 -> (0 <= v2 i j k)%Qc) ->
  (forall f, 0 <= f < 6 -> sound true (bc f)) ->
  roomy 3 (ends3 i0 j0 k0) (ends3 i1 j1 k1) bc ->
  (b_kind (bc 0) <> 1 \/ b_kind (bc 1) <> 1 \/ ((0 < alpha)%Qc /\ forall i j k, patch3 i0 j0 k0 i1 j1 k1 i j k -> (0 < c i j k)%Qc)) ->
  (forall i j k, patch3 i0 j0 k0 i1 j1 k1 i j k -> r i j k = s i j k) ->
  forall i j k, patch3 i0 j0 k0 i1 j1 k1 i j k -> w i j k = z i j k.
Proof. exact @bunique_v1_3d. Qed.
Print Assumptions C74_unique_v1_3d.

Example C74_unique_v1_3d_example :
  filled_v1_3d (S := QcS) 0 0 0 1 1 0 ex_h (ex_q 2) (0%nat, 0) (1%nat, 0) (2%nat, 0) 1 (4%nat, 0) (5%nat, 0) (6%nat, 0) (7%nat, 0) (ex_q 3) 0 (3%nat, 0) 0 (8%nat, 0) (ex_bc true) (ex_so 48 ex_any) (br_v1_3d ex_any) (bw_v1_3d ex_any) c_v1_3d v0_v1_3d v1_v1_3d v2_v1_3d /\
  (0 < (ex_q 2))%Qc /\
  (forall d, 0 <= d < 3 -> (0 < ex_h d)%Qc) /\
  (0 <= (ex_q 3))%Qc /\
  (forall i j k, patch3 0 0 0 1 1 0 i j k -> (0 <= c_v1_3d i j k)%Qc) /\
  (forall i j k, 0 <= i <= 1 + 1 -> 0 <= j <= 1 -> 0 <= k <= 0 -> (0 < v0_v1_3d i j k)%Qc) /\
  (forall i j k, 0 <= i <= 1 -> 0 <= j <= 1 + 1 -> 0 <= k <= 0 -> (0 <= v1_v1_3d i j k)%Qc) /\
  (forall i j k, 0 <= i <= 1 -> 0 <= j <= 1 -> 0 <= k <= 0 + 1 -> (0 <= v2_v1_3d i j k)%Qc) /\
  (forall f, 0 <= f < 6 -> sound true ((ex_bc true) f)) /\
  roomy 3 (ends3 0 0 0) (ends3 1 1 0) (ex_bc true) /\
  b_kind (ex_bc true 0) <> 1.
Proof.
  split; [exact bex_any_v1_3d|].
  split; [now apply lt|].
  split; [exact (ex_h_pos 3)|].
  split; [now apply le|].
  split; [exact cpos_v1_3d|].
  split; [exact v0pos_v1_3d|].
  split; [exact v1pos_v1_3d|].
  split; [exact v2pos_v1_3d|].
  split; [intros f _; apply ex_sound|].
  split; [exact broomy_v1_3d|].
  discriminate.
Qed.

Theorem C74_unique_v2_3d : forall i0 j0 k0 i1 j1 k1 (dx : Z -> Qc) (beta : Qc) b0 b1 b2 gcw u f0 f1 f2 (alpha : Qc) rgcw res bc (m n : mem QcS) (r w s z v0 v1 v2 : Z -> Z -> Z -> Qc),
  filled_v2_3d (S := QcS) i0 j0 k0 i1 j1 k1 dx beta b0 b1 b2 gcw u f0 f1 f2 alpha rgcw res bc m r w v0 v1 v2 ->
  filled_v2_3d (S := QcS) i0 j0 k0 i1 j1 k1 dx beta b0 b1 b2 gcw u f0 f1 f2 alpha rgcw res bc n s z v0 v1 v2 ->
  (0 < beta)%Qc ->
  (forall d, 0 <= d < 3 -> (0 < dx d)%Qc) ->
  (0 <= alpha)%Qc ->
  (forall i j k, i0 <= i <= i1 + 1 -> j0 <= j <= j1 -> k0 <= k <= k1 -> (0 < v0 i j k)%Qc) ->
  (forall i j k, i0 <= i <= i1 -> j0 <= j <= j1 + 1 -> k0 <= k <= k1 -> (0 <= v1 i j k)%Qc) ->
  (forall i j k, i0 <= i <= i1 -> j0 <= j <= j1 -> k0 <= k <= k1 + 1 -> (0 <= v2 i j k)%Qc) ->
  (forall f, 0 <= f < 6 -> sound true (bc f)) ->
  roomy 3 (ends3 i0 j0 k0) (ends3 i1 j1 k1) bc ->
  (b_kind (bc 0) <> 1 \/ b_kind (bc 1) <> 1 \/ (0 < alpha)%Qc) ->
  (forall i j k, patch3 i0 j0 k0 i1 j1 k1 i j k -> r i j k = s i j k) ->
  forall i j k, patch3 i0 j0 k0 i1 j1 k1 i j k -> w i j k = z i j k.
Proof. exact @bunique_v2_3d. Qed.
Print Assumptions C74_unique_v2_3d.

Example C74_unique_v2_3d_example :
  filled_v2_3d (S := QcS) 0 0 0 1 1 0 ex_h (ex_q 2) (0%nat, 0) (1%nat, 0) (2%nat, 0) 1 (4%nat, 0) (5%nat, 0) (6%nat, 0) (7%nat, 0) (ex_q 3) 0 (8%nat, 0) (ex_bc true) (ex_so 48 ex_any) (br_v2_3d ex_any) (bw_v2_3d ex_any) v0_v2_3d v1_v2_3d v2_v2_3d /\
  (0 < (ex_q 2))%Qc /\
  (forall d, 0 <= d < 3 -> (0 < ex_h d)%Qc) /\
  (0 <= (ex_q 3))%Qc /\
  (forall i j k, 0 <= i <= 1 + 1 -> 0 <= j <= 1 -> 0 <= k <= 0 -> (0 < v0_v2_3d i j k)%Qc) /\
  (forall i j k, 0 <= i <= 1 -> 0 <= j <= 1 + 1 -> 0 <= k <= 0 -> (0 <= v1_v2_3d i j k)%Qc) /\
  (forall i j k, 0 <= i <= 1 -> 0 <= j <= 1 -> 0 <= k <= 0 + 1 -> (0 <= v2_v2_3d i j k)%Qc) /\
  (forall f, 0 <= f < 6 -> sound true ((ex_bc true) f)) /\
  roomy 3 (ends3 0 0 0) (ends3 1 1 0) (ex_bc true) /\
  b_kind (ex_bc true 0) <> 1.
Proof.
  split; [exact bex_any_v2_3d|].
  split; [now apply lt|].
  split; [exact (ex_h_pos 3)|].
  split; [now apply le|].
  split; [exact v0pos_v2_3d|].
  split; [exact v1pos_v2_3d|].
  split; [exact v2pos_v2_3d|].
  split; [intros f _; apply ex_sound|].
  split; [exact broomy_v2_3d|].
  discriminate.
Qed.

Theorem C74_unique_poisson_3d : forall i0 j0 k0 i1 j1 k1 (dx : Z -> Qc) (beta : Qc) gcw u f0 f1 f2 rgcw res bc (m n : mem QcS) (r w s z : Z -> Z -> Z -> Qc),
  filled_poisson_3d (S := QcS) i0 j0 k0 i1 j1 k1 dx beta gcw u f0 f1 f2 rgcw res bc m r w ->
  filled_poisson_3d (S := QcS) i0 j0 k0 i1 j1 k1 dx beta gcw u f0 f1 f2 rgcw res bc n s z ->
  (0 < beta)%Qc ->
  (forall d, 0 <= d < 3 -> (0 < dx d)%Qc) ->
  (forall f, 0 <= f < 6 -> sound false (bc f)) ->
  roomy 3 (ends3 i0 j0 k0) (ends3 i1 j1 k1) bc ->
  (b_kind (bc 0) <> 1 \/ b_kind (bc 1) <> 1) ->
  (forall i j k, patch3 i0 j0 k0 i1 j1 k1 i j k -> r i j k = s i j k) ->
  forall i j k, patch3 i0 j0 k0 i1 j1 k1 i j k -> w i j k = z i j k.
Proof. exact @bunique_poisson_3d. Qed.
Print Assumptions C74_unique_poisson_3d.

Example C74_unique_poisson_3d_example :
  filled_poisson_3d (S := QcS) 0 0 0 1 1 0 ex_h (ex_q 2) 1 (4%nat, 0) (5%nat, 0) (6%nat, 0) (7%nat, 0) 0 (8%nat, 0) (ex_bc false) (ex_so 48 ex_any) (br_poisson_3d ex_any) (bw_poisson_3d ex_any)  /\
  (0 < (ex_q 2))%Qc /\
  (forall d, 0 <= d < 3 -> (0 < ex_h d)%Qc) /\
  (forall f, 0 <= f < 6 -> sound false ((ex_bc false) f)) /\
  roomy 3 (ends3 0 0 0) (ends3 1 1 0) (ex_bc false) /\
  b_kind (ex_bc false 0) <> 1.
Proof.
  split; [exact bex_any_poisson_3d|].
  split; [now apply lt|].
  split; [exact (ex_h_pos 3)|].
  split; [intros f _; apply ex_sound|].
  split; [exact broomy_poisson_3d|].
  discriminate.
Qed.

(** A solution, in memory. *)

Theorem C74_solve_v1_1d : forall i0 i1 (dx : Z -> Qc) (beta : Qc) b0 gcw u f0 (alpha : Qc) agcw a rgcw res bc (m : mem QcS) (r w c v0 f : Z -> Qc),
  filled_v1_1d (S := QcS) i0 i1 dx beta b0 gcw u f0 alpha agcw a rgcw res bc m r w c v0 ->
  (0 < beta)%Qc ->
  (forall d, 0 <= d < 1 -> (0 < dx d)%Qc) ->
  (0 <= alpha)%Qc ->
  (forall i, patch1 i0 i1 i -> (0 <= c i)%Qc) ->
  (forall i, i0 <= i <= i1 + 1 -> (0 < v0 i)%Qc) ->
  (forall f, 0 <= f < 2 -> sound true (bc f)) ->
  roomy 1 (ends1 i0) (ends1 i1) bc ->
  (b_kind (bc 0) <> 1 \/ b_kind (bc 1) <> 1 \/ ((0 < alpha)%Qc /\ forall i, patch1 i0 i1 i -> (0 < c i)%Qc)) ->
  exists (n : mem QcS) (z : Z -> Qc), filled_v1_1d (S := QcS) i0 i1 dx beta b0 gcw u f0 alpha agcw a rgcw res bc n f z c v0 /\
    shape n = shape m /\ ints n = ints m /\
    (forall p, (forall i, patch1 i0 i1 i -> faddr (mkFa u (CELL1d i0 i1 gcw)) [i] <> p) -> load n p = load m p).
Proof. exact @bsolve_v1_1d. Qed.
Print Assumptions C74_solve_v1_1d.

Example C74_solve_v1_1d_example :
  filled_v1_1d (S := QcS) 0 1 ex_h (ex_q 2) (0%nat, 0) 1 (4%nat, 0) (5%nat, 0) (ex_q 3) 0 (3%nat, 0) 0 (8%nat, 0) (ex_bc true) (ex_so 4 ex_any) (br_v1_1d ex_any) (bw_v1_1d ex_any) c_v1_1d v0_v1_1d /\
  (0 < (ex_q 2))%Qc /\
  (forall d, 0 <= d < 1 -> (0 < ex_h d)%Qc) /\
  (0 <= (ex_q 3))%Qc /\
  (forall i, patch1 0 1 i -> (0 <= c_v1_1d i)%Qc) /\
  (forall i, 0 <= i <= 1 + 1 -> (0 < v0_v1_1d i)%Qc) /\
  (forall f, 0 <= f < 2 -> sound true ((ex_bc true) f)) /\
  roomy 1 (ends1 0) (ends1 1) (ex_bc true) /\
  b_kind (ex_bc true 0) <> 1.
Proof.
  split; [exact bex_any_v1_1d|].
  split; [now apply lt|].
  split; [exact (ex_h_pos 1)|].
  split; [now apply le|].
  split; [exact cpos_v1_1d|].
  split; [exact v0pos_v1_1d|].
  split; [intros f _; apply ex_sound|].
  split; [exact broomy_v1_1d|].
  discriminate.
Qed.

Theorem C74_solve_v2_1d : forall i0 i1 (dx : Z -> Qc) (beta : Qc) b0 gcw u f0 (alpha : Qc) rgcw res bc (m : mem QcS) (r w v0 f : Z -> Qc),
  filled_v2_1d (S := QcS) i0 i1 dx beta b0 gcw u f0 alpha rgcw res bc m r w v0 ->
  (0 < beta)%Qc ->
  (forall d, 0 <= d < 1 -> (0 < dx d)%Qc) ->
  (0 <= alpha)%Qc ->
  (forall i, i0 <= i <= i1 + 1 -> (0 < v0 i)%Qc) ->
  (forall f, 0 <= f < 2 -> sound true (bc f)) ->
  roomy 1 (ends1 i0) (ends1 i1) bc ->
  (b_kind (bc 0) <> 1 \/ b_kind (bc 1) <> 1 \/ (0 < alpha)%Qc) ->
  exists (n : mem QcS) (z : Z -> Qc), filled_v2_1d (S := QcS) i0 i1 dx beta b0 gcw u f0 alpha rgcw res bc n f z v0 /\
    shape n = shape m /\ ints n = ints m /\
    (forall p, (forall i, patch1 i0 i1 i -> faddr (mkFa u (CELL1d i0 i1 gcw)) [i] <> p) -> load n p = load m p).
Proof. exact @bsolve_v2_1d. Qed.
Print Assumptions C74_solve_v2_1d.

Example C74_solve_v2_1d_example :
  filled_v2_1d (S := QcS) 0 1 ex_h (ex_q 2) (0%nat, 0) 1 (4%nat, 0) (5%nat, 0) (ex_q 3) 0 (8%nat, 0) (ex_bc true) (ex_so 4 ex_any) (br_v2_1d ex_any) (bw_v2_1d ex_any) v0_v2_1d /\
  (0 < (ex_q 2))%Qc /\
  (forall d, 0 <= d < 1 -> (0 < ex_h d)%Qc) /\
  (0 <= (ex_q 3))%Qc /\
  (forall i, 0 <= i <= 1 + 1 -> (0 < v0_v2_1d i)%Qc) /\
  (forall f, 0 <= f < 2 -> sound true ((ex_bc true) f)) /\
  roomy 1 (ends1 0) (ends1 1) (ex_bc true) /\
  b_kind (ex_bc true 0) <> 1.
Proof.
  split; [exact bex_any_v2_1d|].
  split; [now apply lt|].
  split; [exact (ex_h_pos 1)|].
  split; [now apply le|].
  split; [exact v0pos_v2_1d|].
  split; [intros f _; apply ex_sound|].
  split; [exact broomy_v2_1d|].
  discriminate.
Qed.

Theorem C74_solve_poisson_1d : forall i0 i1 (dx : Z -> Qc) (beta : Qc) gcw u f0 rgcw res bc (m : mem QcS) (r w f : Z -> Qc),
  filled_poisson_1d (S := QcS) i0 i1 dx beta gcw u f0 rgcw res bc m r w ->
  (0 < beta)%Qc ->
  (forall d, 0 <= d < 1 -> (0 < dx d)%Qc) ->
  (forall f, 0 <= f < 2 -> sound false (bc f)) ->
  roomy 1 (ends1 i0) (ends1 i1) bc ->
  (b_kind (bc 0) <> 1 \/ b_kind (bc 1) <> 1) ->
  exists (n : mem QcS) (z : Z -> Qc), filled_poisson_1d (S := QcS) i0 i1 dx beta gcw u f0 rgcw res bc n f z /\
    shape n = shape m /\ ints n = ints m /\
    (forall p, (forall i, patch1 i0 i1 i -> faddr (mkFa u (CELL1d i0 i1 gcw)) [i] <> p) -> load n p = load m p).
Proof. exact @bsolve_poisson_1d. Qed.
Print Assumptions C74_solve_poisson_1d.

Example C74_solve_poisson_1d_example :
  filled_poisson_1d (S := QcS) 0 1 ex_h (ex_q 2) 1 (4%nat, 0) (5%nat, 0) 0 (8%nat, 0) (ex_bc false) (ex_so 4 ex_any) (br_poisson_1d ex_any) (bw_poisson_1d ex_any)  /\
  (0 < (ex_q 2))%Qc /\
  (forall d, 0 <= d < 1 -> (0 < ex_h d)%Qc) /\
  (forall f, 0 <= f < 2 -> sound false ((ex_bc false) f)) /\
  roomy 1 (ends1 0) (ends1 1) (ex_bc false) /\
  b_kind (ex_bc false 0) <> 1.
Proof.
  split; [exact bex_any_poisson_1d|].
  split; [now apply lt|].
  split; [exact (ex_h_pos 1)|].
  split; [intros f _; apply ex_sound|].
  split; [exact broomy_poisson_1d|].
  discriminate.
Qed.

Theorem C74_solve_v1_2d : forall i0 j0 i1 j1 (dx : Z -> Qc) (beta : Qc) b0 b1 gcw u f0 f1 (alpha : Qc) agcw a rgcw res bc (m : mem QcS) (r w c v0 v1 f : Z -> Z -> Qc),
  filled_v1_2d (S := QcS) i0 j0 i1 j1 dx beta b0 b1 gcw u f0 f1 alpha agcw a rgcw res bc m r w c v0 v1 ->
  (0 < beta)%Qc ->
  (forall d, 0 <= d < 2 -> (0 < dx d)%Qc) ->
  (0 <= alpha)%Qc ->
  (forall i j, patch2 i0 j0 i1 j1 i j -> (0 <= c i j)%Qc) ->
  (forall i j, i0 <= i <= i1 + 1 -> j0 <= j <= j1 -> (0 < v0 i j)%Qc) ->
  (forall i j, i0 <= i <= i1 -> j0 <= j <= j1 + 1 -> (0 <= v1 i j)%Qc) ->
  (forall f, 0 <= f < 4 -> sound true (bc f)) ->
  roomy 2 (ends2 i0 j0) (ends2 i1 j1) bc ->
  (b_kind (bc 0) <> 1 \/ b_kind (bc 1) <> 1 \/ ((0 < alpha)%Qc /\ forall i j, patch2 i0 j0 i1 j1 i j -> (0 < c i j)%Qc)) ->
  exists (n : mem QcS) (z : Z -> Z -> Qc), filled_v1_2d (S := QcS) i0 j0 i1 j1 dx beta b0 b1 gcw u f0 f1 alpha agcw a rgcw res bc n f z c v0 v1 /\
    shape n = shape m /\ ints n = ints m /\
    (forall p, (forall i j, patch2 i0 j0 i1 j1 i j -> faddr (mkFa u (CELL2d i0 j0 i1 j1 gcw)) [i; j] <> p) -> load n p = load m p).
Proof. exact @bsolve_v1_2d. Qed.
Print Assumptions C74_solve_v1_2d.

Example C74_solve_v1_2d_example :
  filled_v1_2d (S := QcS) 0 0 1 1 ex_h (ex_q 2) (0%nat, 0) (1%nat, 0) 1 (4%nat, 0) (5%nat, 0) (6%nat, 0) (ex_q 3) 0 (3%nat, 0) 0 (8%nat, 0) (ex_bc true) (ex_so 16 ex_any) (br_v1_2d ex_any) (bw_v1_2d ex_any) c_v1_2d v0_v1_2d v1_v1_2d /\
  (0 < (ex_q 2))%Qc /\
  (forall d, 0 <= d < 2 -> (0 < ex_h d)%Qc) /\
  (0 <= (ex_q 3))%Qc /\
  (forall i j, patch2 0 0 1 1 i j -> (0 <= c_v1_2d i j)%Qc) /\
  (forall i j, 0 <= i <= 1 + 1 -> 0 <= j <= 1 -> (0 < v0_v1_2d i j)%Qc) /\
  (forall i j, 0 <= i <= 1 -> 0 <= j <= 1 + 1 -> (0 <= v1_v1_2d i j)%Qc) /\
  (forall f, 0 <= f < 4 -> sound true ((ex_bc true) f)) /\
  roomy 2 (ends2 0 0) (ends2 1 1) (ex_bc true) /\
  b_kind (ex_bc true 0) <> 1.
Proof.
  split; [exact bex_any_v1_2d|].
  split; [now apply lt|].
  split; [exact (ex_h_pos 2)|].
  split; [now apply le|].
  split; [exact cpos_v1_2d|].
  split; [exact v0pos_v1_2d|].
  split; [exact v1pos_v1_2d|].
  split; [intros f _; apply ex_sound|].
  split; [exact broomy_v1_2d|].
  discriminate.
Qed.

Theorem C74_solve_v2_2d : forall i0 j0 i1 j1 (dx : Z -> Qc) (beta : Qc) b0 b1 gcw u f0 f1 (alpha : Qc) rgcw res bc (m : mem QcS) (r w v0 v1 f : Z -> Z -> Qc),
  filled_v2_2d (S := QcS) i0 j0 i1 j1 dx beta b0 b1 gcw u f0 f1 alpha rgcw res bc m r w v0 v1 ->
  (0 < beta)%Qc ->
  (forall d, 0 <= d < 2 -> (0 < dx d)%Qc) ->
  (0 <= alpha)%Qc ->
  (forall i j, i0 <= i <= i1 + 1 -> j0 <= j <= j1 -> (0 < v0 i j)%Qc) ->
  (forall i j, i0 <= i <= i1 -> j0 <= j <= j1 + 1 -> (0 <= v1 i j)%Qc) ->
  (forall f, 0 <= f < 4 -> sound true (bc f)) ->
  roomy 2 (ends2 i0 j0) (ends2 i1 j1) bc ->
  (b_kind (bc 0) <> 1 \/ b_kind (bc 1) <> 1 \/ (0 < alpha)%Qc) ->
  exists (n : mem QcS) (z : Z -> Z -> Qc), filled_v2_2d (S := QcS) i0 j0 i1 j1 dx beta b0 b1 gcw u f0 f1 alpha rgcw res bc n f z v0 v1 /\
    shape n = shape m /\ ints n = ints m /\
    (forall p, (forall i j, patch2 i0 j0 i1 j1 i j -> faddr (mkFa u (CELL2d i0 j0 i1 j1 gcw)) [i; j] <> p) -> load n p = load m p).
Proof. exact @bsolve_v2_2d. Qed.
Print Assumptions C74_solve_v2_2d.

Example C74_solve_v2_2d_example :
  filled_v2_2d (S := QcS) 0 0 1 1 ex_h (ex_q 2) (0%nat, 0) (1%nat, 0) 1 (4%nat, 0) (5%nat, 0) (6%nat, 0) (ex_q 3) 0 (8%nat, 0) (ex_bc true) (ex_so 16 ex_any) (br_v2_2d ex_any) (bw_v2_2d ex_any) v0_v2_2d v1_v2_2d /\
  (0 < (ex_q 2))%Qc /\
  (forall d, 0 <= d < 2 -> (0 < ex_h d)%Qc) /\
  (0 <= (ex_q 3))%Qc /\
  (forall i j, 0 <= i <= 1 + 1 -> 0 <= j <= 1 -> (0 < v0_v2_2d i j)%Qc) /\
  (forall i j, 0 <= i <= 1 -> 0 <= j <= 1 + 1 -> (0 <= v1_v2_2d i j)%Qc) /\
  (forall f, 0 <= f < 4 -> sound true ((ex_bc true) f)) /\
  roomy 2 (ends2 0 0) (ends2 1 1) (ex_bc true) /\
  b_kind (ex_bc true 0) <> 1.
Proof.
  split; [exact bex_any_v2_2d|].
  split; [now apply lt|].
  split; [exact (ex_h_pos 2)|].
  split; [now apply le|].
  split; [exact v0pos_v2_2d|].
  split; [exact v1pos_v2_2d|].
  split; [intros f _; apply ex_sound|].
  split; [exact broomy_v2_2d|].
  discriminate.
Qed.

Theorem C74_solve_poisson_2d : forall i0 j0 i1 j1 (dx : Z -> Qc) (beta : Qc) gcw u f0 f1 rgcw res bc (m : mem QcS) (r w f : Z -> Z -> Qc),
  filled_poisson_2d (S := QcS) i0 j0 i1 j1 dx beta gcw u f0 f1 rgcw res bc m r w ->
  (0 < beta)%Qc ->
  (forall d, 0 <= d < 2 -> (0 < dx d)%Qc) ->
  (forall f, 0 <= f < 4 -> sound false (bc f)) ->
  roomy 2 (ends2 i0 j0) (ends2 i1 j1) bc ->
  (b_kind (bc 0) <> 1 \/ b_kind (bc 1) <> 1) ->
  exists (n : mem QcS) (z : Z -> Z -> Qc), filled_poisson_2d (S := QcS) i0 j0 i1 j1 dx beta gcw u f0 f1 rgcw res bc n f z /\
    shape n = shape m /\ ints n = ints m /\
    (forall p, (forall i j, patch2 i0 j0 i1 j1 i j -> faddr (mkFa u (CELL2d i0 j0 i1 j1 gcw)) [i; j] <> p) -> load n p = load m p).
Proof. exact @bsolve_poisson_2d. Qed.
Print Assumptions C74_solve_poisson_2d.

Example C74_solve_poisson_2d_example :
  filled_poisson_2d (S := QcS) 0 0 1 1 ex_h (ex_q 2) 1 (4%nat, 0) (5%nat, 0) (6%nat, 0) 0 (8%nat, 0) (ex_bc false) (ex_so 16 ex_any) (br_poisson_2d ex_any) (bw_poisson_2d ex_any)  /\
  (0 < (ex_q 2))%Qc /\
  (forall d, 0 <= d < 2 -> (0 < ex_h d)%Qc) /\
  (forall f, 0 <= f < 4 -> sound false ((ex_bc false) f)) /\
  roomy 2 (ends2 0 0) (ends2 1 1) (ex_bc false) /\
  b_kind (ex_bc false 0) <> 1.
Proof.
  split; [exact bex_any_poisson_2d|].
  split; [now apply lt|].
  split; [exact (ex_h_pos 2)|].
  split; [intros f _; apply ex_sound|].
  split; [exact broomy_poisson_2d|].
  discriminate.
Qed.

Theorem C74_solve_v1_3d : forall i0 j0 k0 i1 j1 k1 (dx : Z -> Qc) (beta : Qc) b0 b1 b2 gcw u f0 f1 f2 (alpha : Qc) agcw a rgcw res bc (m : mem QcS) (r w c v0 v1 v2 f : Z -> Z -> Z -> Qc),
  filled_v1_3d (S := QcS) i0 j0 k0 i1 j1 k1 dx beta b0 b1 b2 gcw u f0 f1 f2 alpha agcw a rgcw res bc m r w c v0 v1 v2 ->
  (0 < beta)%Qc ->
  (forall d, 0 <= d < 3 -> (0 < dx d)%Qc) ->
  (0 <= alpha)%Qc ->
  (forall i j k, patch3 i0 j0 k0 i1 j1 k1 i j k -> (0 <= c i j k)%Qc) ->
  (forall i j k, i0 <= i <= i1 + 1 -> j0 <= j <= j1 -> k0 <= k <= k1 -> (0 < v0 i j k)%Qc) ->
  (forall i j k, i0 <= i <= i1 -> j0 <= j <= j1 + 1 -> k0 <= k <= k1 -> (0 <= v1 i j k)%Qc) ->
  (forall i j k, i0 <= i <= i1 -> j0 <= j <= j1 -> k0 <= k <= k1 + 1 -> (0 <= v2 i j k)%Qc) ->
  (forall f, 0 <= f < 6 -> sound true (bc f)) ->
  roomy 3 (ends3 i0 j0 k0) (ends3 i1 j1 k1) bc ->
  (b_kind (bc 0) <> 1 \/ b_kind (bc 1) <> 1 \/ ((0 < alpha)%Qc /\ forall i j k, patch3 i0 j0 k0 i1 j1 k1 i j k -> (0 < c i j k)%Qc)) ->
  exists (n : mem QcS) (z : Z -> Z -> Z -> Qc), filled_v1_3d (S := QcS) i0 j0 k0 i1 j1 k1 dx beta b0 b1 b2 gcw u f0 f1 f2 alpha agcw a rgcw res bc n f z c v0 v1 v2 /\
    shape n = shape m /\ ints n = ints m /\
    (forall p, (forall i j k, patch3 i0 j0 k0 i1 j1 k1 i j k -> faddr (mkFa u (CELL3d i0 j0 k0 i1 j1 k1 gcw)) [i; j; k] <> p) -> load n p = load m p).
Proof. exact @bsolve_v1_3d. Qed.
Print Assumptions C74_solve_v1_3d.

Example C74_solve_v1_3d_example :
  filled_v1_3d (S := QcS) 0 0 0 1 1 0 ex_h (ex_q 2) (0%nat, 0) (1%nat, 0) (2%nat, 0) 1 (4%nat, 0) (5%nat, 0) (6%nat, 0) (7%nat, 0) (ex_q 3) 0 (3%nat, 0) 0 (8%nat, 0) (ex_bc true) (ex_so 48 ex_any) (br_v1_3d ex_any) (bw_v1_3d ex_any) c_v1_3d v0_v1_3d v1_v1_3d v2_v1_3d /\
  (0 < (ex_q 2))%Qc /\
  (forall d, 0 <= d < 3 -> (0 < ex_h d)%Qc) /\
  (0 <= (ex_q 3))%Qc /\
  (forall i j k, patch3 0 0 0 1 1 0 i j k -> (0 <= c_v1_3d i j k)%Qc) /\
  (forall i j k, 0 <= i <= 1 + 1 -> 0 <= j <= 1 -> 0 <= k <= 0 -> (0 < v0_v1_3d i j k)%Qc) /\
  (forall i j k, 0 <= i <= 1 -> 0 <= j <= 1 + 1 -> 0 <= k <= 0 -> (0 <= v1_v1_3d i j k)%Qc) /\
  (forall i j k, 0 <= i <= 1 -> 0 <= j <= 1 -> 0 <= k <= 0 + 1 -> (0 <= v2_v1_3d i j k)%Qc) /\
  (forall f, 0 <= f < 6 -> sound true ((ex_bc true) f)) /\
  roomy 3 (ends3 0 0 0) (ends3 1 1 0) (ex_bc true) /\
  b_kind (ex_bc true 0) <> 1.
Proof.
  split; [exact bex_any_v1_3d|].
  split; [now apply lt|].
  split; [exact (ex_h_pos 3)|].
  split; [now apply le|].
  split; [exact cpos_v1_3d|].
  split; [exact v0pos_v1_3d|].
  split; [exact v1pos_v1_3d|].
  split; [exact v2pos_v1_3d|].
  split; [intros f _; apply ex_sound|].
  split; [exact broomy_v1_3d|].
  discriminate.
Qed.

Theorem C74_solve_v2_3d : forall i0 j0 k0 i1 j1 k1 (dx : Z -> Qc) (beta : Qc) b0 b1 b2 gcw u f0 f1 f2 (alpha : Qc) rgcw res bc (m : mem QcS) (r w v0 v1 v2 f : Z -> Z -> Z -> Qc),
  filled_v2_3d (S := QcS) i0 j0 k0 i1 j1 k1 dx beta b0 b1 b2 gcw u f0 f1 f2 alpha rgcw res bc m r w v0 v1 v2 ->
  (0 < beta)%Qc ->
  (forall d, 0 <= d < 3 -> (0 < dx d)%Qc) ->
  (0 <= alpha)%Qc ->
  (forall i j k, i0 <= i <= i1 + 1 -> j0 <= j <= j1 -> k0 <= k <= k1 -> (0 < v0 i j k)%Qc) ->
  (forall i j k, i0 <= i <= i1 -> j0 <= j <= j1 + 1 -> k0 <= k <= k1 -> (0 <= v1 i j k)%Qc) ->
  (forall i j k, i0 <= i <= i1 -> j0 <= j <= j1 -> k0 <= k <= k1 + 1 -> (0 <= v2 i j k)%Qc) ->
  (forall f, 0 <= f < 6 -> sound true (bc f)) ->
  roomy 3 (ends3 i0 j0 k0) (ends3 i1 j1 k1) bc ->
  (b_kind (bc 0) <> 1 \/ b_kind (bc 1) <> 1 \/ (0 < alpha)%Qc) ->
  exists (n : mem QcS) (z : Z -> Z -> Z -> Qc), filled_v2_3d (S := QcS) i0 j0 k0 i1 j1 k1 dx beta b0 b1 b2 gcw u f0 f1 f2 alpha rgcw res bc n f z v0 v1 v2 /\
    shape n = shape m /\ ints n = ints m /\
    (forall p, (forall i j k, patch3 i0 j0 k0 i1 j1 k1 i j k -> faddr (mkFa u (CELL3d i0 j0 k0 i1 j1 k1 gcw)) [i; j; k] <> p) -> load n p = load m p).
Proof. exact @bsolve_v2_3d. Qed.
Print Assumptions C74_solve_v2_3d.

Example C74_solve_v2_3d_example :
  filled_v2_3d (S := QcS) 0 0 0 1 1 0 ex_h (ex_q 2) (0%nat, 0) (1%nat, 0) (2%nat, 0) 1 (4%nat, 0) (5%nat, 0) (6%nat, 0) (7%nat, 0) (ex_q 3) 0 (8%nat, 0) (ex_bc true) (ex_so 48 ex_any) (br_v2_3d ex_any) (bw_v2_3d ex_any) v0_v2_3d v1_v2_3d v2_v2_3d /\
  (0 < (ex_q 2))%Qc /\
  (forall d, 0 <= d < 3 -> (0 < ex_h d)%Qc) /\
  (0 <= (ex_q 3))%Qc /\
  (forall i j k, 0 <= i <= 1 + 1 -> 0 <= j <= 1 -> 0 <= k <= 0 -> (0 < v0_v2_3d i j k)%Qc) /\
  (forall i j k, 0 <= i <= 1 -> 0 <= j <= 1 + 1 -> 0 <= k <= 0 -> (0 <= v1_v2_3d i j k)%Qc) /\
  (forall i j k, 0 <= i <= 1 -> 0 <= j <= 1 -> 0 <= k <= 0 + 1 -> (0 <= v2_v2_3d i j k)%Qc) /\
  (forall f, 0 <= f < 6 -> sound true ((ex_bc true) f)) /\
  roomy 3 (ends3 0 0 0) (ends3 1 1 0) (ex_bc true) /\
  b_kind (ex_bc true 0) <> 1.
Proof.
  split; [exact bex_any_v2_3d|].
  split; [now apply lt|].
  split; [exact (ex_h_pos 3)|].
  split; [now apply le|].
  split; [exact v0pos_v2_3d|].
  split; [exact v1pos_v2_3d|].
  split; [exact v2pos_v2_3d|].
  split; [intros f _; apply ex_sound|].
  split; [exact broomy_v2_3d|].
  discriminate.
Qed.

Theorem C74_solve_poisson_3d : forall i0 j0 k0 i1 j1 k1 (dx : Z -> Qc) (beta : Qc) gcw u f0 f1 f2 rgcw res bc (m : mem QcS) (r w f : Z -> Z -> Z -> Qc),
  filled_poisson_3d (S := QcS) i0 j0 k0 i1 j1 k1 dx beta gcw u f0 f1 f2 rgcw res bc m r w ->
  (0 < beta)%Qc ->
  (forall d, 0 <= d < 3 -> (0 < dx d)%Qc) ->
  (forall f, 0 <= f < 6 -> sound false (bc f)) ->
  roomy 3 (ends3 i0 j0 k0) (ends3 i1 j1 k1) bc ->
  (b_kind (bc 0) <> 1 \/ b_kind (bc 1) <> 1) ->
  exists (n : mem QcS) (z : Z -> Z -> Z -> Qc), filled_poisson_3d (S := QcS) i0 j0 k0 i1 j1 k1 dx beta gcw u f0 f1 f2 rgcw res bc n f z /\
    shape n = shape m /\ ints n = ints m /\
    (forall p, (forall i j k, patch3 i0 j0 k0 i1 j1 k1 i j k -> faddr (mkFa u (CELL3d i0 j0 k0 i1 j1 k1 gcw)) [i; j; k] <> p) -> load n p = load m p).
Proof. exact @bsolve_poisson_3d. Qed.
Print Assumptions C74_solve_poisson_3d.

Example C74_solve_poisson_3d_example :
  filled_poisson_3d (S := QcS) 0 0 0 1 1 0 ex_h (ex_q 2) 1 (4%nat, 0) (5%nat, 0) (6%nat, 0) (7%nat, 0) 0 (8%nat, 0) (ex_bc false) (ex_so 48 ex_any) (br_poisson_3d ex_any) (bw_poisson_3d ex_any)  /\
  (0 < (ex_q 2))%Qc /\
  (forall d, 0 <= d < 3 -> (0 < ex_h d)%Qc) /\
  (forall f, 0 <= f < 6 -> sound false ((ex_bc false) f)) /\
  roomy 3 (ends3 0 0 0) (ends3 1 1 0) (ex_bc false) /\
  b_kind (ex_bc false 0) <> 1.
Proof.
  split; [exact bex_any_poisson_3d|].
  split; [now apply lt|].
  split; [exact (ex_h_pos 3)|].
  split; [intros f _; apply ex_sound|].
  split; [exact broomy_poisson_3d|].
  discriminate.
Qed.

(** The condition that some face of the first direction is not a Neumann one (or there
    is a reaction) is needed: with Neumann conditions everywhere a constant can be added. *)
Theorem C74_unique_poisson_1d_neumann_refuted : ~ (forall i0 i1 (dx : Z -> Qc) (beta : Qc) gcw u f0 rgcw res bc (m n : mem QcS) (r w s z : Z -> Qc),
  filled_poisson_1d (S := QcS) i0 i1 dx beta gcw u f0 rgcw res bc m r w ->
  filled_poisson_1d (S := QcS) i0 i1 dx beta gcw u f0 rgcw res bc n s z ->
  (0 < beta)%Qc ->
  (forall d, 0 <= d < 1 -> (0 < dx d)%Qc) ->
  (forall f, 0 <= f < 2 -> sound false (bc f)) ->
  roomy 1 (ends1 i0) (ends1 i1) bc ->
  (forall i, patch1 i0 i1 i -> r i = s i) ->
  forall i, patch1 i0 i1 i -> w i = z i).
Proof. exact nm_many. Qed.
Print Assumptions C74_unique_poisson_1d_neumann_refuted.

(** The numbers of the examples are not constant. *)
Example C74_values : (br_v1_2d ex_any 0 0 <> br_v1_2d ex_any 1 0) /\ (bw_v1_2d ex_any 0 0 <> bw_v1_2d ex_any (-1) 0).
Proof. split; intros C; apply (f_equal this) in C; vm_compute in C; discriminate. Qed.
