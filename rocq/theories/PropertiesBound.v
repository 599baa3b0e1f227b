(** * Stability of the boundary value problem (C77)

    The setting is that of PropertiesBvp.  If the data of two problems differ by little,
    so do the solutions: with a reaction by the same factor, for the Poisson problem with
    Dirichlet conditions at both ends of a direction by the square of the length of the
    patch in that direction over eight, whatever the number of cells. *)

From Coq Require Import QArith Qcanon.
From Verif Require Import Base FortranBase SpecKernel Instances SpecBCOrder SpecBCCalls SpecRow SpecSolve LemSolve LemSolveOp LemSolveMem LemSolveCase SpecBvp SpecBound LemBvpCase LemBvpConnCase LemBvpBoundMem LemBvpBoundCase.
Import ListNotations.
Open Scope Z_scope.

Theorem C77_reaction_v1_1d : forall i0 i1 (dx : Z -> Qc) (beta : Qc) b0 gcw u f0 (alpha : Qc) agcw a rgcw res bc (m n : mem QcS) (r w s z c v0 : Z -> Qc),
  filled_v1_1d (S := QcS) i0 i1 dx beta b0 gcw u f0 alpha agcw a rgcw res bc m r w c v0 ->
  filled_v1_1d (S := QcS) i0 i1 dx beta b0 gcw u f0 alpha agcw a rgcw res bc n s z c v0 ->
  (0 < beta)%Qc ->
  (forall d, 0 <= d < 1 -> (0 < dx d)%Qc) ->
  (0 <= alpha)%Qc ->
  (forall i, patch1 i0 i1 i -> (0 <= c i)%Qc) ->
  (forall i, i0 <= i <= i1 + 1 -> (0 < v0 i)%Qc) ->
  (forall f, 0 <= f < 2 -> sound true (bc f)) ->
  roomy 1 (ends1 i0) (ends1 i1) bc ->
  ((exists f, 0 <= f < 2 /\ b_kind (bc f) <> 1) \/ (0 < alpha)%Qc /\ (exists i, patch1 i0 i1 i /\ (0 < c i)%Qc)) ->
  forall M : Qc, (0 <= M)%Qc ->
  (forall i, patch1 i0 i1 i -> (- (M * (alpha * c i)) <= r i - s i <= M * (alpha * c i))%Qc) ->
  forall i, patch1 i0 i1 i -> (- M <= w i - z i <= M)%Qc.
Proof. exact @breact_v1_1d. Qed.
Print Assumptions C77_reaction_v1_1d.

Example C77_reaction_v1_1d_example :
  filled_v1_1d (S := QcS) 0 1 ex_h (ex_q 2) (0%nat, 0) 1 (4%nat, 0) (5%nat, 0) (ex_q 3) 0 (3%nat, 0) 0 (8%nat, 0) ex_bd (ex_so 4 ex_any) (dr_v1_1d ex_any) (dw_v1_1d ex_any) c_v1_1d v0_v1_1d /\
  filled_v1_1d (S := QcS) 0 1 ex_h (ex_q 2) (0%nat, 0) 1 (4%nat, 0) (5%nat, 0) (ex_q 3) 0 (3%nat, 0) 0 (8%nat, 0) ex_bd (ex_so 4 ex_rise) (dr_v1_1d ex_rise) (dw_v1_1d ex_rise) c_v1_1d v0_v1_1d /\
  (0 < (ex_q 2))%Qc /\
  (forall d, 0 <= d < 1 -> (0 < ex_h d)%Qc) /\
  (0 <= (ex_q 3))%Qc /\
  (forall i, patch1 0 1 i -> (0 <= c_v1_1d i)%Qc) /\
  (forall i, 0 <= i <= 1 + 1 -> (0 < v0_v1_1d i)%Qc) /\
  (forall f, 0 <= f < 2 -> sound true (ex_bd f)) /\
  roomy 1 (ends1 0) (ends1 1) ex_bd /\
  (exists f, 0 <= f < 2 /\ b_kind (ex_bd f) <> 1) /\
  (0 <= (ex_q 1000000000))%Qc /\
  (forall i, patch1 0 1 i -> (- (ex_q 1000000000 * (ex_q 3 * c_v1_1d i))%Qc <= dr_v1_1d ex_any i - dr_v1_1d ex_rise i <= (ex_q 1000000000 * (ex_q 3 * c_v1_1d i))%Qc)%Qc).
Proof.
  split; [exact dex_any_v1_1d|].
  split; [exact dex_rise_v1_1d|].
  split; [now apply lt|].
  split; [exact (ex_h_pos 1)|].
  split; [now apply le|].
  split; [exact cpos_v1_1d|].
  split; [exact dv0_v1_1d|].
  split; [intros f _; apply ex_bd_sound|].
  split; [exact droomy_v1_1d|].
  split; [exists 0; split; [lia|discriminate]|].
  split; [now apply le|].
  exact dnear_v1_1d.
Qed.

Theorem C77_reaction_v2_1d : forall i0 i1 (dx : Z -> Qc) (beta : Qc) b0 gcw u f0 (alpha : Qc) rgcw res bc (m n : mem QcS) (r w s z v0 : Z -> Qc),
  filled_v2_1d (S := QcS) i0 i1 dx beta b0 gcw u f0 alpha rgcw res bc m r w v0 ->
  filled_v2_1d (S := QcS) i0 i1 dx beta b0 gcw u f0 alpha rgcw res bc n s z v0 ->
  (0 < beta)%Qc ->
  (forall d, 0 <= d < 1 -> (0 < dx d)%Qc) ->
  (0 <= alpha)%Qc ->
  (forall i, i0 <= i <= i1 + 1 -> (0 < v0 i)%Qc) ->
  (forall f, 0 <= f < 2 -> sound true (bc f)) ->
  roomy 1 (ends1 i0) (ends1 i1) bc ->
  ((exists f, 0 <= f < 2 /\ b_kind (bc f) <> 1) \/ (0 < alpha)%Qc) ->
  forall M : Qc, (0 <= M)%Qc ->
  (forall i, patch1 i0 i1 i -> (- (M * alpha) <= r i - s i <= M * alpha)%Qc) ->
  forall i, patch1 i0 i1 i -> (- M <= w i - z i <= M)%Qc.
Proof. exact @breact_v2_1d. Qed.
Print Assumptions C77_reaction_v2_1d.

Example C77_reaction_v2_1d_example :
  filled_v2_1d (S := QcS) 0 1 ex_h (ex_q 2) (0%nat, 0) 1 (4%nat, 0) (5%nat, 0) (ex_q 3) 0 (8%nat, 0) ex_bd (ex_so 4 ex_any) (dr_v2_1d ex_any) (dw_v2_1d ex_any) v0_v2_1d /\
  filled_v2_1d (S := QcS) 0 1 ex_h (ex_q 2) (0%nat, 0) 1 (4%nat, 0) (5%nat, 0) (ex_q 3) 0 (8%nat, 0) ex_bd (ex_so 4 ex_rise) (dr_v2_1d ex_rise) (dw_v2_1d ex_rise) v0_v2_1d /\
  (0 < (ex_q 2))%Qc /\
  (forall d, 0 <= d < 1 -> (0 < ex_h d)%Qc) /\
  (0 <= (ex_q 3))%Qc /\
  (forall i, 0 <= i <= 1 + 1 -> (0 < v0_v2_1d i)%Qc) /\
  (forall f, 0 <= f < 2 -> sound true (ex_bd f)) /\
  roomy 1 (ends1 0) (ends1 1) ex_bd /\
  (exists f, 0 <= f < 2 /\ b_kind (ex_bd f) <> 1) /\
  (0 <= (ex_q 1000000000))%Qc /\
  (forall i, patch1 0 1 i -> (- (ex_q 1000000000 * ex_q 3)%Qc <= dr_v2_1d ex_any i - dr_v2_1d ex_rise i <= (ex_q 1000000000 * ex_q 3)%Qc)%Qc).
Proof.
  split; [exact dex_any_v2_1d|].
  split; [exact dex_rise_v2_1d|].
  split; [now apply lt|].
  split; [exact (ex_h_pos 1)|].
  split; [now apply le|].
  split; [exact dv0_v2_1d|].
  split; [intros f _; apply ex_bd_sound|].
  split; [exact droomy_v2_1d|].
  split; [exists 0; split; [lia|discriminate]|].
  split; [now apply le|].
  exact dnear_v2_1d.
Qed.

Theorem C77_poisson_1d_direction0 : forall i0 i1 (dx : Z -> Qc) (beta : Qc) gcw u f0 rgcw res bc (m n : mem QcS) (r w s z : Z -> Qc),
  filled_poisson_1d (S := QcS) i0 i1 dx beta gcw u f0 rgcw res bc m r w ->
  filled_poisson_1d (S := QcS) i0 i1 dx beta gcw u f0 rgcw res bc n s z ->
  (0 < beta)%Qc ->
  (forall d, 0 <= d < 1 -> (0 < dx d)%Qc) ->
  (forall f, 0 <= f < 2 -> sound false (bc f)) ->
  roomy 1 (ends1 i0) (ends1 i1) bc ->
  b_kind (bc 0) = 0 ->
  b_order (bc 0) = 1 ->
  b_kind (bc 1) = 0 ->
  b_order (bc 1) = 1 ->
  forall M : Qc, (0 <= M)%Qc ->
  (forall i, patch1 i0 i1 i -> (- M <= r i - s i <= M)%Qc) ->
  forall i, patch1 i0 i1 i -> (- (M / beta * reach (i1 - i0 + 1) (dx 0%Z)) <= w i - z i <= (M / beta * reach (i1 - i0 + 1) (dx 0%Z)))%Qc.
Proof. exact @barc_poisson_1d_0. Qed.
Print Assumptions C77_poisson_1d_direction0.

Example C77_poisson_1d_direction0_example :
  filled_poisson_1d (S := QcS) 0 1 ex_h (ex_q 2) 1 (4%nat, 0) (5%nat, 0) 0 (8%nat, 0) ex_bd (ex_so 4 ex_any) (dr_poisson_1d ex_any) (dw_poisson_1d ex_any)  /\
  filled_poisson_1d (S := QcS) 0 1 ex_h (ex_q 2) 1 (4%nat, 0) (5%nat, 0) 0 (8%nat, 0) ex_bd (ex_so 4 ex_rise) (dr_poisson_1d ex_rise) (dw_poisson_1d ex_rise)  /\
  (0 < (ex_q 2))%Qc /\
  (forall d, 0 <= d < 1 -> (0 < ex_h d)%Qc) /\
  (forall f, 0 <= f < 2 -> sound false (ex_bd f)) /\
  roomy 1 (ends1 0) (ends1 1) ex_bd /\
  b_kind (ex_bd 0) = 0 /\
  b_order (ex_bd 0) = 1 /\
  b_kind (ex_bd 1) = 0 /\
  b_order (ex_bd 1) = 1 /\
  (0 <= (ex_q 1000000000))%Qc /\
  (forall i, patch1 0 1 i -> (- (ex_q 1000000000) <= dr_poisson_1d ex_any i - dr_poisson_1d ex_rise i <= (ex_q 1000000000))%Qc).
Proof.
  split; [exact dex_any_poisson_1d|].
  split; [exact dex_rise_poisson_1d|].
  split; [now apply lt|].
  split; [exact (ex_h_pos 1)|].
  split; [intros f _; apply ex_bd_sound|].
  split; [exact droomy_poisson_1d|].
  split; [reflexivity|].
  split; [reflexivity|].
  split; [reflexivity|].
  split; [reflexivity|].
  split; [now apply le|].
  exact dnear_poisson_1d.
Qed.

Theorem C77_reaction_v1_2d : forall i0 j0 i1 j1 (dx : Z -> Qc) (beta : Qc) b0 b1 gcw u f0 f1 (alpha : Qc) agcw a rgcw res bc (m n : mem QcS) (r w s z c v0 v1 : Z -> Z -> Qc),
  filled_v1_2d (S := QcS) i0 j0 i1 j1 dx beta b0 b1 gcw u f0 f1 alpha agcw a rgcw res bc m r w c v0 v1 ->
  filled_v1_2d (S := QcS) i0 j0 i1 j1 dx beta b0 b1 gcw u f0 f1 alpha agcw a rgcw res bc n s z c v0 v1 ->
  (0 < beta)%Qc ->
  (forall d, 0 <= d < 2 -> (0 < dx d)%Qc) ->
  (0 <= alpha)%Qc ->
  (forall i j, patch2 i0 j0 i1 j1 i j -> (0 <= c i j)%Qc) ->
  (forall i j, i0 <= i <= i1 + 1 -> j0 <= j <= j1 -> (0 < v0 i j)%Qc) ->
  (forall i j, i0 <= i <= i1 -> j0 <= j <= j1 + 1 -> (0 < v1 i j)%Qc) ->
  (forall f, 0 <= f < 4 -> sound true (bc f)) ->
  roomy 2 (ends2 i0 j0) (ends2 i1 j1) bc ->
  ((exists f, 0 <= f < 4 /\ b_kind (bc f) <> 1) \/ (0 < alpha)%Qc /\ (exists i j, patch2 i0 j0 i1 j1 i j /\ (0 < c i j)%Qc)) ->
  forall M : Qc, (0 <= M)%Qc ->
  (forall i j, patch2 i0 j0 i1 j1 i j -> (- (M * (alpha * c i j)) <= r i j - s i j <= M * (alpha * c i j))%Qc) ->
  forall i j, patch2 i0 j0 i1 j1 i j -> (- M <= w i j - z i j <= M)%Qc.
Proof. exact @breact_v1_2d. Qed.
Print Assumptions C77_reaction_v1_2d.

Example C77_reaction_v1_2d_example :
  filled_v1_2d (S := QcS) 0 0 1 1 ex_h (ex_q 2) (0%nat, 0) (1%nat, 0) 1 (4%nat, 0) (5%nat, 0) (6%nat, 0) (ex_q 3) 0 (3%nat, 0) 0 (8%nat, 0) ex_bd (ex_so 16 ex_any) (dr_v1_2d ex_any) (dw_v1_2d ex_any) c_v1_2d v0_v1_2d v1_v1_2d /\
  filled_v1_2d (S := QcS) 0 0 1 1 ex_h (ex_q 2) (0%nat, 0) (1%nat, 0) 1 (4%nat, 0) (5%nat, 0) (6%nat, 0) (ex_q 3) 0 (3%nat, 0) 0 (8%nat, 0) ex_bd (ex_so 16 ex_rise) (dr_v1_2d ex_rise) (dw_v1_2d ex_rise) c_v1_2d v0_v1_2d v1_v1_2d /\
  (0 < (ex_q 2))%Qc /\
  (forall d, 0 <= d < 2 -> (0 < ex_h d)%Qc) /\
  (0 <= (ex_q 3))%Qc /\
  (forall i j, patch2 0 0 1 1 i j -> (0 <= c_v1_2d i j)%Qc) /\
  (forall i j, 0 <= i <= 1 + 1 -> 0 <= j <= 1 -> (0 < v0_v1_2d i j)%Qc) /\
  (forall i j, 0 <= i <= 1 -> 0 <= j <= 1 + 1 -> (0 < v1_v1_2d i j)%Qc) /\
  (forall f, 0 <= f < 4 -> sound true (ex_bd f)) /\
  roomy 2 (ends2 0 0) (ends2 1 1) ex_bd /\
  (exists f, 0 <= f < 4 /\ b_kind (ex_bd f) <> 1) /\
  (0 <= (ex_q 1000000000))%Qc /\
  (forall i j, patch2 0 0 1 1 i j -> (- (ex_q 1000000000 * (ex_q 3 * c_v1_2d i j))%Qc <= dr_v1_2d ex_any i j - dr_v1_2d ex_rise i j <= (ex_q 1000000000 * (ex_q 3 * c_v1_2d i j))%Qc)%Qc).
Proof.
  split; [exact dex_any_v1_2d|].
  split; [exact dex_rise_v1_2d|].
  split; [now apply lt|].
  split; [exact (ex_h_pos 2)|].
  split; [now apply le|].
  split; [exact cpos_v1_2d|].
  split; [exact dv0_v1_2d|].
  split; [exact dv1_v1_2d|].
  split; [intros f _; apply ex_bd_sound|].
  split; [exact droomy_v1_2d|].
  split; [exists 0; split; [lia|discriminate]|].
  split; [now apply le|].
  exact dnear_v1_2d.
Qed.

Theorem C77_reaction_v2_2d : forall i0 j0 i1 j1 (dx : Z -> Qc) (beta : Qc) b0 b1 gcw u f0 f1 (alpha : Qc) rgcw res bc (m n : mem QcS) (r w s z v0 v1 : Z -> Z -> Qc),
  filled_v2_2d (S := QcS) i0 j0 i1 j1 dx beta b0 b1 gcw u f0 f1 alpha rgcw res bc m r w v0 v1 ->
  filled_v2_2d (S := QcS) i0 j0 i1 j1 dx beta b0 b1 gcw u f0 f1 alpha rgcw res bc n s z v0 v1 ->
  (0 < beta)%Qc ->
  (forall d, 0 <= d < 2 -> (0 < dx d)%Qc) ->
  (0 <= alpha)%Qc ->
  (forall i j, i0 <= i <= i1 + 1 -> j0 <= j <= j1 -> (0 < v0 i j)%Qc) ->
  (forall i j, i0 <= i <= i1 -> j0 <= j <= j1 + 1 -> (0 < v1 i j)%Qc) ->
  (forall f, 0 <= f < 4 -> sound true (bc f)) ->
  roomy 2 (ends2 i0 j0) (ends2 i1 j1) bc ->
  ((exists f, 0 <= f < 4 /\ b_kind (bc f) <> 1) \/ (0 < alpha)%Qc) ->
  forall M : Qc, (0 <= M)%Qc ->
  (forall i j, patch2 i0 j0 i1 j1 i j -> (- (M * alpha) <= r i j - s i j <= M * alpha)%Qc) ->
  forall i j, patch2 i0 j0 i1 j1 i j -> (- M <= w i j - z i j <= M)%Qc.
Proof. exact @breact_v2_2d. Qed.
Print Assumptions C77_reaction_v2_2d.

Example C77_reaction_v2_2d_example :
  filled_v2_2d (S := QcS) 0 0 1 1 ex_h (ex_q 2) (0%nat, 0) (1%nat, 0) 1 (4%nat, 0) (5%nat, 0) (6%nat, 0) (ex_q 3) 0 (8%nat, 0) ex_bd (ex_so 16 ex_any) (dr_v2_2d ex_any) (dw_v2_2d ex_any) v0_v2_2d v1_v2_2d /\
  filled_v2_2d (S := QcS) 0 0 1 1 ex_h (ex_q 2) (0%nat, 0) (1%nat, 0) 1 (4%nat, 0) (5%nat, 0) (6%nat, 0) (ex_q 3) 0 (8%nat, 0) ex_bd (ex_so 16 ex_rise) (dr_v2_2d ex_rise) (dw_v2_2d ex_rise) v0_v2_2d v1_v2_2d /\
  (0 < (ex_q 2))%Qc /\
  (forall d, 0 <= d < 2 -> (0 < ex_h d)%Qc) /\
  (0 <= (ex_q 3))%Qc /\
  (forall i j, 0 <= i <= 1 + 1 -> 0 <= j <= 1 -> (0 < v0_v2_2d i j)%Qc) /\
  (forall i j, 0 <= i <= 1 -> 0 <= j <= 1 + 1 -> (0 < v1_v2_2d i j)%Qc) /\
  (forall f, 0 <= f < 4 -> sound true (ex_bd f)) /\
  roomy 2 (ends2 0 0) (ends2 1 1) ex_bd /\
  (exists f, 0 <= f < 4 /\ b_kind (ex_bd f) <> 1) /\
  (0 <= (ex_q 1000000000))%Qc /\
  (forall i j, patch2 0 0 1 1 i j -> (- (ex_q 1000000000 * ex_q 3)%Qc <= dr_v2_2d ex_any i j - dr_v2_2d ex_rise i j <= (ex_q 1000000000 * ex_q 3)%Qc)%Qc).
Proof.
  split; [exact dex_any_v2_2d|].
  split; [exact dex_rise_v2_2d|].
  split; [now apply lt|].
  split; [exact (ex_h_pos 2)|].
  split; [now apply le|].
  split; [exact dv0_v2_2d|].
  split; [exact dv1_v2_2d|].
  split; [intros f _; apply ex_bd_sound|].
  split; [exact droomy_v2_2d|].
  split; [exists 0; split; [lia|discriminate]|].
  split; [now apply le|].
  exact dnear_v2_2d.
Qed.

Theorem C77_poisson_2d_direction0 : forall i0 j0 i1 j1 (dx : Z -> Qc) (beta : Qc) gcw u f0 f1 rgcw res bc (m n : mem QcS) (r w s z : Z -> Z -> Qc),
  filled_poisson_2d (S := QcS) i0 j0 i1 j1 dx beta gcw u f0 f1 rgcw res bc m r w ->
  filled_poisson_2d (S := QcS) i0 j0 i1 j1 dx beta gcw u f0 f1 rgcw res bc n s z ->
  (0 < beta)%Qc ->
  (forall d, 0 <= d < 2 -> (0 < dx d)%Qc) ->
  (forall f, 0 <= f < 4 -> sound false (bc f)) ->
  roomy 2 (ends2 i0 j0) (ends2 i1 j1) bc ->
  b_kind (bc 0) = 0 ->
  b_order (bc 0) = 1 ->
  b_kind (bc 1) = 0 ->
  b_order (bc 1) = 1 ->
  forall M : Qc, (0 <= M)%Qc ->
  (forall i j, patch2 i0 j0 i1 j1 i j -> (- M <= r i j - s i j <= M)%Qc) ->
  forall i j, patch2 i0 j0 i1 j1 i j -> (- (M / beta * reach (i1 - i0 + 1) (dx 0%Z)) <= w i j - z i j <= (M / beta * reach (i1 - i0 + 1) (dx 0%Z)))%Qc.
Proof. exact @barc_poisson_2d_0. Qed.
Print Assumptions C77_poisson_2d_direction0.

Example C77_poisson_2d_direction0_example :
  filled_poisson_2d (S := QcS) 0 0 1 1 ex_h (ex_q 2) 1 (4%nat, 0) (5%nat, 0) (6%nat, 0) 0 (8%nat, 0) ex_bd (ex_so 16 ex_any) (dr_poisson_2d ex_any) (dw_poisson_2d ex_any)  /\
  filled_poisson_2d (S := QcS) 0 0 1 1 ex_h (ex_q 2) 1 (4%nat, 0) (5%nat, 0) (6%nat, 0) 0 (8%nat, 0) ex_bd (ex_so 16 ex_rise) (dr_poisson_2d ex_rise) (dw_poisson_2d ex_rise)  /\
  (0 < (ex_q 2))%Qc /\
  (forall d, 0 <= d < 2 -> (0 < ex_h d)%Qc) /\
  (forall f, 0 <= f < 4 -> sound false (ex_bd f)) /\
  roomy 2 (ends2 0 0) (ends2 1 1) ex_bd /\
  b_kind (ex_bd 0) = 0 /\
  b_order (ex_bd 0) = 1 /\
  b_kind (ex_bd 1) = 0 /\
  b_order (ex_bd 1) = 1 /\
  (0 <= (ex_q 1000000000))%Qc /\
  (forall i j, patch2 0 0 1 1 i j -> (- (ex_q 1000000000) <= dr_poisson_2d ex_any i j - dr_poisson_2d ex_rise i j <= (ex_q 1000000000))%Qc).
Proof.
  split; [exact dex_any_poisson_2d|].
  split; [exact dex_rise_poisson_2d|].
  split; [now apply lt|].
  split; [exact (ex_h_pos 2)|].
  split; [intros f _; apply ex_bd_sound|].
  split; [exact droomy_poisson_2d|].
  split; [reflexivity|].
  split; [reflexivity|].
  split; [reflexivity|].
  split; [reflexivity|].
  split; [now apply le|].
  exact dnear_poisson_2d.
Qed.

Theorem C77_poisson_2d_direction1 : forall i0 j0 i1 j1 (dx : Z -> Qc) (beta : Qc) gcw u f0 f1 rgcw res bc (m n : mem QcS) (r w s z : Z -> Z -> Qc),
  filled_poisson_2d (S := QcS) i0 j0 i1 j1 dx beta gcw u f0 f1 rgcw res bc m r w ->
  filled_poisson_2d (S := QcS) i0 j0 i1 j1 dx beta gcw u f0 f1 rgcw res bc n s z ->
  (0 < beta)%Qc ->
  (forall d, 0 <= d < 2 -> (0 < dx d)%Qc) ->
  (forall f, 0 <= f < 4 -> sound false (bc f)) ->
  roomy 2 (ends2 i0 j0) (ends2 i1 j1) bc ->
  b_kind (bc 2) = 0 ->
  b_order (bc 2) = 1 ->
  b_kind (bc 3) = 0 ->
  b_order (bc 3) = 1 ->
  forall M : Qc, (0 <= M)%Qc ->
  (forall i j, patch2 i0 j0 i1 j1 i j -> (- M <= r i j - s i j <= M)%Qc) ->
  forall i j, patch2 i0 j0 i1 j1 i j -> (- (M / beta * reach (j1 - j0 + 1) (dx 1%Z)) <= w i j - z i j <= (M / beta * reach (j1 - j0 + 1) (dx 1%Z)))%Qc.
Proof. exact @barc_poisson_2d_1. Qed.
Print Assumptions C77_poisson_2d_direction1.

Example C77_poisson_2d_direction1_example :
  filled_poisson_2d (S := QcS) 0 0 1 1 ex_h (ex_q 2) 1 (4%nat, 0) (5%nat, 0) (6%nat, 0) 0 (8%nat, 0) ex_bd (ex_so 16 ex_any) (dr_poisson_2d ex_any) (dw_poisson_2d ex_any)  /\
  filled_poisson_2d (S := QcS) 0 0 1 1 ex_h (ex_q 2) 1 (4%nat, 0) (5%nat, 0) (6%nat, 0) 0 (8%nat, 0) ex_bd (ex_so 16 ex_rise) (dr_poisson_2d ex_rise) (dw_poisson_2d ex_rise)  /\
  (0 < (ex_q 2))%Qc /\
  (forall d, 0 <= d < 2 -> (0 < ex_h d)%Qc) /\
  (forall f, 0 <= f < 4 -> sound false (ex_bd f)) /\
  roomy 2 (ends2 0 0) (ends2 1 1) ex_bd /\
  b_kind (ex_bd 2) = 0 /\
  b_order (ex_bd 2) = 1 /\
  b_kind (ex_bd 3) = 0 /\
  b_order (ex_bd 3) = 1 /\
  (0 <= (ex_q 1000000000))%Qc /\
  (forall i j, patch2 0 0 1 1 i j -> (- (ex_q 1000000000) <= dr_poisson_2d ex_any i j - dr_poisson_2d ex_rise i j <= (ex_q 1000000000))%Qc).
Proof.
  split; [exact dex_any_poisson_2d|].
  split; [exact dex_rise_poisson_2d|].
  split; [now apply lt|].
  split; [exact (ex_h_pos 2)|].
  split; [intros f _; apply ex_bd_sound|].
  split; [exact droomy_poisson_2d|].
  split; [reflexivity|].
  split; [reflexivity|].
  split; [reflexivity|].
  split; [reflexivity|].
  split; [now apply le|].
  exact dnear_poisson_2d.
Qed.

Theorem C77_reaction_v1_3d : forall i0 j0 k0 i1 j1 k1 (dx : Z -> Qc) (beta : Qc) b0 b1 b2 gcw u f0 f1 f2 (alpha : Qc) agcw a rgcw res bc (m n : mem QcS) (r w s z c v0 v1 v2 : Z -> Z -> Z -> Qc),
  filled_v1_3d (S := QcS) i0 j0 k0 i1 j1 k1 dx beta b0 b1 b2 gcw u f0 f1 f2 alpha agcw a rgcw res bc m r w c v0 v1 v2 ->
  filled_v1_3d (S := QcS) i0 j0 k0 i1 j1 k1 dx beta b0 b1 b2 gcw u f0 f1 f2 alpha agcw a rgcw res bc n s z c v0 v1 v2 ->
  (0 < beta)%Qc ->
  (forall d, 0 <= d < 3 -> (0 < dx d)%Qc) ->
  (0 <= alpha)%Qc ->
  (forall i j k, patch3 i0 j0 k0 i1 j1 k1 i j k -> (0 <= c i j k)%Qc) ->
  (forall i j k, i0 <= i <= i1 + 1 -> j0 <= j <= j1 -> k0 <= k <= k1 -> (0 < v0 i j k)%Qc) ->
  (forall i j k, i0 <= i <= i1 -> j0 <= j <= j1 + 1 -> k0 <= k <= k1 -> (0 < v1 i j k)%Qc) ->
  (forall i j k, i0 <= i <= i1 -> j0 <= j <= j1 -> k0 <= k <= k1 + 1 -> (0 < v2 i j k)%Qc) ->
  (forall f, 0 <= f < 6 -> sound true (bc f)) ->
  roomy 3 (ends3 i0 j0 k0) (ends3 i1 j1 k1) bc ->
  ((exists f, 0 <= f < 6 /\ b_kind (bc f) <> 1) \/ (0 < alpha)%Qc /\ (exists i j k, patch3 i0 j0 k0 i1 j1 k1 i j k /\ (0 < c i j k)%Qc)) ->
  forall M : Qc, (0 <= M)%Qc ->
  (forall i j k, patch3 i0 j0 k0 i1 j1 k1 i j k -> (- (M * (alpha * c i j k)) <= r i j k - s i j k <= M * (alpha * c i j k))%Qc) ->
  forall i j k, patch3 i0 j0 k0 i1 j1 k1 i j k -> (- M <= w i j k - z i j k <= M)%Qc.
Proof. exact @breact_v1_3d. Qed.
Print Assumptions C77_reaction_v1_3d.

Example C77_reaction_v1_3d_example :
  filled_v1_3d (S := QcS) 0 0 0 1 1 0 ex_h (ex_q 2) (0%nat, 0) (1%nat, 0) (2%nat, 0) 1 (4%nat, 0) (5%nat, 0) (6%nat, 0) (7%nat, 0) (ex_q 3) 0 (3%nat, 0) 0 (8%nat, 0) ex_bd (ex_so 48 ex_any) (dr_v1_3d ex_any) (dw_v1_3d ex_any) c_v1_3d v0_v1_3d v1_v1_3d v2_v1_3d /\
  filled_v1_3d (S := QcS) 0 0 0 1 1 0 ex_h (ex_q 2) (0%nat, 0) (1%nat, 0) (2%nat, 0) 1 (4%nat, 0) (5%nat, 0) (6%nat, 0) (7%nat, 0) (ex_q 3) 0 (3%nat, 0) 0 (8%nat, 0) ex_bd (ex_so 48 ex_rise) (dr_v1_3d ex_rise) (dw_v1_3d ex_rise) c_v1_3d v0_v1_3d v1_v1_3d v2_v1_3d /\
  (0 < (ex_q 2))%Qc /\
  (forall d, 0 <= d < 3 -> (0 < ex_h d)%Qc) /\
  (0 <= (ex_q 3))%Qc /\
  (forall i j k, patch3 0 0 0 1 1 0 i j k -> (0 <= c_v1_3d i j k)%Qc) /\
  (forall i j k, 0 <= i <= 1 + 1 -> 0 <= j <= 1 -> 0 <= k <= 0 -> (0 < v0_v1_3d i j k)%Qc) /\
  (forall i j k, 0 <= i <= 1 -> 0 <= j <= 1 + 1 -> 0 <= k <= 0 -> (0 < v1_v1_3d i j k)%Qc) /\
  (forall i j k, 0 <= i <= 1 -> 0 <= j <= 1 -> 0 <= k <= 0 + 1 -> (0 < v2_v1_3d i j k)%Qc) /\
  (forall f, 0 <= f < 6 -> sound true (ex_bd f)) /\
  roomy 3 (ends3 0 0 0) (ends3 1 1 0) ex_bd /\
  (exists f, 0 <= f < 6 /\ b_kind (ex_bd f) <> 1) /\
  (0 <= (ex_q 1000000000))%Qc /\
  (forall i j k, patch3 0 0 0 1 1 0 i j k -> (- (ex_q 1000000000 * (ex_q 3 * c_v1_3d i j k))%Qc <= dr_v1_3d ex_any i j k - dr_v1_3d ex_rise i j k <= (ex_q 1000000000 * (ex_q 3 * c_v1_3d i j k))%Qc)%Qc).
Proof.
  split; [exact dex_any_v1_3d|].
  split; [exact dex_rise_v1_3d|].
  split; [now apply lt|].
  split; [exact (ex_h_pos 3)|].
  split; [now apply le|].
  split; [exact cpos_v1_3d|].
  split; [exact dv0_v1_3d|].
  split; [exact dv1_v1_3d|].
  split; [exact dv2_v1_3d|].
  split; [intros f _; apply ex_bd_sound|].
  split; [exact droomy_v1_3d|].
  split; [exists 0; split; [lia|discriminate]|].
  split; [now apply le|].
  exact dnear_v1_3d.
Qed.

Theorem C77_reaction_v2_3d : forall i0 j0 k0 i1 j1 k1 (dx : Z -> Qc) (beta : Qc) b0 b1 b2 gcw u f0 f1 f2 (alpha : Qc) rgcw res bc (m n : mem QcS) (r w s z v0 v1 v2 : Z -> Z -> Z -> Qc),
  filled_v2_3d (S := QcS) i0 j0 k0 i1 j1 k1 dx beta b0 b1 b2 gcw u f0 f1 f2 alpha rgcw res bc m r w v0 v1 v2 ->
  filled_v2_3d (S := QcS) i0 j0 k0 i1 j1 k1 dx beta b0 b1 b2 gcw u f0 f1 f2 alpha rgcw res bc n s z v0 v1 v2 ->
  (0 < beta)%Qc ->
  (forall d, 0 <= d < 3 -> (0 < dx d)%Qc) ->
  (0 <= alpha)%Qc ->
  (forall i j k, i0 <= i <= i1 + 1 -> j0 <= j <= j1 -> k0 <= k <= k1 -> (0 < v0 i j k)%Qc) ->
  (forall i j k, i0 <= i <= i1 -> j0 <= j <= j1 + 1 -> k0 <= k <= k1 -> (0 < v1 i j k)%Qc) ->
  (forall i j k, i0 <= i <= i1 -> j0 <= j <= j1 -> k0 <= k <= k1 + 1 -> (0 < v2 i j k)%Qc) ->
  (forall f, 0 <= f < 6 -> sound true (bc f)) ->
  roomy 3 (ends3 i0 j0 k0) (ends3 i1 j1 k1) bc ->
  ((exists f, 0 <= f < 6 /\ b_kind (bc f) <> 1) \/ (0 < alpha)%Qc) ->
  forall M : Qc, (0 <= M)%Qc ->
  (forall i j k, patch3 i0 j0 k0 i1 j1 k1 i j k -> (- (M * alpha) <= r i j k - s i j k <= M * alpha)%Qc) ->
  forall i j k, patch3 i0 j0 k0 i1 j1 k1 i j k -> (- M <= w i j k - z i j k <= M)%Qc.
Proof. exact @breact_v2_3d. Qed.
Print Assumptions C77_reaction_v2_3d.

Example C77_reaction_v2_3d_example :
  filled_v2_3d (S := QcS) 0 0 0 1 1 0 ex_h (ex_q 2) (0%nat, 0) (1%nat, 0) (2%nat, 0) 1 (4%nat, 0) (5%nat, 0) (6%nat, 0) (7%nat, 0) (ex_q 3) 0 (8%nat, 0) ex_bd (ex_so 48 ex_any) (dr_v2_3d ex_any) (dw_v2_3d ex_any) v0_v2_3d v1_v2_3d v2_v2_3d /\
  filled_v2_3d (S := QcS) 0 0 0 1 1 0 ex_h (ex_q 2) (0%nat, 0) (1%nat, 0) (2%nat, 0) 1 (4%nat, 0) (5%nat, 0) (6%nat, 0) (7%nat, 0) (ex_q 3) 0 (8%nat, 0) ex_bd (ex_so 48 ex_rise) (dr_v2_3d ex_rise) (dw_v2_3d ex_rise) v0_v2_3d v1_v2_3d v2_v2_3d /\
  (0 < (ex_q 2))%Qc /\
  (forall d, 0 <= d < 3 -> (0 < ex_h d)%Qc) /\
  (0 <= (ex_q 3))%Qc /\
  (forall i j k, 0 <= i <= 1 + 1 -> 0 <= j <= 1 -> 0 <= k <= 0 -> (0 < v0_v2_3d i j k)%Qc) /\
  (forall i j k, 0 <= i <= 1 -> 0 <= j <= 1 + 1 -> 0 <= k <= 0 -> (0 < v1_v2_3d i j k)%Qc) /\
  (forall i j k, 0 <= i <= 1 -> 0 <= j <= 1 -> 0 <= k <= 0 + 1 -> (0 < v2_v2_3d i j k)%Qc) /\
  (forall f, 0 <= f < 6 -> sound true (ex_bd f)) /\
  roomy 3 (ends3 0 0 0) (ends3 1 1 0) ex_bd /\
  (exists f, 0 <= f < 6 /\ b_kind (ex_bd f) <> 1) /\
  (0 <= (ex_q 1000000000))%Qc /\
  (forall i j k, patch3 0 0 0 1 1 0 i j k -> (- (ex_q 1000000000 * ex_q 3)%Qc <= dr_v2_3d ex_any i j k - dr_v2_3d ex_rise i j k <= (ex_q 1000000000 * ex_q 3)%Qc)%Qc).
Proof.
  split; [exact dex_any_v2_3d|].
  split; [exact dex_rise_v2_3d|].
  split; [now apply lt|].
  split; [exact (ex_h_pos 3)|].
  split; [now apply le|].
  split; [exact dv0_v2_3d|].
  split; [exact dv1_v2_3d|].
  split; [exact dv2_v2_3d|].
  split; [intros f _; apply ex_bd_sound|].
  split; [exact droomy_v2_3d|].
  split; [exists 0; split; [lia|discriminate]|].
  split; [now apply le|].
  exact dnear_v2_3d.
Qed.

Theorem C77_poisson_3d_direction0 : forall i0 j0 k0 i1 j1 k1 (dx : Z -> Qc) (beta : Qc) gcw u f0 f1 f2 rgcw res bc (m n : mem QcS) (r w s z : Z -> Z -> Z -> Qc),
  filled_poisson_3d (S := QcS) i0 j0 k0 i1 j1 k1 dx beta gcw u f0 f1 f2 rgcw res bc m r w ->
  filled_poisson_3d (S := QcS) i0 j0 k0 i1 j1 k1 dx beta gcw u f0 f1 f2 rgcw res bc n s z ->
  (0 < beta)%Qc ->
  (forall d, 0 <= d < 3 -> (0 < dx d)%Qc) ->
  (forall f, 0 <= f < 6 -> sound false (bc f)) ->
  roomy 3 (ends3 i0 j0 k0) (ends3 i1 j1 k1) bc ->
  b_kind (bc 0) = 0 ->
  b_order (bc 0) = 1 ->
  b_kind (bc 1) = 0 ->
  b_order (bc 1) = 1 ->
  forall M : Qc, (0 <= M)%Qc ->
  (forall i j k, patch3 i0 j0 k0 i1 j1 k1 i j k -> (- M <= r i j k - s i j k <= M)%Qc) ->
  forall i j k, patch3 i0 j0 k0 i1 j1 k1 i j k -> (- (M / beta * reach (i1 - i0 + 1) (dx 0%Z)) <= w i j k - z i j k <= (M / beta * reach (i1 - i0 + 1) (dx 0%Z)))%Qc.
Proof. exact @barc_poisson_3d_0. Qed.
Print Assumptions C77_poisson_3d_direction0.

Example C77_poisson_3d_direction0_example :
  filled_poisson_3d (S := QcS) 0 0 0 1 1 0 ex_h (ex_q 2) 1 (4%nat, 0) (5%nat, 0) (6%nat, 0) (7%nat, 0) 0 (8%nat, 0) ex_bd (ex_so 48 ex_any) (dr_poisson_3d ex_any) (dw_poisson_3d ex_any)  /\
  filled_poisson_3d (S := QcS) 0 0 0 1 1 0 ex_h (ex_q 2) 1 (4%nat, 0) (5%nat, 0) (6%nat, 0) (7%nat, 0) 0 (8%nat, 0) ex_bd (ex_so 48 ex_rise) (dr_poisson_3d ex_rise) (dw_poisson_3d ex_rise)  /\
  (0 < (ex_q 2))%Qc /\
  (forall d, 0 <= d < 3 -> (0 < ex_h d)%Qc) /\
  (forall f, 0 <= f < 6 -> sound false (ex_bd f)) /\
  roomy 3 (ends3 0 0 0) (ends3 1 1 0) ex_bd /\
  b_kind (ex_bd 0) = 0 /\
  b_order (ex_bd 0) = 1 /\
  b_kind (ex_bd 1) = 0 /\
  b_order (ex_bd 1) = 1 /\
  (0 <= (ex_q 1000000000))%Qc /\
  (forall i j k, patch3 0 0 0 1 1 0 i j k -> (- (ex_q 1000000000) <= dr_poisson_3d ex_any i j k - dr_poisson_3d ex_rise i j k <= (ex_q 1000000000))%Qc).
Proof.
  split; [exact dex_any_poisson_3d|].
  split; [exact dex_rise_poisson_3d|].
  split; [now apply lt|].
  split; [exact (ex_h_pos 3)|].
  split; [intros f _; apply ex_bd_sound|].
  split; [exact droomy_poisson_3d|].
  split; [reflexivity|].
  split; [reflexivity|].
  split; [reflexivity|].
  split; [reflexivity|].
  split; [now apply le|].
  exact dnear_poisson_3d.
Qed.

Theorem C77_poisson_3d_direction1 : forall i0 j0 k0 i1 j1 k1 (dx : Z -> Qc) (beta : Qc) gcw u f0 f1 f2 rgcw res bc (m n : mem QcS) (r w s z : Z -> Z -> Z -> Qc),
  filled_poisson_3d (S := QcS) i0 j0 k0 i1 j1 k1 dx beta gcw u f0 f1 f2 rgcw res bc m r w ->
  filled_poisson_3d (S := QcS) i0 j0 k0 i1 j1 k1 dx beta gcw u f0 f1 f2 rgcw res bc n s z ->
  (0 < beta)%Qc ->
  (forall d, 0 <= d < 3 -> (0 < dx d)%Qc) ->
  (forall f, 0 <= f < 6 -> sound false (bc f)) ->
  roomy 3 (ends3 i0 j0 k0) (ends3 i1 j1 k1) bc ->
  b_kind (bc 2) = 0 ->
  b_order (bc 2) = 1 ->
  b_kind (bc 3) = 0 ->
  b_order (bc 3) = 1 ->
  forall M : Qc, (0 <= M)%Qc ->
  (forall i j k, patch3 i0 j0 k0 i1 j1 k1 i j k -> (- M <= r i j k - s i j k <= M)%Qc) ->
  forall i j k, patch3 i0 j0 k0 i1 j1 k1 i j k -> (- (M / beta * reach (j1 - j0 + 1) (dx 1%Z)) <= w i j k - z i j k <= (M / beta * reach (j1 - j0 + 1) (dx 1%Z)))%Qc.
Proof. exact @barc_poisson_3d_1. Qed.
Print Assumptions C77_poisson_3d_direction1.

Example C77_poisson_3d_direction1_example :
  filled_poisson_3d (S := QcS) 0 0 0 1 1 0 ex_h (ex_q 2) 1 (4%nat, 0) (5%nat, 0) (6%nat, 0) (7%nat, 0) 0 (8%nat, 0) ex_bd (ex_so 48 ex_any) (dr_poisson_3d ex_any) (dw_poisson_3d ex_any)  /\
  filled_poisson_3d (S := QcS) 0 0 0 1 1 0 ex_h (ex_q 2) 1 (4%nat, 0) (5%nat, 0) (6%nat, 0) (7%nat, 0) 0 (8%nat, 0) ex_bd (ex_so 48 ex_rise) (dr_poisson_3d ex_rise) (dw_poisson_3d ex_rise)  /\
  (0 < (ex_q 2))%Qc /\
  (forall d, 0 <= d < 3 -> (0 < ex_h d)%Qc) /\
  (forall f, 0 <= f < 6 -> sound false (ex_bd f)) /\
  roomy 3 (ends3 0 0 0) (ends3 1 1 0) ex_bd /\
  b_kind (ex_bd 2) = 0 /\
  b_order (ex_bd 2) = 1 /\
  b_kind (ex_bd 3) = 0 /\
  b_order (ex_bd 3) = 1 /\
  (0 <= (ex_q 1000000000))%Qc /\
  (forall i j k, patch3 0 0 0 1 1 0 i j k -> (- (ex_q 1000000000) <= dr_poisson_3d ex_any i j k - dr_poisson_3d ex_rise i j k <= (ex_q 1000000000))%Qc).
Proof.
  split; [exact dex_any_poisson_3d|].
  split; [exact dex_rise_poisson_3d|].
  split; [now apply lt|].
  split; [exact (ex_h_pos 3)|].
  split; [intros f _; apply ex_bd_sound|].
  split; [exact droomy_poisson_3d|].
  split; [reflexivity|].
  split; [reflexivity|].
  split; [reflexivity|].
  split; [reflexivity|].
  split; [now apply le|].
  exact dnear_poisson_3d.
Qed.

Theorem C77_poisson_3d_direction2 : forall i0 j0 k0 i1 j1 k1 (dx : Z -> Qc) (beta : Qc) gcw u f0 f1 f2 rgcw res bc (m n : mem QcS) (r w s z : Z -> Z -> Z -> Qc),
  filled_poisson_3d (S := QcS) i0 j0 k0 i1 j1 k1 dx beta gcw u f0 f1 f2 rgcw res bc m r w ->
  filled_poisson_3d (S := QcS) i0 j0 k0 i1 j1 k1 dx beta gcw u f0 f1 f2 rgcw res bc n s z ->
  (0 < beta)%Qc ->
  (forall d, 0 <= d < 3 -> (0 < dx d)%Qc) ->
  (forall f, 0 <= f < 6 -> sound false (bc f)) ->
  roomy 3 (ends3 i0 j0 k0) (ends3 i1 j1 k1) bc ->
  b_kind (bc 4) = 0 ->
  b_order (bc 4) = 1 ->
  b_kind (bc 5) = 0 ->
  b_order (bc 5) = 1 ->
  forall M : Qc, (0 <= M)%Qc ->
  (forall i j k, patch3 i0 j0 k0 i1 j1 k1 i j k -> (- M <= r i j k - s i j k <= M)%Qc) ->
  forall i j k, patch3 i0 j0 k0 i1 j1 k1 i j k -> (- (M / beta * reach (k1 - k0 + 1) (dx 2%Z)) <= w i j k - z i j k <= (M / beta * reach (k1 - k0 + 1) (dx 2%Z)))%Qc.
Proof. exact @barc_poisson_3d_2. Qed.
Print Assumptions C77_poisson_3d_direction2.

Example C77_poisson_3d_direction2_example :
  filled_poisson_3d (S := QcS) 0 0 0 1 1 0 ex_h (ex_q 2) 1 (4%nat, 0) (5%nat, 0) (6%nat, 0) (7%nat, 0) 0 (8%nat, 0) ex_bd (ex_so 48 ex_any) (dr_poisson_3d ex_any) (dw_poisson_3d ex_any)  /\
  filled_poisson_3d (S := QcS) 0 0 0 1 1 0 ex_h (ex_q 2) 1 (4%nat, 0) (5%nat, 0) (6%nat, 0) (7%nat, 0) 0 (8%nat, 0) ex_bd (ex_so 48 ex_rise) (dr_poisson_3d ex_rise) (dw_poisson_3d ex_rise)  /\
  (0 < (ex_q 2))%Qc /\
  (forall d, 0 <= d < 3 -> (0 < ex_h d)%Qc) /\
  (forall f, 0 <= f < 6 -> sound false (ex_bd f)) /\
  roomy 3 (ends3 0 0 0) (ends3 1 1 0) ex_bd /\
  b_kind (ex_bd 4) = 0 /\
  b_order (ex_bd 4) = 1 /\
  b_kind (ex_bd 5) = 0 /\
  b_order (ex_bd 5) = 1 /\
  (0 <= (ex_q 1000000000))%Qc /\
  (forall i j k, patch3 0 0 0 1 1 0 i j k -> (- (ex_q 1000000000) <= dr_poisson_3d ex_any i j k - dr_poisson_3d ex_rise i j k <= (ex_q 1000000000))%Qc).
Proof.
  split; [exact dex_any_poisson_3d|].
  split; [exact dex_rise_poisson_3d|].
  split; [now apply lt|].
  split; [exact (ex_h_pos 3)|].
  split; [intros f _; apply ex_bd_sound|].
  split; [exact droomy_poisson_3d|].
  split; [reflexivity|].
  split; [reflexivity|].
  split; [reflexivity|].
  split; [reflexivity|].
  split; [now apply le|].
  exact dnear_poisson_3d.
Qed.

(** The bound holds with equality for a single cell: [reach 1 h = h^2 / 4]. *)
Example C77_reach : reach 1 (whole 6) = whole 9 /\ reach 3 (whole 4) = whole 20.
Proof. split; apply Qc_is_canon; reflexivity. Qed.
