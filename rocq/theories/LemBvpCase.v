(** * For the examples of PropertiesBvp *)

From Coq Require Import QArith Qcanon.
From Verif Require Import Base LemCells FortranBase SpecKernel Instances KernelsFlux KernelsApply KernelsBC SpecBCOrder SpecBCCalls SpecSolve LemSolve LemSolveOp LemSolveMem LemSolveCase SpecBvp.
Import ListNotations.
Open Scope Z_scope.

(** Dirichlet of order 2 and Neumann; Robin and Dirichlet; Neumann and Dirichlet. *)
Definition ex_bc (robin : bool) (f : Z) : bcond QcS :=
  if f =? 0 then mkBc (S := QcS) 0 2 (ex_q 0) (ex_q 0) else if f =? 1 then mkBc (S := QcS) 1 1 (ex_q 0) (ex_q 0)
  else if f =? 2 then mkBc (S := QcS) (if robin then 4 else 0) 1 (ex_q 1) (ex_q 3)
  else if f =? 4 then mkBc (S := QcS) 1 1 (ex_q 0) (ex_q 0) else mkBc (S := QcS) 0 1 (ex_q 0) (ex_q 0).
Definition ex_rise (t : Z) : Z := 5000 + t.
Definition ex_twice (t : Z) : Z := 2 * ex_rise t.

Lemma ex_sound robin f : sound robin (ex_bc robin f).
Proof.
  unfold ex_bc, sound. destruct (f =? 0); [left; cbn; auto|]. destruct (f =? 1); [right; left; reflexivity|].
  destruct (f =? 2); [destruct robin; [right; right; repeat split; try reflexivity; now apply le|left; cbn; auto]|].
  destruct (f =? 4); [right; left; reflexivity|left; cbn; auto].
Qed.
Ltac k_roomy := intros f Hf; change (Z.of_nat 1) with 1 in Hf; change (Z.of_nat 2) with 2 in Hf; change (Z.of_nat 3) with 3 in Hf;
  first [assert (f = 0 \/ f = 1) by lia|assert (f = 0 \/ f = 1 \/ f = 2 \/ f = 3) by lia|assert (f = 0 \/ f = 1 \/ f = 2 \/ f = 3 \/ f = 4 \/ f = 5) by lia];
  repeat (match goal with G : _ \/ _ |- _ => destruct G end); subst; vm_compute; discriminate.
Lemma ex_h_pos n d : 0 <= d < n -> (0 < ex_h d)%Qc.
Proof. intros H. unfold ex_h. apply lt. unfold is_lt. apply negb_true_iff. destruct (Qle_bool _ _) eqn:E; [|reflexivity]. exfalso.
  apply Qle_bool_iff in E. unfold Q2Qc, this in E. rewrite Qred_correct in E. unfold Qle in E. cbn in E. lia. Qed.

Definition bm_v1_1d (u : Z -> Z) : option (mem QcS) := forM (face_calls 1 (ends1 0) (ends1 1) (ex_bc true)) (call_set_bc_1d (S := QcS) (ends1 0) (ends1 1) ex_h 0 (0%nat, 0) 1 (4%nat, 0)) (ex_so 4 u).
Definition bout_v1_1d (u : Z -> Z) : option (mem QcS) := (m' <- cdf_1d_flux (S := QcS) 0 1 ex_h (0%nat, 0) 1 (4%nat, 0) (5%nat, 0) (out (bm_v1_1d u)) ;; cd_apply_1d_diffusion_v1_apply (S := QcS) 0 1 (ex_q 3) (ex_q 2) ex_h 0 (3%nat, 0) 1 (4%nat, 0) (5%nat, 0) 0 (8%nat, 0) m').
Definition br_v1_1d (u : Z -> Z) (i : Z) : Qc := value (out (bout_v1_1d u)) (faddr (mkFa (8%nat, 0) (CELL1d 0 1 0)) [i]).
Definition bw_v1_1d (u : Z -> Z) (i : Z) : Qc := value (out (bm_v1_1d u)) (faddr (mkFa (4%nat, 0) (CELL1d 0 1 1)) [i]).
Lemma bgen_v1_1d (m m1 : mem QcS) (r w w1 : Z -> Qc) :
  forM (face_calls 1 (ends1 0) (ends1 1) (ex_bc true)) (call_set_bc_1d (S := QcS) (ends1 0) (ends1 1) ex_h 0 (0%nat, 0) 1 (4%nat, 0)) m = Some m1 ->
  forallb (fun i => is_num m (faddr (mkFa (4%nat, 0) (CELL1d 0 1 1)) [i]) (w i)) (cells1 0 1) = true ->
  applied_v1_1d (S := QcS) 0 1 ex_h (ex_q 2) (0%nat, 0) 1 (4%nat, 0) (5%nat, 0) (ex_q 3) 0 (3%nat, 0) 0 (8%nat, 0) m1 r w1 c_v1_1d v0_v1_1d ->
  filled_v1_1d (S := QcS) 0 1 ex_h (ex_q 2) (0%nat, 0) 1 (4%nat, 0) (5%nat, 0) (ex_q 3) 0 (3%nat, 0) 0 (8%nat, 0) (ex_bc true) m r w c_v1_1d v0_v1_1d.
Proof.
  intros E H A. split; [lia|]. split; [k_apart|]. split; [|exists m1, w1; split; [exact E|exact A]].
  intros i Ii; apply num; exact (all1 _ _ _ H i Ii).
Qed.
Lemma bex_any_v1_1d : filled_v1_1d (S := QcS) 0 1 ex_h (ex_q 2) (0%nat, 0) 1 (4%nat, 0) (5%nat, 0) (ex_q 3) 0 (3%nat, 0) 0 (8%nat, 0) (ex_bc true) (ex_so 4 ex_any) (br_v1_1d ex_any) (bw_v1_1d ex_any) c_v1_1d v0_v1_1d.
Proof.
  refine (bgen_v1_1d (ex_so 4 ex_any) (out (bm_v1_1d ex_any)) (br_v1_1d ex_any) (bw_v1_1d ex_any) (bw_v1_1d ex_any) (ran (bm_v1_1d ex_any) _) _
    (gen_v1_1d (out (bm_v1_1d ex_any)) (out (bout_v1_1d ex_any)) (br_v1_1d ex_any) (bw_v1_1d ex_any) c_v1_1d v0_v1_1d (ran (bout_v1_1d ex_any) _) _ _ _ _)); vm_compute; reflexivity.
Qed.
Lemma bex_rise_v1_1d : filled_v1_1d (S := QcS) 0 1 ex_h (ex_q 2) (0%nat, 0) 1 (4%nat, 0) (5%nat, 0) (ex_q 3) 0 (3%nat, 0) 0 (8%nat, 0) (ex_bc true) (ex_so 4 ex_rise) (br_v1_1d ex_rise) (bw_v1_1d ex_rise) c_v1_1d v0_v1_1d.
Proof.
  refine (bgen_v1_1d (ex_so 4 ex_rise) (out (bm_v1_1d ex_rise)) (br_v1_1d ex_rise) (bw_v1_1d ex_rise) (bw_v1_1d ex_rise) (ran (bm_v1_1d ex_rise) _) _
    (gen_v1_1d (out (bm_v1_1d ex_rise)) (out (bout_v1_1d ex_rise)) (br_v1_1d ex_rise) (bw_v1_1d ex_rise) c_v1_1d v0_v1_1d (ran (bout_v1_1d ex_rise) _) _ _ _ _)); vm_compute; reflexivity.
Qed.
Lemma bex_twice_v1_1d : filled_v1_1d (S := QcS) 0 1 ex_h (ex_q 2) (0%nat, 0) 1 (4%nat, 0) (5%nat, 0) (ex_q 3) 0 (3%nat, 0) 0 (8%nat, 0) (ex_bc true) (ex_so 4 ex_twice) (br_v1_1d ex_twice) (bw_v1_1d ex_twice) c_v1_1d v0_v1_1d.
Proof.
  refine (bgen_v1_1d (ex_so 4 ex_twice) (out (bm_v1_1d ex_twice)) (br_v1_1d ex_twice) (bw_v1_1d ex_twice) (bw_v1_1d ex_twice) (ran (bm_v1_1d ex_twice) _) _
    (gen_v1_1d (out (bm_v1_1d ex_twice)) (out (bout_v1_1d ex_twice)) (br_v1_1d ex_twice) (bw_v1_1d ex_twice) c_v1_1d v0_v1_1d (ran (bout_v1_1d ex_twice) _) _ _ _ _)); vm_compute; reflexivity.
Qed.
Lemma bmore_v1_1d : forall i, patch1 0 1 i -> (br_v1_1d ex_rise i <= br_v1_1d ex_twice i)%Qc.
Proof. intros i H. apply le. apply (all1 (fun i => is_le (br_v1_1d ex_rise i) (br_v1_1d ex_twice i)) 0 1); [vm_compute; reflexivity|..]; k_in H. Qed.
Lemma broomy_v1_1d : roomy 1 (ends1 0) (ends1 1) (ex_bc true).
Proof. k_roomy. Qed.

Definition bm_v2_1d (u : Z -> Z) : option (mem QcS) := forM (face_calls 1 (ends1 0) (ends1 1) (ex_bc true)) (call_set_bc_1d (S := QcS) (ends1 0) (ends1 1) ex_h 0 (0%nat, 0) 1 (4%nat, 0)) (ex_so 4 u).
Definition bout_v2_1d (u : Z -> Z) : option (mem QcS) := (m' <- cdf_1d_flux (S := QcS) 0 1 ex_h (0%nat, 0) 1 (4%nat, 0) (5%nat, 0) (out (bm_v2_1d u)) ;; cd_apply_1d_diffusion_v2_apply (S := QcS) 0 1 (ex_q 3) (ex_q 2) ex_h 1 (4%nat, 0) (5%nat, 0) 0 (8%nat, 0) m').
Definition br_v2_1d (u : Z -> Z) (i : Z) : Qc := value (out (bout_v2_1d u)) (faddr (mkFa (8%nat, 0) (CELL1d 0 1 0)) [i]).
Definition bw_v2_1d (u : Z -> Z) (i : Z) : Qc := value (out (bm_v2_1d u)) (faddr (mkFa (4%nat, 0) (CELL1d 0 1 1)) [i]).
Lemma bgen_v2_1d (m m1 : mem QcS) (r w w1 : Z -> Qc) :
  forM (face_calls 1 (ends1 0) (ends1 1) (ex_bc true)) (call_set_bc_1d (S := QcS) (ends1 0) (ends1 1) ex_h 0 (0%nat, 0) 1 (4%nat, 0)) m = Some m1 ->
  forallb (fun i => is_num m (faddr (mkFa (4%nat, 0) (CELL1d 0 1 1)) [i]) (w i)) (cells1 0 1) = true ->
  applied_v2_1d (S := QcS) 0 1 ex_h (ex_q 2) (0%nat, 0) 1 (4%nat, 0) (5%nat, 0) (ex_q 3) 0 (8%nat, 0) m1 r w1 v0_v2_1d ->
  filled_v2_1d (S := QcS) 0 1 ex_h (ex_q 2) (0%nat, 0) 1 (4%nat, 0) (5%nat, 0) (ex_q 3) 0 (8%nat, 0) (ex_bc true) m r w v0_v2_1d.
Proof.
  intros E H A. split; [lia|]. split; [k_apart|]. split; [|exists m1, w1; split; [exact E|exact A]].
  intros i Ii; apply num; exact (all1 _ _ _ H i Ii).
Qed.
Lemma bex_any_v2_1d : filled_v2_1d (S := QcS) 0 1 ex_h (ex_q 2) (0%nat, 0) 1 (4%nat, 0) (5%nat, 0) (ex_q 3) 0 (8%nat, 0) (ex_bc true) (ex_so 4 ex_any) (br_v2_1d ex_any) (bw_v2_1d ex_any) v0_v2_1d.
Proof.
  refine (bgen_v2_1d (ex_so 4 ex_any) (out (bm_v2_1d ex_any)) (br_v2_1d ex_any) (bw_v2_1d ex_any) (bw_v2_1d ex_any) (ran (bm_v2_1d ex_any) _) _
    (gen_v2_1d (out (bm_v2_1d ex_any)) (out (bout_v2_1d ex_any)) (br_v2_1d ex_any) (bw_v2_1d ex_any) v0_v2_1d (ran (bout_v2_1d ex_any) _) _ _ _)); vm_compute; reflexivity.
Qed.
Lemma bex_rise_v2_1d : filled_v2_1d (S := QcS) 0 1 ex_h (ex_q 2) (0%nat, 0) 1 (4%nat, 0) (5%nat, 0) (ex_q 3) 0 (8%nat, 0) (ex_bc true) (ex_so 4 ex_rise) (br_v2_1d ex_rise) (bw_v2_1d ex_rise) v0_v2_1d.
Proof.
  refine (bgen_v2_1d (ex_so 4 ex_rise) (out (bm_v2_1d ex_rise)) (br_v2_1d ex_rise) (bw_v2_1d ex_rise) (bw_v2_1d ex_rise) (ran (bm_v2_1d ex_rise) _) _
    (gen_v2_1d (out (bm_v2_1d ex_rise)) (out (bout_v2_1d ex_rise)) (br_v2_1d ex_rise) (bw_v2_1d ex_rise) v0_v2_1d (ran (bout_v2_1d ex_rise) _) _ _ _)); vm_compute; reflexivity.
Qed.
Lemma bex_twice_v2_1d : filled_v2_1d (S := QcS) 0 1 ex_h (ex_q 2) (0%nat, 0) 1 (4%nat, 0) (5%nat, 0) (ex_q 3) 0 (8%nat, 0) (ex_bc true) (ex_so 4 ex_twice) (br_v2_1d ex_twice) (bw_v2_1d ex_twice) v0_v2_1d.
Proof.
  refine (bgen_v2_1d (ex_so 4 ex_twice) (out (bm_v2_1d ex_twice)) (br_v2_1d ex_twice) (bw_v2_1d ex_twice) (bw_v2_1d ex_twice) (ran (bm_v2_1d ex_twice) _) _
    (gen_v2_1d (out (bm_v2_1d ex_twice)) (out (bout_v2_1d ex_twice)) (br_v2_1d ex_twice) (bw_v2_1d ex_twice) v0_v2_1d (ran (bout_v2_1d ex_twice) _) _ _ _)); vm_compute; reflexivity.
Qed.
Lemma bmore_v2_1d : forall i, patch1 0 1 i -> (br_v2_1d ex_rise i <= br_v2_1d ex_twice i)%Qc.
Proof. intros i H. apply le. apply (all1 (fun i => is_le (br_v2_1d ex_rise i) (br_v2_1d ex_twice i)) 0 1); [vm_compute; reflexivity|..]; k_in H. Qed.
Lemma broomy_v2_1d : roomy 1 (ends1 0) (ends1 1) (ex_bc true).
Proof. k_roomy. Qed.

Definition bm_poisson_1d (u : Z -> Z) : option (mem QcS) := forM (face_calls 1 (ends1 0) (ends1 1) (ex_bc false)) (call_set_poisson_bc_1d (S := QcS) (ends1 0) (ends1 1) ex_h 1 (4%nat, 0)) (ex_so 4 u).
Definition bout_poisson_1d (u : Z -> Z) : option (mem QcS) := (m' <- cdf_1d_poisson_flux (S := QcS) 0 1 ex_h 1 (4%nat, 0) (5%nat, 0) (out (bm_poisson_1d u)) ;; cd_apply_1d_poisson_v2_apply (S := QcS) 0 1 (ex_q 2) ex_h (5%nat, 0) 0 (8%nat, 0) m').
Definition br_poisson_1d (u : Z -> Z) (i : Z) : Qc := value (out (bout_poisson_1d u)) (faddr (mkFa (8%nat, 0) (CELL1d 0 1 0)) [i]).
Definition bw_poisson_1d (u : Z -> Z) (i : Z) : Qc := value (out (bm_poisson_1d u)) (faddr (mkFa (4%nat, 0) (CELL1d 0 1 1)) [i]).
Lemma bgen_poisson_1d (m m1 : mem QcS) (r w w1 : Z -> Qc) :
  forM (face_calls 1 (ends1 0) (ends1 1) (ex_bc false)) (call_set_poisson_bc_1d (S := QcS) (ends1 0) (ends1 1) ex_h 1 (4%nat, 0)) m = Some m1 ->
  forallb (fun i => is_num m (faddr (mkFa (4%nat, 0) (CELL1d 0 1 1)) [i]) (w i)) (cells1 0 1) = true ->
  applied_poisson_1d (S := QcS) 0 1 ex_h (ex_q 2) 1 (4%nat, 0) (5%nat, 0) 0 (8%nat, 0) m1 r w1  ->
  filled_poisson_1d (S := QcS) 0 1 ex_h (ex_q 2) 1 (4%nat, 0) (5%nat, 0) 0 (8%nat, 0) (ex_bc false) m r w .
Proof.
  intros E H A. split; [lia|]. split; [|exists m1, w1; split; [exact E|exact A]].
  intros i Ii; apply num; exact (all1 _ _ _ H i Ii).
Qed.
Lemma bex_any_poisson_1d : filled_poisson_1d (S := QcS) 0 1 ex_h (ex_q 2) 1 (4%nat, 0) (5%nat, 0) 0 (8%nat, 0) (ex_bc false) (ex_so 4 ex_any) (br_poisson_1d ex_any) (bw_poisson_1d ex_any) .
Proof.
  refine (bgen_poisson_1d (ex_so 4 ex_any) (out (bm_poisson_1d ex_any)) (br_poisson_1d ex_any) (bw_poisson_1d ex_any) (bw_poisson_1d ex_any) (ran (bm_poisson_1d ex_any) _) _
    (gen_poisson_1d (out (bm_poisson_1d ex_any)) (out (bout_poisson_1d ex_any)) (br_poisson_1d ex_any) (bw_poisson_1d ex_any)  (ran (bout_poisson_1d ex_any) _) _ _)); vm_compute; reflexivity.
Qed.
Lemma bex_rise_poisson_1d : filled_poisson_1d (S := QcS) 0 1 ex_h (ex_q 2) 1 (4%nat, 0) (5%nat, 0) 0 (8%nat, 0) (ex_bc false) (ex_so 4 ex_rise) (br_poisson_1d ex_rise) (bw_poisson_1d ex_rise) .
Proof.
  refine (bgen_poisson_1d (ex_so 4 ex_rise) (out (bm_poisson_1d ex_rise)) (br_poisson_1d ex_rise) (bw_poisson_1d ex_rise) (bw_poisson_1d ex_rise) (ran (bm_poisson_1d ex_rise) _) _
    (gen_poisson_1d (out (bm_poisson_1d ex_rise)) (out (bout_poisson_1d ex_rise)) (br_poisson_1d ex_rise) (bw_poisson_1d ex_rise)  (ran (bout_poisson_1d ex_rise) _) _ _)); vm_compute; reflexivity.
Qed.
Lemma bex_twice_poisson_1d : filled_poisson_1d (S := QcS) 0 1 ex_h (ex_q 2) 1 (4%nat, 0) (5%nat, 0) 0 (8%nat, 0) (ex_bc false) (ex_so 4 ex_twice) (br_poisson_1d ex_twice) (bw_poisson_1d ex_twice) .
Proof.
  refine (bgen_poisson_1d (ex_so 4 ex_twice) (out (bm_poisson_1d ex_twice)) (br_poisson_1d ex_twice) (bw_poisson_1d ex_twice) (bw_poisson_1d ex_twice) (ran (bm_poisson_1d ex_twice) _) _
    (gen_poisson_1d (out (bm_poisson_1d ex_twice)) (out (bout_poisson_1d ex_twice)) (br_poisson_1d ex_twice) (bw_poisson_1d ex_twice)  (ran (bout_poisson_1d ex_twice) _) _ _)); vm_compute; reflexivity.
Qed.
Lemma bmore_poisson_1d : forall i, patch1 0 1 i -> (br_poisson_1d ex_rise i <= br_poisson_1d ex_twice i)%Qc.
Proof. intros i H. apply le. apply (all1 (fun i => is_le (br_poisson_1d ex_rise i) (br_poisson_1d ex_twice i)) 0 1); [vm_compute; reflexivity|..]; k_in H. Qed.
Lemma broomy_poisson_1d : roomy 1 (ends1 0) (ends1 1) (ex_bc false).
Proof. k_roomy. Qed.

Definition bm_v1_2d (u : Z -> Z) : option (mem QcS) := forM (face_calls 2 (ends2 0 0) (ends2 1 1) (ex_bc true)) (call_set_bc_2d (S := QcS) (ends2 0 0) (ends2 1 1) ex_h 0 (0%nat, 0) (1%nat, 0) 1 (4%nat, 0)) (ex_so 16 u).
Definition bout_v1_2d (u : Z -> Z) : option (mem QcS) := (m' <- cdf_2d_flux (S := QcS) 0 0 1 1 ex_h (0%nat, 0) (1%nat, 0) 1 (4%nat, 0) (5%nat, 0) (6%nat, 0) (out (bm_v1_2d u)) ;; cd_apply_2d_diffusion_v1_apply (S := QcS) 0 1 0 1 (ex_q 3) (ex_q 2) ex_h 0 (3%nat, 0) 1 (4%nat, 0) (5%nat, 0) (6%nat, 0) 0 (8%nat, 0) m').
Definition br_v1_2d (u : Z -> Z) (i j : Z) : Qc := value (out (bout_v1_2d u)) (faddr (mkFa (8%nat, 0) (CELL2d 0 0 1 1 0)) [i; j]).
Definition bw_v1_2d (u : Z -> Z) (i j : Z) : Qc := value (out (bm_v1_2d u)) (faddr (mkFa (4%nat, 0) (CELL2d 0 0 1 1 1)) [i; j]).
Lemma bgen_v1_2d (m m1 : mem QcS) (r w w1 : Z -> Z -> Qc) :
  forM (face_calls 2 (ends2 0 0) (ends2 1 1) (ex_bc true)) (call_set_bc_2d (S := QcS) (ends2 0 0) (ends2 1 1) ex_h 0 (0%nat, 0) (1%nat, 0) 1 (4%nat, 0)) m = Some m1 ->
  forallb (fun p => (fun i j => is_num m (faddr (mkFa (4%nat, 0) (CELL2d 0 0 1 1 1)) [i; j]) (w i j)) (fst p) (snd p)) (cells2 0 0 1 1) = true ->
  applied_v1_2d (S := QcS) 0 0 1 1 ex_h (ex_q 2) (0%nat, 0) (1%nat, 0) 1 (4%nat, 0) (5%nat, 0) (6%nat, 0) (ex_q 3) 0 (3%nat, 0) 0 (8%nat, 0) m1 r w1 c_v1_2d v0_v1_2d v1_v1_2d ->
  filled_v1_2d (S := QcS) 0 0 1 1 ex_h (ex_q 2) (0%nat, 0) (1%nat, 0) 1 (4%nat, 0) (5%nat, 0) (6%nat, 0) (ex_q 3) 0 (3%nat, 0) 0 (8%nat, 0) (ex_bc true) m r w c_v1_2d v0_v1_2d v1_v1_2d.
Proof.
  intros E H A. split; [lia|]. split; [k_apart|]. split; [|exists m1, w1; split; [exact E|exact A]].
  intros i j Ii Ij; apply num; exact (all2 _ _ _ _ _ H i j Ii Ij).
Qed.
Lemma bex_any_v1_2d : filled_v1_2d (S := QcS) 0 0 1 1 ex_h (ex_q 2) (0%nat, 0) (1%nat, 0) 1 (4%nat, 0) (5%nat, 0) (6%nat, 0) (ex_q 3) 0 (3%nat, 0) 0 (8%nat, 0) (ex_bc true) (ex_so 16 ex_any) (br_v1_2d ex_any) (bw_v1_2d ex_any) c_v1_2d v0_v1_2d v1_v1_2d.
Proof.
  refine (bgen_v1_2d (ex_so 16 ex_any) (out (bm_v1_2d ex_any)) (br_v1_2d ex_any) (bw_v1_2d ex_any) (bw_v1_2d ex_any) (ran (bm_v1_2d ex_any) _) _
    (gen_v1_2d (out (bm_v1_2d ex_any)) (out (bout_v1_2d ex_any)) (br_v1_2d ex_any) (bw_v1_2d ex_any) c_v1_2d v0_v1_2d v1_v1_2d (ran (bout_v1_2d ex_any) _) _ _ _ _ _)); vm_compute; reflexivity.
Qed.
Lemma bex_rise_v1_2d : filled_v1_2d (S := QcS) 0 0 1 1 ex_h (ex_q 2) (0%nat, 0) (1%nat, 0) 1 (4%nat, 0) (5%nat, 0) (6%nat, 0) (ex_q 3) 0 (3%nat, 0) 0 (8%nat, 0) (ex_bc true) (ex_so 16 ex_rise) (br_v1_2d ex_rise) (bw_v1_2d ex_rise) c_v1_2d v0_v1_2d v1_v1_2d.
Proof.
  refine (bgen_v1_2d (ex_so 16 ex_rise) (out (bm_v1_2d ex_rise)) (br_v1_2d ex_rise) (bw_v1_2d ex_rise) (bw_v1_2d ex_rise) (ran (bm_v1_2d ex_rise) _) _
    (gen_v1_2d (out (bm_v1_2d ex_rise)) (out (bout_v1_2d ex_rise)) (br_v1_2d ex_rise) (bw_v1_2d ex_rise) c_v1_2d v0_v1_2d v1_v1_2d (ran (bout_v1_2d ex_rise) _) _ _ _ _ _)); vm_compute; reflexivity.
Qed.
Lemma bex_twice_v1_2d : filled_v1_2d (S := QcS) 0 0 1 1 ex_h (ex_q 2) (0%nat, 0) (1%nat, 0) 1 (4%nat, 0) (5%nat, 0) (6%nat, 0) (ex_q 3) 0 (3%nat, 0) 0 (8%nat, 0) (ex_bc true) (ex_so 16 ex_twice) (br_v1_2d ex_twice) (bw_v1_2d ex_twice) c_v1_2d v0_v1_2d v1_v1_2d.
Proof.
  refine (bgen_v1_2d (ex_so 16 ex_twice) (out (bm_v1_2d ex_twice)) (br_v1_2d ex_twice) (bw_v1_2d ex_twice) (bw_v1_2d ex_twice) (ran (bm_v1_2d ex_twice) _) _
    (gen_v1_2d (out (bm_v1_2d ex_twice)) (out (bout_v1_2d ex_twice)) (br_v1_2d ex_twice) (bw_v1_2d ex_twice) c_v1_2d v0_v1_2d v1_v1_2d (ran (bout_v1_2d ex_twice) _) _ _ _ _ _)); vm_compute; reflexivity.
Qed.
Lemma bmore_v1_2d : forall i j, patch2 0 0 1 1 i j -> (br_v1_2d ex_rise i j <= br_v1_2d ex_twice i j)%Qc.
Proof. intros i j H. apply le. apply (all2 (fun i j => is_le (br_v1_2d ex_rise i j) (br_v1_2d ex_twice i j)) 0 0 1 1); [vm_compute; reflexivity|..]; k_in H. Qed.
Lemma broomy_v1_2d : roomy 2 (ends2 0 0) (ends2 1 1) (ex_bc true).
Proof. k_roomy. Qed.

Definition bm_v2_2d (u : Z -> Z) : option (mem QcS) := forM (face_calls 2 (ends2 0 0) (ends2 1 1) (ex_bc true)) (call_set_bc_2d (S := QcS) (ends2 0 0) (ends2 1 1) ex_h 0 (0%nat, 0) (1%nat, 0) 1 (4%nat, 0)) (ex_so 16 u).
Definition bout_v2_2d (u : Z -> Z) : option (mem QcS) := (m' <- cdf_2d_flux (S := QcS) 0 0 1 1 ex_h (0%nat, 0) (1%nat, 0) 1 (4%nat, 0) (5%nat, 0) (6%nat, 0) (out (bm_v2_2d u)) ;; cd_apply_2d_diffusion_v2_apply (S := QcS) 0 1 0 1 (ex_q 3) (ex_q 2) ex_h 1 (4%nat, 0) (5%nat, 0) (6%nat, 0) 0 (8%nat, 0) m').
Definition br_v2_2d (u : Z -> Z) (i j : Z) : Qc := value (out (bout_v2_2d u)) (faddr (mkFa (8%nat, 0) (CELL2d 0 0 1 1 0)) [i; j]).
Definition bw_v2_2d (u : Z -> Z) (i j : Z) : Qc := value (out (bm_v2_2d u)) (faddr (mkFa (4%nat, 0) (CELL2d 0 0 1 1 1)) [i; j]).
Lemma bgen_v2_2d (m m1 : mem QcS) (r w w1 : Z -> Z -> Qc) :
  forM (face_calls 2 (ends2 0 0) (ends2 1 1) (ex_bc true)) (call_set_bc_2d (S := QcS) (ends2 0 0) (ends2 1 1) ex_h 0 (0%nat, 0) (1%nat, 0) 1 (4%nat, 0)) m = Some m1 ->
  forallb (fun p => (fun i j => is_num m (faddr (mkFa (4%nat, 0) (CELL2d 0 0 1 1 1)) [i; j]) (w i j)) (fst p) (snd p)) (cells2 0 0 1 1) = true ->
  applied_v2_2d (S := QcS) 0 0 1 1 ex_h (ex_q 2) (0%nat, 0) (1%nat, 0) 1 (4%nat, 0) (5%nat, 0) (6%nat, 0) (ex_q 3) 0 (8%nat, 0) m1 r w1 v0_v2_2d v1_v2_2d ->
  filled_v2_2d (S := QcS) 0 0 1 1 ex_h (ex_q 2) (0%nat, 0) (1%nat, 0) 1 (4%nat, 0) (5%nat, 0) (6%nat, 0) (ex_q 3) 0 (8%nat, 0) (ex_bc true) m r w v0_v2_2d v1_v2_2d.
Proof.
  intros E H A. split; [lia|]. split; [k_apart|]. split; [|exists m1, w1; split; [exact E|exact A]].
  intros i j Ii Ij; apply num; exact (all2 _ _ _ _ _ H i j Ii Ij).
Qed.
Lemma bex_any_v2_2d : filled_v2_2d (S := QcS) 0 0 1 1 ex_h (ex_q 2) (0%nat, 0) (1%nat, 0) 1 (4%nat, 0) (5%nat, 0) (6%nat, 0) (ex_q 3) 0 (8%nat, 0) (ex_bc true) (ex_so 16 ex_any) (br_v2_2d ex_any) (bw_v2_2d ex_any) v0_v2_2d v1_v2_2d.
Proof.
  refine (bgen_v2_2d (ex_so 16 ex_any) (out (bm_v2_2d ex_any)) (br_v2_2d ex_any) (bw_v2_2d ex_any) (bw_v2_2d ex_any) (ran (bm_v2_2d ex_any) _) _
    (gen_v2_2d (out (bm_v2_2d ex_any)) (out (bout_v2_2d ex_any)) (br_v2_2d ex_any) (bw_v2_2d ex_any) v0_v2_2d v1_v2_2d (ran (bout_v2_2d ex_any) _) _ _ _ _)); vm_compute; reflexivity.
Qed.
Lemma bex_rise_v2_2d : filled_v2_2d (S := QcS) 0 0 1 1 ex_h (ex_q 2) (0%nat, 0) (1%nat, 0) 1 (4%nat, 0) (5%nat, 0) (6%nat, 0) (ex_q 3) 0 (8%nat, 0) (ex_bc true) (ex_so 16 ex_rise) (br_v2_2d ex_rise) (bw_v2_2d ex_rise) v0_v2_2d v1_v2_2d.
Proof.
  refine (bgen_v2_2d (ex_so 16 ex_rise) (out (bm_v2_2d ex_rise)) (br_v2_2d ex_rise) (bw_v2_2d ex_rise) (bw_v2_2d ex_rise) (ran (bm_v2_2d ex_rise) _) _
    (gen_v2_2d (out (bm_v2_2d ex_rise)) (out (bout_v2_2d ex_rise)) (br_v2_2d ex_rise) (bw_v2_2d ex_rise) v0_v2_2d v1_v2_2d (ran (bout_v2_2d ex_rise) _) _ _ _ _)); vm_compute; reflexivity.
Qed.
Lemma bex_twice_v2_2d : filled_v2_2d (S := QcS) 0 0 1 1 ex_h (ex_q 2) (0%nat, 0) (1%nat, 0) 1 (4%nat, 0) (5%nat, 0) (6%nat, 0) (ex_q 3) 0 (8%nat, 0) (ex_bc true) (ex_so 16 ex_twice) (br_v2_2d ex_twice) (bw_v2_2d ex_twice) v0_v2_2d v1_v2_2d.
Proof.
  refine (bgen_v2_2d (ex_so 16 ex_twice) (out (bm_v2_2d ex_twice)) (br_v2_2d ex_twice) (bw_v2_2d ex_twice) (bw_v2_2d ex_twice) (ran (bm_v2_2d ex_twice) _) _
    (gen_v2_2d (out (bm_v2_2d ex_twice)) (out (bout_v2_2d ex_twice)) (br_v2_2d ex_twice) (bw_v2_2d ex_twice) v0_v2_2d v1_v2_2d (ran (bout_v2_2d ex_twice) _) _ _ _ _)); vm_compute; reflexivity.
Qed.
Lemma bmore_v2_2d : forall i j, patch2 0 0 1 1 i j -> (br_v2_2d ex_rise i j <= br_v2_2d ex_twice i j)%Qc.
Proof. intros i j H. apply le. apply (all2 (fun i j => is_le (br_v2_2d ex_rise i j) (br_v2_2d ex_twice i j)) 0 0 1 1); [vm_compute; reflexivity|..]; k_in H. Qed.
Lemma broomy_v2_2d : roomy 2 (ends2 0 0) (ends2 1 1) (ex_bc true).
Proof. k_roomy. Qed.

Definition bm_poisson_2d (u : Z -> Z) : option (mem QcS) := forM (face_calls 2 (ends2 0 0) (ends2 1 1) (ex_bc false)) (call_set_poisson_bc_2d (S := QcS) (ends2 0 0) (ends2 1 1) ex_h 1 (4%nat, 0)) (ex_so 16 u).
Definition bout_poisson_2d (u : Z -> Z) : option (mem QcS) := (m' <- cdf_2d_poisson_flux (S := QcS) 0 0 1 1 ex_h 1 (4%nat, 0) (5%nat, 0) (6%nat, 0) (out (bm_poisson_2d u)) ;; cd_apply_2d_poisson_v2_apply (S := QcS) 0 1 0 1 (ex_q 2) ex_h (5%nat, 0) (6%nat, 0) 0 (8%nat, 0) m').
Definition br_poisson_2d (u : Z -> Z) (i j : Z) : Qc := value (out (bout_poisson_2d u)) (faddr (mkFa (8%nat, 0) (CELL2d 0 0 1 1 0)) [i; j]).
Definition bw_poisson_2d (u : Z -> Z) (i j : Z) : Qc := value (out (bm_poisson_2d u)) (faddr (mkFa (4%nat, 0) (CELL2d 0 0 1 1 1)) [i; j]).
Lemma bgen_poisson_2d (m m1 : mem QcS) (r w w1 : Z -> Z -> Qc) :
  forM (face_calls 2 (ends2 0 0) (ends2 1 1) (ex_bc false)) (call_set_poisson_bc_2d (S := QcS) (ends2 0 0) (ends2 1 1) ex_h 1 (4%nat, 0)) m = Some m1 ->
  forallb (fun p => (fun i j => is_num m (faddr (mkFa (4%nat, 0) (CELL2d 0 0 1 1 1)) [i; j]) (w i j)) (fst p) (snd p)) (cells2 0 0 1 1) = true ->
  applied_poisson_2d (S := QcS) 0 0 1 1 ex_h (ex_q 2) 1 (4%nat, 0) (5%nat, 0) (6%nat, 0) 0 (8%nat, 0) m1 r w1  ->
  filled_poisson_2d (S := QcS) 0 0 1 1 ex_h (ex_q 2) 1 (4%nat, 0) (5%nat, 0) (6%nat, 0) 0 (8%nat, 0) (ex_bc false) m r w .
Proof.
  intros E H A. split; [lia|]. split; [|exists m1, w1; split; [exact E|exact A]].
  intros i j Ii Ij; apply num; exact (all2 _ _ _ _ _ H i j Ii Ij).
Qed.
Lemma bex_any_poisson_2d : filled_poisson_2d (S := QcS) 0 0 1 1 ex_h (ex_q 2) 1 (4%nat, 0) (5%nat, 0) (6%nat, 0) 0 (8%nat, 0) (ex_bc false) (ex_so 16 ex_any) (br_poisson_2d ex_any) (bw_poisson_2d ex_any) .
Proof.
  refine (bgen_poisson_2d (ex_so 16 ex_any) (out (bm_poisson_2d ex_any)) (br_poisson_2d ex_any) (bw_poisson_2d ex_any) (bw_poisson_2d ex_any) (ran (bm_poisson_2d ex_any) _) _
    (gen_poisson_2d (out (bm_poisson_2d ex_any)) (out (bout_poisson_2d ex_any)) (br_poisson_2d ex_any) (bw_poisson_2d ex_any)  (ran (bout_poisson_2d ex_any) _) _ _)); vm_compute; reflexivity.
Qed.
Lemma bex_rise_poisson_2d : filled_poisson_2d (S := QcS) 0 0 1 1 ex_h (ex_q 2) 1 (4%nat, 0) (5%nat, 0) (6%nat, 0) 0 (8%nat, 0) (ex_bc false) (ex_so 16 ex_rise) (br_poisson_2d ex_rise) (bw_poisson_2d ex_rise) .
Proof.
  refine (bgen_poisson_2d (ex_so 16 ex_rise) (out (bm_poisson_2d ex_rise)) (br_poisson_2d ex_rise) (bw_poisson_2d ex_rise) (bw_poisson_2d ex_rise) (ran (bm_poisson_2d ex_rise) _) _
    (gen_poisson_2d (out (bm_poisson_2d ex_rise)) (out (bout_poisson_2d ex_rise)) (br_poisson_2d ex_rise) (bw_poisson_2d ex_rise)  (ran (bout_poisson_2d ex_rise) _) _ _)); vm_compute; reflexivity.
Qed.
Lemma bex_twice_poisson_2d : filled_poisson_2d (S := QcS) 0 0 1 1 ex_h (ex_q 2) 1 (4%nat, 0) (5%nat, 0) (6%nat, 0) 0 (8%nat, 0) (ex_bc false) (ex_so 16 ex_twice) (br_poisson_2d ex_twice) (bw_poisson_2d ex_twice) .
Proof.
  refine (bgen_poisson_2d (ex_so 16 ex_twice) (out (bm_poisson_2d ex_twice)) (br_poisson_2d ex_twice) (bw_poisson_2d ex_twice) (bw_poisson_2d ex_twice) (ran (bm_poisson_2d ex_twice) _) _
    (gen_poisson_2d (out (bm_poisson_2d ex_twice)) (out (bout_poisson_2d ex_twice)) (br_poisson_2d ex_twice) (bw_poisson_2d ex_twice)  (ran (bout_poisson_2d ex_twice) _) _ _)); vm_compute; reflexivity.
Qed.
Lemma bmore_poisson_2d : forall i j, patch2 0 0 1 1 i j -> (br_poisson_2d ex_rise i j <= br_poisson_2d ex_twice i j)%Qc.
Proof. intros i j H. apply le. apply (all2 (fun i j => is_le (br_poisson_2d ex_rise i j) (br_poisson_2d ex_twice i j)) 0 0 1 1); [vm_compute; reflexivity|..]; k_in H. Qed.
Lemma broomy_poisson_2d : roomy 2 (ends2 0 0) (ends2 1 1) (ex_bc false).
Proof. k_roomy. Qed.

Definition bm_v1_3d (u : Z -> Z) : option (mem QcS) := forM (face_calls 3 (ends3 0 0 0) (ends3 1 1 0) (ex_bc true)) (call_set_bc_3d (S := QcS) (ends3 0 0 0) (ends3 1 1 0) ex_h 0 (0%nat, 0) (1%nat, 0) (2%nat, 0) 1 (4%nat, 0)) (ex_so 48 u).
Definition bout_v1_3d (u : Z -> Z) : option (mem QcS) := (m' <- cdf_3d_flux (S := QcS) 0 0 0 1 1 0 ex_h (0%nat, 0) (1%nat, 0) (2%nat, 0) 1 (4%nat, 0) (5%nat, 0) (6%nat, 0) (7%nat, 0) (out (bm_v1_3d u)) ;; cd_apply_3d_diffusion_v1_apply (S := QcS) 0 1 0 1 0 0 (ex_q 3) (ex_q 2) ex_h 0 (3%nat, 0) 1 (4%nat, 0) (5%nat, 0) (6%nat, 0) (7%nat, 0) 0 (8%nat, 0) m').
Definition br_v1_3d (u : Z -> Z) (i j k : Z) : Qc := value (out (bout_v1_3d u)) (faddr (mkFa (8%nat, 0) (CELL3d 0 0 0 1 1 0 0)) [i; j; k]).
Definition bw_v1_3d (u : Z -> Z) (i j k : Z) : Qc := value (out (bm_v1_3d u)) (faddr (mkFa (4%nat, 0) (CELL3d 0 0 0 1 1 0 1)) [i; j; k]).
Lemma bgen_v1_3d (m m1 : mem QcS) (r w w1 : Z -> Z -> Z -> Qc) :
  forM (face_calls 3 (ends3 0 0 0) (ends3 1 1 0) (ex_bc true)) (call_set_bc_3d (S := QcS) (ends3 0 0 0) (ends3 1 1 0) ex_h 0 (0%nat, 0) (1%nat, 0) (2%nat, 0) 1 (4%nat, 0)) m = Some m1 ->
  forallb (fun p => (fun i j k => is_num m (faddr (mkFa (4%nat, 0) (CELL3d 0 0 0 1 1 0 1)) [i; j; k]) (w i j k)) (fst (fst p)) (snd (fst p)) (snd p)) (cells3 0 0 0 1 1 0) = true ->
  applied_v1_3d (S := QcS) 0 0 0 1 1 0 ex_h (ex_q 2) (0%nat, 0) (1%nat, 0) (2%nat, 0) 1 (4%nat, 0) (5%nat, 0) (6%nat, 0) (7%nat, 0) (ex_q 3) 0 (3%nat, 0) 0 (8%nat, 0) m1 r w1 c_v1_3d v0_v1_3d v1_v1_3d v2_v1_3d ->
  filled_v1_3d (S := QcS) 0 0 0 1 1 0 ex_h (ex_q 2) (0%nat, 0) (1%nat, 0) (2%nat, 0) 1 (4%nat, 0) (5%nat, 0) (6%nat, 0) (7%nat, 0) (ex_q 3) 0 (3%nat, 0) 0 (8%nat, 0) (ex_bc true) m r w c_v1_3d v0_v1_3d v1_v1_3d v2_v1_3d.
Proof.
  intros E H A. split; [lia|]. split; [k_apart|]. split; [|exists m1, w1; split; [exact E|exact A]].
  intros i j k Ii Ij Ik; apply num; exact (all3 _ _ _ _ _ _ _ H i j k Ii Ij Ik).
Qed.
Lemma bex_any_v1_3d : filled_v1_3d (S := QcS) 0 0 0 1 1 0 ex_h (ex_q 2) (0%nat, 0) (1%nat, 0) (2%nat, 0) 1 (4%nat, 0) (5%nat, 0) (6%nat, 0) (7%nat, 0) (ex_q 3) 0 (3%nat, 0) 0 (8%nat, 0) (ex_bc true) (ex_so 48 ex_any) (br_v1_3d ex_any) (bw_v1_3d ex_any) c_v1_3d v0_v1_3d v1_v1_3d v2_v1_3d.
Proof.
  refine (bgen_v1_3d (ex_so 48 ex_any) (out (bm_v1_3d ex_any)) (br_v1_3d ex_any) (bw_v1_3d ex_any) (bw_v1_3d ex_any) (ran (bm_v1_3d ex_any) _) _
    (gen_v1_3d (out (bm_v1_3d ex_any)) (out (bout_v1_3d ex_any)) (br_v1_3d ex_any) (bw_v1_3d ex_any) c_v1_3d v0_v1_3d v1_v1_3d v2_v1_3d (ran (bout_v1_3d ex_any) _) _ _ _ _ _ _)); vm_compute; reflexivity.
Qed.
Lemma bex_rise_v1_3d : filled_v1_3d (S := QcS) 0 0 0 1 1 0 ex_h (ex_q 2) (0%nat, 0) (1%nat, 0) (2%nat, 0) 1 (4%nat, 0) (5%nat, 0) (6%nat, 0) (7%nat, 0) (ex_q 3) 0 (3%nat, 0) 0 (8%nat, 0) (ex_bc true) (ex_so 48 ex_rise) (br_v1_3d ex_rise) (bw_v1_3d ex_rise) c_v1_3d v0_v1_3d v1_v1_3d v2_v1_3d.
Proof.
  refine (bgen_v1_3d (ex_so 48 ex_rise) (out (bm_v1_3d ex_rise)) (br_v1_3d ex_rise) (bw_v1_3d ex_rise) (bw_v1_3d ex_rise) (ran (bm_v1_3d ex_rise) _) _
    (gen_v1_3d (out (bm_v1_3d ex_rise)) (out (bout_v1_3d ex_rise)) (br_v1_3d ex_rise) (bw_v1_3d ex_rise) c_v1_3d v0_v1_3d v1_v1_3d v2_v1_3d (ran (bout_v1_3d ex_rise) _) _ _ _ _ _ _)); vm_compute; reflexivity.
Qed.
Lemma bex_twice_v1_3d : filled_v1_3d (S := QcS) 0 0 0 1 1 0 ex_h (ex_q 2) (0%nat, 0) (1%nat, 0) (2%nat, 0) 1 (4%nat, 0) (5%nat, 0) (6%nat, 0) (7%nat, 0) (ex_q 3) 0 (3%nat, 0) 0 (8%nat, 0) (ex_bc true) (ex_so 48 ex_twice) (br_v1_3d ex_twice) (bw_v1_3d ex_twice) c_v1_3d v0_v1_3d v1_v1_3d v2_v1_3d.
Proof.
  refine (bgen_v1_3d (ex_so 48 ex_twice) (out (bm_v1_3d ex_twice)) (br_v1_3d ex_twice) (bw_v1_3d ex_twice) (bw_v1_3d ex_twice) (ran (bm_v1_3d ex_twice) _) _
    (gen_v1_3d (out (bm_v1_3d ex_twice)) (out (bout_v1_3d ex_twice)) (br_v1_3d ex_twice) (bw_v1_3d ex_twice) c_v1_3d v0_v1_3d v1_v1_3d v2_v1_3d (ran (bout_v1_3d ex_twice) _) _ _ _ _ _ _)); vm_compute; reflexivity.
Qed.
Lemma bmore_v1_3d : forall i j k, patch3 0 0 0 1 1 0 i j k -> (br_v1_3d ex_rise i j k <= br_v1_3d ex_twice i j k)%Qc.
Proof. intros i j k H. apply le. apply (all3 (fun i j k => is_le (br_v1_3d ex_rise i j k) (br_v1_3d ex_twice i j k)) 0 0 0 1 1 0); [vm_compute; reflexivity|..]; k_in H. Qed.
Lemma broomy_v1_3d : roomy 3 (ends3 0 0 0) (ends3 1 1 0) (ex_bc true).
Proof. k_roomy. Qed.

Definition bm_v2_3d (u : Z -> Z) : option (mem QcS) := forM (face_calls 3 (ends3 0 0 0) (ends3 1 1 0) (ex_bc true)) (call_set_bc_3d (S := QcS) (ends3 0 0 0) (ends3 1 1 0) ex_h 0 (0%nat, 0) (1%nat, 0) (2%nat, 0) 1 (4%nat, 0)) (ex_so 48 u).
Definition bout_v2_3d (u : Z -> Z) : option (mem QcS) := (m' <- cdf_3d_flux (S := QcS) 0 0 0 1 1 0 ex_h (0%nat, 0) (1%nat, 0) (2%nat, 0) 1 (4%nat, 0) (5%nat, 0) (6%nat, 0) (7%nat, 0) (out (bm_v2_3d u)) ;; cd_apply_3d_diffusion_v2_apply (S := QcS) 0 1 0 1 0 0 (ex_q 3) (ex_q 2) ex_h 1 (4%nat, 0) (5%nat, 0) (6%nat, 0) (7%nat, 0) 0 (8%nat, 0) m').
Definition br_v2_3d (u : Z -> Z) (i j k : Z) : Qc := value (out (bout_v2_3d u)) (faddr (mkFa (8%nat, 0) (CELL3d 0 0 0 1 1 0 0)) [i; j; k]).
Definition bw_v2_3d (u : Z -> Z) (i j k : Z) : Qc := value (out (bm_v2_3d u)) (faddr (mkFa (4%nat, 0) (CELL3d 0 0 0 1 1 0 1)) [i; j; k]).
Lemma bgen_v2_3d (m m1 : mem QcS) (r w w1 : Z -> Z -> Z -> Qc) :
  forM (face_calls 3 (ends3 0 0 0) (ends3 1 1 0) (ex_bc true)) (call_set_bc_3d (S := QcS) (ends3 0 0 0) (ends3 1 1 0) ex_h 0 (0%nat, 0) (1%nat, 0) (2%nat, 0) 1 (4%nat, 0)) m = Some m1 ->
  forallb (fun p => (fun i j k => is_num m (faddr (mkFa (4%nat, 0) (CELL3d 0 0 0 1 1 0 1)) [i; j; k]) (w i j k)) (fst (fst p)) (snd (fst p)) (snd p)) (cells3 0 0 0 1 1 0) = true ->
  applied_v2_3d (S := QcS) 0 0 0 1 1 0 ex_h (ex_q 2) (0%nat, 0) (1%nat, 0) (2%nat, 0) 1 (4%nat, 0) (5%nat, 0) (6%nat, 0) (7%nat, 0) (ex_q 3) 0 (8%nat, 0) m1 r w1 v0_v2_3d v1_v2_3d v2_v2_3d ->
  filled_v2_3d (S := QcS) 0 0 0 1 1 0 ex_h (ex_q 2) (0%nat, 0) (1%nat, 0) (2%nat, 0) 1 (4%nat, 0) (5%nat, 0) (6%nat, 0) (7%nat, 0) (ex_q 3) 0 (8%nat, 0) (ex_bc true) m r w v0_v2_3d v1_v2_3d v2_v2_3d.
Proof.
  intros E H A. split; [lia|]. split; [k_apart|]. split; [|exists m1, w1; split; [exact E|exact A]].
  intros i j k Ii Ij Ik; apply num; exact (all3 _ _ _ _ _ _ _ H i j k Ii Ij Ik).
Qed.
Lemma bex_any_v2_3d : filled_v2_3d (S := QcS) 0 0 0 1 1 0 ex_h (ex_q 2) (0%nat, 0) (1%nat, 0) (2%nat, 0) 1 (4%nat, 0) (5%nat, 0) (6%nat, 0) (7%nat, 0) (ex_q 3) 0 (8%nat, 0) (ex_bc true) (ex_so 48 ex_any) (br_v2_3d ex_any) (bw_v2_3d ex_any) v0_v2_3d v1_v2_3d v2_v2_3d.
Proof.
  refine (bgen_v2_3d (ex_so 48 ex_any) (out (bm_v2_3d ex_any)) (br_v2_3d ex_any) (bw_v2_3d ex_any) (bw_v2_3d ex_any) (ran (bm_v2_3d ex_any) _) _
    (gen_v2_3d (out (bm_v2_3d ex_any)) (out (bout_v2_3d ex_any)) (br_v2_3d ex_any) (bw_v2_3d ex_any) v0_v2_3d v1_v2_3d v2_v2_3d (ran (bout_v2_3d ex_any) _) _ _ _ _ _)); vm_compute; reflexivity.
Qed.
Lemma bex_rise_v2_3d : filled_v2_3d (S := QcS) 0 0 0 1 1 0 ex_h (ex_q 2) (0%nat, 0) (1%nat, 0) (2%nat, 0) 1 (4%nat, 0) (5%nat, 0) (6%nat, 0) (7%nat, 0) (ex_q 3) 0 (8%nat, 0) (ex_bc true) (ex_so 48 ex_rise) (br_v2_3d ex_rise) (bw_v2_3d ex_rise) v0_v2_3d v1_v2_3d v2_v2_3d.
Proof.
  refine (bgen_v2_3d (ex_so 48 ex_rise) (out (bm_v2_3d ex_rise)) (br_v2_3d ex_rise) (bw_v2_3d ex_rise) (bw_v2_3d ex_rise) (ran (bm_v2_3d ex_rise) _) _
    (gen_v2_3d (out (bm_v2_3d ex_rise)) (out (bout_v2_3d ex_rise)) (br_v2_3d ex_rise) (bw_v2_3d ex_rise) v0_v2_3d v1_v2_3d v2_v2_3d (ran (bout_v2_3d ex_rise) _) _ _ _ _ _)); vm_compute; reflexivity.
Qed.
Lemma bex_twice_v2_3d : filled_v2_3d (S := QcS) 0 0 0 1 1 0 ex_h (ex_q 2) (0%nat, 0) (1%nat, 0) (2%nat, 0) 1 (4%nat, 0) (5%nat, 0) (6%nat, 0) (7%nat, 0) (ex_q 3) 0 (8%nat, 0) (ex_bc true) (ex_so 48 ex_twice) (br_v2_3d ex_twice) (bw_v2_3d ex_twice) v0_v2_3d v1_v2_3d v2_v2_3d.
Proof.
  refine (bgen_v2_3d (ex_so 48 ex_twice) (out (bm_v2_3d ex_twice)) (br_v2_3d ex_twice) (bw_v2_3d ex_twice) (bw_v2_3d ex_twice) (ran (bm_v2_3d ex_twice) _) _
    (gen_v2_3d (out (bm_v2_3d ex_twice)) (out (bout_v2_3d ex_twice)) (br_v2_3d ex_twice) (bw_v2_3d ex_twice) v0_v2_3d v1_v2_3d v2_v2_3d (ran (bout_v2_3d ex_twice) _) _ _ _ _ _)); vm_compute; reflexivity.
Qed.
Lemma bmore_v2_3d : forall i j k, patch3 0 0 0 1 1 0 i j k -> (br_v2_3d ex_rise i j k <= br_v2_3d ex_twice i j k)%Qc.
Proof. intros i j k H. apply le. apply (all3 (fun i j k => is_le (br_v2_3d ex_rise i j k) (br_v2_3d ex_twice i j k)) 0 0 0 1 1 0); [vm_compute; reflexivity|..]; k_in H. Qed.
Lemma broomy_v2_3d : roomy 3 (ends3 0 0 0) (ends3 1 1 0) (ex_bc true).
Proof. k_roomy. Qed.

Definition bm_poisson_3d (u : Z -> Z) : option (mem QcS) := forM (face_calls 3 (ends3 0 0 0) (ends3 1 1 0) (ex_bc false)) (call_set_poisson_bc_3d (S := QcS) (ends3 0 0 0) (ends3 1 1 0) ex_h 1 (4%nat, 0)) (ex_so 48 u).
Definition bout_poisson_3d (u : Z -> Z) : option (mem QcS) := (m' <- cdf_3d_poisson_flux (S := QcS) 0 0 0 1 1 0 ex_h 1 (4%nat, 0) (5%nat, 0) (6%nat, 0) (7%nat, 0) (out (bm_poisson_3d u)) ;; cd_apply_3d_poisson_v2_apply (S := QcS) 0 1 0 1 0 0 (ex_q 2) ex_h (5%nat, 0) (6%nat, 0) (7%nat, 0) 0 (8%nat, 0) m').
Definition br_poisson_3d (u : Z -> Z) (i j k : Z) : Qc := value (out (bout_poisson_3d u)) (faddr (mkFa (8%nat, 0) (CELL3d 0 0 0 1 1 0 0)) [i; j; k]).
Definition bw_poisson_3d (u : Z -> Z) (i j k : Z) : Qc := value (out (bm_poisson_3d u)) (faddr (mkFa (4%nat, 0) (CELL3d 0 0 0 1 1 0 1)) [i; j; k]).
Lemma bgen_poisson_3d (m m1 : mem QcS) (r w w1 : Z -> Z -> Z -> Qc) :
  forM (face_calls 3 (ends3 0 0 0) (ends3 1 1 0) (ex_bc false)) (call_set_poisson_bc_3d (S := QcS) (ends3 0 0 0) (ends3 1 1 0) ex_h 1 (4%nat, 0)) m = Some m1 ->
  forallb (fun p => (fun i j k => is_num m (faddr (mkFa (4%nat, 0) (CELL3d 0 0 0 1 1 0 1)) [i; j; k]) (w i j k)) (fst (fst p)) (snd (fst p)) (snd p)) (cells3 0 0 0 1 1 0) = true ->
  applied_poisson_3d (S := QcS) 0 0 0 1 1 0 ex_h (ex_q 2) 1 (4%nat, 0) (5%nat, 0) (6%nat, 0) (7%nat, 0) 0 (8%nat, 0) m1 r w1  ->
  filled_poisson_3d (S := QcS) 0 0 0 1 1 0 ex_h (ex_q 2) 1 (4%nat, 0) (5%nat, 0) (6%nat, 0) (7%nat, 0) 0 (8%nat, 0) (ex_bc false) m r w .
Proof.
  intros E H A. split; [lia|]. split; [|exists m1, w1; split; [exact E|exact A]].
  intros i j k Ii Ij Ik; apply num; exact (all3 _ _ _ _ _ _ _ H i j k Ii Ij Ik).
Qed.
Lemma bex_any_poisson_3d : filled_poisson_3d (S := QcS) 0 0 0 1 1 0 ex_h (ex_q 2) 1 (4%nat, 0) (5%nat, 0) (6%nat, 0) (7%nat, 0) 0 (8%nat, 0) (ex_bc false) (ex_so 48 ex_any) (br_poisson_3d ex_any) (bw_poisson_3d ex_any) .
Proof.
  refine (bgen_poisson_3d (ex_so 48 ex_any) (out (bm_poisson_3d ex_any)) (br_poisson_3d ex_any) (bw_poisson_3d ex_any) (bw_poisson_3d ex_any) (ran (bm_poisson_3d ex_any) _) _
    (gen_poisson_3d (out (bm_poisson_3d ex_any)) (out (bout_poisson_3d ex_any)) (br_poisson_3d ex_any) (bw_poisson_3d ex_any)  (ran (bout_poisson_3d ex_any) _) _ _)); vm_compute; reflexivity.
Qed.
Lemma bex_rise_poisson_3d : filled_poisson_3d (S := QcS) 0 0 0 1 1 0 ex_h (ex_q 2) 1 (4%nat, 0) (5%nat, 0) (6%nat, 0) (7%nat, 0) 0 (8%nat, 0) (ex_bc false) (ex_so 48 ex_rise) (br_poisson_3d ex_rise) (bw_poisson_3d ex_rise) .
Proof.
  refine (bgen_poisson_3d (ex_so 48 ex_rise) (out (bm_poisson_3d ex_rise)) (br_poisson_3d ex_rise) (bw_poisson_3d ex_rise) (bw_poisson_3d ex_rise) (ran (bm_poisson_3d ex_rise) _) _
    (gen_poisson_3d (out (bm_poisson_3d ex_rise)) (out (bout_poisson_3d ex_rise)) (br_poisson_3d ex_rise) (bw_poisson_3d ex_rise)  (ran (bout_poisson_3d ex_rise) _) _ _)); vm_compute; reflexivity.
Qed.
Lemma bex_twice_poisson_3d : filled_poisson_3d (S := QcS) 0 0 0 1 1 0 ex_h (ex_q 2) 1 (4%nat, 0) (5%nat, 0) (6%nat, 0) (7%nat, 0) 0 (8%nat, 0) (ex_bc false) (ex_so 48 ex_twice) (br_poisson_3d ex_twice) (bw_poisson_3d ex_twice) .
Proof.
  refine (bgen_poisson_3d (ex_so 48 ex_twice) (out (bm_poisson_3d ex_twice)) (br_poisson_3d ex_twice) (bw_poisson_3d ex_twice) (bw_poisson_3d ex_twice) (ran (bm_poisson_3d ex_twice) _) _
    (gen_poisson_3d (out (bm_poisson_3d ex_twice)) (out (bout_poisson_3d ex_twice)) (br_poisson_3d ex_twice) (bw_poisson_3d ex_twice)  (ran (bout_poisson_3d ex_twice) _) _ _)); vm_compute; reflexivity.
Qed.
Lemma bmore_poisson_3d : forall i j k, patch3 0 0 0 1 1 0 i j k -> (br_poisson_3d ex_rise i j k <= br_poisson_3d ex_twice i j k)%Qc.
Proof. intros i j k H. apply le. apply (all3 (fun i j k => is_le (br_poisson_3d ex_rise i j k) (br_poisson_3d ex_twice i j k)) 0 0 0 1 1 0); [vm_compute; reflexivity|..]; k_in H. Qed.
Lemma broomy_poisson_3d : roomy 3 (ends3 0 0 0) (ends3 1 1 0) (ex_bc false).
Proof. k_roomy. Qed.

(** Neumann conditions on both ends: two constants. *)
Definition nm_fill (u : Z -> Z) : option (mem QcS) := forM (face_calls 1 (ends1 0) (ends1 1) (fun _ => mkBc (S := QcS) 1 1 (ex_q 0) (ex_q 0))) (call_set_poisson_bc_1d (S := QcS) (ends1 0) (ends1 1) ex_h 1 (4%nat, 0)) (ex_so 4 u).
Definition nm_out (u : Z -> Z) : option (mem QcS) := (m' <- cdf_1d_poisson_flux (S := QcS) 0 1 ex_h 1 (4%nat, 0) (5%nat, 0) (out (nm_fill u)) ;; cd_apply_1d_poisson_v2_apply (S := QcS) 0 1 (ex_q 2) ex_h (5%nat, 0) 0 (8%nat, 0) m').
Lemma nm_gen (m m1 : mem QcS) (r w w1 : Z -> Qc) :
  forM (face_calls 1 (ends1 0) (ends1 1) (fun _ => mkBc (S := QcS) 1 1 (ex_q 0) (ex_q 0))) (call_set_poisson_bc_1d (S := QcS) (ends1 0) (ends1 1) ex_h 1 (4%nat, 0)) m = Some m1 ->
  forallb (fun i => is_num m (faddr (mkFa (4%nat, 0) (CELL1d 0 1 1)) [i]) (w i)) (cells1 0 1) = true ->
  applied_poisson_1d (S := QcS) 0 1 ex_h (ex_q 2) 1 (4%nat, 0) (5%nat, 0) 0 (8%nat, 0) m1 r w1 ->
  filled_poisson_1d (S := QcS) 0 1 ex_h (ex_q 2) 1 (4%nat, 0) (5%nat, 0) 0 (8%nat, 0) (fun _ => mkBc (S := QcS) 1 1 (ex_q 0) (ex_q 0)) m r w.
Proof.
  intros E H A. split; [lia|]. split; [|exists m1, w1; split; [exact E|exact A]].
  intros i Ii; apply num; exact (all1 _ _ _ H i Ii).
Qed.
Lemma nm_const z : z = 0 \/ z = 1 -> filled_poisson_1d (S := QcS) 0 1 ex_h (ex_q 2) 1 (4%nat, 0) (5%nat, 0) 0 (8%nat, 0) (fun _ => mkBc (S := QcS) 1 1 (ex_q 0) (ex_q 0)) (ex_so 4 (fun _ => z)) (fun _ => 0%Qc) (fun _ => ex_q z).
Proof.
  intros [->| ->].
  - refine (nm_gen (ex_so 4 (fun _ => 0)) (out (nm_fill (fun _ => 0))) _ _ (fun _ => ex_q 0) (ran (nm_fill (fun _ => 0)) _) _
      (gen_poisson_1d (out (nm_fill (fun _ => 0))) (out (nm_out (fun _ => 0))) _ _ (ran (nm_out (fun _ => 0)) _) _ _)); vm_compute; reflexivity.
  - refine (nm_gen (ex_so 4 (fun _ => 1)) (out (nm_fill (fun _ => 1))) _ _ (fun _ => ex_q 1) (ran (nm_fill (fun _ => 1)) _) _
      (gen_poisson_1d (out (nm_fill (fun _ => 1))) (out (nm_out (fun _ => 1))) _ _ (ran (nm_out (fun _ => 1)) _) _ _)); vm_compute; reflexivity.
Qed.
Lemma nm_many : ~ (forall i0 i1 (dx : Z -> Qc) (beta : Qc) gcw u f0 rgcw res bc (m n : mem QcS) (r w s z : Z -> Qc),
  filled_poisson_1d (S := QcS) i0 i1 dx beta gcw u f0 rgcw res bc m r w ->
  filled_poisson_1d (S := QcS) i0 i1 dx beta gcw u f0 rgcw res bc n s z ->
  (0 < beta)%Qc ->
  (forall d, 0 <= d < 1 -> (0 < dx d)%Qc) ->
  (forall f, 0 <= f < 2 -> sound false (bc f)) ->
  roomy 1 (ends1 i0) (ends1 i1) bc ->
  (forall i, patch1 i0 i1 i -> r i = s i) ->
  forall i, patch1 i0 i1 i -> w i = z i).
Proof.
  intros H. specialize (H 0 1 ex_h (ex_q 2) 1 (4%nat, 0) (5%nat, 0) 0 (8%nat, 0) (fun _ => mkBc (S := QcS) 1 1 (ex_q 0) (ex_q 0)) (ex_so 4 (fun _ => 0)) (ex_so 4 (fun _ => 1)) (fun _ => 0%Qc) (fun _ => ex_q 0) (fun _ => 0%Qc) (fun _ => ex_q 1)
    (nm_const 0 (or_introl eq_refl)) (nm_const 1 (or_intror eq_refl)) ltac:(now apply lt) (ex_h_pos 1) (fun _ _ => or_intror (or_introl eq_refl)) ltac:(k_roomy) (fun _ _ => eq_refl) 0 ltac:(unfold patch1; lia)).
  apply (f_equal this) in H. vm_compute in H. discriminate.
Qed.
