(** * For the examples of PropertiesBound *)

From Coq Require Import QArith Qcanon.
From Verif Require Import Base LemCells FortranBase SpecKernel Instances KernelsFlux KernelsApply KernelsBC SpecBCOrder SpecBCCalls SpecRow SpecSolve LemSolve LemSolveOp LemSolveMem LemSolveCase SpecBvp SpecBound LemBvpCase.
Import ListNotations.
Open Scope Z_scope.

(** Dirichlet conditions of order 1 everywhere. *)
Definition ex_bd (f : Z) : bcond QcS := mkBc (S := QcS) 0 1 (ex_q 0) (ex_q 0).
Lemma ex_bd_sound robin f : sound robin (ex_bd f).
Proof. left. cbn. auto. Qed.
Definition is_within (M x : Qc) : bool := is_le (- M) x && is_le x M.
Lemma within M x : is_within M x = true -> (- M <= x <= M)%Qc.
Proof. intros H. apply andb_prop in H. destruct H. split; now apply le. Qed.

Definition dm_v1_1d (u : Z -> Z) : option (mem QcS) := forM (face_calls 1 (ends1 0) (ends1 1) ex_bd) (call_set_bc_1d (S := QcS) (ends1 0) (ends1 1) ex_h 0 (0%nat, 0) 1 (4%nat, 0)) (ex_so 4 u).
Definition dout_v1_1d (u : Z -> Z) : option (mem QcS) := (m' <- cdf_1d_flux (S := QcS) 0 1 ex_h (0%nat, 0) 1 (4%nat, 0) (5%nat, 0) (out (dm_v1_1d u)) ;; cd_apply_1d_diffusion_v1_apply (S := QcS) 0 1 (ex_q 3) (ex_q 2) ex_h 0 (3%nat, 0) 1 (4%nat, 0) (5%nat, 0) 0 (8%nat, 0) m').
Definition dr_v1_1d (u : Z -> Z) (i : Z) : Qc := value (out (dout_v1_1d u)) (faddr (mkFa (8%nat, 0) (CELL1d 0 1 0)) [i]).
Definition dw_v1_1d (u : Z -> Z) (i : Z) : Qc := value (out (dm_v1_1d u)) (faddr (mkFa (4%nat, 0) (CELL1d 0 1 1)) [i]).
Lemma dgen_v1_1d (m m1 mo : mem QcS) (r w w1 c v0 : Z -> Qc) :
  forM (face_calls 1 (ends1 0) (ends1 1) ex_bd) (call_set_bc_1d (S := QcS) (ends1 0) (ends1 1) ex_h 0 (0%nat, 0) 1 (4%nat, 0)) m = Some m1 ->
  (m' <- cdf_1d_flux (S := QcS) 0 1 ex_h (0%nat, 0) 1 (4%nat, 0) (5%nat, 0) m1 ;; cd_apply_1d_diffusion_v1_apply (S := QcS) 0 1 (ex_q 3) (ex_q 2) ex_h 0 (3%nat, 0) 1 (4%nat, 0) (5%nat, 0) 0 (8%nat, 0) m') = Some mo ->
  forallb (fun i => is_num mo (faddr (mkFa (8%nat, 0) (CELL1d 0 1 0)) [i]) (r i)) (cells1 0 1) = true ->
  forallb (fun i => is_num m1 (faddr (mkFa (4%nat, 0) (CELL1d 0 1 1)) [i]) (w1 i)) (cells1 (-1) 2) = true ->
  forallb (fun i => is_num m1 (faddr (mkFa (3%nat, 0) (CELL1d 0 1 0)) [i]) (c i)) (cells1 0 1) = true ->
  forallb (fun i => is_num m1 (faddr (mkFa (0%nat, 0) (FACE1d 0 1 0)) [i]) (v0 i)) (cells1 0 2) = true ->
  forallb (fun i => is_num m (faddr (mkFa (4%nat, 0) (CELL1d 0 1 1)) [i]) (w i)) (cells1 0 1) = true ->
  filled_v1_1d (S := QcS) 0 1 ex_h (ex_q 2) (0%nat, 0) 1 (4%nat, 0) (5%nat, 0) (ex_q 3) 0 (3%nat, 0) 0 (8%nat, 0) ex_bd m r w c v0.
Proof.
  intros E H H0 H1 H2 H3 H4. split; [lia|]. split; [k_apart|]. split; [intros i Ii; apply num; exact (all1 _ _ _ H4 i Ii)|]. exists m1, w1. split; [exact E|].
  split; [lia|]. split; [lia|]. split; [k_apart|]. split; [k_apart|].
  exists mo. split; [exact H|].
  split; [intros i Ii; apply num; exact (all1 _ _ _ H0 i Ii)|].
  split; [intros i Ii; apply num; exact (all1 _ _ _ H1 i Ii)|].
  split; [intros i Ii; apply num; exact (all1 _ _ _ H2 i Ii)|].
  intros i Ii; apply num; exact (all1 _ _ _ H3 i Ii).
Qed.
Lemma dex_any_v1_1d : filled_v1_1d (S := QcS) 0 1 ex_h (ex_q 2) (0%nat, 0) 1 (4%nat, 0) (5%nat, 0) (ex_q 3) 0 (3%nat, 0) 0 (8%nat, 0) ex_bd (ex_so 4 ex_any) (dr_v1_1d ex_any) (dw_v1_1d ex_any) c_v1_1d v0_v1_1d.
Proof.
  refine (dgen_v1_1d (ex_so 4 ex_any) (out (dm_v1_1d ex_any)) (out (dout_v1_1d ex_any)) (dr_v1_1d ex_any) (dw_v1_1d ex_any) (dw_v1_1d ex_any) c_v1_1d v0_v1_1d
    (ran (dm_v1_1d ex_any) _) (ran (dout_v1_1d ex_any) _) _ _ _ _ _); vm_compute; reflexivity.
Qed.
Lemma dex_rise_v1_1d : filled_v1_1d (S := QcS) 0 1 ex_h (ex_q 2) (0%nat, 0) 1 (4%nat, 0) (5%nat, 0) (ex_q 3) 0 (3%nat, 0) 0 (8%nat, 0) ex_bd (ex_so 4 ex_rise) (dr_v1_1d ex_rise) (dw_v1_1d ex_rise) c_v1_1d v0_v1_1d.
Proof.
  refine (dgen_v1_1d (ex_so 4 ex_rise) (out (dm_v1_1d ex_rise)) (out (dout_v1_1d ex_rise)) (dr_v1_1d ex_rise) (dw_v1_1d ex_rise) (dw_v1_1d ex_rise) c_v1_1d v0_v1_1d
    (ran (dm_v1_1d ex_rise) _) (ran (dout_v1_1d ex_rise) _) _ _ _ _ _); vm_compute; reflexivity.
Qed.
Lemma dnear_v1_1d : forall i, patch1 0 1 i -> (- (ex_q 1000000000 * (ex_q 3 * c_v1_1d i))%Qc <= dr_v1_1d ex_any i - dr_v1_1d ex_rise i <= (ex_q 1000000000 * (ex_q 3 * c_v1_1d i))%Qc)%Qc.
Proof. intros i H. apply within. apply (all1 (fun i => is_within (ex_q 1000000000 * (ex_q 3 * c_v1_1d i))%Qc (dr_v1_1d ex_any i - dr_v1_1d ex_rise i)) 0 1); [vm_compute; reflexivity|..]; k_in H. Qed.
Lemma droomy_v1_1d : roomy 1 (ends1 0) (ends1 1) ex_bd.
Proof. k_roomy. Qed.
Lemma dv0_v1_1d : forall i, 0 <= i <= 1 + 1 -> (0 < v0_v1_1d i)%Qc.
Proof. intros i Ii. apply lt. apply (all1 (fun i => is_lt 0 (v0_v1_1d i)) 0 2); [vm_compute; reflexivity|..]; lia. Qed.

Definition dm_v2_1d (u : Z -> Z) : option (mem QcS) := forM (face_calls 1 (ends1 0) (ends1 1) ex_bd) (call_set_bc_1d (S := QcS) (ends1 0) (ends1 1) ex_h 0 (0%nat, 0) 1 (4%nat, 0)) (ex_so 4 u).
Definition dout_v2_1d (u : Z -> Z) : option (mem QcS) := (m' <- cdf_1d_flux (S := QcS) 0 1 ex_h (0%nat, 0) 1 (4%nat, 0) (5%nat, 0) (out (dm_v2_1d u)) ;; cd_apply_1d_diffusion_v2_apply (S := QcS) 0 1 (ex_q 3) (ex_q 2) ex_h 1 (4%nat, 0) (5%nat, 0) 0 (8%nat, 0) m').
Definition dr_v2_1d (u : Z -> Z) (i : Z) : Qc := value (out (dout_v2_1d u)) (faddr (mkFa (8%nat, 0) (CELL1d 0 1 0)) [i]).
Definition dw_v2_1d (u : Z -> Z) (i : Z) : Qc := value (out (dm_v2_1d u)) (faddr (mkFa (4%nat, 0) (CELL1d 0 1 1)) [i]).
Lemma dgen_v2_1d (m m1 mo : mem QcS) (r w w1 v0 : Z -> Qc) :
  forM (face_calls 1 (ends1 0) (ends1 1) ex_bd) (call_set_bc_1d (S := QcS) (ends1 0) (ends1 1) ex_h 0 (0%nat, 0) 1 (4%nat, 0)) m = Some m1 ->
  (m' <- cdf_1d_flux (S := QcS) 0 1 ex_h (0%nat, 0) 1 (4%nat, 0) (5%nat, 0) m1 ;; cd_apply_1d_diffusion_v2_apply (S := QcS) 0 1 (ex_q 3) (ex_q 2) ex_h 1 (4%nat, 0) (5%nat, 0) 0 (8%nat, 0) m') = Some mo ->
  forallb (fun i => is_num mo (faddr (mkFa (8%nat, 0) (CELL1d 0 1 0)) [i]) (r i)) (cells1 0 1) = true ->
  forallb (fun i => is_num m1 (faddr (mkFa (4%nat, 0) (CELL1d 0 1 1)) [i]) (w1 i)) (cells1 (-1) 2) = true ->
  forallb (fun i => is_num m1 (faddr (mkFa (0%nat, 0) (FACE1d 0 1 0)) [i]) (v0 i)) (cells1 0 2) = true ->
  forallb (fun i => is_num m (faddr (mkFa (4%nat, 0) (CELL1d 0 1 1)) [i]) (w i)) (cells1 0 1) = true ->
  filled_v2_1d (S := QcS) 0 1 ex_h (ex_q 2) (0%nat, 0) 1 (4%nat, 0) (5%nat, 0) (ex_q 3) 0 (8%nat, 0) ex_bd m r w v0.
Proof.
  intros E H H0 H1 H2 H3. split; [lia|]. split; [k_apart|]. split; [intros i Ii; apply num; exact (all1 _ _ _ H3 i Ii)|]. exists m1, w1. split; [exact E|].
  split; [lia|]. split; [lia|]. split; [k_apart|]. split; [k_apart|].
  exists mo. split; [exact H|].
  split; [intros i Ii; apply num; exact (all1 _ _ _ H0 i Ii)|].
  split; [intros i Ii; apply num; exact (all1 _ _ _ H1 i Ii)|].
  intros i Ii; apply num; exact (all1 _ _ _ H2 i Ii).
Qed.
Lemma dex_any_v2_1d : filled_v2_1d (S := QcS) 0 1 ex_h (ex_q 2) (0%nat, 0) 1 (4%nat, 0) (5%nat, 0) (ex_q 3) 0 (8%nat, 0) ex_bd (ex_so 4 ex_any) (dr_v2_1d ex_any) (dw_v2_1d ex_any) v0_v2_1d.
Proof.
  refine (dgen_v2_1d (ex_so 4 ex_any) (out (dm_v2_1d ex_any)) (out (dout_v2_1d ex_any)) (dr_v2_1d ex_any) (dw_v2_1d ex_any) (dw_v2_1d ex_any) v0_v2_1d
    (ran (dm_v2_1d ex_any) _) (ran (dout_v2_1d ex_any) _) _ _ _ _); vm_compute; reflexivity.
Qed.
Lemma dex_rise_v2_1d : filled_v2_1d (S := QcS) 0 1 ex_h (ex_q 2) (0%nat, 0) 1 (4%nat, 0) (5%nat, 0) (ex_q 3) 0 (8%nat, 0) ex_bd (ex_so 4 ex_rise) (dr_v2_1d ex_rise) (dw_v2_1d ex_rise) v0_v2_1d.
Proof.
  refine (dgen_v2_1d (ex_so 4 ex_rise) (out (dm_v2_1d ex_rise)) (out (dout_v2_1d ex_rise)) (dr_v2_1d ex_rise) (dw_v2_1d ex_rise) (dw_v2_1d ex_rise) v0_v2_1d
    (ran (dm_v2_1d ex_rise) _) (ran (dout_v2_1d ex_rise) _) _ _ _ _); vm_compute; reflexivity.
Qed.
Lemma dnear_v2_1d : forall i, patch1 0 1 i -> (- (ex_q 1000000000 * ex_q 3)%Qc <= dr_v2_1d ex_any i - dr_v2_1d ex_rise i <= (ex_q 1000000000 * ex_q 3)%Qc)%Qc.
Proof. intros i H. apply within. apply (all1 (fun i => is_within (ex_q 1000000000 * ex_q 3)%Qc (dr_v2_1d ex_any i - dr_v2_1d ex_rise i)) 0 1); [vm_compute; reflexivity|..]; k_in H. Qed.
Lemma droomy_v2_1d : roomy 1 (ends1 0) (ends1 1) ex_bd.
Proof. k_roomy. Qed.
Lemma dv0_v2_1d : forall i, 0 <= i <= 1 + 1 -> (0 < v0_v2_1d i)%Qc.
Proof. intros i Ii. apply lt. apply (all1 (fun i => is_lt 0 (v0_v2_1d i)) 0 2); [vm_compute; reflexivity|..]; lia. Qed.

Definition dm_poisson_1d (u : Z -> Z) : option (mem QcS) := forM (face_calls 1 (ends1 0) (ends1 1) ex_bd) (call_set_poisson_bc_1d (S := QcS) (ends1 0) (ends1 1) ex_h 1 (4%nat, 0)) (ex_so 4 u).
Definition dout_poisson_1d (u : Z -> Z) : option (mem QcS) := (m' <- cdf_1d_poisson_flux (S := QcS) 0 1 ex_h 1 (4%nat, 0) (5%nat, 0) (out (dm_poisson_1d u)) ;; cd_apply_1d_poisson_v2_apply (S := QcS) 0 1 (ex_q 2) ex_h (5%nat, 0) 0 (8%nat, 0) m').
Definition dr_poisson_1d (u : Z -> Z) (i : Z) : Qc := value (out (dout_poisson_1d u)) (faddr (mkFa (8%nat, 0) (CELL1d 0 1 0)) [i]).
Definition dw_poisson_1d (u : Z -> Z) (i : Z) : Qc := value (out (dm_poisson_1d u)) (faddr (mkFa (4%nat, 0) (CELL1d 0 1 1)) [i]).
Lemma dgen_poisson_1d (m m1 mo : mem QcS) (r w w1 : Z -> Qc) :
  forM (face_calls 1 (ends1 0) (ends1 1) ex_bd) (call_set_poisson_bc_1d (S := QcS) (ends1 0) (ends1 1) ex_h 1 (4%nat, 0)) m = Some m1 ->
  (m' <- cdf_1d_poisson_flux (S := QcS) 0 1 ex_h 1 (4%nat, 0) (5%nat, 0) m1 ;; cd_apply_1d_poisson_v2_apply (S := QcS) 0 1 (ex_q 2) ex_h (5%nat, 0) 0 (8%nat, 0) m') = Some mo ->
  forallb (fun i => is_num mo (faddr (mkFa (8%nat, 0) (CELL1d 0 1 0)) [i]) (r i)) (cells1 0 1) = true ->
  forallb (fun i => is_num m1 (faddr (mkFa (4%nat, 0) (CELL1d 0 1 1)) [i]) (w1 i)) (cells1 (-1) 2) = true ->
  forallb (fun i => is_num m (faddr (mkFa (4%nat, 0) (CELL1d 0 1 1)) [i]) (w i)) (cells1 0 1) = true ->
  filled_poisson_1d (S := QcS) 0 1 ex_h (ex_q 2) 1 (4%nat, 0) (5%nat, 0) 0 (8%nat, 0) ex_bd m r w .
Proof.
  intros E H H0 H1 H2. split; [lia|]. split; [intros i Ii; apply num; exact (all1 _ _ _ H2 i Ii)|]. exists m1, w1. split; [exact E|].
  split; [lia|]. split; [lia|]. split; [k_apart|]. split; [k_apart|].
  exists mo. split; [exact H|].
  split; [intros i Ii; apply num; exact (all1 _ _ _ H0 i Ii)|].
  intros i Ii; apply num; exact (all1 _ _ _ H1 i Ii).
Qed.
Lemma dex_any_poisson_1d : filled_poisson_1d (S := QcS) 0 1 ex_h (ex_q 2) 1 (4%nat, 0) (5%nat, 0) 0 (8%nat, 0) ex_bd (ex_so 4 ex_any) (dr_poisson_1d ex_any) (dw_poisson_1d ex_any) .
Proof.
  refine (dgen_poisson_1d (ex_so 4 ex_any) (out (dm_poisson_1d ex_any)) (out (dout_poisson_1d ex_any)) (dr_poisson_1d ex_any) (dw_poisson_1d ex_any) (dw_poisson_1d ex_any) 
    (ran (dm_poisson_1d ex_any) _) (ran (dout_poisson_1d ex_any) _) _ _ _); vm_compute; reflexivity.
Qed.
Lemma dex_rise_poisson_1d : filled_poisson_1d (S := QcS) 0 1 ex_h (ex_q 2) 1 (4%nat, 0) (5%nat, 0) 0 (8%nat, 0) ex_bd (ex_so 4 ex_rise) (dr_poisson_1d ex_rise) (dw_poisson_1d ex_rise) .
Proof.
  refine (dgen_poisson_1d (ex_so 4 ex_rise) (out (dm_poisson_1d ex_rise)) (out (dout_poisson_1d ex_rise)) (dr_poisson_1d ex_rise) (dw_poisson_1d ex_rise) (dw_poisson_1d ex_rise) 
    (ran (dm_poisson_1d ex_rise) _) (ran (dout_poisson_1d ex_rise) _) _ _ _); vm_compute; reflexivity.
Qed.
Lemma dnear_poisson_1d : forall i, patch1 0 1 i -> (- (ex_q 1000000000) <= dr_poisson_1d ex_any i - dr_poisson_1d ex_rise i <= (ex_q 1000000000))%Qc.
Proof. intros i H. apply within. apply (all1 (fun i => is_within (ex_q 1000000000) (dr_poisson_1d ex_any i - dr_poisson_1d ex_rise i)) 0 1); [vm_compute; reflexivity|..]; k_in H. Qed.
Lemma droomy_poisson_1d : roomy 1 (ends1 0) (ends1 1) ex_bd.
Proof. k_roomy. Qed.

Definition dm_v1_2d (u : Z -> Z) : option (mem QcS) := forM (face_calls 2 (ends2 0 0) (ends2 1 1) ex_bd) (call_set_bc_2d (S := QcS) (ends2 0 0) (ends2 1 1) ex_h 0 (0%nat, 0) (1%nat, 0) 1 (4%nat, 0)) (ex_so 16 u).
Definition dout_v1_2d (u : Z -> Z) : option (mem QcS) := (m' <- cdf_2d_flux (S := QcS) 0 0 1 1 ex_h (0%nat, 0) (1%nat, 0) 1 (4%nat, 0) (5%nat, 0) (6%nat, 0) (out (dm_v1_2d u)) ;; cd_apply_2d_diffusion_v1_apply (S := QcS) 0 1 0 1 (ex_q 3) (ex_q 2) ex_h 0 (3%nat, 0) 1 (4%nat, 0) (5%nat, 0) (6%nat, 0) 0 (8%nat, 0) m').
Definition dr_v1_2d (u : Z -> Z) (i j : Z) : Qc := value (out (dout_v1_2d u)) (faddr (mkFa (8%nat, 0) (CELL2d 0 0 1 1 0)) [i; j]).
Definition dw_v1_2d (u : Z -> Z) (i j : Z) : Qc := value (out (dm_v1_2d u)) (faddr (mkFa (4%nat, 0) (CELL2d 0 0 1 1 1)) [i; j]).
Lemma dgen_v1_2d (m m1 mo : mem QcS) (r w w1 c v0 v1 : Z -> Z -> Qc) :
  forM (face_calls 2 (ends2 0 0) (ends2 1 1) ex_bd) (call_set_bc_2d (S := QcS) (ends2 0 0) (ends2 1 1) ex_h 0 (0%nat, 0) (1%nat, 0) 1 (4%nat, 0)) m = Some m1 ->
  (m' <- cdf_2d_flux (S := QcS) 0 0 1 1 ex_h (0%nat, 0) (1%nat, 0) 1 (4%nat, 0) (5%nat, 0) (6%nat, 0) m1 ;; cd_apply_2d_diffusion_v1_apply (S := QcS) 0 1 0 1 (ex_q 3) (ex_q 2) ex_h 0 (3%nat, 0) 1 (4%nat, 0) (5%nat, 0) (6%nat, 0) 0 (8%nat, 0) m') = Some mo ->
  forallb (fun p => (fun i j => is_num mo (faddr (mkFa (8%nat, 0) (CELL2d 0 0 1 1 0)) [i; j]) (r i j)) (fst p) (snd p)) (cells2 0 0 1 1) = true ->
  forallb (fun p => (fun i j => is_num m1 (faddr (mkFa (4%nat, 0) (CELL2d 0 0 1 1 1)) [i; j]) (w1 i j)) (fst p) (snd p)) (cells2 (-1) (-1) 2 2) = true ->
  forallb (fun p => (fun i j => is_num m1 (faddr (mkFa (3%nat, 0) (CELL2d 0 0 1 1 0)) [i; j]) (c i j)) (fst p) (snd p)) (cells2 0 0 1 1) = true ->
  forallb (fun p => (fun i j => is_num m1 (faddr (mkFa (0%nat, 0) (FACE2d0 0 0 1 1 0)) [i; j]) (v0 i j)) (fst p) (snd p)) (cells2 0 0 2 1) = true ->
  forallb (fun p => (fun i j => is_num m1 (faddr (mkFa (1%nat, 0) (FACE2d1 0 0 1 1 0)) [j; i]) (v1 i j)) (fst p) (snd p)) (cells2 0 0 1 2) = true ->
  forallb (fun p => (fun i j => is_num m (faddr (mkFa (4%nat, 0) (CELL2d 0 0 1 1 1)) [i; j]) (w i j)) (fst p) (snd p)) (cells2 0 0 1 1) = true ->
  filled_v1_2d (S := QcS) 0 0 1 1 ex_h (ex_q 2) (0%nat, 0) (1%nat, 0) 1 (4%nat, 0) (5%nat, 0) (6%nat, 0) (ex_q 3) 0 (3%nat, 0) 0 (8%nat, 0) ex_bd m r w c v0 v1.
Proof.
  intros E H H0 H1 H2 H3 H4 H5. split; [lia|]. split; [k_apart|]. split; [intros i j Ii Ij; apply num; exact (all2 _ _ _ _ _ H5 i j Ii Ij)|]. exists m1, w1. split; [exact E|].
  split; [lia|]. split; [lia|]. split; [k_apart|]. split; [k_apart|]. split; [k_apart|].
  exists mo. split; [exact H|].
  split; [intros i j Ii Ij; apply num; exact (all2 _ _ _ _ _ H0 i j Ii Ij)|].
  split; [intros i j Ii Ij; apply num; exact (all2 _ _ _ _ _ H1 i j Ii Ij)|].
  split; [intros i j Ii Ij; apply num; exact (all2 _ _ _ _ _ H2 i j Ii Ij)|].
  split; [intros i j Ii Ij; apply num; exact (all2 _ _ _ _ _ H3 i j Ii Ij)|].
  intros i j Ii Ij; apply num; exact (all2 _ _ _ _ _ H4 i j Ii Ij).
Qed.
Lemma dex_any_v1_2d : filled_v1_2d (S := QcS) 0 0 1 1 ex_h (ex_q 2) (0%nat, 0) (1%nat, 0) 1 (4%nat, 0) (5%nat, 0) (6%nat, 0) (ex_q 3) 0 (3%nat, 0) 0 (8%nat, 0) ex_bd (ex_so 16 ex_any) (dr_v1_2d ex_any) (dw_v1_2d ex_any) c_v1_2d v0_v1_2d v1_v1_2d.
Proof.
  refine (dgen_v1_2d (ex_so 16 ex_any) (out (dm_v1_2d ex_any)) (out (dout_v1_2d ex_any)) (dr_v1_2d ex_any) (dw_v1_2d ex_any) (dw_v1_2d ex_any) c_v1_2d v0_v1_2d v1_v1_2d
    (ran (dm_v1_2d ex_any) _) (ran (dout_v1_2d ex_any) _) _ _ _ _ _ _); vm_compute; reflexivity.
Qed.
Lemma dex_rise_v1_2d : filled_v1_2d (S := QcS) 0 0 1 1 ex_h (ex_q 2) (0%nat, 0) (1%nat, 0) 1 (4%nat, 0) (5%nat, 0) (6%nat, 0) (ex_q 3) 0 (3%nat, 0) 0 (8%nat, 0) ex_bd (ex_so 16 ex_rise) (dr_v1_2d ex_rise) (dw_v1_2d ex_rise) c_v1_2d v0_v1_2d v1_v1_2d.
Proof.
  refine (dgen_v1_2d (ex_so 16 ex_rise) (out (dm_v1_2d ex_rise)) (out (dout_v1_2d ex_rise)) (dr_v1_2d ex_rise) (dw_v1_2d ex_rise) (dw_v1_2d ex_rise) c_v1_2d v0_v1_2d v1_v1_2d
    (ran (dm_v1_2d ex_rise) _) (ran (dout_v1_2d ex_rise) _) _ _ _ _ _ _); vm_compute; reflexivity.
Qed.
Lemma dnear_v1_2d : forall i j, patch2 0 0 1 1 i j -> (- (ex_q 1000000000 * (ex_q 3 * c_v1_2d i j))%Qc <= dr_v1_2d ex_any i j - dr_v1_2d ex_rise i j <= (ex_q 1000000000 * (ex_q 3 * c_v1_2d i j))%Qc)%Qc.
Proof. intros i j H. apply within. apply (all2 (fun i j => is_within (ex_q 1000000000 * (ex_q 3 * c_v1_2d i j))%Qc (dr_v1_2d ex_any i j - dr_v1_2d ex_rise i j)) 0 0 1 1); [vm_compute; reflexivity|..]; k_in H. Qed.
Lemma droomy_v1_2d : roomy 2 (ends2 0 0) (ends2 1 1) ex_bd.
Proof. k_roomy. Qed.
Lemma dv0_v1_2d : forall i j, 0 <= i <= 1 + 1 -> 0 <= j <= 1 -> (0 < v0_v1_2d i j)%Qc.
Proof. intros i j Ii Ij. apply lt. apply (all2 (fun i j => is_lt 0 (v0_v1_2d i j)) 0 0 2 1); [vm_compute; reflexivity|..]; lia. Qed.
Lemma dv1_v1_2d : forall i j, 0 <= i <= 1 -> 0 <= j <= 1 + 1 -> (0 < v1_v1_2d i j)%Qc.
Proof. intros i j Ii Ij. apply lt. apply (all2 (fun i j => is_lt 0 (v1_v1_2d i j)) 0 0 1 2); [vm_compute; reflexivity|..]; lia. Qed.

Definition dm_v2_2d (u : Z -> Z) : option (mem QcS) := forM (face_calls 2 (ends2 0 0) (ends2 1 1) ex_bd) (call_set_bc_2d (S := QcS) (ends2 0 0) (ends2 1 1) ex_h 0 (0%nat, 0) (1%nat, 0) 1 (4%nat, 0)) (ex_so 16 u).
Definition dout_v2_2d (u : Z -> Z) : option (mem QcS) := (m' <- cdf_2d_flux (S := QcS) 0 0 1 1 ex_h (0%nat, 0) (1%nat, 0) 1 (4%nat, 0) (5%nat, 0) (6%nat, 0) (out (dm_v2_2d u)) ;; cd_apply_2d_diffusion_v2_apply (S := QcS) 0 1 0 1 (ex_q 3) (ex_q 2) ex_h 1 (4%nat, 0) (5%nat, 0) (6%nat, 0) 0 (8%nat, 0) m').
Definition dr_v2_2d (u : Z -> Z) (i j : Z) : Qc := value (out (dout_v2_2d u)) (faddr (mkFa (8%nat, 0) (CELL2d 0 0 1 1 0)) [i; j]).
Definition dw_v2_2d (u : Z -> Z) (i j : Z) : Qc := value (out (dm_v2_2d u)) (faddr (mkFa (4%nat, 0) (CELL2d 0 0 1 1 1)) [i; j]).
Lemma dgen_v2_2d (m m1 mo : mem QcS) (r w w1 v0 v1 : Z -> Z -> Qc) :
  forM (face_calls 2 (ends2 0 0) (ends2 1 1) ex_bd) (call_set_bc_2d (S := QcS) (ends2 0 0) (ends2 1 1) ex_h 0 (0%nat, 0) (1%nat, 0) 1 (4%nat, 0)) m = Some m1 ->
  (m' <- cdf_2d_flux (S := QcS) 0 0 1 1 ex_h (0%nat, 0) (1%nat, 0) 1 (4%nat, 0) (5%nat, 0) (6%nat, 0) m1 ;; cd_apply_2d_diffusion_v2_apply (S := QcS) 0 1 0 1 (ex_q 3) (ex_q 2) ex_h 1 (4%nat, 0) (5%nat, 0) (6%nat, 0) 0 (8%nat, 0) m') = Some mo ->
  forallb (fun p => (fun i j => is_num mo (faddr (mkFa (8%nat, 0) (CELL2d 0 0 1 1 0)) [i; j]) (r i j)) (fst p) (snd p)) (cells2 0 0 1 1) = true ->
  forallb (fun p => (fun i j => is_num m1 (faddr (mkFa (4%nat, 0) (CELL2d 0 0 1 1 1)) [i; j]) (w1 i j)) (fst p) (snd p)) (cells2 (-1) (-1) 2 2) = true ->
  forallb (fun p => (fun i j => is_num m1 (faddr (mkFa (0%nat, 0) (FACE2d0 0 0 1 1 0)) [i; j]) (v0 i j)) (fst p) (snd p)) (cells2 0 0 2 1) = true ->
  forallb (fun p => (fun i j => is_num m1 (faddr (mkFa (1%nat, 0) (FACE2d1 0 0 1 1 0)) [j; i]) (v1 i j)) (fst p) (snd p)) (cells2 0 0 1 2) = true ->
  forallb (fun p => (fun i j => is_num m (faddr (mkFa (4%nat, 0) (CELL2d 0 0 1 1 1)) [i; j]) (w i j)) (fst p) (snd p)) (cells2 0 0 1 1) = true ->
  filled_v2_2d (S := QcS) 0 0 1 1 ex_h (ex_q 2) (0%nat, 0) (1%nat, 0) 1 (4%nat, 0) (5%nat, 0) (6%nat, 0) (ex_q 3) 0 (8%nat, 0) ex_bd m r w v0 v1.
Proof.
  intros E H H0 H1 H2 H3 H4. split; [lia|]. split; [k_apart|]. split; [intros i j Ii Ij; apply num; exact (all2 _ _ _ _ _ H4 i j Ii Ij)|]. exists m1, w1. split; [exact E|].
  split; [lia|]. split; [lia|]. split; [k_apart|]. split; [k_apart|]. split; [k_apart|].
  exists mo. split; [exact H|].
  split; [intros i j Ii Ij; apply num; exact (all2 _ _ _ _ _ H0 i j Ii Ij)|].
  split; [intros i j Ii Ij; apply num; exact (all2 _ _ _ _ _ H1 i j Ii Ij)|].
  split; [intros i j Ii Ij; apply num; exact (all2 _ _ _ _ _ H2 i j Ii Ij)|].
  intros i j Ii Ij; apply num; exact (all2 _ _ _ _ _ H3 i j Ii Ij).
Qed.
Lemma dex_any_v2_2d : filled_v2_2d (S := QcS) 0 0 1 1 ex_h (ex_q 2) (0%nat, 0) (1%nat, 0) 1 (4%nat, 0) (5%nat, 0) (6%nat, 0) (ex_q 3) 0 (8%nat, 0) ex_bd (ex_so 16 ex_any) (dr_v2_2d ex_any) (dw_v2_2d ex_any) v0_v2_2d v1_v2_2d.
Proof.
  refine (dgen_v2_2d (ex_so 16 ex_any) (out (dm_v2_2d ex_any)) (out (dout_v2_2d ex_any)) (dr_v2_2d ex_any) (dw_v2_2d ex_any) (dw_v2_2d ex_any) v0_v2_2d v1_v2_2d
    (ran (dm_v2_2d ex_any) _) (ran (dout_v2_2d ex_any) _) _ _ _ _ _); vm_compute; reflexivity.
Qed.
Lemma dex_rise_v2_2d : filled_v2_2d (S := QcS) 0 0 1 1 ex_h (ex_q 2) (0%nat, 0) (1%nat, 0) 1 (4%nat, 0) (5%nat, 0) (6%nat, 0) (ex_q 3) 0 (8%nat, 0) ex_bd (ex_so 16 ex_rise) (dr_v2_2d ex_rise) (dw_v2_2d ex_rise) v0_v2_2d v1_v2_2d.
Proof.
  refine (dgen_v2_2d (ex_so 16 ex_rise) (out (dm_v2_2d ex_rise)) (out (dout_v2_2d ex_rise)) (dr_v2_2d ex_rise) (dw_v2_2d ex_rise) (dw_v2_2d ex_rise) v0_v2_2d v1_v2_2d
    (ran (dm_v2_2d ex_rise) _) (ran (dout_v2_2d ex_rise) _) _ _ _ _ _); vm_compute; reflexivity.
Qed.
Lemma dnear_v2_2d : forall i j, patch2 0 0 1 1 i j -> (- (ex_q 1000000000 * ex_q 3)%Qc <= dr_v2_2d ex_any i j - dr_v2_2d ex_rise i j <= (ex_q 1000000000 * ex_q 3)%Qc)%Qc.
Proof. intros i j H. apply within. apply (all2 (fun i j => is_within (ex_q 1000000000 * ex_q 3)%Qc (dr_v2_2d ex_any i j - dr_v2_2d ex_rise i j)) 0 0 1 1); [vm_compute; reflexivity|..]; k_in H. Qed.
Lemma droomy_v2_2d : roomy 2 (ends2 0 0) (ends2 1 1) ex_bd.
Proof. k_roomy. Qed.
Lemma dv0_v2_2d : forall i j, 0 <= i <= 1 + 1 -> 0 <= j <= 1 -> (0 < v0_v2_2d i j)%Qc.
Proof. intros i j Ii Ij. apply lt. apply (all2 (fun i j => is_lt 0 (v0_v2_2d i j)) 0 0 2 1); [vm_compute; reflexivity|..]; lia. Qed.
Lemma dv1_v2_2d : forall i j, 0 <= i <= 1 -> 0 <= j <= 1 + 1 -> (0 < v1_v2_2d i j)%Qc.
Proof. intros i j Ii Ij. apply lt. apply (all2 (fun i j => is_lt 0 (v1_v2_2d i j)) 0 0 1 2); [vm_compute; reflexivity|..]; lia. Qed.

Definition dm_poisson_2d (u : Z -> Z) : option (mem QcS) := forM (face_calls 2 (ends2 0 0) (ends2 1 1) ex_bd) (call_set_poisson_bc_2d (S := QcS) (ends2 0 0) (ends2 1 1) ex_h 1 (4%nat, 0)) (ex_so 16 u).
Definition dout_poisson_2d (u : Z -> Z) : option (mem QcS) := (m' <- cdf_2d_poisson_flux (S := QcS) 0 0 1 1 ex_h 1 (4%nat, 0) (5%nat, 0) (6%nat, 0) (out (dm_poisson_2d u)) ;; cd_apply_2d_poisson_v2_apply (S := QcS) 0 1 0 1 (ex_q 2) ex_h (5%nat, 0) (6%nat, 0) 0 (8%nat, 0) m').
Definition dr_poisson_2d (u : Z -> Z) (i j : Z) : Qc := value (out (dout_poisson_2d u)) (faddr (mkFa (8%nat, 0) (CELL2d 0 0 1 1 0)) [i; j]).
Definition dw_poisson_2d (u : Z -> Z) (i j : Z) : Qc := value (out (dm_poisson_2d u)) (faddr (mkFa (4%nat, 0) (CELL2d 0 0 1 1 1)) [i; j]).
Lemma dgen_poisson_2d (m m1 mo : mem QcS) (r w w1 : Z -> Z -> Qc) :
  forM (face_calls 2 (ends2 0 0) (ends2 1 1) ex_bd) (call_set_poisson_bc_2d (S := QcS) (ends2 0 0) (ends2 1 1) ex_h 1 (4%nat, 0)) m = Some m1 ->
  (m' <- cdf_2d_poisson_flux (S := QcS) 0 0 1 1 ex_h 1 (4%nat, 0) (5%nat, 0) (6%nat, 0) m1 ;; cd_apply_2d_poisson_v2_apply (S := QcS) 0 1 0 1 (ex_q 2) ex_h (5%nat, 0) (6%nat, 0) 0 (8%nat, 0) m') = Some mo ->
  forallb (fun p => (fun i j => is_num mo (faddr (mkFa (8%nat, 0) (CELL2d 0 0 1 1 0)) [i; j]) (r i j)) (fst p) (snd p)) (cells2 0 0 1 1) = true ->
  forallb (fun p => (fun i j => is_num m1 (faddr (mkFa (4%nat, 0) (CELL2d 0 0 1 1 1)) [i; j]) (w1 i j)) (fst p) (snd p)) (cells2 (-1) (-1) 2 2) = true ->
  forallb (fun p => (fun i j => is_num m (faddr (mkFa (4%nat, 0) (CELL2d 0 0 1 1 1)) [i; j]) (w i j)) (fst p) (snd p)) (cells2 0 0 1 1) = true ->
  filled_poisson_2d (S := QcS) 0 0 1 1 ex_h (ex_q 2) 1 (4%nat, 0) (5%nat, 0) (6%nat, 0) 0 (8%nat, 0) ex_bd m r w .
Proof.
  intros E H H0 H1 H2. split; [lia|]. split; [intros i j Ii Ij; apply num; exact (all2 _ _ _ _ _ H2 i j Ii Ij)|]. exists m1, w1. split; [exact E|].
  split; [lia|]. split; [lia|]. split; [k_apart|]. split; [k_apart|]. split; [k_apart|].
  exists mo. split; [exact H|].
  split; [intros i j Ii Ij; apply num; exact (all2 _ _ _ _ _ H0 i j Ii Ij)|].
  intros i j Ii Ij; apply num; exact (all2 _ _ _ _ _ H1 i j Ii Ij).
Qed.
Lemma dex_any_poisson_2d : filled_poisson_2d (S := QcS) 0 0 1 1 ex_h (ex_q 2) 1 (4%nat, 0) (5%nat, 0) (6%nat, 0) 0 (8%nat, 0) ex_bd (ex_so 16 ex_any) (dr_poisson_2d ex_any) (dw_poisson_2d ex_any) .
Proof.
  refine (dgen_poisson_2d (ex_so 16 ex_any) (out (dm_poisson_2d ex_any)) (out (dout_poisson_2d ex_any)) (dr_poisson_2d ex_any) (dw_poisson_2d ex_any) (dw_poisson_2d ex_any) 
    (ran (dm_poisson_2d ex_any) _) (ran (dout_poisson_2d ex_any) _) _ _ _); vm_compute; reflexivity.
Qed.
Lemma dex_rise_poisson_2d : filled_poisson_2d (S := QcS) 0 0 1 1 ex_h (ex_q 2) 1 (4%nat, 0) (5%nat, 0) (6%nat, 0) 0 (8%nat, 0) ex_bd (ex_so 16 ex_rise) (dr_poisson_2d ex_rise) (dw_poisson_2d ex_rise) .
Proof.
  refine (dgen_poisson_2d (ex_so 16 ex_rise) (out (dm_poisson_2d ex_rise)) (out (dout_poisson_2d ex_rise)) (dr_poisson_2d ex_rise) (dw_poisson_2d ex_rise) (dw_poisson_2d ex_rise) 
    (ran (dm_poisson_2d ex_rise) _) (ran (dout_poisson_2d ex_rise) _) _ _ _); vm_compute; reflexivity.
Qed.
Lemma dnear_poisson_2d : forall i j, patch2 0 0 1 1 i j -> (- (ex_q 1000000000) <= dr_poisson_2d ex_any i j - dr_poisson_2d ex_rise i j <= (ex_q 1000000000))%Qc.
Proof. intros i j H. apply within. apply (all2 (fun i j => is_within (ex_q 1000000000) (dr_poisson_2d ex_any i j - dr_poisson_2d ex_rise i j)) 0 0 1 1); [vm_compute; reflexivity|..]; k_in H. Qed.
Lemma droomy_poisson_2d : roomy 2 (ends2 0 0) (ends2 1 1) ex_bd.
Proof. k_roomy. Qed.

Definition dm_v1_3d (u : Z -> Z) : option (mem QcS) := forM (face_calls 3 (ends3 0 0 0) (ends3 1 1 0) ex_bd) (call_set_bc_3d (S := QcS) (ends3 0 0 0) (ends3 1 1 0) ex_h 0 (0%nat, 0) (1%nat, 0) (2%nat, 0) 1 (4%nat, 0)) (ex_so 48 u).
Definition dout_v1_3d (u : Z -> Z) : option (mem QcS) := (m' <- cdf_3d_flux (S := QcS) 0 0 0 1 1 0 ex_h (0%nat, 0) (1%nat, 0) (2%nat, 0) 1 (4%nat, 0) (5%nat, 0) (6%nat, 0) (7%nat, 0) (out (dm_v1_3d u)) ;; cd_apply_3d_diffusion_v1_apply (S := QcS) 0 1 0 1 0 0 (ex_q 3) (ex_q 2) ex_h 0 (3%nat, 0) 1 (4%nat, 0) (5%nat, 0) (6%nat, 0) (7%nat, 0) 0 (8%nat, 0) m').
Definition dr_v1_3d (u : Z -> Z) (i j k : Z) : Qc := value (out (dout_v1_3d u)) (faddr (mkFa (8%nat, 0) (CELL3d 0 0 0 1 1 0 0)) [i; j; k]).
Definition dw_v1_3d (u : Z -> Z) (i j k : Z) : Qc := value (out (dm_v1_3d u)) (faddr (mkFa (4%nat, 0) (CELL3d 0 0 0 1 1 0 1)) [i; j; k]).
Lemma dgen_v1_3d (m m1 mo : mem QcS) (r w w1 c v0 v1 v2 : Z -> Z -> Z -> Qc) :
  forM (face_calls 3 (ends3 0 0 0) (ends3 1 1 0) ex_bd) (call_set_bc_3d (S := QcS) (ends3 0 0 0) (ends3 1 1 0) ex_h 0 (0%nat, 0) (1%nat, 0) (2%nat, 0) 1 (4%nat, 0)) m = Some m1 ->
  (m' <- cdf_3d_flux (S := QcS) 0 0 0 1 1 0 ex_h (0%nat, 0) (1%nat, 0) (2%nat, 0) 1 (4%nat, 0) (5%nat, 0) (6%nat, 0) (7%nat, 0) m1 ;; cd_apply_3d_diffusion_v1_apply (S := QcS) 0 1 0 1 0 0 (ex_q 3) (ex_q 2) ex_h 0 (3%nat, 0) 1 (4%nat, 0) (5%nat, 0) (6%nat, 0) (7%nat, 0) 0 (8%nat, 0) m') = Some mo ->
  forallb (fun p => (fun i j k => is_num mo (faddr (mkFa (8%nat, 0) (CELL3d 0 0 0 1 1 0 0)) [i; j; k]) (r i j k)) (fst (fst p)) (snd (fst p)) (snd p)) (cells3 0 0 0 1 1 0) = true ->
  forallb (fun p => (fun i j k => is_num m1 (faddr (mkFa (4%nat, 0) (CELL3d 0 0 0 1 1 0 1)) [i; j; k]) (w1 i j k)) (fst (fst p)) (snd (fst p)) (snd p)) (cells3 (-1) (-1) (-1) 2 2 1) = true ->
  forallb (fun p => (fun i j k => is_num m1 (faddr (mkFa (3%nat, 0) (CELL3d 0 0 0 1 1 0 0)) [i; j; k]) (c i j k)) (fst (fst p)) (snd (fst p)) (snd p)) (cells3 0 0 0 1 1 0) = true ->
  forallb (fun p => (fun i j k => is_num m1 (faddr (mkFa (0%nat, 0) (FACE3d0 0 0 0 1 1 0 0)) [i; j; k]) (v0 i j k)) (fst (fst p)) (snd (fst p)) (snd p)) (cells3 0 0 0 2 1 0) = true ->
  forallb (fun p => (fun i j k => is_num m1 (faddr (mkFa (1%nat, 0) (FACE3d1 0 0 0 1 1 0 0)) [j; k; i]) (v1 i j k)) (fst (fst p)) (snd (fst p)) (snd p)) (cells3 0 0 0 1 2 0) = true ->
  forallb (fun p => (fun i j k => is_num m1 (faddr (mkFa (2%nat, 0) (FACE3d2 0 0 0 1 1 0 0)) [k; i; j]) (v2 i j k)) (fst (fst p)) (snd (fst p)) (snd p)) (cells3 0 0 0 1 1 1) = true ->
  forallb (fun p => (fun i j k => is_num m (faddr (mkFa (4%nat, 0) (CELL3d 0 0 0 1 1 0 1)) [i; j; k]) (w i j k)) (fst (fst p)) (snd (fst p)) (snd p)) (cells3 0 0 0 1 1 0) = true ->
  filled_v1_3d (S := QcS) 0 0 0 1 1 0 ex_h (ex_q 2) (0%nat, 0) (1%nat, 0) (2%nat, 0) 1 (4%nat, 0) (5%nat, 0) (6%nat, 0) (7%nat, 0) (ex_q 3) 0 (3%nat, 0) 0 (8%nat, 0) ex_bd m r w c v0 v1 v2.
Proof.
  intros E H H0 H1 H2 H3 H4 H5 H6. split; [lia|]. split; [k_apart|]. split; [intros i j k Ii Ij Ik; apply num; exact (all3 _ _ _ _ _ _ _ H6 i j k Ii Ij Ik)|]. exists m1, w1. split; [exact E|].
  split; [lia|]. split; [lia|]. split; [k_apart|]. split; [k_apart|]. split; [k_apart|]. split; [k_apart|].
  exists mo. split; [exact H|].
  split; [intros i j k Ii Ij Ik; apply num; exact (all3 _ _ _ _ _ _ _ H0 i j k Ii Ij Ik)|].
  split; [intros i j k Ii Ij Ik; apply num; exact (all3 _ _ _ _ _ _ _ H1 i j k Ii Ij Ik)|].
  split; [intros i j k Ii Ij Ik; apply num; exact (all3 _ _ _ _ _ _ _ H2 i j k Ii Ij Ik)|].
  split; [intros i j k Ii Ij Ik; apply num; exact (all3 _ _ _ _ _ _ _ H3 i j k Ii Ij Ik)|].
  split; [intros i j k Ii Ij Ik; apply num; exact (all3 _ _ _ _ _ _ _ H4 i j k Ii Ij Ik)|].
  intros i j k Ii Ij Ik; apply num; exact (all3 _ _ _ _ _ _ _ H5 i j k Ii Ij Ik).
Qed.
Lemma dex_any_v1_3d : filled_v1_3d (S := QcS) 0 0 0 1 1 0 ex_h (ex_q 2) (0%nat, 0) (1%nat, 0) (2%nat, 0) 1 (4%nat, 0) (5%nat, 0) (6%nat, 0) (7%nat, 0) (ex_q 3) 0 (3%nat, 0) 0 (8%nat, 0) ex_bd (ex_so 48 ex_any) (dr_v1_3d ex_any) (dw_v1_3d ex_any) c_v1_3d v0_v1_3d v1_v1_3d v2_v1_3d.
Proof.
  refine (dgen_v1_3d (ex_so 48 ex_any) (out (dm_v1_3d ex_any)) (out (dout_v1_3d ex_any)) (dr_v1_3d ex_any) (dw_v1_3d ex_any) (dw_v1_3d ex_any) c_v1_3d v0_v1_3d v1_v1_3d v2_v1_3d
    (ran (dm_v1_3d ex_any) _) (ran (dout_v1_3d ex_any) _) _ _ _ _ _ _ _); vm_compute; reflexivity.
Qed.
Lemma dex_rise_v1_3d : filled_v1_3d (S := QcS) 0 0 0 1 1 0 ex_h (ex_q 2) (0%nat, 0) (1%nat, 0) (2%nat, 0) 1 (4%nat, 0) (5%nat, 0) (6%nat, 0) (7%nat, 0) (ex_q 3) 0 (3%nat, 0) 0 (8%nat, 0) ex_bd (ex_so 48 ex_rise) (dr_v1_3d ex_rise) (dw_v1_3d ex_rise) c_v1_3d v0_v1_3d v1_v1_3d v2_v1_3d.
Proof.
  refine (dgen_v1_3d (ex_so 48 ex_rise) (out (dm_v1_3d ex_rise)) (out (dout_v1_3d ex_rise)) (dr_v1_3d ex_rise) (dw_v1_3d ex_rise) (dw_v1_3d ex_rise) c_v1_3d v0_v1_3d v1_v1_3d v2_v1_3d
    (ran (dm_v1_3d ex_rise) _) (ran (dout_v1_3d ex_rise) _) _ _ _ _ _ _ _); vm_compute; reflexivity.
Qed.
Lemma dnear_v1_3d : forall i j k, patch3 0 0 0 1 1 0 i j k -> (- (ex_q 1000000000 * (ex_q 3 * c_v1_3d i j k))%Qc <= dr_v1_3d ex_any i j k - dr_v1_3d ex_rise i j k <= (ex_q 1000000000 * (ex_q 3 * c_v1_3d i j k))%Qc)%Qc.
Proof. intros i j k H. apply within. apply (all3 (fun i j k => is_within (ex_q 1000000000 * (ex_q 3 * c_v1_3d i j k))%Qc (dr_v1_3d ex_any i j k - dr_v1_3d ex_rise i j k)) 0 0 0 1 1 0); [vm_compute; reflexivity|..]; k_in H. Qed.
Lemma droomy_v1_3d : roomy 3 (ends3 0 0 0) (ends3 1 1 0) ex_bd.
Proof. k_roomy. Qed.
Lemma dv0_v1_3d : forall i j k, 0 <= i <= 1 + 1 -> 0 <= j <= 1 -> 0 <= k <= 0 -> (0 < v0_v1_3d i j k)%Qc.
Proof. intros i j k Ii Ij Ik. apply lt. apply (all3 (fun i j k => is_lt 0 (v0_v1_3d i j k)) 0 0 0 2 1 0); [vm_compute; reflexivity|..]; lia. Qed.
Lemma dv1_v1_3d : forall i j k, 0 <= i <= 1 -> 0 <= j <= 1 + 1 -> 0 <= k <= 0 -> (0 < v1_v1_3d i j k)%Qc.
Proof. intros i j k Ii Ij Ik. apply lt. apply (all3 (fun i j k => is_lt 0 (v1_v1_3d i j k)) 0 0 0 1 2 0); [vm_compute; reflexivity|..]; lia. Qed.
Lemma dv2_v1_3d : forall i j k, 0 <= i <= 1 -> 0 <= j <= 1 -> 0 <= k <= 0 + 1 -> (0 < v2_v1_3d i j k)%Qc.
Proof. intros i j k Ii Ij Ik. apply lt. apply (all3 (fun i j k => is_lt 0 (v2_v1_3d i j k)) 0 0 0 1 1 1); [vm_compute; reflexivity|..]; lia. Qed.

Definition dm_v2_3d (u : Z -> Z) : option (mem QcS) := forM (face_calls 3 (ends3 0 0 0) (ends3 1 1 0) ex_bd) (call_set_bc_3d (S := QcS) (ends3 0 0 0) (ends3 1 1 0) ex_h 0 (0%nat, 0) (1%nat, 0) (2%nat, 0) 1 (4%nat, 0)) (ex_so 48 u).
Definition dout_v2_3d (u : Z -> Z) : option (mem QcS) := (m' <- cdf_3d_flux (S := QcS) 0 0 0 1 1 0 ex_h (0%nat, 0) (1%nat, 0) (2%nat, 0) 1 (4%nat, 0) (5%nat, 0) (6%nat, 0) (7%nat, 0) (out (dm_v2_3d u)) ;; cd_apply_3d_diffusion_v2_apply (S := QcS) 0 1 0 1 0 0 (ex_q 3) (ex_q 2) ex_h 1 (4%nat, 0) (5%nat, 0) (6%nat, 0) (7%nat, 0) 0 (8%nat, 0) m').
Definition dr_v2_3d (u : Z -> Z) (i j k : Z) : Qc := value (out (dout_v2_3d u)) (faddr (mkFa (8%nat, 0) (CELL3d 0 0 0 1 1 0 0)) [i; j; k]).
Definition dw_v2_3d (u : Z -> Z) (i j k : Z) : Qc := value (out (dm_v2_3d u)) (faddr (mkFa (4%nat, 0) (CELL3d 0 0 0 1 1 0 1)) [i; j; k]).
Lemma dgen_v2_3d (m m1 mo : mem QcS) (r w w1 v0 v1 v2 : Z -> Z -> Z -> Qc) :
  forM (face_calls 3 (ends3 0 0 0) (ends3 1 1 0) ex_bd) (call_set_bc_3d (S := QcS) (ends3 0 0 0) (ends3 1 1 0) ex_h 0 (0%nat, 0) (1%nat, 0) (2%nat, 0) 1 (4%nat, 0)) m = Some m1 ->
  (m' <- cdf_3d_flux (S := QcS) 0 0 0 1 1 0 ex_h (0%nat, 0) (1%nat, 0) (2%nat, 0) 1 (4%nat, 0) (5%nat, 0) (6%nat, 0) (7%nat, 0) m1 ;; cd_apply_3d_diffusion_v2_apply (S := QcS) 0 1 0 1 0 0 (ex_q 3) (ex_q 2) ex_h 1 (4%nat, 0) (5%nat, 0) (6%nat, 0) (7%nat, 0) 0 (8%nat, 0) m') = Some mo ->
  forallb (fun p => (fun i j k => is_num mo (faddr (mkFa (8%nat, 0) (CELL3d 0 0 0 1 1 0 0)) [i; j; k]) (r i j k)) (fst (fst p)) (snd (fst p)) (snd p)) (cells3 0 0 0 1 1 0) = true ->
  forallb (fun p => (fun i j k => is_num m1 (faddr (mkFa (4%nat, 0) (CELL3d 0 0 0 1 1 0 1)) [i; j; k]) (w1 i j k)) (fst (fst p)) (snd (fst p)) (snd p)) (cells3 (-1) (-1) (-1) 2 2 1) = true ->
  forallb (fun p => (fun i j k => is_num m1 (faddr (mkFa (0%nat, 0) (FACE3d0 0 0 0 1 1 0 0)) [i; j; k]) (v0 i j k)) (fst (fst p)) (snd (fst p)) (snd p)) (cells3 0 0 0 2 1 0) = true ->
  forallb (fun p => (fun i j k => is_num m1 (faddr (mkFa (1%nat, 0) (FACE3d1 0 0 0 1 1 0 0)) [j; k; i]) (v1 i j k)) (fst (fst p)) (snd (fst p)) (snd p)) (cells3 0 0 0 1 2 0) = true ->
  forallb (fun p => (fun i j k => is_num m1 (faddr (mkFa (2%nat, 0) (FACE3d2 0 0 0 1 1 0 0)) [k; i; j]) (v2 i j k)) (fst (fst p)) (snd (fst p)) (snd p)) (cells3 0 0 0 1 1 1) = true ->
  forallb (fun p => (fun i j k => is_num m (faddr (mkFa (4%nat, 0) (CELL3d 0 0 0 1 1 0 1)) [i; j; k]) (w i j k)) (fst (fst p)) (snd (fst p)) (snd p)) (cells3 0 0 0 1 1 0) = true ->
  filled_v2_3d (S := QcS) 0 0 0 1 1 0 ex_h (ex_q 2) (0%nat, 0) (1%nat, 0) (2%nat, 0) 1 (4%nat, 0) (5%nat, 0) (6%nat, 0) (7%nat, 0) (ex_q 3) 0 (8%nat, 0) ex_bd m r w v0 v1 v2.
Proof.
  intros E H H0 H1 H2 H3 H4 H5. split; [lia|]. split; [k_apart|]. split; [intros i j k Ii Ij Ik; apply num; exact (all3 _ _ _ _ _ _ _ H5 i j k Ii Ij Ik)|]. exists m1, w1. split; [exact E|].
  split; [lia|]. split; [lia|]. split; [k_apart|]. split; [k_apart|]. split; [k_apart|]. split; [k_apart|].
  exists mo. split; [exact H|].
  split; [intros i j k Ii Ij Ik; apply num; exact (all3 _ _ _ _ _ _ _ H0 i j k Ii Ij Ik)|].
  split; [intros i j k Ii Ij Ik; apply num; exact (all3 _ _ _ _ _ _ _ H1 i j k Ii Ij Ik)|].
  split; [intros i j k Ii Ij Ik; apply num; exact (all3 _ _ _ _ _ _ _ H2 i j k Ii Ij Ik)|].
  split; [intros i j k Ii Ij Ik; apply num; exact (all3 _ _ _ _ _ _ _ H3 i j k Ii Ij Ik)|].
  intros i j k Ii Ij Ik; apply num; exact (all3 _ _ _ _ _ _ _ H4 i j k Ii Ij Ik).
Qed.
Lemma dex_any_v2_3d : filled_v2_3d (S := QcS) 0 0 0 1 1 0 ex_h (ex_q 2) (0%nat, 0) (1%nat, 0) (2%nat, 0) 1 (4%nat, 0) (5%nat, 0) (6%nat, 0) (7%nat, 0) (ex_q 3) 0 (8%nat, 0) ex_bd (ex_so 48 ex_any) (dr_v2_3d ex_any) (dw_v2_3d ex_any) v0_v2_3d v1_v2_3d v2_v2_3d.
Proof.
  refine (dgen_v2_3d (ex_so 48 ex_any) (out (dm_v2_3d ex_any)) (out (dout_v2_3d ex_any)) (dr_v2_3d ex_any) (dw_v2_3d ex_any) (dw_v2_3d ex_any) v0_v2_3d v1_v2_3d v2_v2_3d
    (ran (dm_v2_3d ex_any) _) (ran (dout_v2_3d ex_any) _) _ _ _ _ _ _); vm_compute; reflexivity.
Qed.
Lemma dex_rise_v2_3d : filled_v2_3d (S := QcS) 0 0 0 1 1 0 ex_h (ex_q 2) (0%nat, 0) (1%nat, 0) (2%nat, 0) 1 (4%nat, 0) (5%nat, 0) (6%nat, 0) (7%nat, 0) (ex_q 3) 0 (8%nat, 0) ex_bd (ex_so 48 ex_rise) (dr_v2_3d ex_rise) (dw_v2_3d ex_rise) v0_v2_3d v1_v2_3d v2_v2_3d.
Proof.
  refine (dgen_v2_3d (ex_so 48 ex_rise) (out (dm_v2_3d ex_rise)) (out (dout_v2_3d ex_rise)) (dr_v2_3d ex_rise) (dw_v2_3d ex_rise) (dw_v2_3d ex_rise) v0_v2_3d v1_v2_3d v2_v2_3d
    (ran (dm_v2_3d ex_rise) _) (ran (dout_v2_3d ex_rise) _) _ _ _ _ _ _); vm_compute; reflexivity.
Qed.
Lemma dnear_v2_3d : forall i j k, patch3 0 0 0 1 1 0 i j k -> (- (ex_q 1000000000 * ex_q 3)%Qc <= dr_v2_3d ex_any i j k - dr_v2_3d ex_rise i j k <= (ex_q 1000000000 * ex_q 3)%Qc)%Qc.
Proof. intros i j k H. apply within. apply (all3 (fun i j k => is_within (ex_q 1000000000 * ex_q 3)%Qc (dr_v2_3d ex_any i j k - dr_v2_3d ex_rise i j k)) 0 0 0 1 1 0); [vm_compute; reflexivity|..]; k_in H. Qed.
Lemma droomy_v2_3d : roomy 3 (ends3 0 0 0) (ends3 1 1 0) ex_bd.
Proof. k_roomy. Qed.
Lemma dv0_v2_3d : forall i j k, 0 <= i <= 1 + 1 -> 0 <= j <= 1 -> 0 <= k <= 0 -> (0 < v0_v2_3d i j k)%Qc.
Proof. intros i j k Ii Ij Ik. apply lt. apply (all3 (fun i j k => is_lt 0 (v0_v2_3d i j k)) 0 0 0 2 1 0); [vm_compute; reflexivity|..]; lia. Qed.
Lemma dv1_v2_3d : forall i j k, 0 <= i <= 1 -> 0 <= j <= 1 + 1 -> 0 <= k <= 0 -> (0 < v1_v2_3d i j k)%Qc.
Proof. intros i j k Ii Ij Ik. apply lt. apply (all3 (fun i j k => is_lt 0 (v1_v2_3d i j k)) 0 0 0 1 2 0); [vm_compute; reflexivity|..]; lia. Qed.
Lemma dv2_v2_3d : forall i j k, 0 <= i <= 1 -> 0 <= j <= 1 -> 0 <= k <= 0 + 1 -> (0 < v2_v2_3d i j k)%Qc.
Proof. intros i j k Ii Ij Ik. apply lt. apply (all3 (fun i j k => is_lt 0 (v2_v2_3d i j k)) 0 0 0 1 1 1); [vm_compute; reflexivity|..]; lia. Qed.

Definition dm_poisson_3d (u : Z -> Z) : option (mem QcS) := forM (face_calls 3 (ends3 0 0 0) (ends3 1 1 0) ex_bd) (call_set_poisson_bc_3d (S := QcS) (ends3 0 0 0) (ends3 1 1 0) ex_h 1 (4%nat, 0)) (ex_so 48 u).
Definition dout_poisson_3d (u : Z -> Z) : option (mem QcS) := (m' <- cdf_3d_poisson_flux (S := QcS) 0 0 0 1 1 0 ex_h 1 (4%nat, 0) (5%nat, 0) (6%nat, 0) (7%nat, 0) (out (dm_poisson_3d u)) ;; cd_apply_3d_poisson_v2_apply (S := QcS) 0 1 0 1 0 0 (ex_q 2) ex_h (5%nat, 0) (6%nat, 0) (7%nat, 0) 0 (8%nat, 0) m').
Definition dr_poisson_3d (u : Z -> Z) (i j k : Z) : Qc := value (out (dout_poisson_3d u)) (faddr (mkFa (8%nat, 0) (CELL3d 0 0 0 1 1 0 0)) [i; j; k]).
Definition dw_poisson_3d (u : Z -> Z) (i j k : Z) : Qc := value (out (dm_poisson_3d u)) (faddr (mkFa (4%nat, 0) (CELL3d 0 0 0 1 1 0 1)) [i; j; k]).
Lemma dgen_poisson_3d (m m1 mo : mem QcS) (r w w1 : Z -> Z -> Z -> Qc) :
  forM (face_calls 3 (ends3 0 0 0) (ends3 1 1 0) ex_bd) (call_set_poisson_bc_3d (S := QcS) (ends3 0 0 0) (ends3 1 1 0) ex_h 1 (4%nat, 0)) m = Some m1 ->
  (m' <- cdf_3d_poisson_flux (S := QcS) 0 0 0 1 1 0 ex_h 1 (4%nat, 0) (5%nat, 0) (6%nat, 0) (7%nat, 0) m1 ;; cd_apply_3d_poisson_v2_apply (S := QcS) 0 1 0 1 0 0 (ex_q 2) ex_h (5%nat, 0) (6%nat, 0) (7%nat, 0) 0 (8%nat, 0) m') = Some mo ->
  forallb (fun p => (fun i j k => is_num mo (faddr (mkFa (8%nat, 0) (CELL3d 0 0 0 1 1 0 0)) [i; j; k]) (r i j k)) (fst (fst p)) (snd (fst p)) (snd p)) (cells3 0 0 0 1 1 0) = true ->
  forallb (fun p => (fun i j k => is_num m1 (faddr (mkFa (4%nat, 0) (CELL3d 0 0 0 1 1 0 1)) [i; j; k]) (w1 i j k)) (fst (fst p)) (snd (fst p)) (snd p)) (cells3 (-1) (-1) (-1) 2 2 1) = true ->
  forallb (fun p => (fun i j k => is_num m (faddr (mkFa (4%nat, 0) (CELL3d 0 0 0 1 1 0 1)) [i; j; k]) (w i j k)) (fst (fst p)) (snd (fst p)) (snd p)) (cells3 0 0 0 1 1 0) = true ->
  filled_poisson_3d (S := QcS) 0 0 0 1 1 0 ex_h (ex_q 2) 1 (4%nat, 0) (5%nat, 0) (6%nat, 0) (7%nat, 0) 0 (8%nat, 0) ex_bd m r w .
Proof.
  intros E H H0 H1 H2. split; [lia|]. split; [intros i j k Ii Ij Ik; apply num; exact (all3 _ _ _ _ _ _ _ H2 i j k Ii Ij Ik)|]. exists m1, w1. split; [exact E|].
  split; [lia|]. split; [lia|]. split; [k_apart|]. split; [k_apart|]. split; [k_apart|]. split; [k_apart|].
  exists mo. split; [exact H|].
  split; [intros i j k Ii Ij Ik; apply num; exact (all3 _ _ _ _ _ _ _ H0 i j k Ii Ij Ik)|].
  intros i j k Ii Ij Ik; apply num; exact (all3 _ _ _ _ _ _ _ H1 i j k Ii Ij Ik).
Qed.
Lemma dex_any_poisson_3d : filled_poisson_3d (S := QcS) 0 0 0 1 1 0 ex_h (ex_q 2) 1 (4%nat, 0) (5%nat, 0) (6%nat, 0) (7%nat, 0) 0 (8%nat, 0) ex_bd (ex_so 48 ex_any) (dr_poisson_3d ex_any) (dw_poisson_3d ex_any) .
Proof.
  refine (dgen_poisson_3d (ex_so 48 ex_any) (out (dm_poisson_3d ex_any)) (out (dout_poisson_3d ex_any)) (dr_poisson_3d ex_any) (dw_poisson_3d ex_any) (dw_poisson_3d ex_any) 
    (ran (dm_poisson_3d ex_any) _) (ran (dout_poisson_3d ex_any) _) _ _ _); vm_compute; reflexivity.
Qed.
Lemma dex_rise_poisson_3d : filled_poisson_3d (S := QcS) 0 0 0 1 1 0 ex_h (ex_q 2) 1 (4%nat, 0) (5%nat, 0) (6%nat, 0) (7%nat, 0) 0 (8%nat, 0) ex_bd (ex_so 48 ex_rise) (dr_poisson_3d ex_rise) (dw_poisson_3d ex_rise) .
Proof.
  refine (dgen_poisson_3d (ex_so 48 ex_rise) (out (dm_poisson_3d ex_rise)) (out (dout_poisson_3d ex_rise)) (dr_poisson_3d ex_rise) (dw_poisson_3d ex_rise) (dw_poisson_3d ex_rise) 
    (ran (dm_poisson_3d ex_rise) _) (ran (dout_poisson_3d ex_rise) _) _ _ _); vm_compute; reflexivity.
Qed.
Lemma dnear_poisson_3d : forall i j k, patch3 0 0 0 1 1 0 i j k -> (- (ex_q 1000000000) <= dr_poisson_3d ex_any i j k - dr_poisson_3d ex_rise i j k <= (ex_q 1000000000))%Qc.
Proof. intros i j k H. apply within. apply (all3 (fun i j k => is_within (ex_q 1000000000) (dr_poisson_3d ex_any i j k - dr_poisson_3d ex_rise i j k)) 0 0 0 1 1 0); [vm_compute; reflexivity|..]; k_in H. Qed.
Lemma droomy_poisson_3d : roomy 3 (ends3 0 0 0) (ends3 1 1 0) ex_bd.
Proof. k_roomy. Qed.

