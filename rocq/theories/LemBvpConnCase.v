(** * For the examples of PropertiesConn *)

From Coq Require Import QArith Qcanon.
From Verif Require Import Base LemCells FortranBase SpecKernel Instances KernelsFlux KernelsApply KernelsBC SpecBCOrder SpecBCCalls SpecRow SpecSolve LemSolve LemSolveOp LemSolveMem LemSolveCase SpecBvp LemBvpCase.
Import ListNotations.
Open Scope Z_scope.

(** Neumann conditions but for one face, with a Dirichlet condition; none if it is [-1]. *)
Definition ex_bk (last f : Z) : bcond QcS := if f =? last then mkBc (S := QcS) 0 1 (ex_q 0) (ex_q 0) else mkBc (S := QcS) 1 1 (ex_q 0) (ex_q 0).
Lemma ex_bk_sound robin last f : sound robin (ex_bk last f).
Proof. unfold ex_bk, sound. destruct (f =? last); [left; cbn; auto|right; left; reflexivity]. Qed.
Lemma ex_bk_closed f : 0 <= f -> b_kind (ex_bk (-1) f) = 1.
Proof. intros H. unfold ex_bk. destruct (Z.eqb_spec f (-1)); [lia|reflexivity]. Qed.
Definition ex_flat (t : Z) : Z := 5000.
Definition ex_high (t : Z) : Z := 7000.
Definition ex_up (t : Z) : Z := ex_any t + 7.

Definition km_v1_1d (last : Z) (u : Z -> Z) : option (mem QcS) := forM (face_calls 1 (ends1 0) (ends1 1) (ex_bk last)) (call_set_bc_1d (S := QcS) (ends1 0) (ends1 1) ex_h 0 (0%nat, 0) 1 (4%nat, 0)) (ex_so 4 u).
Definition kout_v1_1d (last : Z) (u : Z -> Z) : option (mem QcS) := (m' <- cdf_1d_flux (S := QcS) 0 1 ex_h (0%nat, 0) 1 (4%nat, 0) (5%nat, 0) (out (km_v1_1d last u)) ;; cd_apply_1d_diffusion_v1_apply (S := QcS) 0 1 (ex_q 0) (ex_q 2) ex_h 0 (3%nat, 0) 1 (4%nat, 0) (5%nat, 0) 0 (8%nat, 0) m').
Definition kr_v1_1d (last : Z) (u : Z -> Z) (i : Z) : Qc := value (out (kout_v1_1d last u)) (faddr (mkFa (8%nat, 0) (CELL1d 0 1 0)) [i]).
Definition kw_v1_1d (last : Z) (u : Z -> Z) (i : Z) : Qc := value (out (km_v1_1d last u)) (faddr (mkFa (4%nat, 0) (CELL1d 0 1 1)) [i]).
Lemma kgen_v1_1d (last : Z) (m m1 mo : mem QcS) (r w w1 c v0 : Z -> Qc) :
  forM (face_calls 1 (ends1 0) (ends1 1) (ex_bk last)) (call_set_bc_1d (S := QcS) (ends1 0) (ends1 1) ex_h 0 (0%nat, 0) 1 (4%nat, 0)) m = Some m1 ->
  (m' <- cdf_1d_flux (S := QcS) 0 1 ex_h (0%nat, 0) 1 (4%nat, 0) (5%nat, 0) m1 ;; cd_apply_1d_diffusion_v1_apply (S := QcS) 0 1 (ex_q 0) (ex_q 2) ex_h 0 (3%nat, 0) 1 (4%nat, 0) (5%nat, 0) 0 (8%nat, 0) m') = Some mo ->
  forallb (fun i => is_num mo (faddr (mkFa (8%nat, 0) (CELL1d 0 1 0)) [i]) (r i)) (cells1 0 1) = true ->
  forallb (fun i => is_num m1 (faddr (mkFa (4%nat, 0) (CELL1d 0 1 1)) [i]) (w1 i)) (cells1 (-1) 2) = true ->
  forallb (fun i => is_num m1 (faddr (mkFa (3%nat, 0) (CELL1d 0 1 0)) [i]) (c i)) (cells1 0 1) = true ->
  forallb (fun i => is_num m1 (faddr (mkFa (0%nat, 0) (FACE1d 0 1 0)) [i]) (v0 i)) (cells1 0 2) = true ->
  forallb (fun i => is_num m (faddr (mkFa (4%nat, 0) (CELL1d 0 1 1)) [i]) (w i)) (cells1 0 1) = true ->
  filled_v1_1d (S := QcS) 0 1 ex_h (ex_q 2) (0%nat, 0) 1 (4%nat, 0) (5%nat, 0) (ex_q 0) 0 (3%nat, 0) 0 (8%nat, 0) (ex_bk last) m r w c v0.
Proof.
  intros E H H0 H1 H2 H3 H4. split; [lia|]. split; [k_apart|]. split; [intros i Ii; apply num; exact (all1 _ _ _ H4 i Ii)|]. exists m1, w1. split; [exact E|].
  split; [lia|]. split; [lia|]. split; [k_apart|]. split; [k_apart|].
  exists mo. split; [exact H|].
  split; [intros i Ii; apply num; exact (all1 _ _ _ H0 i Ii)|].
  split; [intros i Ii; apply num; exact (all1 _ _ _ H1 i Ii)|].
  split; [intros i Ii; apply num; exact (all1 _ _ _ H2 i Ii)|].
  intros i Ii; apply num; exact (all1 _ _ _ H3 i Ii).
Qed.
Lemma kex_flat_v1_1d : filled_v1_1d (S := QcS) 0 1 ex_h (ex_q 2) (0%nat, 0) 1 (4%nat, 0) (5%nat, 0) (ex_q 0) 0 (3%nat, 0) 0 (8%nat, 0) (ex_bk 1) (ex_so 4 ex_flat) (kr_v1_1d 1 ex_flat) (kw_v1_1d 1 ex_flat) c_v1_1d v0_v1_1d.
Proof.
  refine (kgen_v1_1d 1 (ex_so 4 ex_flat) (out (km_v1_1d 1 ex_flat)) (out (kout_v1_1d 1 ex_flat)) (kr_v1_1d 1 ex_flat) (kw_v1_1d 1 ex_flat) (kw_v1_1d 1 ex_flat) c_v1_1d v0_v1_1d
    (ran (km_v1_1d 1 ex_flat) _) (ran (kout_v1_1d 1 ex_flat) _) _ _ _ _ _); vm_compute; reflexivity.
Qed.
Lemma kex_high_v1_1d : filled_v1_1d (S := QcS) 0 1 ex_h (ex_q 2) (0%nat, 0) 1 (4%nat, 0) (5%nat, 0) (ex_q 0) 0 (3%nat, 0) 0 (8%nat, 0) (ex_bk 1) (ex_so 4 ex_high) (kr_v1_1d 1 ex_high) (kw_v1_1d 1 ex_high) c_v1_1d v0_v1_1d.
Proof.
  refine (kgen_v1_1d 1 (ex_so 4 ex_high) (out (km_v1_1d 1 ex_high)) (out (kout_v1_1d 1 ex_high)) (kr_v1_1d 1 ex_high) (kw_v1_1d 1 ex_high) (kw_v1_1d 1 ex_high) c_v1_1d v0_v1_1d
    (ran (km_v1_1d 1 ex_high) _) (ran (kout_v1_1d 1 ex_high) _) _ _ _ _ _); vm_compute; reflexivity.
Qed.
Lemma kex_any_v1_1d : filled_v1_1d (S := QcS) 0 1 ex_h (ex_q 2) (0%nat, 0) 1 (4%nat, 0) (5%nat, 0) (ex_q 0) 0 (3%nat, 0) 0 (8%nat, 0) (ex_bk 1) (ex_so 4 ex_any) (kr_v1_1d 1 ex_any) (kw_v1_1d 1 ex_any) c_v1_1d v0_v1_1d.
Proof.
  refine (kgen_v1_1d 1 (ex_so 4 ex_any) (out (km_v1_1d 1 ex_any)) (out (kout_v1_1d 1 ex_any)) (kr_v1_1d 1 ex_any) (kw_v1_1d 1 ex_any) (kw_v1_1d 1 ex_any) c_v1_1d v0_v1_1d
    (ran (km_v1_1d 1 ex_any) _) (ran (kout_v1_1d 1 ex_any) _) _ _ _ _ _); vm_compute; reflexivity.
Qed.
Lemma nex_any_v1_1d : filled_v1_1d (S := QcS) 0 1 ex_h (ex_q 2) (0%nat, 0) 1 (4%nat, 0) (5%nat, 0) (ex_q 0) 0 (3%nat, 0) 0 (8%nat, 0) (ex_bk (-1)) (ex_so 4 ex_any) (kr_v1_1d (-1) ex_any) (kw_v1_1d (-1) ex_any) c_v1_1d v0_v1_1d.
Proof.
  refine (kgen_v1_1d (-1) (ex_so 4 ex_any) (out (km_v1_1d (-1) ex_any)) (out (kout_v1_1d (-1) ex_any)) (kr_v1_1d (-1) ex_any) (kw_v1_1d (-1) ex_any) (kw_v1_1d (-1) ex_any) c_v1_1d v0_v1_1d
    (ran (km_v1_1d (-1) ex_any) _) (ran (kout_v1_1d (-1) ex_any) _) _ _ _ _ _); vm_compute; reflexivity.
Qed.
Lemma nex_up_v1_1d : filled_v1_1d (S := QcS) 0 1 ex_h (ex_q 2) (0%nat, 0) 1 (4%nat, 0) (5%nat, 0) (ex_q 0) 0 (3%nat, 0) 0 (8%nat, 0) (ex_bk (-1)) (ex_so 4 ex_up) (kr_v1_1d (-1) ex_up) (kw_v1_1d (-1) ex_up) c_v1_1d v0_v1_1d.
Proof.
  refine (kgen_v1_1d (-1) (ex_so 4 ex_up) (out (km_v1_1d (-1) ex_up)) (out (kout_v1_1d (-1) ex_up)) (kr_v1_1d (-1) ex_up) (kw_v1_1d (-1) ex_up) (kw_v1_1d (-1) ex_up) c_v1_1d v0_v1_1d
    (ran (km_v1_1d (-1) ex_up) _) (ran (kout_v1_1d (-1) ex_up) _) _ _ _ _ _); vm_compute; reflexivity.
Qed.
Lemma kmore_v1_1d : forall i, patch1 0 1 i -> (kr_v1_1d 1 ex_flat i <= kr_v1_1d 1 ex_high i)%Qc.
Proof. intros i H. apply le. apply (all1 (fun i => is_le (kr_v1_1d 1 ex_flat i) (kr_v1_1d 1 ex_high i)) 0 1); [vm_compute; reflexivity|..]; k_in H. Qed.
Lemma ksame_v1_1d : forall i, patch1 0 1 i -> kr_v1_1d (-1) ex_any i = kr_v1_1d (-1) ex_up i.
Proof. intros i H. apply same. apply (all1 (fun i => is_eq (kr_v1_1d (-1) ex_any i) (kr_v1_1d (-1) ex_up i)) 0 1); [vm_compute; reflexivity|..]; k_in H. Qed.
Lemma kroomy_v1_1d : roomy 1 (ends1 0) (ends1 1) (ex_bk 1).
Proof. k_roomy. Qed.
Lemma kzero_v1_1d : total (S := QcS) 0 1 (kr_v1_1d (-1) ex_any) = 0%Qc.
Proof. apply same. vm_compute. reflexivity. Qed.
Lemma kv0_v1_1d : forall i, 0 <= i <= 1 + 1 -> (0 < v0_v1_1d i)%Qc.
Proof. intros i Ii. apply lt. apply (all1 (fun i => is_lt 0 (v0_v1_1d i)) 0 2); [vm_compute; reflexivity|..]; lia. Qed.

Definition km_v2_1d (last : Z) (u : Z -> Z) : option (mem QcS) := forM (face_calls 1 (ends1 0) (ends1 1) (ex_bk last)) (call_set_bc_1d (S := QcS) (ends1 0) (ends1 1) ex_h 0 (0%nat, 0) 1 (4%nat, 0)) (ex_so 4 u).
Definition kout_v2_1d (last : Z) (u : Z -> Z) : option (mem QcS) := (m' <- cdf_1d_flux (S := QcS) 0 1 ex_h (0%nat, 0) 1 (4%nat, 0) (5%nat, 0) (out (km_v2_1d last u)) ;; cd_apply_1d_diffusion_v2_apply (S := QcS) 0 1 (ex_q 0) (ex_q 2) ex_h 1 (4%nat, 0) (5%nat, 0) 0 (8%nat, 0) m').
Definition kr_v2_1d (last : Z) (u : Z -> Z) (i : Z) : Qc := value (out (kout_v2_1d last u)) (faddr (mkFa (8%nat, 0) (CELL1d 0 1 0)) [i]).
Definition kw_v2_1d (last : Z) (u : Z -> Z) (i : Z) : Qc := value (out (km_v2_1d last u)) (faddr (mkFa (4%nat, 0) (CELL1d 0 1 1)) [i]).
Lemma kgen_v2_1d (last : Z) (m m1 mo : mem QcS) (r w w1 v0 : Z -> Qc) :
  forM (face_calls 1 (ends1 0) (ends1 1) (ex_bk last)) (call_set_bc_1d (S := QcS) (ends1 0) (ends1 1) ex_h 0 (0%nat, 0) 1 (4%nat, 0)) m = Some m1 ->
  (m' <- cdf_1d_flux (S := QcS) 0 1 ex_h (0%nat, 0) 1 (4%nat, 0) (5%nat, 0) m1 ;; cd_apply_1d_diffusion_v2_apply (S := QcS) 0 1 (ex_q 0) (ex_q 2) ex_h 1 (4%nat, 0) (5%nat, 0) 0 (8%nat, 0) m') = Some mo ->
  forallb (fun i => is_num mo (faddr (mkFa (8%nat, 0) (CELL1d 0 1 0)) [i]) (r i)) (cells1 0 1) = true ->
  forallb (fun i => is_num m1 (faddr (mkFa (4%nat, 0) (CELL1d 0 1 1)) [i]) (w1 i)) (cells1 (-1) 2) = true ->
  forallb (fun i => is_num m1 (faddr (mkFa (0%nat, 0) (FACE1d 0 1 0)) [i]) (v0 i)) (cells1 0 2) = true ->
  forallb (fun i => is_num m (faddr (mkFa (4%nat, 0) (CELL1d 0 1 1)) [i]) (w i)) (cells1 0 1) = true ->
  filled_v2_1d (S := QcS) 0 1 ex_h (ex_q 2) (0%nat, 0) 1 (4%nat, 0) (5%nat, 0) (ex_q 0) 0 (8%nat, 0) (ex_bk last) m r w v0.
Proof.
  intros E H H0 H1 H2 H3. split; [lia|]. split; [k_apart|]. split; [intros i Ii; apply num; exact (all1 _ _ _ H3 i Ii)|]. exists m1, w1. split; [exact E|].
  split; [lia|]. split; [lia|]. split; [k_apart|]. split; [k_apart|].
  exists mo. split; [exact H|].
  split; [intros i Ii; apply num; exact (all1 _ _ _ H0 i Ii)|].
  split; [intros i Ii; apply num; exact (all1 _ _ _ H1 i Ii)|].
  intros i Ii; apply num; exact (all1 _ _ _ H2 i Ii).
Qed.
Lemma kex_flat_v2_1d : filled_v2_1d (S := QcS) 0 1 ex_h (ex_q 2) (0%nat, 0) 1 (4%nat, 0) (5%nat, 0) (ex_q 0) 0 (8%nat, 0) (ex_bk 1) (ex_so 4 ex_flat) (kr_v2_1d 1 ex_flat) (kw_v2_1d 1 ex_flat) v0_v2_1d.
Proof.
  refine (kgen_v2_1d 1 (ex_so 4 ex_flat) (out (km_v2_1d 1 ex_flat)) (out (kout_v2_1d 1 ex_flat)) (kr_v2_1d 1 ex_flat) (kw_v2_1d 1 ex_flat) (kw_v2_1d 1 ex_flat) v0_v2_1d
    (ran (km_v2_1d 1 ex_flat) _) (ran (kout_v2_1d 1 ex_flat) _) _ _ _ _); vm_compute; reflexivity.
Qed.
Lemma kex_high_v2_1d : filled_v2_1d (S := QcS) 0 1 ex_h (ex_q 2) (0%nat, 0) 1 (4%nat, 0) (5%nat, 0) (ex_q 0) 0 (8%nat, 0) (ex_bk 1) (ex_so 4 ex_high) (kr_v2_1d 1 ex_high) (kw_v2_1d 1 ex_high) v0_v2_1d.
Proof.
  refine (kgen_v2_1d 1 (ex_so 4 ex_high) (out (km_v2_1d 1 ex_high)) (out (kout_v2_1d 1 ex_high)) (kr_v2_1d 1 ex_high) (kw_v2_1d 1 ex_high) (kw_v2_1d 1 ex_high) v0_v2_1d
    (ran (km_v2_1d 1 ex_high) _) (ran (kout_v2_1d 1 ex_high) _) _ _ _ _); vm_compute; reflexivity.
Qed.
Lemma kex_any_v2_1d : filled_v2_1d (S := QcS) 0 1 ex_h (ex_q 2) (0%nat, 0) 1 (4%nat, 0) (5%nat, 0) (ex_q 0) 0 (8%nat, 0) (ex_bk 1) (ex_so 4 ex_any) (kr_v2_1d 1 ex_any) (kw_v2_1d 1 ex_any) v0_v2_1d.
Proof.
  refine (kgen_v2_1d 1 (ex_so 4 ex_any) (out (km_v2_1d 1 ex_any)) (out (kout_v2_1d 1 ex_any)) (kr_v2_1d 1 ex_any) (kw_v2_1d 1 ex_any) (kw_v2_1d 1 ex_any) v0_v2_1d
    (ran (km_v2_1d 1 ex_any) _) (ran (kout_v2_1d 1 ex_any) _) _ _ _ _); vm_compute; reflexivity.
Qed.
Lemma nex_any_v2_1d : filled_v2_1d (S := QcS) 0 1 ex_h (ex_q 2) (0%nat, 0) 1 (4%nat, 0) (5%nat, 0) (ex_q 0) 0 (8%nat, 0) (ex_bk (-1)) (ex_so 4 ex_any) (kr_v2_1d (-1) ex_any) (kw_v2_1d (-1) ex_any) v0_v2_1d.
Proof.
  refine (kgen_v2_1d (-1) (ex_so 4 ex_any) (out (km_v2_1d (-1) ex_any)) (out (kout_v2_1d (-1) ex_any)) (kr_v2_1d (-1) ex_any) (kw_v2_1d (-1) ex_any) (kw_v2_1d (-1) ex_any) v0_v2_1d
    (ran (km_v2_1d (-1) ex_any) _) (ran (kout_v2_1d (-1) ex_any) _) _ _ _ _); vm_compute; reflexivity.
Qed.
Lemma nex_up_v2_1d : filled_v2_1d (S := QcS) 0 1 ex_h (ex_q 2) (0%nat, 0) 1 (4%nat, 0) (5%nat, 0) (ex_q 0) 0 (8%nat, 0) (ex_bk (-1)) (ex_so 4 ex_up) (kr_v2_1d (-1) ex_up) (kw_v2_1d (-1) ex_up) v0_v2_1d.
Proof.
  refine (kgen_v2_1d (-1) (ex_so 4 ex_up) (out (km_v2_1d (-1) ex_up)) (out (kout_v2_1d (-1) ex_up)) (kr_v2_1d (-1) ex_up) (kw_v2_1d (-1) ex_up) (kw_v2_1d (-1) ex_up) v0_v2_1d
    (ran (km_v2_1d (-1) ex_up) _) (ran (kout_v2_1d (-1) ex_up) _) _ _ _ _); vm_compute; reflexivity.
Qed.
Lemma kmore_v2_1d : forall i, patch1 0 1 i -> (kr_v2_1d 1 ex_flat i <= kr_v2_1d 1 ex_high i)%Qc.
Proof. intros i H. apply le. apply (all1 (fun i => is_le (kr_v2_1d 1 ex_flat i) (kr_v2_1d 1 ex_high i)) 0 1); [vm_compute; reflexivity|..]; k_in H. Qed.
Lemma ksame_v2_1d : forall i, patch1 0 1 i -> kr_v2_1d (-1) ex_any i = kr_v2_1d (-1) ex_up i.
Proof. intros i H. apply same. apply (all1 (fun i => is_eq (kr_v2_1d (-1) ex_any i) (kr_v2_1d (-1) ex_up i)) 0 1); [vm_compute; reflexivity|..]; k_in H. Qed.
Lemma kroomy_v2_1d : roomy 1 (ends1 0) (ends1 1) (ex_bk 1).
Proof. k_roomy. Qed.
Lemma kzero_v2_1d : total (S := QcS) 0 1 (kr_v2_1d (-1) ex_any) = 0%Qc.
Proof. apply same. vm_compute. reflexivity. Qed.
Lemma kv0_v2_1d : forall i, 0 <= i <= 1 + 1 -> (0 < v0_v2_1d i)%Qc.
Proof. intros i Ii. apply lt. apply (all1 (fun i => is_lt 0 (v0_v2_1d i)) 0 2); [vm_compute; reflexivity|..]; lia. Qed.

Definition km_poisson_1d (last : Z) (u : Z -> Z) : option (mem QcS) := forM (face_calls 1 (ends1 0) (ends1 1) (ex_bk last)) (call_set_poisson_bc_1d (S := QcS) (ends1 0) (ends1 1) ex_h 1 (4%nat, 0)) (ex_so 4 u).
Definition kout_poisson_1d (last : Z) (u : Z -> Z) : option (mem QcS) := (m' <- cdf_1d_poisson_flux (S := QcS) 0 1 ex_h 1 (4%nat, 0) (5%nat, 0) (out (km_poisson_1d last u)) ;; cd_apply_1d_poisson_v2_apply (S := QcS) 0 1 (ex_q 2) ex_h (5%nat, 0) 0 (8%nat, 0) m').
Definition kr_poisson_1d (last : Z) (u : Z -> Z) (i : Z) : Qc := value (out (kout_poisson_1d last u)) (faddr (mkFa (8%nat, 0) (CELL1d 0 1 0)) [i]).
Definition kw_poisson_1d (last : Z) (u : Z -> Z) (i : Z) : Qc := value (out (km_poisson_1d last u)) (faddr (mkFa (4%nat, 0) (CELL1d 0 1 1)) [i]).
Lemma kgen_poisson_1d (last : Z) (m m1 mo : mem QcS) (r w w1 : Z -> Qc) :
  forM (face_calls 1 (ends1 0) (ends1 1) (ex_bk last)) (call_set_poisson_bc_1d (S := QcS) (ends1 0) (ends1 1) ex_h 1 (4%nat, 0)) m = Some m1 ->
  (m' <- cdf_1d_poisson_flux (S := QcS) 0 1 ex_h 1 (4%nat, 0) (5%nat, 0) m1 ;; cd_apply_1d_poisson_v2_apply (S := QcS) 0 1 (ex_q 2) ex_h (5%nat, 0) 0 (8%nat, 0) m') = Some mo ->
  forallb (fun i => is_num mo (faddr (mkFa (8%nat, 0) (CELL1d 0 1 0)) [i]) (r i)) (cells1 0 1) = true ->
  forallb (fun i => is_num m1 (faddr (mkFa (4%nat, 0) (CELL1d 0 1 1)) [i]) (w1 i)) (cells1 (-1) 2) = true ->
  forallb (fun i => is_num m (faddr (mkFa (4%nat, 0) (CELL1d 0 1 1)) [i]) (w i)) (cells1 0 1) = true ->
  filled_poisson_1d (S := QcS) 0 1 ex_h (ex_q 2) 1 (4%nat, 0) (5%nat, 0) 0 (8%nat, 0) (ex_bk last) m r w .
Proof.
  intros E H H0 H1 H2. split; [lia|]. split; [intros i Ii; apply num; exact (all1 _ _ _ H2 i Ii)|]. exists m1, w1. split; [exact E|].
  split; [lia|]. split; [lia|]. split; [k_apart|]. split; [k_apart|].
  exists mo. split; [exact H|].
  split; [intros i Ii; apply num; exact (all1 _ _ _ H0 i Ii)|].
  intros i Ii; apply num; exact (all1 _ _ _ H1 i Ii).
Qed.
Lemma kex_flat_poisson_1d : filled_poisson_1d (S := QcS) 0 1 ex_h (ex_q 2) 1 (4%nat, 0) (5%nat, 0) 0 (8%nat, 0) (ex_bk 1) (ex_so 4 ex_flat) (kr_poisson_1d 1 ex_flat) (kw_poisson_1d 1 ex_flat) .
Proof.
  refine (kgen_poisson_1d 1 (ex_so 4 ex_flat) (out (km_poisson_1d 1 ex_flat)) (out (kout_poisson_1d 1 ex_flat)) (kr_poisson_1d 1 ex_flat) (kw_poisson_1d 1 ex_flat) (kw_poisson_1d 1 ex_flat) 
    (ran (km_poisson_1d 1 ex_flat) _) (ran (kout_poisson_1d 1 ex_flat) _) _ _ _); vm_compute; reflexivity.
Qed.
Lemma kex_high_poisson_1d : filled_poisson_1d (S := QcS) 0 1 ex_h (ex_q 2) 1 (4%nat, 0) (5%nat, 0) 0 (8%nat, 0) (ex_bk 1) (ex_so 4 ex_high) (kr_poisson_1d 1 ex_high) (kw_poisson_1d 1 ex_high) .
Proof.
  refine (kgen_poisson_1d 1 (ex_so 4 ex_high) (out (km_poisson_1d 1 ex_high)) (out (kout_poisson_1d 1 ex_high)) (kr_poisson_1d 1 ex_high) (kw_poisson_1d 1 ex_high) (kw_poisson_1d 1 ex_high) 
    (ran (km_poisson_1d 1 ex_high) _) (ran (kout_poisson_1d 1 ex_high) _) _ _ _); vm_compute; reflexivity.
Qed.
Lemma kex_any_poisson_1d : filled_poisson_1d (S := QcS) 0 1 ex_h (ex_q 2) 1 (4%nat, 0) (5%nat, 0) 0 (8%nat, 0) (ex_bk 1) (ex_so 4 ex_any) (kr_poisson_1d 1 ex_any) (kw_poisson_1d 1 ex_any) .
Proof.
  refine (kgen_poisson_1d 1 (ex_so 4 ex_any) (out (km_poisson_1d 1 ex_any)) (out (kout_poisson_1d 1 ex_any)) (kr_poisson_1d 1 ex_any) (kw_poisson_1d 1 ex_any) (kw_poisson_1d 1 ex_any) 
    (ran (km_poisson_1d 1 ex_any) _) (ran (kout_poisson_1d 1 ex_any) _) _ _ _); vm_compute; reflexivity.
Qed.
Lemma nex_any_poisson_1d : filled_poisson_1d (S := QcS) 0 1 ex_h (ex_q 2) 1 (4%nat, 0) (5%nat, 0) 0 (8%nat, 0) (ex_bk (-1)) (ex_so 4 ex_any) (kr_poisson_1d (-1) ex_any) (kw_poisson_1d (-1) ex_any) .
Proof.
  refine (kgen_poisson_1d (-1) (ex_so 4 ex_any) (out (km_poisson_1d (-1) ex_any)) (out (kout_poisson_1d (-1) ex_any)) (kr_poisson_1d (-1) ex_any) (kw_poisson_1d (-1) ex_any) (kw_poisson_1d (-1) ex_any) 
    (ran (km_poisson_1d (-1) ex_any) _) (ran (kout_poisson_1d (-1) ex_any) _) _ _ _); vm_compute; reflexivity.
Qed.
Lemma nex_up_poisson_1d : filled_poisson_1d (S := QcS) 0 1 ex_h (ex_q 2) 1 (4%nat, 0) (5%nat, 0) 0 (8%nat, 0) (ex_bk (-1)) (ex_so 4 ex_up) (kr_poisson_1d (-1) ex_up) (kw_poisson_1d (-1) ex_up) .
Proof.
  refine (kgen_poisson_1d (-1) (ex_so 4 ex_up) (out (km_poisson_1d (-1) ex_up)) (out (kout_poisson_1d (-1) ex_up)) (kr_poisson_1d (-1) ex_up) (kw_poisson_1d (-1) ex_up) (kw_poisson_1d (-1) ex_up) 
    (ran (km_poisson_1d (-1) ex_up) _) (ran (kout_poisson_1d (-1) ex_up) _) _ _ _); vm_compute; reflexivity.
Qed.
Lemma kmore_poisson_1d : forall i, patch1 0 1 i -> (kr_poisson_1d 1 ex_flat i <= kr_poisson_1d 1 ex_high i)%Qc.
Proof. intros i H. apply le. apply (all1 (fun i => is_le (kr_poisson_1d 1 ex_flat i) (kr_poisson_1d 1 ex_high i)) 0 1); [vm_compute; reflexivity|..]; k_in H. Qed.
Lemma ksame_poisson_1d : forall i, patch1 0 1 i -> kr_poisson_1d (-1) ex_any i = kr_poisson_1d (-1) ex_up i.
Proof. intros i H. apply same. apply (all1 (fun i => is_eq (kr_poisson_1d (-1) ex_any i) (kr_poisson_1d (-1) ex_up i)) 0 1); [vm_compute; reflexivity|..]; k_in H. Qed.
Lemma kroomy_poisson_1d : roomy 1 (ends1 0) (ends1 1) (ex_bk 1).
Proof. k_roomy. Qed.
Lemma kzero_poisson_1d : total (S := QcS) 0 1 (kr_poisson_1d (-1) ex_any) = 0%Qc.
Proof. apply same. vm_compute. reflexivity. Qed.

Definition km_v1_2d (last : Z) (u : Z -> Z) : option (mem QcS) := forM (face_calls 2 (ends2 0 0) (ends2 1 1) (ex_bk last)) (call_set_bc_2d (S := QcS) (ends2 0 0) (ends2 1 1) ex_h 0 (0%nat, 0) (1%nat, 0) 1 (4%nat, 0)) (ex_so 16 u).
Definition kout_v1_2d (last : Z) (u : Z -> Z) : option (mem QcS) := (m' <- cdf_2d_flux (S := QcS) 0 0 1 1 ex_h (0%nat, 0) (1%nat, 0) 1 (4%nat, 0) (5%nat, 0) (6%nat, 0) (out (km_v1_2d last u)) ;; cd_apply_2d_diffusion_v1_apply (S := QcS) 0 1 0 1 (ex_q 0) (ex_q 2) ex_h 0 (3%nat, 0) 1 (4%nat, 0) (5%nat, 0) (6%nat, 0) 0 (8%nat, 0) m').
Definition kr_v1_2d (last : Z) (u : Z -> Z) (i j : Z) : Qc := value (out (kout_v1_2d last u)) (faddr (mkFa (8%nat, 0) (CELL2d 0 0 1 1 0)) [i; j]).
Definition kw_v1_2d (last : Z) (u : Z -> Z) (i j : Z) : Qc := value (out (km_v1_2d last u)) (faddr (mkFa (4%nat, 0) (CELL2d 0 0 1 1 1)) [i; j]).
Lemma kgen_v1_2d (last : Z) (m m1 mo : mem QcS) (r w w1 c v0 v1 : Z -> Z -> Qc) :
  forM (face_calls 2 (ends2 0 0) (ends2 1 1) (ex_bk last)) (call_set_bc_2d (S := QcS) (ends2 0 0) (ends2 1 1) ex_h 0 (0%nat, 0) (1%nat, 0) 1 (4%nat, 0)) m = Some m1 ->
  (m' <- cdf_2d_flux (S := QcS) 0 0 1 1 ex_h (0%nat, 0) (1%nat, 0) 1 (4%nat, 0) (5%nat, 0) (6%nat, 0) m1 ;; cd_apply_2d_diffusion_v1_apply (S := QcS) 0 1 0 1 (ex_q 0) (ex_q 2) ex_h 0 (3%nat, 0) 1 (4%nat, 0) (5%nat, 0) (6%nat, 0) 0 (8%nat, 0) m') = Some mo ->
  forallb (fun p => (fun i j => is_num mo (faddr (mkFa (8%nat, 0) (CELL2d 0 0 1 1 0)) [i; j]) (r i j)) (fst p) (snd p)) (cells2 0 0 1 1) = true ->
  forallb (fun p => (fun i j => is_num m1 (faddr (mkFa (4%nat, 0) (CELL2d 0 0 1 1 1)) [i; j]) (w1 i j)) (fst p) (snd p)) (cells2 (-1) (-1) 2 2) = true ->
  forallb (fun p => (fun i j => is_num m1 (faddr (mkFa (3%nat, 0) (CELL2d 0 0 1 1 0)) [i; j]) (c i j)) (fst p) (snd p)) (cells2 0 0 1 1) = true ->
  forallb (fun p => (fun i j => is_num m1 (faddr (mkFa (0%nat, 0) (FACE2d0 0 0 1 1 0)) [i; j]) (v0 i j)) (fst p) (snd p)) (cells2 0 0 2 1) = true ->
  forallb (fun p => (fun i j => is_num m1 (faddr (mkFa (1%nat, 0) (FACE2d1 0 0 1 1 0)) [j; i]) (v1 i j)) (fst p) (snd p)) (cells2 0 0 1 2) = true ->
  forallb (fun p => (fun i j => is_num m (faddr (mkFa (4%nat, 0) (CELL2d 0 0 1 1 1)) [i; j]) (w i j)) (fst p) (snd p)) (cells2 0 0 1 1) = true ->
  filled_v1_2d (S := QcS) 0 0 1 1 ex_h (ex_q 2) (0%nat, 0) (1%nat, 0) 1 (4%nat, 0) (5%nat, 0) (6%nat, 0) (ex_q 0) 0 (3%nat, 0) 0 (8%nat, 0) (ex_bk last) m r w c v0 v1.
Proof.
  intros E H H0 H1 H2 H3 H4 H5. split; [lia|]. split; [k_apart|]. split; [intros i j Ii Ij; apply num; exact (all2 _ _ _ _ _ H5 i j Ii Ij)|]. exists m1, w1. split; [exact E|].
  split; [lia|]. split; [lia|]. split; [k_apart|]. split; [k_apart|]. split; [k_apart|].
  exists mo. split; [exact H|].
  split; [intros i j Ii Ij; apply num; exact (all2 _ _ _ _ _ H0 i j Ii Ij)|].
  split; [intros i j Ii Ij; apply num; exact (all2 _ _ _ _ _ H1 i j Ii Ij)|].
  split; [intros i j Ii Ij; apply num; exact (all2 _ _ _ _ _ H2 i j Ii Ij)|].
  split; [intros i j Ii Ij; apply num; exact (all2 _ _ _ _ _ H3 i j Ii Ij)|].
  intros i j Ii Ij; apply num; exact (all2 _ _ _ _ _ H4 i j Ii Ij).
Qed.
Lemma kex_flat_v1_2d : filled_v1_2d (S := QcS) 0 0 1 1 ex_h (ex_q 2) (0%nat, 0) (1%nat, 0) 1 (4%nat, 0) (5%nat, 0) (6%nat, 0) (ex_q 0) 0 (3%nat, 0) 0 (8%nat, 0) (ex_bk 3) (ex_so 16 ex_flat) (kr_v1_2d 3 ex_flat) (kw_v1_2d 3 ex_flat) c_v1_2d v0_v1_2d v1_v1_2d.
Proof.
  refine (kgen_v1_2d 3 (ex_so 16 ex_flat) (out (km_v1_2d 3 ex_flat)) (out (kout_v1_2d 3 ex_flat)) (kr_v1_2d 3 ex_flat) (kw_v1_2d 3 ex_flat) (kw_v1_2d 3 ex_flat) c_v1_2d v0_v1_2d v1_v1_2d
    (ran (km_v1_2d 3 ex_flat) _) (ran (kout_v1_2d 3 ex_flat) _) _ _ _ _ _ _); vm_compute; reflexivity.
Qed.
Lemma kex_high_v1_2d : filled_v1_2d (S := QcS) 0 0 1 1 ex_h (ex_q 2) (0%nat, 0) (1%nat, 0) 1 (4%nat, 0) (5%nat, 0) (6%nat, 0) (ex_q 0) 0 (3%nat, 0) 0 (8%nat, 0) (ex_bk 3) (ex_so 16 ex_high) (kr_v1_2d 3 ex_high) (kw_v1_2d 3 ex_high) c_v1_2d v0_v1_2d v1_v1_2d.
Proof.
  refine (kgen_v1_2d 3 (ex_so 16 ex_high) (out (km_v1_2d 3 ex_high)) (out (kout_v1_2d 3 ex_high)) (kr_v1_2d 3 ex_high) (kw_v1_2d 3 ex_high) (kw_v1_2d 3 ex_high) c_v1_2d v0_v1_2d v1_v1_2d
    (ran (km_v1_2d 3 ex_high) _) (ran (kout_v1_2d 3 ex_high) _) _ _ _ _ _ _); vm_compute; reflexivity.
Qed.
Lemma kex_any_v1_2d : filled_v1_2d (S := QcS) 0 0 1 1 ex_h (ex_q 2) (0%nat, 0) (1%nat, 0) 1 (4%nat, 0) (5%nat, 0) (6%nat, 0) (ex_q 0) 0 (3%nat, 0) 0 (8%nat, 0) (ex_bk 3) (ex_so 16 ex_any) (kr_v1_2d 3 ex_any) (kw_v1_2d 3 ex_any) c_v1_2d v0_v1_2d v1_v1_2d.
Proof.
  refine (kgen_v1_2d 3 (ex_so 16 ex_any) (out (km_v1_2d 3 ex_any)) (out (kout_v1_2d 3 ex_any)) (kr_v1_2d 3 ex_any) (kw_v1_2d 3 ex_any) (kw_v1_2d 3 ex_any) c_v1_2d v0_v1_2d v1_v1_2d
    (ran (km_v1_2d 3 ex_any) _) (ran (kout_v1_2d 3 ex_any) _) _ _ _ _ _ _); vm_compute; reflexivity.
Qed.
Lemma nex_any_v1_2d : filled_v1_2d (S := QcS) 0 0 1 1 ex_h (ex_q 2) (0%nat, 0) (1%nat, 0) 1 (4%nat, 0) (5%nat, 0) (6%nat, 0) (ex_q 0) 0 (3%nat, 0) 0 (8%nat, 0) (ex_bk (-1)) (ex_so 16 ex_any) (kr_v1_2d (-1) ex_any) (kw_v1_2d (-1) ex_any) c_v1_2d v0_v1_2d v1_v1_2d.
Proof.
  refine (kgen_v1_2d (-1) (ex_so 16 ex_any) (out (km_v1_2d (-1) ex_any)) (out (kout_v1_2d (-1) ex_any)) (kr_v1_2d (-1) ex_any) (kw_v1_2d (-1) ex_any) (kw_v1_2d (-1) ex_any) c_v1_2d v0_v1_2d v1_v1_2d
    (ran (km_v1_2d (-1) ex_any) _) (ran (kout_v1_2d (-1) ex_any) _) _ _ _ _ _ _); vm_compute; reflexivity.
Qed.
Lemma nex_up_v1_2d : filled_v1_2d (S := QcS) 0 0 1 1 ex_h (ex_q 2) (0%nat, 0) (1%nat, 0) 1 (4%nat, 0) (5%nat, 0) (6%nat, 0) (ex_q 0) 0 (3%nat, 0) 0 (8%nat, 0) (ex_bk (-1)) (ex_so 16 ex_up) (kr_v1_2d (-1) ex_up) (kw_v1_2d (-1) ex_up) c_v1_2d v0_v1_2d v1_v1_2d.
Proof.
  refine (kgen_v1_2d (-1) (ex_so 16 ex_up) (out (km_v1_2d (-1) ex_up)) (out (kout_v1_2d (-1) ex_up)) (kr_v1_2d (-1) ex_up) (kw_v1_2d (-1) ex_up) (kw_v1_2d (-1) ex_up) c_v1_2d v0_v1_2d v1_v1_2d
    (ran (km_v1_2d (-1) ex_up) _) (ran (kout_v1_2d (-1) ex_up) _) _ _ _ _ _ _); vm_compute; reflexivity.
Qed.
Lemma kmore_v1_2d : forall i j, patch2 0 0 1 1 i j -> (kr_v1_2d 3 ex_flat i j <= kr_v1_2d 3 ex_high i j)%Qc.
Proof. intros i j H. apply le. apply (all2 (fun i j => is_le (kr_v1_2d 3 ex_flat i j) (kr_v1_2d 3 ex_high i j)) 0 0 1 1); [vm_compute; reflexivity|..]; k_in H. Qed.
Lemma ksame_v1_2d : forall i j, patch2 0 0 1 1 i j -> kr_v1_2d (-1) ex_any i j = kr_v1_2d (-1) ex_up i j.
Proof. intros i j H. apply same. apply (all2 (fun i j => is_eq (kr_v1_2d (-1) ex_any i j) (kr_v1_2d (-1) ex_up i j)) 0 0 1 1); [vm_compute; reflexivity|..]; k_in H. Qed.
Lemma kroomy_v1_2d : roomy 2 (ends2 0 0) (ends2 1 1) (ex_bk 3).
Proof. k_roomy. Qed.
Lemma kzero_v1_2d : total2 (S := QcS) 0 0 1 1 (kr_v1_2d (-1) ex_any) = 0%Qc.
Proof. apply same. vm_compute. reflexivity. Qed.
Lemma kv0_v1_2d : forall i j, 0 <= i <= 1 + 1 -> 0 <= j <= 1 -> (0 < v0_v1_2d i j)%Qc.
Proof. intros i j Ii Ij. apply lt. apply (all2 (fun i j => is_lt 0 (v0_v1_2d i j)) 0 0 2 1); [vm_compute; reflexivity|..]; lia. Qed.
Lemma kv1_v1_2d : forall i j, 0 <= i <= 1 -> 0 <= j <= 1 + 1 -> (0 < v1_v1_2d i j)%Qc.
Proof. intros i j Ii Ij. apply lt. apply (all2 (fun i j => is_lt 0 (v1_v1_2d i j)) 0 0 1 2); [vm_compute; reflexivity|..]; lia. Qed.

Definition km_v2_2d (last : Z) (u : Z -> Z) : option (mem QcS) := forM (face_calls 2 (ends2 0 0) (ends2 1 1) (ex_bk last)) (call_set_bc_2d (S := QcS) (ends2 0 0) (ends2 1 1) ex_h 0 (0%nat, 0) (1%nat, 0) 1 (4%nat, 0)) (ex_so 16 u).
Definition kout_v2_2d (last : Z) (u : Z -> Z) : option (mem QcS) := (m' <- cdf_2d_flux (S := QcS) 0 0 1 1 ex_h (0%nat, 0) (1%nat, 0) 1 (4%nat, 0) (5%nat, 0) (6%nat, 0) (out (km_v2_2d last u)) ;; cd_apply_2d_diffusion_v2_apply (S := QcS) 0 1 0 1 (ex_q 0) (ex_q 2) ex_h 1 (4%nat, 0) (5%nat, 0) (6%nat, 0) 0 (8%nat, 0) m').
Definition kr_v2_2d (last : Z) (u : Z -> Z) (i j : Z) : Qc := value (out (kout_v2_2d last u)) (faddr (mkFa (8%nat, 0) (CELL2d 0 0 1 1 0)) [i; j]).
Definition kw_v2_2d (last : Z) (u : Z -> Z) (i j : Z) : Qc := value (out (km_v2_2d last u)) (faddr (mkFa (4%nat, 0) (CELL2d 0 0 1 1 1)) [i; j]).
Lemma kgen_v2_2d (last : Z) (m m1 mo : mem QcS) (r w w1 v0 v1 : Z -> Z -> Qc) :
  forM (face_calls 2 (ends2 0 0) (ends2 1 1) (ex_bk last)) (call_set_bc_2d (S := QcS) (ends2 0 0) (ends2 1 1) ex_h 0 (0%nat, 0) (1%nat, 0) 1 (4%nat, 0)) m = Some m1 ->
  (m' <- cdf_2d_flux (S := QcS) 0 0 1 1 ex_h (0%nat, 0) (1%nat, 0) 1 (4%nat, 0) (5%nat, 0) (6%nat, 0) m1 ;; cd_apply_2d_diffusion_v2_apply (S := QcS) 0 1 0 1 (ex_q 0) (ex_q 2) ex_h 1 (4%nat, 0) (5%nat, 0) (6%nat, 0) 0 (8%nat, 0) m') = Some mo ->
  forallb (fun p => (fun i j => is_num mo (faddr (mkFa (8%nat, 0) (CELL2d 0 0 1 1 0)) [i; j]) (r i j)) (fst p) (snd p)) (cells2 0 0 1 1) = true ->
  forallb (fun p => (fun i j => is_num m1 (faddr (mkFa (4%nat, 0) (CELL2d 0 0 1 1 1)) [i; j]) (w1 i j)) (fst p) (snd p)) (cells2 (-1) (-1) 2 2) = true ->
  forallb (fun p => (fun i j => is_num m1 (faddr (mkFa (0%nat, 0) (FACE2d0 0 0 1 1 0)) [i; j]) (v0 i j)) (fst p) (snd p)) (cells2 0 0 2 1) = true ->
  forallb (fun p => (fun i j => is_num m1 (faddr (mkFa (1%nat, 0) (FACE2d1 0 0 1 1 0)) [j; i]) (v1 i j)) (fst p) (snd p)) (cells2 0 0 1 2) = true ->
  forallb (fun p => (fun i j => is_num m (faddr (mkFa (4%nat, 0) (CELL2d 0 0 1 1 1)) [i; j]) (w i j)) (fst p) (snd p)) (cells2 0 0 1 1) = true ->
  filled_v2_2d (S := QcS) 0 0 1 1 ex_h (ex_q 2) (0%nat, 0) (1%nat, 0) 1 (4%nat, 0) (5%nat, 0) (6%nat, 0) (ex_q 0) 0 (8%nat, 0) (ex_bk last) m r w v0 v1.
Proof.
  intros E H H0 H1 H2 H3 H4. split; [lia|]. split; [k_apart|]. split; [intros i j Ii Ij; apply num; exact (all2 _ _ _ _ _ H4 i j Ii Ij)|]. exists m1, w1. split; [exact E|].
  split; [lia|]. split; [lia|]. split; [k_apart|]. split; [k_apart|]. split; [k_apart|].
  exists mo. split; [exact H|].
  split; [intros i j Ii Ij; apply num; exact (all2 _ _ _ _ _ H0 i j Ii Ij)|].
  split; [intros i j Ii Ij; apply num; exact (all2 _ _ _ _ _ H1 i j Ii Ij)|].
  split; [intros i j Ii Ij; apply num; exact (all2 _ _ _ _ _ H2 i j Ii Ij)|].
  intros i j Ii Ij; apply num; exact (all2 _ _ _ _ _ H3 i j Ii Ij).
Qed.
Lemma kex_flat_v2_2d : filled_v2_2d (S := QcS) 0 0 1 1 ex_h (ex_q 2) (0%nat, 0) (1%nat, 0) 1 (4%nat, 0) (5%nat, 0) (6%nat, 0) (ex_q 0) 0 (8%nat, 0) (ex_bk 3) (ex_so 16 ex_flat) (kr_v2_2d 3 ex_flat) (kw_v2_2d 3 ex_flat) v0_v2_2d v1_v2_2d.
Proof.
  refine (kgen_v2_2d 3 (ex_so 16 ex_flat) (out (km_v2_2d 3 ex_flat)) (out (kout_v2_2d 3 ex_flat)) (kr_v2_2d 3 ex_flat) (kw_v2_2d 3 ex_flat) (kw_v2_2d 3 ex_flat) v0_v2_2d v1_v2_2d
    (ran (km_v2_2d 3 ex_flat) _) (ran (kout_v2_2d 3 ex_flat) _) _ _ _ _ _); vm_compute; reflexivity.
Qed.
Lemma kex_high_v2_2d : filled_v2_2d (S := QcS) 0 0 1 1 ex_h (ex_q 2) (0%nat, 0) (1%nat, 0) 1 (4%nat, 0) (5%nat, 0) (6%nat, 0) (ex_q 0) 0 (8%nat, 0) (ex_bk 3) (ex_so 16 ex_high) (kr_v2_2d 3 ex_high) (kw_v2_2d 3 ex_high) v0_v2_2d v1_v2_2d.
Proof.
  refine (kgen_v2_2d 3 (ex_so 16 ex_high) (out (km_v2_2d 3 ex_high)) (out (kout_v2_2d 3 ex_high)) (kr_v2_2d 3 ex_high) (kw_v2_2d 3 ex_high) (kw_v2_2d 3 ex_high) v0_v2_2d v1_v2_2d
    (ran (km_v2_2d 3 ex_high) _) (ran (kout_v2_2d 3 ex_high) _) _ _ _ _ _); vm_compute; reflexivity.
Qed.
Lemma kex_any_v2_2d : filled_v2_2d (S := QcS) 0 0 1 1 ex_h (ex_q 2) (0%nat, 0) (1%nat, 0) 1 (4%nat, 0) (5%nat, 0) (6%nat, 0) (ex_q 0) 0 (8%nat, 0) (ex_bk 3) (ex_so 16 ex_any) (kr_v2_2d 3 ex_any) (kw_v2_2d 3 ex_any) v0_v2_2d v1_v2_2d.
Proof.
  refine (kgen_v2_2d 3 (ex_so 16 ex_any) (out (km_v2_2d 3 ex_any)) (out (kout_v2_2d 3 ex_any)) (kr_v2_2d 3 ex_any) (kw_v2_2d 3 ex_any) (kw_v2_2d 3 ex_any) v0_v2_2d v1_v2_2d
    (ran (km_v2_2d 3 ex_any) _) (ran (kout_v2_2d 3 ex_any) _) _ _ _ _ _); vm_compute; reflexivity.
Qed.
Lemma nex_any_v2_2d : filled_v2_2d (S := QcS) 0 0 1 1 ex_h (ex_q 2) (0%nat, 0) (1%nat, 0) 1 (4%nat, 0) (5%nat, 0) (6%nat, 0) (ex_q 0) 0 (8%nat, 0) (ex_bk (-1)) (ex_so 16 ex_any) (kr_v2_2d (-1) ex_any) (kw_v2_2d (-1) ex_any) v0_v2_2d v1_v2_2d.
Proof.
  refine (kgen_v2_2d (-1) (ex_so 16 ex_any) (out (km_v2_2d (-1) ex_any)) (out (kout_v2_2d (-1) ex_any)) (kr_v2_2d (-1) ex_any) (kw_v2_2d (-1) ex_any) (kw_v2_2d (-1) ex_any) v0_v2_2d v1_v2_2d
    (ran (km_v2_2d (-1) ex_any) _) (ran (kout_v2_2d (-1) ex_any) _) _ _ _ _ _); vm_compute; reflexivity.
Qed.
Lemma nex_up_v2_2d : filled_v2_2d (S := QcS) 0 0 1 1 ex_h (ex_q 2) (0%nat, 0) (1%nat, 0) 1 (4%nat, 0) (5%nat, 0) (6%nat, 0) (ex_q 0) 0 (8%nat, 0) (ex_bk (-1)) (ex_so 16 ex_up) (kr_v2_2d (-1) ex_up) (kw_v2_2d (-1) ex_up) v0_v2_2d v1_v2_2d.
Proof.
  refine (kgen_v2_2d (-1) (ex_so 16 ex_up) (out (km_v2_2d (-1) ex_up)) (out (kout_v2_2d (-1) ex_up)) (kr_v2_2d (-1) ex_up) (kw_v2_2d (-1) ex_up) (kw_v2_2d (-1) ex_up) v0_v2_2d v1_v2_2d
    (ran (km_v2_2d (-1) ex_up) _) (ran (kout_v2_2d (-1) ex_up) _) _ _ _ _ _); vm_compute; reflexivity.
Qed.
Lemma kmore_v2_2d : forall i j, patch2 0 0 1 1 i j -> (kr_v2_2d 3 ex_flat i j <= kr_v2_2d 3 ex_high i j)%Qc.
Proof. intros i j H. apply le. apply (all2 (fun i j => is_le (kr_v2_2d 3 ex_flat i j) (kr_v2_2d 3 ex_high i j)) 0 0 1 1); [vm_compute; reflexivity|..]; k_in H. Qed.
Lemma ksame_v2_2d : forall i j, patch2 0 0 1 1 i j -> kr_v2_2d (-1) ex_any i j = kr_v2_2d (-1) ex_up i j.
Proof. intros i j H. apply same. apply (all2 (fun i j => is_eq (kr_v2_2d (-1) ex_any i j) (kr_v2_2d (-1) ex_up i j)) 0 0 1 1); [vm_compute; reflexivity|..]; k_in H. Qed.
Lemma kroomy_v2_2d : roomy 2 (ends2 0 0) (ends2 1 1) (ex_bk 3).
Proof. k_roomy. Qed.
Lemma kzero_v2_2d : total2 (S := QcS) 0 0 1 1 (kr_v2_2d (-1) ex_any) = 0%Qc.
Proof. apply same. vm_compute. reflexivity. Qed.
Lemma kv0_v2_2d : forall i j, 0 <= i <= 1 + 1 -> 0 <= j <= 1 -> (0 < v0_v2_2d i j)%Qc.
Proof. intros i j Ii Ij. apply lt. apply (all2 (fun i j => is_lt 0 (v0_v2_2d i j)) 0 0 2 1); [vm_compute; reflexivity|..]; lia. Qed.
Lemma kv1_v2_2d : forall i j, 0 <= i <= 1 -> 0 <= j <= 1 + 1 -> (0 < v1_v2_2d i j)%Qc.
Proof. intros i j Ii Ij. apply lt. apply (all2 (fun i j => is_lt 0 (v1_v2_2d i j)) 0 0 1 2); [vm_compute; reflexivity|..]; lia. Qed.

Definition km_poisson_2d (last : Z) (u : Z -> Z) : option (mem QcS) := forM (face_calls 2 (ends2 0 0) (ends2 1 1) (ex_bk last)) (call_set_poisson_bc_2d (S := QcS) (ends2 0 0) (ends2 1 1) ex_h 1 (4%nat, 0)) (ex_so 16 u).
Definition kout_poisson_2d (last : Z) (u : Z -> Z) : option (mem QcS) := (m' <- cdf_2d_poisson_flux (S := QcS) 0 0 1 1 ex_h 1 (4%nat, 0) (5%nat, 0) (6%nat, 0) (out (km_poisson_2d last u)) ;; cd_apply_2d_poisson_v2_apply (S := QcS) 0 1 0 1 (ex_q 2) ex_h (5%nat, 0) (6%nat, 0) 0 (8%nat, 0) m').
Definition kr_poisson_2d (last : Z) (u : Z -> Z) (i j : Z) : Qc := value (out (kout_poisson_2d last u)) (faddr (mkFa (8%nat, 0) (CELL2d 0 0 1 1 0)) [i; j]).
Definition kw_poisson_2d (last : Z) (u : Z -> Z) (i j : Z) : Qc := value (out (km_poisson_2d last u)) (faddr (mkFa (4%nat, 0) (CELL2d 0 0 1 1 1)) [i; j]).
Lemma kgen_poisson_2d (last : Z) (m m1 mo : mem QcS) (r w w1 : Z -> Z -> Qc) :
  forM (face_calls 2 (ends2 0 0) (ends2 1 1) (ex_bk last)) (call_set_poisson_bc_2d (S := QcS) (ends2 0 0) (ends2 1 1) ex_h 1 (4%nat, 0)) m = Some m1 ->
  (m' <- cdf_2d_poisson_flux (S := QcS) 0 0 1 1 ex_h 1 (4%nat, 0) (5%nat, 0) (6%nat, 0) m1 ;; cd_apply_2d_poisson_v2_apply (S := QcS) 0 1 0 1 (ex_q 2) ex_h (5%nat, 0) (6%nat, 0) 0 (8%nat, 0) m') = Some mo ->
  forallb (fun p => (fun i j => is_num mo (faddr (mkFa (8%nat, 0) (CELL2d 0 0 1 1 0)) [i; j]) (r i j)) (fst p) (snd p)) (cells2 0 0 1 1) = true ->
  forallb (fun p => (fun i j => is_num m1 (faddr (mkFa (4%nat, 0) (CELL2d 0 0 1 1 1)) [i; j]) (w1 i j)) (fst p) (snd p)) (cells2 (-1) (-1) 2 2) = true ->
  forallb (fun p => (fun i j => is_num m (faddr (mkFa (4%nat, 0) (CELL2d 0 0 1 1 1)) [i; j]) (w i j)) (fst p) (snd p)) (cells2 0 0 1 1) = true ->
  filled_poisson_2d (S := QcS) 0 0 1 1 ex_h (ex_q 2) 1 (4%nat, 0) (5%nat, 0) (6%nat, 0) 0 (8%nat, 0) (ex_bk last) m r w .
Proof.
  intros E H H0 H1 H2. split; [lia|]. split; [intros i j Ii Ij; apply num; exact (all2 _ _ _ _ _ H2 i j Ii Ij)|]. exists m1, w1. split; [exact E|].
  split; [lia|]. split; [lia|]. split; [k_apart|]. split; [k_apart|]. split; [k_apart|].
  exists mo. split; [exact H|].
  split; [intros i j Ii Ij; apply num; exact (all2 _ _ _ _ _ H0 i j Ii Ij)|].
  intros i j Ii Ij; apply num; exact (all2 _ _ _ _ _ H1 i j Ii Ij).
Qed.
Lemma kex_flat_poisson_2d : filled_poisson_2d (S := QcS) 0 0 1 1 ex_h (ex_q 2) 1 (4%nat, 0) (5%nat, 0) (6%nat, 0) 0 (8%nat, 0) (ex_bk 3) (ex_so 16 ex_flat) (kr_poisson_2d 3 ex_flat) (kw_poisson_2d 3 ex_flat) .
Proof.
  refine (kgen_poisson_2d 3 (ex_so 16 ex_flat) (out (km_poisson_2d 3 ex_flat)) (out (kout_poisson_2d 3 ex_flat)) (kr_poisson_2d 3 ex_flat) (kw_poisson_2d 3 ex_flat) (kw_poisson_2d 3 ex_flat) 
    (ran (km_poisson_2d 3 ex_flat) _) (ran (kout_poisson_2d 3 ex_flat) _) _ _ _); vm_compute; reflexivity.
Qed.
Lemma kex_high_poisson_2d : filled_poisson_2d (S := QcS) 0 0 1 1 ex_h (ex_q 2) 1 (4%nat, 0) (5%nat, 0) (6%nat, 0) 0 (8%nat, 0) (ex_bk 3) (ex_so 16 ex_high) (kr_poisson_2d 3 ex_high) (kw_poisson_2d 3 ex_high) .
Proof.
  refine (kgen_poisson_2d 3 (ex_so 16 ex_high) (out (km_poisson_2d 3 ex_high)) (out (kout_poisson_2d 3 ex_high)) (kr_poisson_2d 3 ex_high) (kw_poisson_2d 3 ex_high) (kw_poisson_2d 3 ex_high) 
    (ran (km_poisson_2d 3 ex_high) _) (ran (kout_poisson_2d 3 ex_high) _) _ _ _); vm_compute; reflexivity.
Qed.
Lemma kex_any_poisson_2d : filled_poisson_2d (S := QcS) 0 0 1 1 ex_h (ex_q 2) 1 (4%nat, 0) (5%nat, 0) (6%nat, 0) 0 (8%nat, 0) (ex_bk 3) (ex_so 16 ex_any) (kr_poisson_2d 3 ex_any) (kw_poisson_2d 3 ex_any) .
Proof.
  refine (kgen_poisson_2d 3 (ex_so 16 ex_any) (out (km_poisson_2d 3 ex_any)) (out (kout_poisson_2d 3 ex_any)) (kr_poisson_2d 3 ex_any) (kw_poisson_2d 3 ex_any) (kw_poisson_2d 3 ex_any) 
    (ran (km_poisson_2d 3 ex_any) _) (ran (kout_poisson_2d 3 ex_any) _) _ _ _); vm_compute; reflexivity.
Qed.
Lemma nex_any_poisson_2d : filled_poisson_2d (S := QcS) 0 0 1 1 ex_h (ex_q 2) 1 (4%nat, 0) (5%nat, 0) (6%nat, 0) 0 (8%nat, 0) (ex_bk (-1)) (ex_so 16 ex_any) (kr_poisson_2d (-1) ex_any) (kw_poisson_2d (-1) ex_any) .
Proof.
  refine (kgen_poisson_2d (-1) (ex_so 16 ex_any) (out (km_poisson_2d (-1) ex_any)) (out (kout_poisson_2d (-1) ex_any)) (kr_poisson_2d (-1) ex_any) (kw_poisson_2d (-1) ex_any) (kw_poisson_2d (-1) ex_any) 
    (ran (km_poisson_2d (-1) ex_any) _) (ran (kout_poisson_2d (-1) ex_any) _) _ _ _); vm_compute; reflexivity.
Qed.
Lemma nex_up_poisson_2d : filled_poisson_2d (S := QcS) 0 0 1 1 ex_h (ex_q 2) 1 (4%nat, 0) (5%nat, 0) (6%nat, 0) 0 (8%nat, 0) (ex_bk (-1)) (ex_so 16 ex_up) (kr_poisson_2d (-1) ex_up) (kw_poisson_2d (-1) ex_up) .
Proof.
  refine (kgen_poisson_2d (-1) (ex_so 16 ex_up) (out (km_poisson_2d (-1) ex_up)) (out (kout_poisson_2d (-1) ex_up)) (kr_poisson_2d (-1) ex_up) (kw_poisson_2d (-1) ex_up) (kw_poisson_2d (-1) ex_up) 
    (ran (km_poisson_2d (-1) ex_up) _) (ran (kout_poisson_2d (-1) ex_up) _) _ _ _); vm_compute; reflexivity.
Qed.
Lemma kmore_poisson_2d : forall i j, patch2 0 0 1 1 i j -> (kr_poisson_2d 3 ex_flat i j <= kr_poisson_2d 3 ex_high i j)%Qc.
Proof. intros i j H. apply le. apply (all2 (fun i j => is_le (kr_poisson_2d 3 ex_flat i j) (kr_poisson_2d 3 ex_high i j)) 0 0 1 1); [vm_compute; reflexivity|..]; k_in H. Qed.
Lemma ksame_poisson_2d : forall i j, patch2 0 0 1 1 i j -> kr_poisson_2d (-1) ex_any i j = kr_poisson_2d (-1) ex_up i j.
Proof. intros i j H. apply same. apply (all2 (fun i j => is_eq (kr_poisson_2d (-1) ex_any i j) (kr_poisson_2d (-1) ex_up i j)) 0 0 1 1); [vm_compute; reflexivity|..]; k_in H. Qed.
Lemma kroomy_poisson_2d : roomy 2 (ends2 0 0) (ends2 1 1) (ex_bk 3).
Proof. k_roomy. Qed.
Lemma kzero_poisson_2d : total2 (S := QcS) 0 0 1 1 (kr_poisson_2d (-1) ex_any) = 0%Qc.
Proof. apply same. vm_compute. reflexivity. Qed.

Definition km_v1_3d (last : Z) (u : Z -> Z) : option (mem QcS) := forM (face_calls 3 (ends3 0 0 0) (ends3 1 1 0) (ex_bk last)) (call_set_bc_3d (S := QcS) (ends3 0 0 0) (ends3 1 1 0) ex_h 0 (0%nat, 0) (1%nat, 0) (2%nat, 0) 1 (4%nat, 0)) (ex_so 48 u).
Definition kout_v1_3d (last : Z) (u : Z -> Z) : option (mem QcS) := (m' <- cdf_3d_flux (S := QcS) 0 0 0 1 1 0 ex_h (0%nat, 0) (1%nat, 0) (2%nat, 0) 1 (4%nat, 0) (5%nat, 0) (6%nat, 0) (7%nat, 0) (out (km_v1_3d last u)) ;; cd_apply_3d_diffusion_v1_apply (S := QcS) 0 1 0 1 0 0 (ex_q 0) (ex_q 2) ex_h 0 (3%nat, 0) 1 (4%nat, 0) (5%nat, 0) (6%nat, 0) (7%nat, 0) 0 (8%nat, 0) m').
Definition kr_v1_3d (last : Z) (u : Z -> Z) (i j k : Z) : Qc := value (out (kout_v1_3d last u)) (faddr (mkFa (8%nat, 0) (CELL3d 0 0 0 1 1 0 0)) [i; j; k]).
Definition kw_v1_3d (last : Z) (u : Z -> Z) (i j k : Z) : Qc := value (out (km_v1_3d last u)) (faddr (mkFa (4%nat, 0) (CELL3d 0 0 0 1 1 0 1)) [i; j; k]).
Lemma kgen_v1_3d (last : Z) (m m1 mo : mem QcS) (r w w1 c v0 v1 v2 : Z -> Z -> Z -> Qc) :
  forM (face_calls 3 (ends3 0 0 0) (ends3 1 1 0) (ex_bk last)) (call_set_bc_3d (S := QcS) (ends3 0 0 0) (ends3 1 1 0) ex_h 0 (0%nat, 0) (1%nat, 0) (2%nat, 0) 1 (4%nat, 0)) m = Some m1 ->
  (m' <- cdf_3d_flux (S := QcS) 0 0 0 1 1 0 ex_h (0%nat, 0) (1%nat, 0) (2%nat, 0) 1 (4%nat, 0) (5%nat, 0) (6%nat, 0) (7%nat, 0) m1 ;; cd_apply_3d_diffusion_v1_apply (S := QcS) 0 1 0 1 0 0 (ex_q 0) (ex_q 2) ex_h 0 (3%nat, 0) 1 (4%nat, 0) (5%nat, 0) (6%nat, 0) (7%nat, 0) 0 (8%nat, 0) m') = Some mo ->
  forallb (fun p => (fun i j k => is_num mo (faddr (mkFa (8%nat, 0) (CELL3d 0 0 0 1 1 0 0)) [i; j; k]) (r i j k)) (fst (fst p)) (snd (fst p)) (snd p)) (cells3 0 0 0 1 1 0) = true ->
  forallb (fun p => (fun i j k => is_num m1 (faddr (mkFa (4%nat, 0) (CELL3d 0 0 0 1 1 0 1)) [i; j; k]) (w1 i j k)) (fst (fst p)) (snd (fst p)) (snd p)) (cells3 (-1) (-1) (-1) 2 2 1) = true ->
  forallb (fun p => (fun i j k => is_num m1 (faddr (mkFa (3%nat, 0) (CELL3d 0 0 0 1 1 0 0)) [i; j; k]) (c i j k)) (fst (fst p)) (snd (fst p)) (snd p)) (cells3 0 0 0 1 1 0) = true ->
  forallb (fun p => (fun i j k => is_num m1 (faddr (mkFa (0%nat, 0) (FACE3d0 0 0 0 1 1 0 0)) [i; j; k]) (v0 i j k)) (fst (fst p)) (snd (fst p)) (snd p)) (cells3 0 0 0 2 1 0) = true ->
  forallb (fun p => (fun i j k => is_num m1 (faddr (mkFa (1%nat, 0) (FACE3d1 0 0 0 1 1 0 0)) [j; k; i]) (v1 i j k)) (fst (fst p)) (snd (fst p)) (snd p)) (cells3 0 0 0 1 2 0) = true ->
  forallb (fun p => (fun i j k => is_num m1 (faddr (mkFa (2%nat, 0) (FACE3d2 0 0 0 1 1 0 0)) [k; i; j]) (v2 i j k)) (fst (fst p)) (snd (fst p)) (snd p)) (cells3 0 0 0 1 1 1) = true ->
  forallb (fun p => (fun i j k => is_num m (faddr (mkFa (4%nat, 0) (CELL3d 0 0 0 1 1 0 1)) [i; j; k]) (w i j k)) (fst (fst p)) (snd (fst p)) (snd p)) (cells3 0 0 0 1 1 0) = true ->
  filled_v1_3d (S := QcS) 0 0 0 1 1 0 ex_h (ex_q 2) (0%nat, 0) (1%nat, 0) (2%nat, 0) 1 (4%nat, 0) (5%nat, 0) (6%nat, 0) (7%nat, 0) (ex_q 0) 0 (3%nat, 0) 0 (8%nat, 0) (ex_bk last) m r w c v0 v1 v2.
Proof.
  intros E H H0 H1 H2 H3 H4 H5 H6. split; [lia|]. split; [k_apart|]. split; [intros i j k Ii Ij Ik; apply num; exact (all3 _ _ _ _ _ _ _ H6 i j k Ii Ij Ik)|]. exists m1, w1. split; [exact E|].
  split; [lia|]. split; [lia|]. split; [k_apart|]. split; [k_apart|]. split; [k_apart|]. split; [k_apart|].
  exists mo. split; [exact H|].
  split; [intros i j k Ii Ij Ik; apply num; exact (all3 _ _ _ _ _ _ _ H0 i j k Ii Ij Ik)|].
  split; [intros i j k Ii Ij Ik; apply num; exact (all3 _ _ _ _ _ _ _ H1 i j k Ii Ij Ik)|].
  split; [intros i j k Ii Ij Ik; apply num; exact (all3 _ _ _ _ _ _ _ H2 i j k Ii Ij Ik)|].
  split; [intros i j k Ii Ij Ik; apply num; exact (all3 _ _ _ _ _ _ _ H3 i j k Ii Ij Ik)|].
  split; [intros i j k Ii Ij Ik; apply num; exact (all3 _ _ _ _ _ _ _ H4 i j k Ii Ij Ik)|].
  intros i j k Ii Ij Ik; apply num; exact (all3 _ _ _ _ _ _ _ H5 i j k Ii Ij Ik).
Qed.
Lemma kex_flat_v1_3d : filled_v1_3d (S := QcS) 0 0 0 1 1 0 ex_h (ex_q 2) (0%nat, 0) (1%nat, 0) (2%nat, 0) 1 (4%nat, 0) (5%nat, 0) (6%nat, 0) (7%nat, 0) (ex_q 0) 0 (3%nat, 0) 0 (8%nat, 0) (ex_bk 5) (ex_so 48 ex_flat) (kr_v1_3d 5 ex_flat) (kw_v1_3d 5 ex_flat) c_v1_3d v0_v1_3d v1_v1_3d v2_v1_3d.
Proof.
  refine (kgen_v1_3d 5 (ex_so 48 ex_flat) (out (km_v1_3d 5 ex_flat)) (out (kout_v1_3d 5 ex_flat)) (kr_v1_3d 5 ex_flat) (kw_v1_3d 5 ex_flat) (kw_v1_3d 5 ex_flat) c_v1_3d v0_v1_3d v1_v1_3d v2_v1_3d
    (ran (km_v1_3d 5 ex_flat) _) (ran (kout_v1_3d 5 ex_flat) _) _ _ _ _ _ _ _); vm_compute; reflexivity.
Qed.
Lemma kex_high_v1_3d : filled_v1_3d (S := QcS) 0 0 0 1 1 0 ex_h (ex_q 2) (0%nat, 0) (1%nat, 0) (2%nat, 0) 1 (4%nat, 0) (5%nat, 0) (6%nat, 0) (7%nat, 0) (ex_q 0) 0 (3%nat, 0) 0 (8%nat, 0) (ex_bk 5) (ex_so 48 ex_high) (kr_v1_3d 5 ex_high) (kw_v1_3d 5 ex_high) c_v1_3d v0_v1_3d v1_v1_3d v2_v1_3d.
Proof.
  refine (kgen_v1_3d 5 (ex_so 48 ex_high) (out (km_v1_3d 5 ex_high)) (out (kout_v1_3d 5 ex_high)) (kr_v1_3d 5 ex_high) (kw_v1_3d 5 ex_high) (kw_v1_3d 5 ex_high) c_v1_3d v0_v1_3d v1_v1_3d v2_v1_3d
    (ran (km_v1_3d 5 ex_high) _) (ran (kout_v1_3d 5 ex_high) _) _ _ _ _ _ _ _); vm_compute; reflexivity.
Qed.
Lemma kex_any_v1_3d : filled_v1_3d (S := QcS) 0 0 0 1 1 0 ex_h (ex_q 2) (0%nat, 0) (1%nat, 0) (2%nat, 0) 1 (4%nat, 0) (5%nat, 0) (6%nat, 0) (7%nat, 0) (ex_q 0) 0 (3%nat, 0) 0 (8%nat, 0) (ex_bk 5) (ex_so 48 ex_any) (kr_v1_3d 5 ex_any) (kw_v1_3d 5 ex_any) c_v1_3d v0_v1_3d v1_v1_3d v2_v1_3d.
Proof.
  refine (kgen_v1_3d 5 (ex_so 48 ex_any) (out (km_v1_3d 5 ex_any)) (out (kout_v1_3d 5 ex_any)) (kr_v1_3d 5 ex_any) (kw_v1_3d 5 ex_any) (kw_v1_3d 5 ex_any) c_v1_3d v0_v1_3d v1_v1_3d v2_v1_3d
    (ran (km_v1_3d 5 ex_any) _) (ran (kout_v1_3d 5 ex_any) _) _ _ _ _ _ _ _); vm_compute; reflexivity.
Qed.
Lemma nex_any_v1_3d : filled_v1_3d (S := QcS) 0 0 0 1 1 0 ex_h (ex_q 2) (0%nat, 0) (1%nat, 0) (2%nat, 0) 1 (4%nat, 0) (5%nat, 0) (6%nat, 0) (7%nat, 0) (ex_q 0) 0 (3%nat, 0) 0 (8%nat, 0) (ex_bk (-1)) (ex_so 48 ex_any) (kr_v1_3d (-1) ex_any) (kw_v1_3d (-1) ex_any) c_v1_3d v0_v1_3d v1_v1_3d v2_v1_3d.
Proof.
  refine (kgen_v1_3d (-1) (ex_so 48 ex_any) (out (km_v1_3d (-1) ex_any)) (out (kout_v1_3d (-1) ex_any)) (kr_v1_3d (-1) ex_any) (kw_v1_3d (-1) ex_any) (kw_v1_3d (-1) ex_any) c_v1_3d v0_v1_3d v1_v1_3d v2_v1_3d
    (ran (km_v1_3d (-1) ex_any) _) (ran (kout_v1_3d (-1) ex_any) _) _ _ _ _ _ _ _); vm_compute; reflexivity.
Qed.
Lemma nex_up_v1_3d : filled_v1_3d (S := QcS) 0 0 0 1 1 0 ex_h (ex_q 2) (0%nat, 0) (1%nat, 0) (2%nat, 0) 1 (4%nat, 0) (5%nat, 0) (6%nat, 0) (7%nat, 0) (ex_q 0) 0 (3%nat, 0) 0 (8%nat, 0) (ex_bk (-1)) (ex_so 48 ex_up) (kr_v1_3d (-1) ex_up) (kw_v1_3d (-1) ex_up) c_v1_3d v0_v1_3d v1_v1_3d v2_v1_3d.
Proof.
  refine (kgen_v1_3d (-1) (ex_so 48 ex_up) (out (km_v1_3d (-1) ex_up)) (out (kout_v1_3d (-1) ex_up)) (kr_v1_3d (-1) ex_up) (kw_v1_3d (-1) ex_up) (kw_v1_3d (-1) ex_up) c_v1_3d v0_v1_3d v1_v1_3d v2_v1_3d
    (ran (km_v1_3d (-1) ex_up) _) (ran (kout_v1_3d (-1) ex_up) _) _ _ _ _ _ _ _); vm_compute; reflexivity.
Qed.
Lemma kmore_v1_3d : forall i j k, patch3 0 0 0 1 1 0 i j k -> (kr_v1_3d 5 ex_flat i j k <= kr_v1_3d 5 ex_high i j k)%Qc.
Proof. intros i j k H. apply le. apply (all3 (fun i j k => is_le (kr_v1_3d 5 ex_flat i j k) (kr_v1_3d 5 ex_high i j k)) 0 0 0 1 1 0); [vm_compute; reflexivity|..]; k_in H. Qed.
Lemma ksame_v1_3d : forall i j k, patch3 0 0 0 1 1 0 i j k -> kr_v1_3d (-1) ex_any i j k = kr_v1_3d (-1) ex_up i j k.
Proof. intros i j k H. apply same. apply (all3 (fun i j k => is_eq (kr_v1_3d (-1) ex_any i j k) (kr_v1_3d (-1) ex_up i j k)) 0 0 0 1 1 0); [vm_compute; reflexivity|..]; k_in H. Qed.
Lemma kroomy_v1_3d : roomy 3 (ends3 0 0 0) (ends3 1 1 0) (ex_bk 5).
Proof. k_roomy. Qed.
Lemma kzero_v1_3d : total3 (S := QcS) 0 0 0 1 1 0 (kr_v1_3d (-1) ex_any) = 0%Qc.
Proof. apply same. vm_compute. reflexivity. Qed.
Lemma kv0_v1_3d : forall i j k, 0 <= i <= 1 + 1 -> 0 <= j <= 1 -> 0 <= k <= 0 -> (0 < v0_v1_3d i j k)%Qc.
Proof. intros i j k Ii Ij Ik. apply lt. apply (all3 (fun i j k => is_lt 0 (v0_v1_3d i j k)) 0 0 0 2 1 0); [vm_compute; reflexivity|..]; lia. Qed.
Lemma kv1_v1_3d : forall i j k, 0 <= i <= 1 -> 0 <= j <= 1 + 1 -> 0 <= k <= 0 -> (0 < v1_v1_3d i j k)%Qc.
Proof. intros i j k Ii Ij Ik. apply lt. apply (all3 (fun i j k => is_lt 0 (v1_v1_3d i j k)) 0 0 0 1 2 0); [vm_compute; reflexivity|..]; lia. Qed.
Lemma kv2_v1_3d : forall i j k, 0 <= i <= 1 -> 0 <= j <= 1 -> 0 <= k <= 0 + 1 -> (0 < v2_v1_3d i j k)%Qc.
Proof. intros i j k Ii Ij Ik. apply lt. apply (all3 (fun i j k => is_lt 0 (v2_v1_3d i j k)) 0 0 0 1 1 1); [vm_compute; reflexivity|..]; lia. Qed.

Definition km_v2_3d (last : Z) (u : Z -> Z) : option (mem QcS) := forM (face_calls 3 (ends3 0 0 0) (ends3 1 1 0) (ex_bk last)) (call_set_bc_3d (S := QcS) (ends3 0 0 0) (ends3 1 1 0) ex_h 0 (0%nat, 0) (1%nat, 0) (2%nat, 0) 1 (4%nat, 0)) (ex_so 48 u).
Definition kout_v2_3d (last : Z) (u : Z -> Z) : option (mem QcS) := (m' <- cdf_3d_flux (S := QcS) 0 0 0 1 1 0 ex_h (0%nat, 0) (1%nat, 0) (2%nat, 0) 1 (4%nat, 0) (5%nat, 0) (6%nat, 0) (7%nat, 0) (out (km_v2_3d last u)) ;; cd_apply_3d_diffusion_v2_apply (S := QcS) 0 1 0 1 0 0 (ex_q 0) (ex_q 2) ex_h 1 (4%nat, 0) (5%nat, 0) (6%nat, 0) (7%nat, 0) 0 (8%nat, 0) m').
Definition kr_v2_3d (last : Z) (u : Z -> Z) (i j k : Z) : Qc := value (out (kout_v2_3d last u)) (faddr (mkFa (8%nat, 0) (CELL3d 0 0 0 1 1 0 0)) [i; j; k]).
Definition kw_v2_3d (last : Z) (u : Z -> Z) (i j k : Z) : Qc := value (out (km_v2_3d last u)) (faddr (mkFa (4%nat, 0) (CELL3d 0 0 0 1 1 0 1)) [i; j; k]).
Lemma kgen_v2_3d (last : Z) (m m1 mo : mem QcS) (r w w1 v0 v1 v2 : Z -> Z -> Z -> Qc) :
  forM (face_calls 3 (ends3 0 0 0) (ends3 1 1 0) (ex_bk last)) (call_set_bc_3d (S := QcS) (ends3 0 0 0) (ends3 1 1 0) ex_h 0 (0%nat, 0) (1%nat, 0) (2%nat, 0) 1 (4%nat, 0)) m = Some m1 ->
  (m' <- cdf_3d_flux (S := QcS) 0 0 0 1 1 0 ex_h (0%nat, 0) (1%nat, 0) (2%nat, 0) 1 (4%nat, 0) (5%nat, 0) (6%nat, 0) (7%nat, 0) m1 ;; cd_apply_3d_diffusion_v2_apply (S := QcS) 0 1 0 1 0 0 (ex_q 0) (ex_q 2) ex_h 1 (4%nat, 0) (5%nat, 0) (6%nat, 0) (7%nat, 0) 0 (8%nat, 0) m') = Some mo ->
  forallb (fun p => (fun i j k => is_num mo (faddr (mkFa (8%nat, 0) (CELL3d 0 0 0 1 1 0 0)) [i; j; k]) (r i j k)) (fst (fst p)) (snd (fst p)) (snd p)) (cells3 0 0 0 1 1 0) = true ->
  forallb (fun p => (fun i j k => is_num m1 (faddr (mkFa (4%nat, 0) (CELL3d 0 0 0 1 1 0 1)) [i; j; k]) (w1 i j k)) (fst (fst p)) (snd (fst p)) (snd p)) (cells3 (-1) (-1) (-1) 2 2 1) = true ->
  forallb (fun p => (fun i j k => is_num m1 (faddr (mkFa (0%nat, 0) (FACE3d0 0 0 0 1 1 0 0)) [i; j; k]) (v0 i j k)) (fst (fst p)) (snd (fst p)) (snd p)) (cells3 0 0 0 2 1 0) = true ->
  forallb (fun p => (fun i j k => is_num m1 (faddr (mkFa (1%nat, 0) (FACE3d1 0 0 0 1 1 0 0)) [j; k; i]) (v1 i j k)) (fst (fst p)) (snd (fst p)) (snd p)) (cells3 0 0 0 1 2 0) = true ->
  forallb (fun p => (fun i j k => is_num m1 (faddr (mkFa (2%nat, 0) (FACE3d2 0 0 0 1 1 0 0)) [k; i; j]) (v2 i j k)) (fst (fst p)) (snd (fst p)) (snd p)) (cells3 0 0 0 1 1 1) = true ->
  forallb (fun p => (fun i j k => is_num m (faddr (mkFa (4%nat, 0) (CELL3d 0 0 0 1 1 0 1)) [i; j; k]) (w i j k)) (fst (fst p)) (snd (fst p)) (snd p)) (cells3 0 0 0 1 1 0) = true ->
  filled_v2_3d (S := QcS) 0 0 0 1 1 0 ex_h (ex_q 2) (0%nat, 0) (1%nat, 0) (2%nat, 0) 1 (4%nat, 0) (5%nat, 0) (6%nat, 0) (7%nat, 0) (ex_q 0) 0 (8%nat, 0) (ex_bk last) m r w v0 v1 v2.
Proof.
  intros E H H0 H1 H2 H3 H4 H5. split; [lia|]. split; [k_apart|]. split; [intros i j k Ii Ij Ik; apply num; exact (all3 _ _ _ _ _ _ _ H5 i j k Ii Ij Ik)|]. exists m1, w1. split; [exact E|].
  split; [lia|]. split; [lia|]. split; [k_apart|]. split; [k_apart|]. split; [k_apart|]. split; [k_apart|].
  exists mo. split; [exact H|].
  split; [intros i j k Ii Ij Ik; apply num; exact (all3 _ _ _ _ _ _ _ H0 i j k Ii Ij Ik)|].
  split; [intros i j k Ii Ij Ik; apply num; exact (all3 _ _ _ _ _ _ _ H1 i j k Ii Ij Ik)|].
  split; [intros i j k Ii Ij Ik; apply num; exact (all3 _ _ _ _ _ _ _ H2 i j k Ii Ij Ik)|].
  split; [intros i j k Ii Ij Ik; apply num; exact (all3 _ _ _ _ _ _ _ H3 i j k Ii Ij Ik)|].
  intros i j k Ii Ij Ik; apply num; exact (all3 _ _ _ _ _ _ _ H4 i j k Ii Ij Ik).
Qed.
Lemma kex_flat_v2_3d : filled_v2_3d (S := QcS) 0 0 0 1 1 0 ex_h (ex_q 2) (0%nat, 0) (1%nat, 0) (2%nat, 0) 1 (4%nat, 0) (5%nat, 0) (6%nat, 0) (7%nat, 0) (ex_q 0) 0 (8%nat, 0) (ex_bk 5) (ex_so 48 ex_flat) (kr_v2_3d 5 ex_flat) (kw_v2_3d 5 ex_flat) v0_v2_3d v1_v2_3d v2_v2_3d.
Proof.
  refine (kgen_v2_3d 5 (ex_so 48 ex_flat) (out (km_v2_3d 5 ex_flat)) (out (kout_v2_3d 5 ex_flat)) (kr_v2_3d 5 ex_flat) (kw_v2_3d 5 ex_flat) (kw_v2_3d 5 ex_flat) v0_v2_3d v1_v2_3d v2_v2_3d
    (ran (km_v2_3d 5 ex_flat) _) (ran (kout_v2_3d 5 ex_flat) _) _ _ _ _ _ _); vm_compute; reflexivity.
Qed.
Lemma kex_high_v2_3d : filled_v2_3d (S := QcS) 0 0 0 1 1 0 ex_h (ex_q 2) (0%nat, 0) (1%nat, 0) (2%nat, 0) 1 (4%nat, 0) (5%nat, 0) (6%nat, 0) (7%nat, 0) (ex_q 0) 0 (8%nat, 0) (ex_bk 5) (ex_so 48 ex_high) (kr_v2_3d 5 ex_high) (kw_v2_3d 5 ex_high) v0_v2_3d v1_v2_3d v2_v2_3d.
Proof.
  refine (kgen_v2_3d 5 (ex_so 48 ex_high) (out (km_v2_3d 5 ex_high)) (out (kout_v2_3d 5 ex_high)) (kr_v2_3d 5 ex_high) (kw_v2_3d 5 ex_high) (kw_v2_3d 5 ex_high) v0_v2_3d v1_v2_3d v2_v2_3d
    (ran (km_v2_3d 5 ex_high) _) (ran (kout_v2_3d 5 ex_high) _) _ _ _ _ _ _); vm_compute; reflexivity.
Qed.
Lemma kex_any_v2_3d : filled_v2_3d (S := QcS) 0 0 0 1 1 0 ex_h (ex_q 2) (0%nat, 0) (1%nat, 0) (2%nat, 0) 1 (4%nat, 0) (5%nat, 0) (6%nat, 0) (7%nat, 0) (ex_q 0) 0 (8%nat, 0) (ex_bk 5) (ex_so 48 ex_any) (kr_v2_3d 5 ex_any) (kw_v2_3d 5 ex_any) v0_v2_3d v1_v2_3d v2_v2_3d.
Proof.
  refine (kgen_v2_3d 5 (ex_so 48 ex_any) (out (km_v2_3d 5 ex_any)) (out (kout_v2_3d 5 ex_any)) (kr_v2_3d 5 ex_any) (kw_v2_3d 5 ex_any) (kw_v2_3d 5 ex_any) v0_v2_3d v1_v2_3d v2_v2_3d
    (ran (km_v2_3d 5 ex_any) _) (ran (kout_v2_3d 5 ex_any) _) _ _ _ _ _ _); vm_compute; reflexivity.
Qed.
Lemma nex_any_v2_3d : filled_v2_3d (S := QcS) 0 0 0 1 1 0 ex_h (ex_q 2) (0%nat, 0) (1%nat, 0) (2%nat, 0) 1 (4%nat, 0) (5%nat, 0) (6%nat, 0) (7%nat, 0) (ex_q 0) 0 (8%nat, 0) (ex_bk (-1)) (ex_so 48 ex_any) (kr_v2_3d (-1) ex_any) (kw_v2_3d (-1) ex_any) v0_v2_3d v1_v2_3d v2_v2_3d.
Proof.
  refine (kgen_v2_3d (-1) (ex_so 48 ex_any) (out (km_v2_3d (-1) ex_any)) (out (kout_v2_3d (-1) ex_any)) (kr_v2_3d (-1) ex_any) (kw_v2_3d (-1) ex_any) (kw_v2_3d (-1) ex_any) v0_v2_3d v1_v2_3d v2_v2_3d
    (ran (km_v2_3d (-1) ex_any) _) (ran (kout_v2_3d (-1) ex_any) _) _ _ _ _ _ _); vm_compute; reflexivity.
Qed.
Lemma nex_up_v2_3d : filled_v2_3d (S := QcS) 0 0 0 1 1 0 ex_h (ex_q 2) (0%nat, 0) (1%nat, 0) (2%nat, 0) 1 (4%nat, 0) (5%nat, 0) (6%nat, 0) (7%nat, 0) (ex_q 0) 0 (8%nat, 0) (ex_bk (-1)) (ex_so 48 ex_up) (kr_v2_3d (-1) ex_up) (kw_v2_3d (-1) ex_up) v0_v2_3d v1_v2_3d v2_v2_3d.
Proof.
  refine (kgen_v2_3d (-1) (ex_so 48 ex_up) (out (km_v2_3d (-1) ex_up)) (out (kout_v2_3d (-1) ex_up)) (kr_v2_3d (-1) ex_up) (kw_v2_3d (-1) ex_up) (kw_v2_3d (-1) ex_up) v0_v2_3d v1_v2_3d v2_v2_3d
    (ran (km_v2_3d (-1) ex_up) _) (ran (kout_v2_3d (-1) ex_up) _) _ _ _ _ _ _); vm_compute; reflexivity.
Qed.
Lemma kmore_v2_3d : forall i j k, patch3 0 0 0 1 1 0 i j k -> (kr_v2_3d 5 ex_flat i j k <= kr_v2_3d 5 ex_high i j k)%Qc.
Proof. intros i j k H. apply le. apply (all3 (fun i j k => is_le (kr_v2_3d 5 ex_flat i j k) (kr_v2_3d 5 ex_high i j k)) 0 0 0 1 1 0); [vm_compute; reflexivity|..]; k_in H. Qed.
Lemma ksame_v2_3d : forall i j k, patch3 0 0 0 1 1 0 i j k -> kr_v2_3d (-1) ex_any i j k = kr_v2_3d (-1) ex_up i j k.
Proof. intros i j k H. apply same. apply (all3 (fun i j k => is_eq (kr_v2_3d (-1) ex_any i j k) (kr_v2_3d (-1) ex_up i j k)) 0 0 0 1 1 0); [vm_compute; reflexivity|..]; k_in H. Qed.
Lemma kroomy_v2_3d : roomy 3 (ends3 0 0 0) (ends3 1 1 0) (ex_bk 5).
Proof. k_roomy. Qed.
Lemma kzero_v2_3d : total3 (S := QcS) 0 0 0 1 1 0 (kr_v2_3d (-1) ex_any) = 0%Qc.
Proof. apply same. vm_compute. reflexivity. Qed.
Lemma kv0_v2_3d : forall i j k, 0 <= i <= 1 + 1 -> 0 <= j <= 1 -> 0 <= k <= 0 -> (0 < v0_v2_3d i j k)%Qc.
Proof. intros i j k Ii Ij Ik. apply lt. apply (all3 (fun i j k => is_lt 0 (v0_v2_3d i j k)) 0 0 0 2 1 0); [vm_compute; reflexivity|..]; lia. Qed.
Lemma kv1_v2_3d : forall i j k, 0 <= i <= 1 -> 0 <= j <= 1 + 1 -> 0 <= k <= 0 -> (0 < v1_v2_3d i j k)%Qc.
Proof. intros i j k Ii Ij Ik. apply lt. apply (all3 (fun i j k => is_lt 0 (v1_v2_3d i j k)) 0 0 0 1 2 0); [vm_compute; reflexivity|..]; lia. Qed.
Lemma kv2_v2_3d : forall i j k, 0 <= i <= 1 -> 0 <= j <= 1 -> 0 <= k <= 0 + 1 -> (0 < v2_v2_3d i j k)%Qc.
Proof. intros i j k Ii Ij Ik. apply lt. apply (all3 (fun i j k => is_lt 0 (v2_v2_3d i j k)) 0 0 0 1 1 1); [vm_compute; reflexivity|..]; lia. Qed.

Definition km_poisson_3d (last : Z) (u : Z -> Z) : option (mem QcS) := forM (face_calls 3 (ends3 0 0 0) (ends3 1 1 0) (ex_bk last)) (call_set_poisson_bc_3d (S := QcS) (ends3 0 0 0) (ends3 1 1 0) ex_h 1 (4%nat, 0)) (ex_so 48 u).
Definition kout_poisson_3d (last : Z) (u : Z -> Z) : option (mem QcS) := (m' <- cdf_3d_poisson_flux (S := QcS) 0 0 0 1 1 0 ex_h 1 (4%nat, 0) (5%nat, 0) (6%nat, 0) (7%nat, 0) (out (km_poisson_3d last u)) ;; cd_apply_3d_poisson_v2_apply (S := QcS) 0 1 0 1 0 0 (ex_q 2) ex_h (5%nat, 0) (6%nat, 0) (7%nat, 0) 0 (8%nat, 0) m').
Definition kr_poisson_3d (last : Z) (u : Z -> Z) (i j k : Z) : Qc := value (out (kout_poisson_3d last u)) (faddr (mkFa (8%nat, 0) (CELL3d 0 0 0 1 1 0 0)) [i; j; k]).
Definition kw_poisson_3d (last : Z) (u : Z -> Z) (i j k : Z) : Qc := value (out (km_poisson_3d last u)) (faddr (mkFa (4%nat, 0) (CELL3d 0 0 0 1 1 0 1)) [i; j; k]).
Lemma kgen_poisson_3d (last : Z) (m m1 mo : mem QcS) (r w w1 : Z -> Z -> Z -> Qc) :
  forM (face_calls 3 (ends3 0 0 0) (ends3 1 1 0) (ex_bk last)) (call_set_poisson_bc_3d (S := QcS) (ends3 0 0 0) (ends3 1 1 0) ex_h 1 (4%nat, 0)) m = Some m1 ->
  (m' <- cdf_3d_poisson_flux (S := QcS) 0 0 0 1 1 0 ex_h 1 (4%nat, 0) (5%nat, 0) (6%nat, 0) (7%nat, 0) m1 ;; cd_apply_3d_poisson_v2_apply (S := QcS) 0 1 0 1 0 0 (ex_q 2) ex_h (5%nat, 0) (6%nat, 0) (7%nat, 0) 0 (8%nat, 0) m') = Some mo ->
  forallb (fun p => (fun i j k => is_num mo (faddr (mkFa (8%nat, 0) (CELL3d 0 0 0 1 1 0 0)) [i; j; k]) (r i j k)) (fst (fst p)) (snd (fst p)) (snd p)) (cells3 0 0 0 1 1 0) = true ->
  forallb (fun p => (fun i j k => is_num m1 (faddr (mkFa (4%nat, 0) (CELL3d 0 0 0 1 1 0 1)) [i; j; k]) (w1 i j k)) (fst (fst p)) (snd (fst p)) (snd p)) (cells3 (-1) (-1) (-1) 2 2 1) = true ->
  forallb (fun p => (fun i j k => is_num m (faddr (mkFa (4%nat, 0) (CELL3d 0 0 0 1 1 0 1)) [i; j; k]) (w i j k)) (fst (fst p)) (snd (fst p)) (snd p)) (cells3 0 0 0 1 1 0) = true ->
  filled_poisson_3d (S := QcS) 0 0 0 1 1 0 ex_h (ex_q 2) 1 (4%nat, 0) (5%nat, 0) (6%nat, 0) (7%nat, 0) 0 (8%nat, 0) (ex_bk last) m r w .
Proof.
  intros E H H0 H1 H2. split; [lia|]. split; [intros i j k Ii Ij Ik; apply num; exact (all3 _ _ _ _ _ _ _ H2 i j k Ii Ij Ik)|]. exists m1, w1. split; [exact E|].
  split; [lia|]. split; [lia|]. split; [k_apart|]. split; [k_apart|]. split; [k_apart|]. split; [k_apart|].
  exists mo. split; [exact H|].
  split; [intros i j k Ii Ij Ik; apply num; exact (all3 _ _ _ _ _ _ _ H0 i j k Ii Ij Ik)|].
  intros i j k Ii Ij Ik; apply num; exact (all3 _ _ _ _ _ _ _ H1 i j k Ii Ij Ik).
Qed.
Lemma kex_flat_poisson_3d : filled_poisson_3d (S := QcS) 0 0 0 1 1 0 ex_h (ex_q 2) 1 (4%nat, 0) (5%nat, 0) (6%nat, 0) (7%nat, 0) 0 (8%nat, 0) (ex_bk 5) (ex_so 48 ex_flat) (kr_poisson_3d 5 ex_flat) (kw_poisson_3d 5 ex_flat) .
Proof.
  refine (kgen_poisson_3d 5 (ex_so 48 ex_flat) (out (km_poisson_3d 5 ex_flat)) (out (kout_poisson_3d 5 ex_flat)) (kr_poisson_3d 5 ex_flat) (kw_poisson_3d 5 ex_flat) (kw_poisson_3d 5 ex_flat) 
    (ran (km_poisson_3d 5 ex_flat) _) (ran (kout_poisson_3d 5 ex_flat) _) _ _ _); vm_compute; reflexivity.
Qed.
Lemma kex_high_poisson_3d : filled_poisson_3d (S := QcS) 0 0 0 1 1 0 ex_h (ex_q 2) 1 (4%nat, 0) (5%nat, 0) (6%nat, 0) (7%nat, 0) 0 (8%nat, 0) (ex_bk 5) (ex_so 48 ex_high) (kr_poisson_3d 5 ex_high) (kw_poisson_3d 5 ex_high) .
Proof.
  refine (kgen_poisson_3d 5 (ex_so 48 ex_high) (out (km_poisson_3d 5 ex_high)) (out (kout_poisson_3d 5 ex_high)) (kr_poisson_3d 5 ex_high) (kw_poisson_3d 5 ex_high) (kw_poisson_3d 5 ex_high) 
    (ran (km_poisson_3d 5 ex_high) _) (ran (kout_poisson_3d 5 ex_high) _) _ _ _); vm_compute; reflexivity.
Qed.
Lemma kex_any_poisson_3d : filled_poisson_3d (S := QcS) 0 0 0 1 1 0 ex_h (ex_q 2) 1 (4%nat, 0) (5%nat, 0) (6%nat, 0) (7%nat, 0) 0 (8%nat, 0) (ex_bk 5) (ex_so 48 ex_any) (kr_poisson_3d 5 ex_any) (kw_poisson_3d 5 ex_any) .
Proof.
  refine (kgen_poisson_3d 5 (ex_so 48 ex_any) (out (km_poisson_3d 5 ex_any)) (out (kout_poisson_3d 5 ex_any)) (kr_poisson_3d 5 ex_any) (kw_poisson_3d 5 ex_any) (kw_poisson_3d 5 ex_any) 
    (ran (km_poisson_3d 5 ex_any) _) (ran (kout_poisson_3d 5 ex_any) _) _ _ _); vm_compute; reflexivity.
Qed.
Lemma nex_any_poisson_3d : filled_poisson_3d (S := QcS) 0 0 0 1 1 0 ex_h (ex_q 2) 1 (4%nat, 0) (5%nat, 0) (6%nat, 0) (7%nat, 0) 0 (8%nat, 0) (ex_bk (-1)) (ex_so 48 ex_any) (kr_poisson_3d (-1) ex_any) (kw_poisson_3d (-1) ex_any) .
Proof.
  refine (kgen_poisson_3d (-1) (ex_so 48 ex_any) (out (km_poisson_3d (-1) ex_any)) (out (kout_poisson_3d (-1) ex_any)) (kr_poisson_3d (-1) ex_any) (kw_poisson_3d (-1) ex_any) (kw_poisson_3d (-1) ex_any) 
    (ran (km_poisson_3d (-1) ex_any) _) (ran (kout_poisson_3d (-1) ex_any) _) _ _ _); vm_compute; reflexivity.
Qed.
Lemma nex_up_poisson_3d : filled_poisson_3d (S := QcS) 0 0 0 1 1 0 ex_h (ex_q 2) 1 (4%nat, 0) (5%nat, 0) (6%nat, 0) (7%nat, 0) 0 (8%nat, 0) (ex_bk (-1)) (ex_so 48 ex_up) (kr_poisson_3d (-1) ex_up) (kw_poisson_3d (-1) ex_up) .
Proof.
  refine (kgen_poisson_3d (-1) (ex_so 48 ex_up) (out (km_poisson_3d (-1) ex_up)) (out (kout_poisson_3d (-1) ex_up)) (kr_poisson_3d (-1) ex_up) (kw_poisson_3d (-1) ex_up) (kw_poisson_3d (-1) ex_up) 
    (ran (km_poisson_3d (-1) ex_up) _) (ran (kout_poisson_3d (-1) ex_up) _) _ _ _); vm_compute; reflexivity.
Qed.
Lemma kmore_poisson_3d : forall i j k, patch3 0 0 0 1 1 0 i j k -> (kr_poisson_3d 5 ex_flat i j k <= kr_poisson_3d 5 ex_high i j k)%Qc.
Proof. intros i j k H. apply le. apply (all3 (fun i j k => is_le (kr_poisson_3d 5 ex_flat i j k) (kr_poisson_3d 5 ex_high i j k)) 0 0 0 1 1 0); [vm_compute; reflexivity|..]; k_in H. Qed.
Lemma ksame_poisson_3d : forall i j k, patch3 0 0 0 1 1 0 i j k -> kr_poisson_3d (-1) ex_any i j k = kr_poisson_3d (-1) ex_up i j k.
Proof. intros i j k H. apply same. apply (all3 (fun i j k => is_eq (kr_poisson_3d (-1) ex_any i j k) (kr_poisson_3d (-1) ex_up i j k)) 0 0 0 1 1 0); [vm_compute; reflexivity|..]; k_in H. Qed.
Lemma kroomy_poisson_3d : roomy 3 (ends3 0 0 0) (ends3 1 1 0) (ex_bk 5).
Proof. k_roomy. Qed.
Lemma kzero_poisson_3d : total3 (S := QcS) 0 0 0 1 1 0 (kr_poisson_3d (-1) ex_any) = 0%Qc.
Proof. apply same. vm_compute. reflexivity. Qed.

