(** * For the examples of PropertiesSolve *)

From Coq Require Import QArith Qcanon.
From Verif Require Import Base LemCells FortranBase SpecKernel Instances KernelsFlux KernelsApply SpecSolve LemSolve LemSolveOp LemSolveMem.
Import ListNotations.
Open Scope Z_scope.

(** Ten allocations of [n] elements: 4 holds [u], 3 positive numbers, the others twos. *)
Definition ex_so (n : nat) (u : Z -> Z) : mem QcS :=
  mkMem (map (fun a => map (fun k => (lit (if Nat.eqb a 4 then u (Z.of_nat k) else if Nat.eqb a 3 then 1 + Z.of_nat k mod 5 else 2) : QcS)) (seq 0 n)) (seq 0 10)) [].
Definition ex_h : Z -> Qc := fun d => Q2Qc (Qmake (d + 1) 2).
Definition ex_q (z : Z) : Qc := lit (s := QcS) z.
(** Any numbers, and numbers with negative second differences. *)
Definition ex_any (t : Z) : Z := (t * t * 5) mod 7 - 3.
Definition ex_bump (t : Z) : Z := 5000 - t * t.

Definition out (r : option (mem QcS)) : mem QcS := match r with Some m => m | None => mkMem [] [] end.
Definition is_some {A} (r : option A) : bool := match r with Some _ => true | None => false end.
Lemma ran r : is_some r = true -> r = Some (out r).
Proof. destruct r; [reflexivity|discriminate]. Qed.
Definition is_num (m : mem QcS) (p : ptr) (x : Qc) : bool := match load m p with Some y => Qeq_bool (this x) (this y) | None => false end.
Lemma num m p x : is_num m p x = true -> load m p = Some (x : QcS).
Proof.
  unfold is_num. destruct (load m p) as [y|]; [|discriminate]. intros H. apply Qeq_bool_iff in H. f_equal.
  symmetry. now apply Qc_is_canon.
Qed.

Lemma all1 (f : Z -> bool) i0 i1 : forallb f (cells1 i0 i1) = true -> forall i, i0 <= i <= i1 -> f i = true.
Proof. intros H i Hi. apply (proj1 (forallb_forall _ _) H). apply in_cells1. exact Hi. Qed.
Lemma all2 (f : Z -> Z -> bool) i0 j0 i1 j1 : forallb (fun p => f (fst p) (snd p)) (cells2 i0 j0 i1 j1) = true ->
  forall i j, i0 <= i <= i1 -> j0 <= j <= j1 -> f i j = true.
Proof. intros H i j Hi Hj. apply (proj1 (forallb_forall _ _) H (i, j)). apply in_cells2. split; assumption. Qed.
Lemma all3 (f : Z -> Z -> Z -> bool) i0 j0 k0 i1 j1 k1 : forallb (fun p => f (fst (fst p)) (snd (fst p)) (snd p)) (cells3 i0 j0 k0 i1 j1 k1) = true ->
  forall i j k, i0 <= i <= i1 -> j0 <= j <= j1 -> k0 <= k <= k1 -> f i j k = true.
Proof. intros H i j k Hi Hj Hk. apply (proj1 (forallb_forall _ _) H (i, j, k)). apply in_cells3. repeat split; lia. Qed.

(** Statements over a box of cells, by computing. *)
Definition is_le (x y : Qc) : bool := Qle_bool (this x) (this y).
Lemma le x y : is_le x y = true -> (x <= y)%Qc.
Proof. intros H. apply Qle_bool_iff in H. exact H. Qed.
Definition is_lt (x y : Qc) : bool := negb (Qle_bool (this y) (this x)).
Lemma lt x y : is_lt x y = true -> (x < y)%Qc.
Proof. intros H. apply negb_true_iff in H. apply Qcnot_le_lt. intros C. apply Qle_bool_iff in C. congruence. Qed.
Definition is_eq (x y : Qc) : bool := Qeq_bool (this x) (this y).
Lemma same x y : is_eq x y = true -> x = y.
Proof. intros H. apply Qeq_bool_iff in H. now apply Qc_is_canon. Qed.

Definition ex_sum (t : Z) : Z := ex_any t + ex_bump t.
Definition ex_dip (t : Z) : Z := - ex_bump t.
Ltac k_in H := unfold ghost1, ghost2, ghost3, near1, near2, near3, patch1, patch2, patch3 in H; lia.
Ltac k_apart := repeat (apply Forall_cons || apply Forall_nil); cbn; discriminate.

(** Kernel by kernel: the arrays of [ex_so], on a patch of two cells in the first two directions. *)

Definition out_v1_1d (u : Z -> Z) : option (mem QcS) := (m' <- cdf_1d_flux (S := QcS) 0 1 ex_h (0%nat, 0) 1 (4%nat, 0) (5%nat, 0) (ex_so 4 u) ;; cd_apply_1d_diffusion_v1_apply (S := QcS) 0 1 (ex_q 3) (ex_q 2) ex_h 0 (3%nat, 0) 1 (4%nat, 0) (5%nat, 0) 0 (8%nat, 0) m').
Definition r_v1_1d (u : Z -> Z) (i : Z) : Qc := value (out (out_v1_1d u)) (faddr (mkFa (8%nat, 0) (CELL1d 0 1 0)) [i]).
Definition w_v1_1d (u : Z -> Z) (i : Z) : Qc := value (ex_so 4 u) (faddr (mkFa (4%nat, 0) (CELL1d 0 1 1)) [i]).
Definition c_v1_1d (i : Z) : Qc := value (ex_so 4 ex_any) (faddr (mkFa (3%nat, 0) (CELL1d 0 1 0)) [i]).
Definition v0_v1_1d (i : Z) : Qc := value (ex_so 4 ex_any) (faddr (mkFa (0%nat, 0) (FACE1d 0 1 0)) [i]).
Lemma gen_v1_1d (m mo : mem QcS) (r w c v0 : Z -> Qc) :
  (m' <- cdf_1d_flux (S := QcS) 0 1 ex_h (0%nat, 0) 1 (4%nat, 0) (5%nat, 0) m ;; cd_apply_1d_diffusion_v1_apply (S := QcS) 0 1 (ex_q 3) (ex_q 2) ex_h 0 (3%nat, 0) 1 (4%nat, 0) (5%nat, 0) 0 (8%nat, 0) m') = Some mo ->
  forallb (fun i => is_num mo (faddr (mkFa (8%nat, 0) (CELL1d 0 1 0)) [i]) (r i)) (cells1 0 1) = true ->
  forallb (fun i => is_num m (faddr (mkFa (4%nat, 0) (CELL1d 0 1 1)) [i]) (w i)) (cells1 (-1) 2) = true ->
  forallb (fun i => is_num m (faddr (mkFa (3%nat, 0) (CELL1d 0 1 0)) [i]) (c i)) (cells1 0 1) = true ->
  forallb (fun i => is_num m (faddr (mkFa (0%nat, 0) (FACE1d 0 1 0)) [i]) (v0 i)) (cells1 0 2) = true ->
  applied_v1_1d (S := QcS) 0 1 ex_h (ex_q 2) (0%nat, 0) 1 (4%nat, 0) (5%nat, 0) (ex_q 3) 0 (3%nat, 0) 0 (8%nat, 0) m r w c v0.
Proof.
  intros H H0 H1 H2 H3. unfold applied_v1_1d.
  split; [lia|]. split; [lia|]. split; [k_apart|]. split; [k_apart|].
  exists mo. split; [exact H|].
  split; [intros i Ii; apply num; exact (all1 _ _ _ H0 i Ii)|].
  split; [intros i Ii; apply num; exact (all1 _ _ _ H1 i Ii)|].
  split; [intros i Ii; apply num; exact (all1 _ _ _ H2 i Ii)|].
  intros i Ii; apply num; exact (all1 _ _ _ H3 i Ii).
Qed.
Definition is_v1_1d (u : Z -> Z) : Prop :=
  applied_v1_1d (S := QcS) 0 1 ex_h (ex_q 2) (0%nat, 0) 1 (4%nat, 0) (5%nat, 0) (ex_q 3) 0 (3%nat, 0) 0 (8%nat, 0) (ex_so 4 u) (r_v1_1d u) (w_v1_1d u) c_v1_1d v0_v1_1d.
Lemma ex_any_v1_1d : is_v1_1d ex_any.
Proof. refine (gen_v1_1d (ex_so 4 ex_any) (out (out_v1_1d ex_any)) (r_v1_1d ex_any) (w_v1_1d ex_any) c_v1_1d v0_v1_1d (ran (out_v1_1d ex_any) _) _ _ _ _); vm_compute; reflexivity. Qed.
Lemma ex_bump_v1_1d : is_v1_1d ex_bump.
Proof. refine (gen_v1_1d (ex_so 4 ex_bump) (out (out_v1_1d ex_bump)) (r_v1_1d ex_bump) (w_v1_1d ex_bump) c_v1_1d v0_v1_1d (ran (out_v1_1d ex_bump) _) _ _ _ _); vm_compute; reflexivity. Qed.
Lemma ex_sum_v1_1d : is_v1_1d ex_sum.
Proof. refine (gen_v1_1d (ex_so 4 ex_sum) (out (out_v1_1d ex_sum)) (r_v1_1d ex_sum) (w_v1_1d ex_sum) c_v1_1d v0_v1_1d (ran (out_v1_1d ex_sum) _) _ _ _ _); vm_compute; reflexivity. Qed.
Lemma ex_dip_v1_1d : is_v1_1d ex_dip.
Proof. refine (gen_v1_1d (ex_so 4 ex_dip) (out (out_v1_1d ex_dip)) (r_v1_1d ex_dip) (w_v1_1d ex_dip) c_v1_1d v0_v1_1d (ran (out_v1_1d ex_dip) _) _ _ _ _); vm_compute; reflexivity. Qed.
Lemma sum_v1_1d : forall i, near1 0 1 i -> w_v1_1d ex_sum i = ((ex_q 1 * w_v1_1d ex_any i)%Qc + (ex_q 1 * w_v1_1d ex_bump i)%Qc)%Qc.
Proof. intros i H. apply same. apply (all1 (fun i => is_eq (w_v1_1d ex_sum i) ((ex_q 1 * w_v1_1d ex_any i) + (ex_q 1 * w_v1_1d ex_bump i))%Qc) (-1) 2); [vm_compute; reflexivity|..]; k_in H. Qed.
Lemma more_v1_1d : forall i, patch1 0 1 i -> (r_v1_1d ex_any i <= r_v1_1d ex_sum i)%Qc.
Proof. intros i H. apply le. apply (all1 (fun i => is_le (r_v1_1d ex_any i) (r_v1_1d ex_sum i)) 0 1); [vm_compute; reflexivity|..]; k_in H. Qed.
Lemma higher_v1_1d : forall i, ghost1 0 1 i -> (w_v1_1d ex_any i <= w_v1_1d ex_sum i)%Qc.
Proof. intros i H. apply le. apply (all1 (fun i => is_le (w_v1_1d ex_any i) (w_v1_1d ex_sum i)) (-1) 2); [vm_compute; reflexivity|..]; k_in H. Qed.
Lemma source_v1_1d : forall i, patch1 0 1 i -> (0 <= r_v1_1d ex_bump i)%Qc.
Proof. intros i H. apply le. apply (all1 (fun i => is_le 0 (r_v1_1d ex_bump i)) 0 1); [vm_compute; reflexivity|..]; k_in H. Qed.
Lemma rim_v1_1d : forall i, ghost1 0 1 i -> (ex_q 1 <= w_v1_1d ex_bump i)%Qc.
Proof. intros i H. apply le. apply (all1 (fun i => is_le (ex_q 1) (w_v1_1d ex_bump i)) (-1) 2); [vm_compute; reflexivity|..]; k_in H. Qed.
Lemma sink_v1_1d : forall i, patch1 0 1 i -> (r_v1_1d ex_dip i <= 0)%Qc.
Proof. intros i H. apply le. apply (all1 (fun i => is_le (r_v1_1d ex_dip i) 0) 0 1); [vm_compute; reflexivity|..]; k_in H. Qed.
Lemma hole_v1_1d : forall i, ghost1 0 1 i -> (w_v1_1d ex_dip i <= ex_q 5000)%Qc.
Proof. intros i H. apply le. apply (all1 (fun i => is_le (w_v1_1d ex_dip i) (ex_q 5000)) (-1) 2); [vm_compute; reflexivity|..]; k_in H. Qed.
Lemma cpos_v1_1d : forall i, patch1 0 1 i -> (0 <= c_v1_1d i)%Qc.
Proof. intros i H. apply le. apply (all1 (fun i => is_le 0 (c_v1_1d i)) 0 1); [vm_compute; reflexivity|..]; k_in H. Qed.
Lemma v0pos_v1_1d : forall i, 0 <= i <= 1 + 1 -> (0 < v0_v1_1d i)%Qc.
Proof. intros i Ii. apply lt. apply (all1 (fun i => is_lt 0 (v0_v1_1d i)) 0 2); [vm_compute; reflexivity|..]; lia. Qed.

Definition out_v2_1d (u : Z -> Z) : option (mem QcS) := (m' <- cdf_1d_flux (S := QcS) 0 1 ex_h (0%nat, 0) 1 (4%nat, 0) (5%nat, 0) (ex_so 4 u) ;; cd_apply_1d_diffusion_v2_apply (S := QcS) 0 1 (ex_q 3) (ex_q 2) ex_h 1 (4%nat, 0) (5%nat, 0) 0 (8%nat, 0) m').
Definition r_v2_1d (u : Z -> Z) (i : Z) : Qc := value (out (out_v2_1d u)) (faddr (mkFa (8%nat, 0) (CELL1d 0 1 0)) [i]).
Definition w_v2_1d (u : Z -> Z) (i : Z) : Qc := value (ex_so 4 u) (faddr (mkFa (4%nat, 0) (CELL1d 0 1 1)) [i]).
Definition v0_v2_1d (i : Z) : Qc := value (ex_so 4 ex_any) (faddr (mkFa (0%nat, 0) (FACE1d 0 1 0)) [i]).
Lemma gen_v2_1d (m mo : mem QcS) (r w v0 : Z -> Qc) :
  (m' <- cdf_1d_flux (S := QcS) 0 1 ex_h (0%nat, 0) 1 (4%nat, 0) (5%nat, 0) m ;; cd_apply_1d_diffusion_v2_apply (S := QcS) 0 1 (ex_q 3) (ex_q 2) ex_h 1 (4%nat, 0) (5%nat, 0) 0 (8%nat, 0) m') = Some mo ->
  forallb (fun i => is_num mo (faddr (mkFa (8%nat, 0) (CELL1d 0 1 0)) [i]) (r i)) (cells1 0 1) = true ->
  forallb (fun i => is_num m (faddr (mkFa (4%nat, 0) (CELL1d 0 1 1)) [i]) (w i)) (cells1 (-1) 2) = true ->
  forallb (fun i => is_num m (faddr (mkFa (0%nat, 0) (FACE1d 0 1 0)) [i]) (v0 i)) (cells1 0 2) = true ->
  applied_v2_1d (S := QcS) 0 1 ex_h (ex_q 2) (0%nat, 0) 1 (4%nat, 0) (5%nat, 0) (ex_q 3) 0 (8%nat, 0) m r w v0.
Proof.
  intros H H0 H1 H2. unfold applied_v2_1d.
  split; [lia|]. split; [lia|]. split; [k_apart|]. split; [k_apart|].
  exists mo. split; [exact H|].
  split; [intros i Ii; apply num; exact (all1 _ _ _ H0 i Ii)|].
  split; [intros i Ii; apply num; exact (all1 _ _ _ H1 i Ii)|].
  intros i Ii; apply num; exact (all1 _ _ _ H2 i Ii).
Qed.
Definition is_v2_1d (u : Z -> Z) : Prop :=
  applied_v2_1d (S := QcS) 0 1 ex_h (ex_q 2) (0%nat, 0) 1 (4%nat, 0) (5%nat, 0) (ex_q 3) 0 (8%nat, 0) (ex_so 4 u) (r_v2_1d u) (w_v2_1d u) v0_v2_1d.
Lemma ex_any_v2_1d : is_v2_1d ex_any.
Proof. refine (gen_v2_1d (ex_so 4 ex_any) (out (out_v2_1d ex_any)) (r_v2_1d ex_any) (w_v2_1d ex_any) v0_v2_1d (ran (out_v2_1d ex_any) _) _ _ _); vm_compute; reflexivity. Qed.
Lemma ex_bump_v2_1d : is_v2_1d ex_bump.
Proof. refine (gen_v2_1d (ex_so 4 ex_bump) (out (out_v2_1d ex_bump)) (r_v2_1d ex_bump) (w_v2_1d ex_bump) v0_v2_1d (ran (out_v2_1d ex_bump) _) _ _ _); vm_compute; reflexivity. Qed.
Lemma ex_sum_v2_1d : is_v2_1d ex_sum.
Proof. refine (gen_v2_1d (ex_so 4 ex_sum) (out (out_v2_1d ex_sum)) (r_v2_1d ex_sum) (w_v2_1d ex_sum) v0_v2_1d (ran (out_v2_1d ex_sum) _) _ _ _); vm_compute; reflexivity. Qed.
Lemma ex_dip_v2_1d : is_v2_1d ex_dip.
Proof. refine (gen_v2_1d (ex_so 4 ex_dip) (out (out_v2_1d ex_dip)) (r_v2_1d ex_dip) (w_v2_1d ex_dip) v0_v2_1d (ran (out_v2_1d ex_dip) _) _ _ _); vm_compute; reflexivity. Qed.
Lemma sum_v2_1d : forall i, near1 0 1 i -> w_v2_1d ex_sum i = ((ex_q 1 * w_v2_1d ex_any i)%Qc + (ex_q 1 * w_v2_1d ex_bump i)%Qc)%Qc.
Proof. intros i H. apply same. apply (all1 (fun i => is_eq (w_v2_1d ex_sum i) ((ex_q 1 * w_v2_1d ex_any i) + (ex_q 1 * w_v2_1d ex_bump i))%Qc) (-1) 2); [vm_compute; reflexivity|..]; k_in H. Qed.
Lemma more_v2_1d : forall i, patch1 0 1 i -> (r_v2_1d ex_any i <= r_v2_1d ex_sum i)%Qc.
Proof. intros i H. apply le. apply (all1 (fun i => is_le (r_v2_1d ex_any i) (r_v2_1d ex_sum i)) 0 1); [vm_compute; reflexivity|..]; k_in H. Qed.
Lemma higher_v2_1d : forall i, ghost1 0 1 i -> (w_v2_1d ex_any i <= w_v2_1d ex_sum i)%Qc.
Proof. intros i H. apply le. apply (all1 (fun i => is_le (w_v2_1d ex_any i) (w_v2_1d ex_sum i)) (-1) 2); [vm_compute; reflexivity|..]; k_in H. Qed.
Lemma source_v2_1d : forall i, patch1 0 1 i -> (0 <= r_v2_1d ex_bump i)%Qc.
Proof. intros i H. apply le. apply (all1 (fun i => is_le 0 (r_v2_1d ex_bump i)) 0 1); [vm_compute; reflexivity|..]; k_in H. Qed.
Lemma rim_v2_1d : forall i, ghost1 0 1 i -> (ex_q 1 <= w_v2_1d ex_bump i)%Qc.
Proof. intros i H. apply le. apply (all1 (fun i => is_le (ex_q 1) (w_v2_1d ex_bump i)) (-1) 2); [vm_compute; reflexivity|..]; k_in H. Qed.
Lemma sink_v2_1d : forall i, patch1 0 1 i -> (r_v2_1d ex_dip i <= 0)%Qc.
Proof. intros i H. apply le. apply (all1 (fun i => is_le (r_v2_1d ex_dip i) 0) 0 1); [vm_compute; reflexivity|..]; k_in H. Qed.
Lemma hole_v2_1d : forall i, ghost1 0 1 i -> (w_v2_1d ex_dip i <= ex_q 5000)%Qc.
Proof. intros i H. apply le. apply (all1 (fun i => is_le (w_v2_1d ex_dip i) (ex_q 5000)) (-1) 2); [vm_compute; reflexivity|..]; k_in H. Qed.
Lemma v0pos_v2_1d : forall i, 0 <= i <= 1 + 1 -> (0 < v0_v2_1d i)%Qc.
Proof. intros i Ii. apply lt. apply (all1 (fun i => is_lt 0 (v0_v2_1d i)) 0 2); [vm_compute; reflexivity|..]; lia. Qed.

Definition out_poisson_1d (u : Z -> Z) : option (mem QcS) := (m' <- cdf_1d_poisson_flux (S := QcS) 0 1 ex_h 1 (4%nat, 0) (5%nat, 0) (ex_so 4 u) ;; cd_apply_1d_poisson_v2_apply (S := QcS) 0 1 (ex_q 2) ex_h (5%nat, 0) 0 (8%nat, 0) m').
Definition r_poisson_1d (u : Z -> Z) (i : Z) : Qc := value (out (out_poisson_1d u)) (faddr (mkFa (8%nat, 0) (CELL1d 0 1 0)) [i]).
Definition w_poisson_1d (u : Z -> Z) (i : Z) : Qc := value (ex_so 4 u) (faddr (mkFa (4%nat, 0) (CELL1d 0 1 1)) [i]).
Lemma gen_poisson_1d (m mo : mem QcS) (r w : Z -> Qc) :
  (m' <- cdf_1d_poisson_flux (S := QcS) 0 1 ex_h 1 (4%nat, 0) (5%nat, 0) m ;; cd_apply_1d_poisson_v2_apply (S := QcS) 0 1 (ex_q 2) ex_h (5%nat, 0) 0 (8%nat, 0) m') = Some mo ->
  forallb (fun i => is_num mo (faddr (mkFa (8%nat, 0) (CELL1d 0 1 0)) [i]) (r i)) (cells1 0 1) = true ->
  forallb (fun i => is_num m (faddr (mkFa (4%nat, 0) (CELL1d 0 1 1)) [i]) (w i)) (cells1 (-1) 2) = true ->
  applied_poisson_1d (S := QcS) 0 1 ex_h (ex_q 2) 1 (4%nat, 0) (5%nat, 0) 0 (8%nat, 0) m r w.
Proof.
  intros H H0 H1. unfold applied_poisson_1d.
  split; [lia|]. split; [lia|]. split; [k_apart|]. split; [k_apart|].
  exists mo. split; [exact H|].
  split; [intros i Ii; apply num; exact (all1 _ _ _ H0 i Ii)|].
  intros i Ii; apply num; exact (all1 _ _ _ H1 i Ii).
Qed.
Definition is_poisson_1d (u : Z -> Z) : Prop :=
  applied_poisson_1d (S := QcS) 0 1 ex_h (ex_q 2) 1 (4%nat, 0) (5%nat, 0) 0 (8%nat, 0) (ex_so 4 u) (r_poisson_1d u) (w_poisson_1d u).
Lemma ex_any_poisson_1d : is_poisson_1d ex_any.
Proof. refine (gen_poisson_1d (ex_so 4 ex_any) (out (out_poisson_1d ex_any)) (r_poisson_1d ex_any) (w_poisson_1d ex_any) (ran (out_poisson_1d ex_any) _) _ _); vm_compute; reflexivity. Qed.
Lemma ex_bump_poisson_1d : is_poisson_1d ex_bump.
Proof. refine (gen_poisson_1d (ex_so 4 ex_bump) (out (out_poisson_1d ex_bump)) (r_poisson_1d ex_bump) (w_poisson_1d ex_bump) (ran (out_poisson_1d ex_bump) _) _ _); vm_compute; reflexivity. Qed.
Lemma ex_sum_poisson_1d : is_poisson_1d ex_sum.
Proof. refine (gen_poisson_1d (ex_so 4 ex_sum) (out (out_poisson_1d ex_sum)) (r_poisson_1d ex_sum) (w_poisson_1d ex_sum) (ran (out_poisson_1d ex_sum) _) _ _); vm_compute; reflexivity. Qed.
Lemma ex_dip_poisson_1d : is_poisson_1d ex_dip.
Proof. refine (gen_poisson_1d (ex_so 4 ex_dip) (out (out_poisson_1d ex_dip)) (r_poisson_1d ex_dip) (w_poisson_1d ex_dip) (ran (out_poisson_1d ex_dip) _) _ _); vm_compute; reflexivity. Qed.
Lemma sum_poisson_1d : forall i, near1 0 1 i -> w_poisson_1d ex_sum i = ((ex_q 1 * w_poisson_1d ex_any i)%Qc + (ex_q 1 * w_poisson_1d ex_bump i)%Qc)%Qc.
Proof. intros i H. apply same. apply (all1 (fun i => is_eq (w_poisson_1d ex_sum i) ((ex_q 1 * w_poisson_1d ex_any i) + (ex_q 1 * w_poisson_1d ex_bump i))%Qc) (-1) 2); [vm_compute; reflexivity|..]; k_in H. Qed.
Lemma more_poisson_1d : forall i, patch1 0 1 i -> (r_poisson_1d ex_any i <= r_poisson_1d ex_sum i)%Qc.
Proof. intros i H. apply le. apply (all1 (fun i => is_le (r_poisson_1d ex_any i) (r_poisson_1d ex_sum i)) 0 1); [vm_compute; reflexivity|..]; k_in H. Qed.
Lemma higher_poisson_1d : forall i, ghost1 0 1 i -> (w_poisson_1d ex_any i <= w_poisson_1d ex_sum i)%Qc.
Proof. intros i H. apply le. apply (all1 (fun i => is_le (w_poisson_1d ex_any i) (w_poisson_1d ex_sum i)) (-1) 2); [vm_compute; reflexivity|..]; k_in H. Qed.
Lemma source_poisson_1d : forall i, patch1 0 1 i -> (0 <= r_poisson_1d ex_bump i)%Qc.
Proof. intros i H. apply le. apply (all1 (fun i => is_le 0 (r_poisson_1d ex_bump i)) 0 1); [vm_compute; reflexivity|..]; k_in H. Qed.
Lemma rim_poisson_1d : forall i, ghost1 0 1 i -> (ex_q 1 <= w_poisson_1d ex_bump i)%Qc.
Proof. intros i H. apply le. apply (all1 (fun i => is_le (ex_q 1) (w_poisson_1d ex_bump i)) (-1) 2); [vm_compute; reflexivity|..]; k_in H. Qed.
Lemma sink_poisson_1d : forall i, patch1 0 1 i -> (r_poisson_1d ex_dip i <= 0)%Qc.
Proof. intros i H. apply le. apply (all1 (fun i => is_le (r_poisson_1d ex_dip i) 0) 0 1); [vm_compute; reflexivity|..]; k_in H. Qed.
Lemma hole_poisson_1d : forall i, ghost1 0 1 i -> (w_poisson_1d ex_dip i <= ex_q 5000)%Qc.
Proof. intros i H. apply le. apply (all1 (fun i => is_le (w_poisson_1d ex_dip i) (ex_q 5000)) (-1) 2); [vm_compute; reflexivity|..]; k_in H. Qed.

Definition out_v1_2d (u : Z -> Z) : option (mem QcS) := (m' <- cdf_2d_flux (S := QcS) 0 0 1 1 ex_h (0%nat, 0) (1%nat, 0) 1 (4%nat, 0) (5%nat, 0) (6%nat, 0) (ex_so 16 u) ;; cd_apply_2d_diffusion_v1_apply (S := QcS) 0 1 0 1 (ex_q 3) (ex_q 2) ex_h 0 (3%nat, 0) 1 (4%nat, 0) (5%nat, 0) (6%nat, 0) 0 (8%nat, 0) m').
Definition r_v1_2d (u : Z -> Z) (i j : Z) : Qc := value (out (out_v1_2d u)) (faddr (mkFa (8%nat, 0) (CELL2d 0 0 1 1 0)) [i; j]).
Definition w_v1_2d (u : Z -> Z) (i j : Z) : Qc := value (ex_so 16 u) (faddr (mkFa (4%nat, 0) (CELL2d 0 0 1 1 1)) [i; j]).
Definition c_v1_2d (i j : Z) : Qc := value (ex_so 16 ex_any) (faddr (mkFa (3%nat, 0) (CELL2d 0 0 1 1 0)) [i; j]).
Definition v0_v1_2d (i j : Z) : Qc := value (ex_so 16 ex_any) (faddr (mkFa (0%nat, 0) (FACE2d0 0 0 1 1 0)) [i; j]).
Definition v1_v1_2d (i j : Z) : Qc := value (ex_so 16 ex_any) (faddr (mkFa (1%nat, 0) (FACE2d1 0 0 1 1 0)) [j; i]).
Lemma gen_v1_2d (m mo : mem QcS) (r w c v0 v1 : Z -> Z -> Qc) :
  (m' <- cdf_2d_flux (S := QcS) 0 0 1 1 ex_h (0%nat, 0) (1%nat, 0) 1 (4%nat, 0) (5%nat, 0) (6%nat, 0) m ;; cd_apply_2d_diffusion_v1_apply (S := QcS) 0 1 0 1 (ex_q 3) (ex_q 2) ex_h 0 (3%nat, 0) 1 (4%nat, 0) (5%nat, 0) (6%nat, 0) 0 (8%nat, 0) m') = Some mo ->
  forallb (fun p => (fun i j => is_num mo (faddr (mkFa (8%nat, 0) (CELL2d 0 0 1 1 0)) [i; j]) (r i j)) (fst p) (snd p)) (cells2 0 0 1 1) = true ->
  forallb (fun p => (fun i j => is_num m (faddr (mkFa (4%nat, 0) (CELL2d 0 0 1 1 1)) [i; j]) (w i j)) (fst p) (snd p)) (cells2 (-1) (-1) 2 2) = true ->
  forallb (fun p => (fun i j => is_num m (faddr (mkFa (3%nat, 0) (CELL2d 0 0 1 1 0)) [i; j]) (c i j)) (fst p) (snd p)) (cells2 0 0 1 1) = true ->
  forallb (fun p => (fun i j => is_num m (faddr (mkFa (0%nat, 0) (FACE2d0 0 0 1 1 0)) [i; j]) (v0 i j)) (fst p) (snd p)) (cells2 0 0 2 1) = true ->
  forallb (fun p => (fun i j => is_num m (faddr (mkFa (1%nat, 0) (FACE2d1 0 0 1 1 0)) [j; i]) (v1 i j)) (fst p) (snd p)) (cells2 0 0 1 2) = true ->
  applied_v1_2d (S := QcS) 0 0 1 1 ex_h (ex_q 2) (0%nat, 0) (1%nat, 0) 1 (4%nat, 0) (5%nat, 0) (6%nat, 0) (ex_q 3) 0 (3%nat, 0) 0 (8%nat, 0) m r w c v0 v1.
Proof.
  intros H H0 H1 H2 H3 H4. unfold applied_v1_2d.
  split; [lia|]. split; [lia|]. split; [k_apart|]. split; [k_apart|]. split; [k_apart|].
  exists mo. split; [exact H|].
  split; [intros i j Ii Ij; apply num; exact (all2 _ _ _ _ _ H0 i j Ii Ij)|].
  split; [intros i j Ii Ij; apply num; exact (all2 _ _ _ _ _ H1 i j Ii Ij)|].
  split; [intros i j Ii Ij; apply num; exact (all2 _ _ _ _ _ H2 i j Ii Ij)|].
  split; [intros i j Ii Ij; apply num; exact (all2 _ _ _ _ _ H3 i j Ii Ij)|].
  intros i j Ii Ij; apply num; exact (all2 _ _ _ _ _ H4 i j Ii Ij).
Qed.
Definition is_v1_2d (u : Z -> Z) : Prop :=
  applied_v1_2d (S := QcS) 0 0 1 1 ex_h (ex_q 2) (0%nat, 0) (1%nat, 0) 1 (4%nat, 0) (5%nat, 0) (6%nat, 0) (ex_q 3) 0 (3%nat, 0) 0 (8%nat, 0) (ex_so 16 u) (r_v1_2d u) (w_v1_2d u) c_v1_2d v0_v1_2d v1_v1_2d.
Lemma ex_any_v1_2d : is_v1_2d ex_any.
Proof. refine (gen_v1_2d (ex_so 16 ex_any) (out (out_v1_2d ex_any)) (r_v1_2d ex_any) (w_v1_2d ex_any) c_v1_2d v0_v1_2d v1_v1_2d (ran (out_v1_2d ex_any) _) _ _ _ _ _); vm_compute; reflexivity. Qed.
Lemma ex_bump_v1_2d : is_v1_2d ex_bump.
Proof. refine (gen_v1_2d (ex_so 16 ex_bump) (out (out_v1_2d ex_bump)) (r_v1_2d ex_bump) (w_v1_2d ex_bump) c_v1_2d v0_v1_2d v1_v1_2d (ran (out_v1_2d ex_bump) _) _ _ _ _ _); vm_compute; reflexivity. Qed.
Lemma ex_sum_v1_2d : is_v1_2d ex_sum.
Proof. refine (gen_v1_2d (ex_so 16 ex_sum) (out (out_v1_2d ex_sum)) (r_v1_2d ex_sum) (w_v1_2d ex_sum) c_v1_2d v0_v1_2d v1_v1_2d (ran (out_v1_2d ex_sum) _) _ _ _ _ _); vm_compute; reflexivity. Qed.
Lemma ex_dip_v1_2d : is_v1_2d ex_dip.
Proof. refine (gen_v1_2d (ex_so 16 ex_dip) (out (out_v1_2d ex_dip)) (r_v1_2d ex_dip) (w_v1_2d ex_dip) c_v1_2d v0_v1_2d v1_v1_2d (ran (out_v1_2d ex_dip) _) _ _ _ _ _); vm_compute; reflexivity. Qed.
Lemma sum_v1_2d : forall i j, near2 0 0 1 1 i j -> w_v1_2d ex_sum i j = ((ex_q 1 * w_v1_2d ex_any i j)%Qc + (ex_q 1 * w_v1_2d ex_bump i j)%Qc)%Qc.
Proof. intros i j H. apply same. apply (all2 (fun i j => is_eq (w_v1_2d ex_sum i j) ((ex_q 1 * w_v1_2d ex_any i j) + (ex_q 1 * w_v1_2d ex_bump i j))%Qc) (-1) (-1) 2 2); [vm_compute; reflexivity|..]; k_in H. Qed.
Lemma more_v1_2d : forall i j, patch2 0 0 1 1 i j -> (r_v1_2d ex_any i j <= r_v1_2d ex_sum i j)%Qc.
Proof. intros i j H. apply le. apply (all2 (fun i j => is_le (r_v1_2d ex_any i j) (r_v1_2d ex_sum i j)) 0 0 1 1); [vm_compute; reflexivity|..]; k_in H. Qed.
Lemma higher_v1_2d : forall i j, ghost2 0 0 1 1 i j -> (w_v1_2d ex_any i j <= w_v1_2d ex_sum i j)%Qc.
Proof. intros i j H. apply le. apply (all2 (fun i j => is_le (w_v1_2d ex_any i j) (w_v1_2d ex_sum i j)) (-1) (-1) 2 2); [vm_compute; reflexivity|..]; k_in H. Qed.
Lemma source_v1_2d : forall i j, patch2 0 0 1 1 i j -> (0 <= r_v1_2d ex_bump i j)%Qc.
Proof. intros i j H. apply le. apply (all2 (fun i j => is_le 0 (r_v1_2d ex_bump i j)) 0 0 1 1); [vm_compute; reflexivity|..]; k_in H. Qed.
Lemma rim_v1_2d : forall i j, ghost2 0 0 1 1 i j -> (ex_q 1 <= w_v1_2d ex_bump i j)%Qc.
Proof. intros i j H. apply le. apply (all2 (fun i j => is_le (ex_q 1) (w_v1_2d ex_bump i j)) (-1) (-1) 2 2); [vm_compute; reflexivity|..]; k_in H. Qed.
Lemma sink_v1_2d : forall i j, patch2 0 0 1 1 i j -> (r_v1_2d ex_dip i j <= 0)%Qc.
Proof. intros i j H. apply le. apply (all2 (fun i j => is_le (r_v1_2d ex_dip i j) 0) 0 0 1 1); [vm_compute; reflexivity|..]; k_in H. Qed.
Lemma hole_v1_2d : forall i j, ghost2 0 0 1 1 i j -> (w_v1_2d ex_dip i j <= ex_q 5000)%Qc.
Proof. intros i j H. apply le. apply (all2 (fun i j => is_le (w_v1_2d ex_dip i j) (ex_q 5000)) (-1) (-1) 2 2); [vm_compute; reflexivity|..]; k_in H. Qed.
Lemma cpos_v1_2d : forall i j, patch2 0 0 1 1 i j -> (0 <= c_v1_2d i j)%Qc.
Proof. intros i j H. apply le. apply (all2 (fun i j => is_le 0 (c_v1_2d i j)) 0 0 1 1); [vm_compute; reflexivity|..]; k_in H. Qed.
Lemma v0pos_v1_2d : forall i j, 0 <= i <= 1 + 1 -> 0 <= j <= 1 -> (0 < v0_v1_2d i j)%Qc.
Proof. intros i j Ii Ij. apply lt. apply (all2 (fun i j => is_lt 0 (v0_v1_2d i j)) 0 0 2 1); [vm_compute; reflexivity|..]; lia. Qed.
Lemma v1pos_v1_2d : forall i j, 0 <= i <= 1 -> 0 <= j <= 1 + 1 -> (0 <= v1_v1_2d i j)%Qc.
Proof. intros i j Ii Ij. apply le. apply (all2 (fun i j => is_le 0 (v1_v1_2d i j)) 0 0 1 2); [vm_compute; reflexivity|..]; lia. Qed.

Definition out_v2_2d (u : Z -> Z) : option (mem QcS) := (m' <- cdf_2d_flux (S := QcS) 0 0 1 1 ex_h (0%nat, 0) (1%nat, 0) 1 (4%nat, 0) (5%nat, 0) (6%nat, 0) (ex_so 16 u) ;; cd_apply_2d_diffusion_v2_apply (S := QcS) 0 1 0 1 (ex_q 3) (ex_q 2) ex_h 1 (4%nat, 0) (5%nat, 0) (6%nat, 0) 0 (8%nat, 0) m').
Definition r_v2_2d (u : Z -> Z) (i j : Z) : Qc := value (out (out_v2_2d u)) (faddr (mkFa (8%nat, 0) (CELL2d 0 0 1 1 0)) [i; j]).
Definition w_v2_2d (u : Z -> Z) (i j : Z) : Qc := value (ex_so 16 u) (faddr (mkFa (4%nat, 0) (CELL2d 0 0 1 1 1)) [i; j]).
Definition v0_v2_2d (i j : Z) : Qc := value (ex_so 16 ex_any) (faddr (mkFa (0%nat, 0) (FACE2d0 0 0 1 1 0)) [i; j]).
Definition v1_v2_2d (i j : Z) : Qc := value (ex_so 16 ex_any) (faddr (mkFa (1%nat, 0) (FACE2d1 0 0 1 1 0)) [j; i]).
Lemma gen_v2_2d (m mo : mem QcS) (r w v0 v1 : Z -> Z -> Qc) :
  (m' <- cdf_2d_flux (S := QcS) 0 0 1 1 ex_h (0%nat, 0) (1%nat, 0) 1 (4%nat, 0) (5%nat, 0) (6%nat, 0) m ;; cd_apply_2d_diffusion_v2_apply (S := QcS) 0 1 0 1 (ex_q 3) (ex_q 2) ex_h 1 (4%nat, 0) (5%nat, 0) (6%nat, 0) 0 (8%nat, 0) m') = Some mo ->
  forallb (fun p => (fun i j => is_num mo (faddr (mkFa (8%nat, 0) (CELL2d 0 0 1 1 0)) [i; j]) (r i j)) (fst p) (snd p)) (cells2 0 0 1 1) = true ->
  forallb (fun p => (fun i j => is_num m (faddr (mkFa (4%nat, 0) (CELL2d 0 0 1 1 1)) [i; j]) (w i j)) (fst p) (snd p)) (cells2 (-1) (-1) 2 2) = true ->
  forallb (fun p => (fun i j => is_num m (faddr (mkFa (0%nat, 0) (FACE2d0 0 0 1 1 0)) [i; j]) (v0 i j)) (fst p) (snd p)) (cells2 0 0 2 1) = true ->
  forallb (fun p => (fun i j => is_num m (faddr (mkFa (1%nat, 0) (FACE2d1 0 0 1 1 0)) [j; i]) (v1 i j)) (fst p) (snd p)) (cells2 0 0 1 2) = true ->
  applied_v2_2d (S := QcS) 0 0 1 1 ex_h (ex_q 2) (0%nat, 0) (1%nat, 0) 1 (4%nat, 0) (5%nat, 0) (6%nat, 0) (ex_q 3) 0 (8%nat, 0) m r w v0 v1.
Proof.
  intros H H0 H1 H2 H3. unfold applied_v2_2d.
  split; [lia|]. split; [lia|]. split; [k_apart|]. split; [k_apart|]. split; [k_apart|].
  exists mo. split; [exact H|].
  split; [intros i j Ii Ij; apply num; exact (all2 _ _ _ _ _ H0 i j Ii Ij)|].
  split; [intros i j Ii Ij; apply num; exact (all2 _ _ _ _ _ H1 i j Ii Ij)|].
  split; [intros i j Ii Ij; apply num; exact (all2 _ _ _ _ _ H2 i j Ii Ij)|].
  intros i j Ii Ij; apply num; exact (all2 _ _ _ _ _ H3 i j Ii Ij).
Qed.
Definition is_v2_2d (u : Z -> Z) : Prop :=
  applied_v2_2d (S := QcS) 0 0 1 1 ex_h (ex_q 2) (0%nat, 0) (1%nat, 0) 1 (4%nat, 0) (5%nat, 0) (6%nat, 0) (ex_q 3) 0 (8%nat, 0) (ex_so 16 u) (r_v2_2d u) (w_v2_2d u) v0_v2_2d v1_v2_2d.
Lemma ex_any_v2_2d : is_v2_2d ex_any.
Proof. refine (gen_v2_2d (ex_so 16 ex_any) (out (out_v2_2d ex_any)) (r_v2_2d ex_any) (w_v2_2d ex_any) v0_v2_2d v1_v2_2d (ran (out_v2_2d ex_any) _) _ _ _ _); vm_compute; reflexivity. Qed.
Lemma ex_bump_v2_2d : is_v2_2d ex_bump.
Proof. refine (gen_v2_2d (ex_so 16 ex_bump) (out (out_v2_2d ex_bump)) (r_v2_2d ex_bump) (w_v2_2d ex_bump) v0_v2_2d v1_v2_2d (ran (out_v2_2d ex_bump) _) _ _ _ _); vm_compute; reflexivity. Qed.
Lemma ex_sum_v2_2d : is_v2_2d ex_sum.
Proof. refine (gen_v2_2d (ex_so 16 ex_sum) (out (out_v2_2d ex_sum)) (r_v2_2d ex_sum) (w_v2_2d ex_sum) v0_v2_2d v1_v2_2d (ran (out_v2_2d ex_sum) _) _ _ _ _); vm_compute; reflexivity. Qed.
Lemma ex_dip_v2_2d : is_v2_2d ex_dip.
Proof. refine (gen_v2_2d (ex_so 16 ex_dip) (out (out_v2_2d ex_dip)) (r_v2_2d ex_dip) (w_v2_2d ex_dip) v0_v2_2d v1_v2_2d (ran (out_v2_2d ex_dip) _) _ _ _ _); vm_compute; reflexivity. Qed.
Lemma sum_v2_2d : forall i j, near2 0 0 1 1 i j -> w_v2_2d ex_sum i j = ((ex_q 1 * w_v2_2d ex_any i j)%Qc + (ex_q 1 * w_v2_2d ex_bump i j)%Qc)%Qc.
Proof. intros i j H. apply same. apply (all2 (fun i j => is_eq (w_v2_2d ex_sum i j) ((ex_q 1 * w_v2_2d ex_any i j) + (ex_q 1 * w_v2_2d ex_bump i j))%Qc) (-1) (-1) 2 2); [vm_compute; reflexivity|..]; k_in H. Qed.
Lemma more_v2_2d : forall i j, patch2 0 0 1 1 i j -> (r_v2_2d ex_any i j <= r_v2_2d ex_sum i j)%Qc.
Proof. intros i j H. apply le. apply (all2 (fun i j => is_le (r_v2_2d ex_any i j) (r_v2_2d ex_sum i j)) 0 0 1 1); [vm_compute; reflexivity|..]; k_in H. Qed.
Lemma higher_v2_2d : forall i j, ghost2 0 0 1 1 i j -> (w_v2_2d ex_any i j <= w_v2_2d ex_sum i j)%Qc.
Proof. intros i j H. apply le. apply (all2 (fun i j => is_le (w_v2_2d ex_any i j) (w_v2_2d ex_sum i j)) (-1) (-1) 2 2); [vm_compute; reflexivity|..]; k_in H. Qed.
Lemma source_v2_2d : forall i j, patch2 0 0 1 1 i j -> (0 <= r_v2_2d ex_bump i j)%Qc.
Proof. intros i j H. apply le. apply (all2 (fun i j => is_le 0 (r_v2_2d ex_bump i j)) 0 0 1 1); [vm_compute; reflexivity|..]; k_in H. Qed.
Lemma rim_v2_2d : forall i j, ghost2 0 0 1 1 i j -> (ex_q 1 <= w_v2_2d ex_bump i j)%Qc.
Proof. intros i j H. apply le. apply (all2 (fun i j => is_le (ex_q 1) (w_v2_2d ex_bump i j)) (-1) (-1) 2 2); [vm_compute; reflexivity|..]; k_in H. Qed.
Lemma sink_v2_2d : forall i j, patch2 0 0 1 1 i j -> (r_v2_2d ex_dip i j <= 0)%Qc.
Proof. intros i j H. apply le. apply (all2 (fun i j => is_le (r_v2_2d ex_dip i j) 0) 0 0 1 1); [vm_compute; reflexivity|..]; k_in H. Qed.
Lemma hole_v2_2d : forall i j, ghost2 0 0 1 1 i j -> (w_v2_2d ex_dip i j <= ex_q 5000)%Qc.
Proof. intros i j H. apply le. apply (all2 (fun i j => is_le (w_v2_2d ex_dip i j) (ex_q 5000)) (-1) (-1) 2 2); [vm_compute; reflexivity|..]; k_in H. Qed.
Lemma v0pos_v2_2d : forall i j, 0 <= i <= 1 + 1 -> 0 <= j <= 1 -> (0 < v0_v2_2d i j)%Qc.
Proof. intros i j Ii Ij. apply lt. apply (all2 (fun i j => is_lt 0 (v0_v2_2d i j)) 0 0 2 1); [vm_compute; reflexivity|..]; lia. Qed.
Lemma v1pos_v2_2d : forall i j, 0 <= i <= 1 -> 0 <= j <= 1 + 1 -> (0 <= v1_v2_2d i j)%Qc.
Proof. intros i j Ii Ij. apply le. apply (all2 (fun i j => is_le 0 (v1_v2_2d i j)) 0 0 1 2); [vm_compute; reflexivity|..]; lia. Qed.

Definition out_poisson_2d (u : Z -> Z) : option (mem QcS) := (m' <- cdf_2d_poisson_flux (S := QcS) 0 0 1 1 ex_h 1 (4%nat, 0) (5%nat, 0) (6%nat, 0) (ex_so 16 u) ;; cd_apply_2d_poisson_v2_apply (S := QcS) 0 1 0 1 (ex_q 2) ex_h (5%nat, 0) (6%nat, 0) 0 (8%nat, 0) m').
Definition r_poisson_2d (u : Z -> Z) (i j : Z) : Qc := value (out (out_poisson_2d u)) (faddr (mkFa (8%nat, 0) (CELL2d 0 0 1 1 0)) [i; j]).
Definition w_poisson_2d (u : Z -> Z) (i j : Z) : Qc := value (ex_so 16 u) (faddr (mkFa (4%nat, 0) (CELL2d 0 0 1 1 1)) [i; j]).
Lemma gen_poisson_2d (m mo : mem QcS) (r w : Z -> Z -> Qc) :
  (m' <- cdf_2d_poisson_flux (S := QcS) 0 0 1 1 ex_h 1 (4%nat, 0) (5%nat, 0) (6%nat, 0) m ;; cd_apply_2d_poisson_v2_apply (S := QcS) 0 1 0 1 (ex_q 2) ex_h (5%nat, 0) (6%nat, 0) 0 (8%nat, 0) m') = Some mo ->
  forallb (fun p => (fun i j => is_num mo (faddr (mkFa (8%nat, 0) (CELL2d 0 0 1 1 0)) [i; j]) (r i j)) (fst p) (snd p)) (cells2 0 0 1 1) = true ->
  forallb (fun p => (fun i j => is_num m (faddr (mkFa (4%nat, 0) (CELL2d 0 0 1 1 1)) [i; j]) (w i j)) (fst p) (snd p)) (cells2 (-1) (-1) 2 2) = true ->
  applied_poisson_2d (S := QcS) 0 0 1 1 ex_h (ex_q 2) 1 (4%nat, 0) (5%nat, 0) (6%nat, 0) 0 (8%nat, 0) m r w.
Proof.
  intros H H0 H1. unfold applied_poisson_2d.
  split; [lia|]. split; [lia|]. split; [k_apart|]. split; [k_apart|]. split; [k_apart|].
  exists mo. split; [exact H|].
  split; [intros i j Ii Ij; apply num; exact (all2 _ _ _ _ _ H0 i j Ii Ij)|].
  intros i j Ii Ij; apply num; exact (all2 _ _ _ _ _ H1 i j Ii Ij).
Qed.
Definition is_poisson_2d (u : Z -> Z) : Prop :=
  applied_poisson_2d (S := QcS) 0 0 1 1 ex_h (ex_q 2) 1 (4%nat, 0) (5%nat, 0) (6%nat, 0) 0 (8%nat, 0) (ex_so 16 u) (r_poisson_2d u) (w_poisson_2d u).
Lemma ex_any_poisson_2d : is_poisson_2d ex_any.
Proof. refine (gen_poisson_2d (ex_so 16 ex_any) (out (out_poisson_2d ex_any)) (r_poisson_2d ex_any) (w_poisson_2d ex_any) (ran (out_poisson_2d ex_any) _) _ _); vm_compute; reflexivity. Qed.
Lemma ex_bump_poisson_2d : is_poisson_2d ex_bump.
Proof. refine (gen_poisson_2d (ex_so 16 ex_bump) (out (out_poisson_2d ex_bump)) (r_poisson_2d ex_bump) (w_poisson_2d ex_bump) (ran (out_poisson_2d ex_bump) _) _ _); vm_compute; reflexivity. Qed.
Lemma ex_sum_poisson_2d : is_poisson_2d ex_sum.
Proof. refine (gen_poisson_2d (ex_so 16 ex_sum) (out (out_poisson_2d ex_sum)) (r_poisson_2d ex_sum) (w_poisson_2d ex_sum) (ran (out_poisson_2d ex_sum) _) _ _); vm_compute; reflexivity. Qed.
Lemma ex_dip_poisson_2d : is_poisson_2d ex_dip.
Proof. refine (gen_poisson_2d (ex_so 16 ex_dip) (out (out_poisson_2d ex_dip)) (r_poisson_2d ex_dip) (w_poisson_2d ex_dip) (ran (out_poisson_2d ex_dip) _) _ _); vm_compute; reflexivity. Qed.
Lemma sum_poisson_2d : forall i j, near2 0 0 1 1 i j -> w_poisson_2d ex_sum i j = ((ex_q 1 * w_poisson_2d ex_any i j)%Qc + (ex_q 1 * w_poisson_2d ex_bump i j)%Qc)%Qc.
Proof. intros i j H. apply same. apply (all2 (fun i j => is_eq (w_poisson_2d ex_sum i j) ((ex_q 1 * w_poisson_2d ex_any i j) + (ex_q 1 * w_poisson_2d ex_bump i j))%Qc) (-1) (-1) 2 2); [vm_compute; reflexivity|..]; k_in H. Qed.
Lemma more_poisson_2d : forall i j, patch2 0 0 1 1 i j -> (r_poisson_2d ex_any i j <= r_poisson_2d ex_sum i j)%Qc.
Proof. intros i j H. apply le. apply (all2 (fun i j => is_le (r_poisson_2d ex_any i j) (r_poisson_2d ex_sum i j)) 0 0 1 1); [vm_compute; reflexivity|..]; k_in H. Qed.
Lemma higher_poisson_2d : forall i j, ghost2 0 0 1 1 i j -> (w_poisson_2d ex_any i j <= w_poisson_2d ex_sum i j)%Qc.
Proof. intros i j H. apply le. apply (all2 (fun i j => is_le (w_poisson_2d ex_any i j) (w_poisson_2d ex_sum i j)) (-1) (-1) 2 2); [vm_compute; reflexivity|..]; k_in H. Qed.
Lemma source_poisson_2d : forall i j, patch2 0 0 1 1 i j -> (0 <= r_poisson_2d ex_bump i j)%Qc.
Proof. intros i j H. apply le. apply (all2 (fun i j => is_le 0 (r_poisson_2d ex_bump i j)) 0 0 1 1); [vm_compute; reflexivity|..]; k_in H. Qed.
Lemma rim_poisson_2d : forall i j, ghost2 0 0 1 1 i j -> (ex_q 1 <= w_poisson_2d ex_bump i j)%Qc.
Proof. intros i j H. apply le. apply (all2 (fun i j => is_le (ex_q 1) (w_poisson_2d ex_bump i j)) (-1) (-1) 2 2); [vm_compute; reflexivity|..]; k_in H. Qed.
Lemma sink_poisson_2d : forall i j, patch2 0 0 1 1 i j -> (r_poisson_2d ex_dip i j <= 0)%Qc.
Proof. intros i j H. apply le. apply (all2 (fun i j => is_le (r_poisson_2d ex_dip i j) 0) 0 0 1 1); [vm_compute; reflexivity|..]; k_in H. Qed.
Lemma hole_poisson_2d : forall i j, ghost2 0 0 1 1 i j -> (w_poisson_2d ex_dip i j <= ex_q 5000)%Qc.
Proof. intros i j H. apply le. apply (all2 (fun i j => is_le (w_poisson_2d ex_dip i j) (ex_q 5000)) (-1) (-1) 2 2); [vm_compute; reflexivity|..]; k_in H. Qed.

Definition out_v1_3d (u : Z -> Z) : option (mem QcS) := (m' <- cdf_3d_flux (S := QcS) 0 0 0 1 1 0 ex_h (0%nat, 0) (1%nat, 0) (2%nat, 0) 1 (4%nat, 0) (5%nat, 0) (6%nat, 0) (7%nat, 0) (ex_so 48 u) ;; cd_apply_3d_diffusion_v1_apply (S := QcS) 0 1 0 1 0 0 (ex_q 3) (ex_q 2) ex_h 0 (3%nat, 0) 1 (4%nat, 0) (5%nat, 0) (6%nat, 0) (7%nat, 0) 0 (8%nat, 0) m').
Definition r_v1_3d (u : Z -> Z) (i j k : Z) : Qc := value (out (out_v1_3d u)) (faddr (mkFa (8%nat, 0) (CELL3d 0 0 0 1 1 0 0)) [i; j; k]).
Definition w_v1_3d (u : Z -> Z) (i j k : Z) : Qc := value (ex_so 48 u) (faddr (mkFa (4%nat, 0) (CELL3d 0 0 0 1 1 0 1)) [i; j; k]).
Definition c_v1_3d (i j k : Z) : Qc := value (ex_so 48 ex_any) (faddr (mkFa (3%nat, 0) (CELL3d 0 0 0 1 1 0 0)) [i; j; k]).
Definition v0_v1_3d (i j k : Z) : Qc := value (ex_so 48 ex_any) (faddr (mkFa (0%nat, 0) (FACE3d0 0 0 0 1 1 0 0)) [i; j; k]).
Definition v1_v1_3d (i j k : Z) : Qc := value (ex_so 48 ex_any) (faddr (mkFa (1%nat, 0) (FACE3d1 0 0 0 1 1 0 0)) [j; k; i]).
Definition v2_v1_3d (i j k : Z) : Qc := value (ex_so 48 ex_any) (faddr (mkFa (2%nat, 0) (FACE3d2 0 0 0 1 1 0 0)) [k; i; j]).
Lemma gen_v1_3d (m mo : mem QcS) (r w c v0 v1 v2 : Z -> Z -> Z -> Qc) :
  (m' <- cdf_3d_flux (S := QcS) 0 0 0 1 1 0 ex_h (0%nat, 0) (1%nat, 0) (2%nat, 0) 1 (4%nat, 0) (5%nat, 0) (6%nat, 0) (7%nat, 0) m ;; cd_apply_3d_diffusion_v1_apply (S := QcS) 0 1 0 1 0 0 (ex_q 3) (ex_q 2) ex_h 0 (3%nat, 0) 1 (4%nat, 0) (5%nat, 0) (6%nat, 0) (7%nat, 0) 0 (8%nat, 0) m') = Some mo ->
  forallb (fun p => (fun i j k => is_num mo (faddr (mkFa (8%nat, 0) (CELL3d 0 0 0 1 1 0 0)) [i; j; k]) (r i j k)) (fst (fst p)) (snd (fst p)) (snd p)) (cells3 0 0 0 1 1 0) = true ->
  forallb (fun p => (fun i j k => is_num m (faddr (mkFa (4%nat, 0) (CELL3d 0 0 0 1 1 0 1)) [i; j; k]) (w i j k)) (fst (fst p)) (snd (fst p)) (snd p)) (cells3 (-1) (-1) (-1) 2 2 1) = true ->
  forallb (fun p => (fun i j k => is_num m (faddr (mkFa (3%nat, 0) (CELL3d 0 0 0 1 1 0 0)) [i; j; k]) (c i j k)) (fst (fst p)) (snd (fst p)) (snd p)) (cells3 0 0 0 1 1 0) = true ->
  forallb (fun p => (fun i j k => is_num m (faddr (mkFa (0%nat, 0) (FACE3d0 0 0 0 1 1 0 0)) [i; j; k]) (v0 i j k)) (fst (fst p)) (snd (fst p)) (snd p)) (cells3 0 0 0 2 1 0) = true ->
  forallb (fun p => (fun i j k => is_num m (faddr (mkFa (1%nat, 0) (FACE3d1 0 0 0 1 1 0 0)) [j; k; i]) (v1 i j k)) (fst (fst p)) (snd (fst p)) (snd p)) (cells3 0 0 0 1 2 0) = true ->
  forallb (fun p => (fun i j k => is_num m (faddr (mkFa (2%nat, 0) (FACE3d2 0 0 0 1 1 0 0)) [k; i; j]) (v2 i j k)) (fst (fst p)) (snd (fst p)) (snd p)) (cells3 0 0 0 1 1 1) = true ->
  applied_v1_3d (S := QcS) 0 0 0 1 1 0 ex_h (ex_q 2) (0%nat, 0) (1%nat, 0) (2%nat, 0) 1 (4%nat, 0) (5%nat, 0) (6%nat, 0) (7%nat, 0) (ex_q 3) 0 (3%nat, 0) 0 (8%nat, 0) m r w c v0 v1 v2.
Proof.
  intros H H0 H1 H2 H3 H4 H5. unfold applied_v1_3d.
  split; [lia|]. split; [lia|]. split; [k_apart|]. split; [k_apart|]. split; [k_apart|]. split; [k_apart|].
  exists mo. split; [exact H|].
  split; [intros i j k Ii Ij Ik; apply num; exact (all3 _ _ _ _ _ _ _ H0 i j k Ii Ij Ik)|].
  split; [intros i j k Ii Ij Ik; apply num; exact (all3 _ _ _ _ _ _ _ H1 i j k Ii Ij Ik)|].
  split; [intros i j k Ii Ij Ik; apply num; exact (all3 _ _ _ _ _ _ _ H2 i j k Ii Ij Ik)|].
  split; [intros i j k Ii Ij Ik; apply num; exact (all3 _ _ _ _ _ _ _ H3 i j k Ii Ij Ik)|].
  split; [intros i j k Ii Ij Ik; apply num; exact (all3 _ _ _ _ _ _ _ H4 i j k Ii Ij Ik)|].
  intros i j k Ii Ij Ik; apply num; exact (all3 _ _ _ _ _ _ _ H5 i j k Ii Ij Ik).
Qed.
Definition is_v1_3d (u : Z -> Z) : Prop :=
  applied_v1_3d (S := QcS) 0 0 0 1 1 0 ex_h (ex_q 2) (0%nat, 0) (1%nat, 0) (2%nat, 0) 1 (4%nat, 0) (5%nat, 0) (6%nat, 0) (7%nat, 0) (ex_q 3) 0 (3%nat, 0) 0 (8%nat, 0) (ex_so 48 u) (r_v1_3d u) (w_v1_3d u) c_v1_3d v0_v1_3d v1_v1_3d v2_v1_3d.
Lemma ex_any_v1_3d : is_v1_3d ex_any.
Proof. refine (gen_v1_3d (ex_so 48 ex_any) (out (out_v1_3d ex_any)) (r_v1_3d ex_any) (w_v1_3d ex_any) c_v1_3d v0_v1_3d v1_v1_3d v2_v1_3d (ran (out_v1_3d ex_any) _) _ _ _ _ _ _); vm_compute; reflexivity. Qed.
Lemma ex_bump_v1_3d : is_v1_3d ex_bump.
Proof. refine (gen_v1_3d (ex_so 48 ex_bump) (out (out_v1_3d ex_bump)) (r_v1_3d ex_bump) (w_v1_3d ex_bump) c_v1_3d v0_v1_3d v1_v1_3d v2_v1_3d (ran (out_v1_3d ex_bump) _) _ _ _ _ _ _); vm_compute; reflexivity. Qed.
Lemma ex_sum_v1_3d : is_v1_3d ex_sum.
Proof. refine (gen_v1_3d (ex_so 48 ex_sum) (out (out_v1_3d ex_sum)) (r_v1_3d ex_sum) (w_v1_3d ex_sum) c_v1_3d v0_v1_3d v1_v1_3d v2_v1_3d (ran (out_v1_3d ex_sum) _) _ _ _ _ _ _); vm_compute; reflexivity. Qed.
Lemma ex_dip_v1_3d : is_v1_3d ex_dip.
Proof. refine (gen_v1_3d (ex_so 48 ex_dip) (out (out_v1_3d ex_dip)) (r_v1_3d ex_dip) (w_v1_3d ex_dip) c_v1_3d v0_v1_3d v1_v1_3d v2_v1_3d (ran (out_v1_3d ex_dip) _) _ _ _ _ _ _); vm_compute; reflexivity. Qed.
Lemma sum_v1_3d : forall i j k, near3 0 0 0 1 1 0 i j k -> w_v1_3d ex_sum i j k = ((ex_q 1 * w_v1_3d ex_any i j k)%Qc + (ex_q 1 * w_v1_3d ex_bump i j k)%Qc)%Qc.
Proof. intros i j k H. apply same. apply (all3 (fun i j k => is_eq (w_v1_3d ex_sum i j k) ((ex_q 1 * w_v1_3d ex_any i j k) + (ex_q 1 * w_v1_3d ex_bump i j k))%Qc) (-1) (-1) (-1) 2 2 1); [vm_compute; reflexivity|..]; k_in H. Qed.
Lemma more_v1_3d : forall i j k, patch3 0 0 0 1 1 0 i j k -> (r_v1_3d ex_any i j k <= r_v1_3d ex_sum i j k)%Qc.
Proof. intros i j k H. apply le. apply (all3 (fun i j k => is_le (r_v1_3d ex_any i j k) (r_v1_3d ex_sum i j k)) 0 0 0 1 1 0); [vm_compute; reflexivity|..]; k_in H. Qed.
Lemma higher_v1_3d : forall i j k, ghost3 0 0 0 1 1 0 i j k -> (w_v1_3d ex_any i j k <= w_v1_3d ex_sum i j k)%Qc.
Proof. intros i j k H. apply le. apply (all3 (fun i j k => is_le (w_v1_3d ex_any i j k) (w_v1_3d ex_sum i j k)) (-1) (-1) (-1) 2 2 1); [vm_compute; reflexivity|..]; k_in H. Qed.
Lemma source_v1_3d : forall i j k, patch3 0 0 0 1 1 0 i j k -> (0 <= r_v1_3d ex_bump i j k)%Qc.
Proof. intros i j k H. apply le. apply (all3 (fun i j k => is_le 0 (r_v1_3d ex_bump i j k)) 0 0 0 1 1 0); [vm_compute; reflexivity|..]; k_in H. Qed.
Lemma rim_v1_3d : forall i j k, ghost3 0 0 0 1 1 0 i j k -> (ex_q 1 <= w_v1_3d ex_bump i j k)%Qc.
Proof. intros i j k H. apply le. apply (all3 (fun i j k => is_le (ex_q 1) (w_v1_3d ex_bump i j k)) (-1) (-1) (-1) 2 2 1); [vm_compute; reflexivity|..]; k_in H. Qed.
Lemma sink_v1_3d : forall i j k, patch3 0 0 0 1 1 0 i j k -> (r_v1_3d ex_dip i j k <= 0)%Qc.
Proof. intros i j k H. apply le. apply (all3 (fun i j k => is_le (r_v1_3d ex_dip i j k) 0) 0 0 0 1 1 0); [vm_compute; reflexivity|..]; k_in H. Qed.
Lemma hole_v1_3d : forall i j k, ghost3 0 0 0 1 1 0 i j k -> (w_v1_3d ex_dip i j k <= ex_q 5000)%Qc.
Proof. intros i j k H. apply le. apply (all3 (fun i j k => is_le (w_v1_3d ex_dip i j k) (ex_q 5000)) (-1) (-1) (-1) 2 2 1); [vm_compute; reflexivity|..]; k_in H. Qed.
Lemma cpos_v1_3d : forall i j k, patch3 0 0 0 1 1 0 i j k -> (0 <= c_v1_3d i j k)%Qc.
Proof. intros i j k H. apply le. apply (all3 (fun i j k => is_le 0 (c_v1_3d i j k)) 0 0 0 1 1 0); [vm_compute; reflexivity|..]; k_in H. Qed.
Lemma v0pos_v1_3d : forall i j k, 0 <= i <= 1 + 1 -> 0 <= j <= 1 -> 0 <= k <= 0 -> (0 < v0_v1_3d i j k)%Qc.
Proof. intros i j k Ii Ij Ik. apply lt. apply (all3 (fun i j k => is_lt 0 (v0_v1_3d i j k)) 0 0 0 2 1 0); [vm_compute; reflexivity|..]; lia. Qed.
Lemma v1pos_v1_3d : forall i j k, 0 <= i <= 1 -> 0 <= j <= 1 + 1 -> 0 <= k <= 0 -> (0 <= v1_v1_3d i j k)%Qc.
Proof. intros i j k Ii Ij Ik. apply le. apply (all3 (fun i j k => is_le 0 (v1_v1_3d i j k)) 0 0 0 1 2 0); [vm_compute; reflexivity|..]; lia. Qed.
Lemma v2pos_v1_3d : forall i j k, 0 <= i <= 1 -> 0 <= j <= 1 -> 0 <= k <= 0 + 1 -> (0 <= v2_v1_3d i j k)%Qc.
Proof. intros i j k Ii Ij Ik. apply le. apply (all3 (fun i j k => is_le 0 (v2_v1_3d i j k)) 0 0 0 1 1 1); [vm_compute; reflexivity|..]; lia. Qed.

Definition out_v2_3d (u : Z -> Z) : option (mem QcS) := (m' <- cdf_3d_flux (S := QcS) 0 0 0 1 1 0 ex_h (0%nat, 0) (1%nat, 0) (2%nat, 0) 1 (4%nat, 0) (5%nat, 0) (6%nat, 0) (7%nat, 0) (ex_so 48 u) ;; cd_apply_3d_diffusion_v2_apply (S := QcS) 0 1 0 1 0 0 (ex_q 3) (ex_q 2) ex_h 1 (4%nat, 0) (5%nat, 0) (6%nat, 0) (7%nat, 0) 0 (8%nat, 0) m').
Definition r_v2_3d (u : Z -> Z) (i j k : Z) : Qc := value (out (out_v2_3d u)) (faddr (mkFa (8%nat, 0) (CELL3d 0 0 0 1 1 0 0)) [i; j; k]).
Definition w_v2_3d (u : Z -> Z) (i j k : Z) : Qc := value (ex_so 48 u) (faddr (mkFa (4%nat, 0) (CELL3d 0 0 0 1 1 0 1)) [i; j; k]).
Definition v0_v2_3d (i j k : Z) : Qc := value (ex_so 48 ex_any) (faddr (mkFa (0%nat, 0) (FACE3d0 0 0 0 1 1 0 0)) [i; j; k]).
Definition v1_v2_3d (i j k : Z) : Qc := value (ex_so 48 ex_any) (faddr (mkFa (1%nat, 0) (FACE3d1 0 0 0 1 1 0 0)) [j; k; i]).
Definition v2_v2_3d (i j k : Z) : Qc := value (ex_so 48 ex_any) (faddr (mkFa (2%nat, 0) (FACE3d2 0 0 0 1 1 0 0)) [k; i; j]).
Lemma gen_v2_3d (m mo : mem QcS) (r w v0 v1 v2 : Z -> Z -> Z -> Qc) :
  (m' <- cdf_3d_flux (S := QcS) 0 0 0 1 1 0 ex_h (0%nat, 0) (1%nat, 0) (2%nat, 0) 1 (4%nat, 0) (5%nat, 0) (6%nat, 0) (7%nat, 0) m ;; cd_apply_3d_diffusion_v2_apply (S := QcS) 0 1 0 1 0 0 (ex_q 3) (ex_q 2) ex_h 1 (4%nat, 0) (5%nat, 0) (6%nat, 0) (7%nat, 0) 0 (8%nat, 0) m') = Some mo ->
  forallb (fun p => (fun i j k => is_num mo (faddr (mkFa (8%nat, 0) (CELL3d 0 0 0 1 1 0 0)) [i; j; k]) (r i j k)) (fst (fst p)) (snd (fst p)) (snd p)) (cells3 0 0 0 1 1 0) = true ->
  forallb (fun p => (fun i j k => is_num m (faddr (mkFa (4%nat, 0) (CELL3d 0 0 0 1 1 0 1)) [i; j; k]) (w i j k)) (fst (fst p)) (snd (fst p)) (snd p)) (cells3 (-1) (-1) (-1) 2 2 1) = true ->
  forallb (fun p => (fun i j k => is_num m (faddr (mkFa (0%nat, 0) (FACE3d0 0 0 0 1 1 0 0)) [i; j; k]) (v0 i j k)) (fst (fst p)) (snd (fst p)) (snd p)) (cells3 0 0 0 2 1 0) = true ->
  forallb (fun p => (fun i j k => is_num m (faddr (mkFa (1%nat, 0) (FACE3d1 0 0 0 1 1 0 0)) [j; k; i]) (v1 i j k)) (fst (fst p)) (snd (fst p)) (snd p)) (cells3 0 0 0 1 2 0) = true ->
  forallb (fun p => (fun i j k => is_num m (faddr (mkFa (2%nat, 0) (FACE3d2 0 0 0 1 1 0 0)) [k; i; j]) (v2 i j k)) (fst (fst p)) (snd (fst p)) (snd p)) (cells3 0 0 0 1 1 1) = true ->
  applied_v2_3d (S := QcS) 0 0 0 1 1 0 ex_h (ex_q 2) (0%nat, 0) (1%nat, 0) (2%nat, 0) 1 (4%nat, 0) (5%nat, 0) (6%nat, 0) (7%nat, 0) (ex_q 3) 0 (8%nat, 0) m r w v0 v1 v2.
Proof.
  intros H H0 H1 H2 H3 H4. unfold applied_v2_3d.
  split; [lia|]. split; [lia|]. split; [k_apart|]. split; [k_apart|]. split; [k_apart|]. split; [k_apart|].
  exists mo. split; [exact H|].
  split; [intros i j k Ii Ij Ik; apply num; exact (all3 _ _ _ _ _ _ _ H0 i j k Ii Ij Ik)|].
  split; [intros i j k Ii Ij Ik; apply num; exact (all3 _ _ _ _ _ _ _ H1 i j k Ii Ij Ik)|].
  split; [intros i j k Ii Ij Ik; apply num; exact (all3 _ _ _ _ _ _ _ H2 i j k Ii Ij Ik)|].
  split; [intros i j k Ii Ij Ik; apply num; exact (all3 _ _ _ _ _ _ _ H3 i j k Ii Ij Ik)|].
  intros i j k Ii Ij Ik; apply num; exact (all3 _ _ _ _ _ _ _ H4 i j k Ii Ij Ik).
Qed.
Definition is_v2_3d (u : Z -> Z) : Prop :=
  applied_v2_3d (S := QcS) 0 0 0 1 1 0 ex_h (ex_q 2) (0%nat, 0) (1%nat, 0) (2%nat, 0) 1 (4%nat, 0) (5%nat, 0) (6%nat, 0) (7%nat, 0) (ex_q 3) 0 (8%nat, 0) (ex_so 48 u) (r_v2_3d u) (w_v2_3d u) v0_v2_3d v1_v2_3d v2_v2_3d.
Lemma ex_any_v2_3d : is_v2_3d ex_any.
Proof. refine (gen_v2_3d (ex_so 48 ex_any) (out (out_v2_3d ex_any)) (r_v2_3d ex_any) (w_v2_3d ex_any) v0_v2_3d v1_v2_3d v2_v2_3d (ran (out_v2_3d ex_any) _) _ _ _ _ _); vm_compute; reflexivity. Qed.
Lemma ex_bump_v2_3d : is_v2_3d ex_bump.
Proof. refine (gen_v2_3d (ex_so 48 ex_bump) (out (out_v2_3d ex_bump)) (r_v2_3d ex_bump) (w_v2_3d ex_bump) v0_v2_3d v1_v2_3d v2_v2_3d (ran (out_v2_3d ex_bump) _) _ _ _ _ _); vm_compute; reflexivity. Qed.
Lemma ex_sum_v2_3d : is_v2_3d ex_sum.
Proof. refine (gen_v2_3d (ex_so 48 ex_sum) (out (out_v2_3d ex_sum)) (r_v2_3d ex_sum) (w_v2_3d ex_sum) v0_v2_3d v1_v2_3d v2_v2_3d (ran (out_v2_3d ex_sum) _) _ _ _ _ _); vm_compute; reflexivity. Qed.
Lemma ex_dip_v2_3d : is_v2_3d ex_dip.
Proof. refine (gen_v2_3d (ex_so 48 ex_dip) (out (out_v2_3d ex_dip)) (r_v2_3d ex_dip) (w_v2_3d ex_dip) v0_v2_3d v1_v2_3d v2_v2_3d (ran (out_v2_3d ex_dip) _) _ _ _ _ _); vm_compute; reflexivity. Qed.
Lemma sum_v2_3d : forall i j k, near3 0 0 0 1 1 0 i j k -> w_v2_3d ex_sum i j k = ((ex_q 1 * w_v2_3d ex_any i j k)%Qc + (ex_q 1 * w_v2_3d ex_bump i j k)%Qc)%Qc.
Proof. intros i j k H. apply same. apply (all3 (fun i j k => is_eq (w_v2_3d ex_sum i j k) ((ex_q 1 * w_v2_3d ex_any i j k) + (ex_q 1 * w_v2_3d ex_bump i j k))%Qc) (-1) (-1) (-1) 2 2 1); [vm_compute; reflexivity|..]; k_in H. Qed.
Lemma more_v2_3d : forall i j k, patch3 0 0 0 1 1 0 i j k -> (r_v2_3d ex_any i j k <= r_v2_3d ex_sum i j k)%Qc.
Proof. intros i j k H. apply le. apply (all3 (fun i j k => is_le (r_v2_3d ex_any i j k) (r_v2_3d ex_sum i j k)) 0 0 0 1 1 0); [vm_compute; reflexivity|..]; k_in H. Qed.
Lemma higher_v2_3d : forall i j k, ghost3 0 0 0 1 1 0 i j k -> (w_v2_3d ex_any i j k <= w_v2_3d ex_sum i j k)%Qc.
Proof. intros i j k H. apply le. apply (all3 (fun i j k => is_le (w_v2_3d ex_any i j k) (w_v2_3d ex_sum i j k)) (-1) (-1) (-1) 2 2 1); [vm_compute; reflexivity|..]; k_in H. Qed.
Lemma source_v2_3d : forall i j k, patch3 0 0 0 1 1 0 i j k -> (0 <= r_v2_3d ex_bump i j k)%Qc.
Proof. intros i j k H. apply le. apply (all3 (fun i j k => is_le 0 (r_v2_3d ex_bump i j k)) 0 0 0 1 1 0); [vm_compute; reflexivity|..]; k_in H. Qed.
Lemma rim_v2_3d : forall i j k, ghost3 0 0 0 1 1 0 i j k -> (ex_q 1 <= w_v2_3d ex_bump i j k)%Qc.
Proof. intros i j k H. apply le. apply (all3 (fun i j k => is_le (ex_q 1) (w_v2_3d ex_bump i j k)) (-1) (-1) (-1) 2 2 1); [vm_compute; reflexivity|..]; k_in H. Qed.
Lemma sink_v2_3d : forall i j k, patch3 0 0 0 1 1 0 i j k -> (r_v2_3d ex_dip i j k <= 0)%Qc.
Proof. intros i j k H. apply le. apply (all3 (fun i j k => is_le (r_v2_3d ex_dip i j k) 0) 0 0 0 1 1 0); [vm_compute; reflexivity|..]; k_in H. Qed.
Lemma hole_v2_3d : forall i j k, ghost3 0 0 0 1 1 0 i j k -> (w_v2_3d ex_dip i j k <= ex_q 5000)%Qc.
Proof. intros i j k H. apply le. apply (all3 (fun i j k => is_le (w_v2_3d ex_dip i j k) (ex_q 5000)) (-1) (-1) (-1) 2 2 1); [vm_compute; reflexivity|..]; k_in H. Qed.
Lemma v0pos_v2_3d : forall i j k, 0 <= i <= 1 + 1 -> 0 <= j <= 1 -> 0 <= k <= 0 -> (0 < v0_v2_3d i j k)%Qc.
Proof. intros i j k Ii Ij Ik. apply lt. apply (all3 (fun i j k => is_lt 0 (v0_v2_3d i j k)) 0 0 0 2 1 0); [vm_compute; reflexivity|..]; lia. Qed.
Lemma v1pos_v2_3d : forall i j k, 0 <= i <= 1 -> 0 <= j <= 1 + 1 -> 0 <= k <= 0 -> (0 <= v1_v2_3d i j k)%Qc.
Proof. intros i j k Ii Ij Ik. apply le. apply (all3 (fun i j k => is_le 0 (v1_v2_3d i j k)) 0 0 0 1 2 0); [vm_compute; reflexivity|..]; lia. Qed.
Lemma v2pos_v2_3d : forall i j k, 0 <= i <= 1 -> 0 <= j <= 1 -> 0 <= k <= 0 + 1 -> (0 <= v2_v2_3d i j k)%Qc.
Proof. intros i j k Ii Ij Ik. apply le. apply (all3 (fun i j k => is_le 0 (v2_v2_3d i j k)) 0 0 0 1 1 1); [vm_compute; reflexivity|..]; lia. Qed.

Definition out_poisson_3d (u : Z -> Z) : option (mem QcS) := (m' <- cdf_3d_poisson_flux (S := QcS) 0 0 0 1 1 0 ex_h 1 (4%nat, 0) (5%nat, 0) (6%nat, 0) (7%nat, 0) (ex_so 48 u) ;; cd_apply_3d_poisson_v2_apply (S := QcS) 0 1 0 1 0 0 (ex_q 2) ex_h (5%nat, 0) (6%nat, 0) (7%nat, 0) 0 (8%nat, 0) m').
Definition r_poisson_3d (u : Z -> Z) (i j k : Z) : Qc := value (out (out_poisson_3d u)) (faddr (mkFa (8%nat, 0) (CELL3d 0 0 0 1 1 0 0)) [i; j; k]).
Definition w_poisson_3d (u : Z -> Z) (i j k : Z) : Qc := value (ex_so 48 u) (faddr (mkFa (4%nat, 0) (CELL3d 0 0 0 1 1 0 1)) [i; j; k]).
Lemma gen_poisson_3d (m mo : mem QcS) (r w : Z -> Z -> Z -> Qc) :
  (m' <- cdf_3d_poisson_flux (S := QcS) 0 0 0 1 1 0 ex_h 1 (4%nat, 0) (5%nat, 0) (6%nat, 0) (7%nat, 0) m ;; cd_apply_3d_poisson_v2_apply (S := QcS) 0 1 0 1 0 0 (ex_q 2) ex_h (5%nat, 0) (6%nat, 0) (7%nat, 0) 0 (8%nat, 0) m') = Some mo ->
  forallb (fun p => (fun i j k => is_num mo (faddr (mkFa (8%nat, 0) (CELL3d 0 0 0 1 1 0 0)) [i; j; k]) (r i j k)) (fst (fst p)) (snd (fst p)) (snd p)) (cells3 0 0 0 1 1 0) = true ->
  forallb (fun p => (fun i j k => is_num m (faddr (mkFa (4%nat, 0) (CELL3d 0 0 0 1 1 0 1)) [i; j; k]) (w i j k)) (fst (fst p)) (snd (fst p)) (snd p)) (cells3 (-1) (-1) (-1) 2 2 1) = true ->
  applied_poisson_3d (S := QcS) 0 0 0 1 1 0 ex_h (ex_q 2) 1 (4%nat, 0) (5%nat, 0) (6%nat, 0) (7%nat, 0) 0 (8%nat, 0) m r w.
Proof.
  intros H H0 H1. unfold applied_poisson_3d.
  split; [lia|]. split; [lia|]. split; [k_apart|]. split; [k_apart|]. split; [k_apart|]. split; [k_apart|].
  exists mo. split; [exact H|].
  split; [intros i j k Ii Ij Ik; apply num; exact (all3 _ _ _ _ _ _ _ H0 i j k Ii Ij Ik)|].
  intros i j k Ii Ij Ik; apply num; exact (all3 _ _ _ _ _ _ _ H1 i j k Ii Ij Ik).
Qed.
Definition is_poisson_3d (u : Z -> Z) : Prop :=
  applied_poisson_3d (S := QcS) 0 0 0 1 1 0 ex_h (ex_q 2) 1 (4%nat, 0) (5%nat, 0) (6%nat, 0) (7%nat, 0) 0 (8%nat, 0) (ex_so 48 u) (r_poisson_3d u) (w_poisson_3d u).
Lemma ex_any_poisson_3d : is_poisson_3d ex_any.
Proof. refine (gen_poisson_3d (ex_so 48 ex_any) (out (out_poisson_3d ex_any)) (r_poisson_3d ex_any) (w_poisson_3d ex_any) (ran (out_poisson_3d ex_any) _) _ _); vm_compute; reflexivity. Qed.
Lemma ex_bump_poisson_3d : is_poisson_3d ex_bump.
Proof. refine (gen_poisson_3d (ex_so 48 ex_bump) (out (out_poisson_3d ex_bump)) (r_poisson_3d ex_bump) (w_poisson_3d ex_bump) (ran (out_poisson_3d ex_bump) _) _ _); vm_compute; reflexivity. Qed.
Lemma ex_sum_poisson_3d : is_poisson_3d ex_sum.
Proof. refine (gen_poisson_3d (ex_so 48 ex_sum) (out (out_poisson_3d ex_sum)) (r_poisson_3d ex_sum) (w_poisson_3d ex_sum) (ran (out_poisson_3d ex_sum) _) _ _); vm_compute; reflexivity. Qed.
Lemma ex_dip_poisson_3d : is_poisson_3d ex_dip.
Proof. refine (gen_poisson_3d (ex_so 48 ex_dip) (out (out_poisson_3d ex_dip)) (r_poisson_3d ex_dip) (w_poisson_3d ex_dip) (ran (out_poisson_3d ex_dip) _) _ _); vm_compute; reflexivity. Qed.
Lemma sum_poisson_3d : forall i j k, near3 0 0 0 1 1 0 i j k -> w_poisson_3d ex_sum i j k = ((ex_q 1 * w_poisson_3d ex_any i j k)%Qc + (ex_q 1 * w_poisson_3d ex_bump i j k)%Qc)%Qc.
Proof. intros i j k H. apply same. apply (all3 (fun i j k => is_eq (w_poisson_3d ex_sum i j k) ((ex_q 1 * w_poisson_3d ex_any i j k) + (ex_q 1 * w_poisson_3d ex_bump i j k))%Qc) (-1) (-1) (-1) 2 2 1); [vm_compute; reflexivity|..]; k_in H. Qed.
Lemma more_poisson_3d : forall i j k, patch3 0 0 0 1 1 0 i j k -> (r_poisson_3d ex_any i j k <= r_poisson_3d ex_sum i j k)%Qc.
Proof. intros i j k H. apply le. apply (all3 (fun i j k => is_le (r_poisson_3d ex_any i j k) (r_poisson_3d ex_sum i j k)) 0 0 0 1 1 0); [vm_compute; reflexivity|..]; k_in H. Qed.
Lemma higher_poisson_3d : forall i j k, ghost3 0 0 0 1 1 0 i j k -> (w_poisson_3d ex_any i j k <= w_poisson_3d ex_sum i j k)%Qc.
Proof. intros i j k H. apply le. apply (all3 (fun i j k => is_le (w_poisson_3d ex_any i j k) (w_poisson_3d ex_sum i j k)) (-1) (-1) (-1) 2 2 1); [vm_compute; reflexivity|..]; k_in H. Qed.
Lemma source_poisson_3d : forall i j k, patch3 0 0 0 1 1 0 i j k -> (0 <= r_poisson_3d ex_bump i j k)%Qc.
Proof. intros i j k H. apply le. apply (all3 (fun i j k => is_le 0 (r_poisson_3d ex_bump i j k)) 0 0 0 1 1 0); [vm_compute; reflexivity|..]; k_in H. Qed.
Lemma rim_poisson_3d : forall i j k, ghost3 0 0 0 1 1 0 i j k -> (ex_q 1 <= w_poisson_3d ex_bump i j k)%Qc.
Proof. intros i j k H. apply le. apply (all3 (fun i j k => is_le (ex_q 1) (w_poisson_3d ex_bump i j k)) (-1) (-1) (-1) 2 2 1); [vm_compute; reflexivity|..]; k_in H. Qed.
Lemma sink_poisson_3d : forall i j k, patch3 0 0 0 1 1 0 i j k -> (r_poisson_3d ex_dip i j k <= 0)%Qc.
Proof. intros i j k H. apply le. apply (all3 (fun i j k => is_le (r_poisson_3d ex_dip i j k) 0) 0 0 0 1 1 0); [vm_compute; reflexivity|..]; k_in H. Qed.
Lemma hole_poisson_3d : forall i j k, ghost3 0 0 0 1 1 0 i j k -> (w_poisson_3d ex_dip i j k <= ex_q 5000)%Qc.
Proof. intros i j k H. apply le. apply (all3 (fun i j k => is_le (w_poisson_3d ex_dip i j k) (ex_q 5000)) (-1) (-1) (-1) 2 2 1); [vm_compute; reflexivity|..]; k_in H. Qed.

