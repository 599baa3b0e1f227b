(** * Computed cases of linear extrapolation *)

From Coq Require Import QArith Qcanon.
From Verif Require Import Base FortranBase FortranExtrap Instances SpecSmooth LemCells SpecExtrap LemExtrap.
Import ListNotations.
Open Scope Z_scope.

(** The array with [g] layers around the patch [0..1] in every direction holds [f] at
    its cells. *)
Definition xlo (d : Z) : Z := 0.
Definition xhi (d : Z) : Z := 1.
Definition xu (g : Z) : farray := mkFa (0%nat, 0) (CELL3d 0 0 0 1 1 1 g).
Definition xmem (g : Z) (f : list Z -> QcS) : mem QcS := mkMem [map f (box_cells (CELL3d 0 0 0 1 1 1 g))] [].

(** [f] on the patch, 7 around it. *)
Definition in_patch (c : list Z) : bool := forallb (fun i => (0 <=? i) && (i <=? 1)) c.
Definition xfill (f : list Z -> QcS) (c : list Z) : QcS := if in_patch c then f c else lit 7.

Definition at_cell (h : Z -> Z -> Z -> Z) (c : list Z) : QcS := lit (h (nth 0 c 0) (nth 1 c 0) (nth 2 c 0)).
Definition xaff : list Z -> QcS := at_cell (fun i j k => 3 + 2 * i - j + 5 * k).
Definition xbil : list Z -> QcS := at_cell (fun i j k => i * j).

Lemma xaff_affine : affine xaff.
Proof.
  exists (lit 3), (lit 2), (lit (-1)), (lit 5). intros i j k. unfold xaff, at_cell. cbn [nth].
  rewrite <- !(fl_mul _ QcS_laws), <- !(fl_add _ QcS_laws). apply (f_equal (@lit QcS)). lia.
Qed.

Lemma by_cells (bs : list (Z * Z)) (P : list Z -> bool) : forallb P (box_cells bs) = true -> forall c, in_box bs c -> P c = true.
Proof. intros H c Hc. rewrite forallb_forall in H. apply H. apply box_cells_in. exact Hc. Qed.

Lemma xmem_allocated g f : forallb (fun c => match fel (xu g) c (xmem g f) with Some _ => true | None => false end) (box_cells (CELL3d 0 0 0 1 1 1 g)) = true ->
  allocated (xmem g f) (xu g).
Proof.
  intros H c Hc. apply (by_cells _ _ H) in Hc. destruct (fel _ _ _) as [v|]; [exists v; reflexivity|discriminate].
Qed.

Definition is_value (g : Z) (m : mem QcS) (c : list Z) (x : QcS) : bool :=
  match fel (xu g) c m with Some v => Qc_eq_bool v x | None => false end.

Lemma is_value_eq g m c x : is_value g m c x = true -> fel (xu g) c m = Some x.
Proof. unfold is_value. destruct (fel _ _ _) as [v|]; [|discriminate]. intros H. apply Qc_eq_bool_correct in H. congruence. Qed.

Lemma is_value_ne g m c x : is_value g m c x = false -> fel (xu g) c m <> Some x.
Proof.
  unfold is_value. intros H E. rewrite E in H. assert (Qc_eq_bool x x = true); [|congruence].
  unfold Qc_eq_bool. destruct (Qc_eq_dec x x); congruence.
Qed.

Lemma xmem_patch g f (b : forallb (fun c => is_value g (xmem g (xfill f)) c (f c)) (box_cells (patch xlo xhi 0)) = true) :
  forall c, in_box (patch xlo xhi 0) c -> fel (xu g) c (xmem g (xfill f)) = Some (f c).
Proof. intros c Hc. apply is_value_eq. exact (by_cells _ _ b c Hc). Qed.

Definition six := [0; 1; 2; 3; 4; 5].
Definition eight := [0; 1; 2; 3; 4; 5; 6; 7].
Definition twelve := [0; 1; 2; 3; 4; 5; 6; 7; 8; 9; 10; 11].

(** The result computed, when there is one. *)
Definition out (o : option (mem QcS)) : mem QcS := match o with Some m => m | None => mkMem [] [] end.
Lemma out_some o : (match o with Some _ => true | None => false end) = true -> o = Some (out o).
Proof. destruct o; [reflexivity|discriminate]. Qed.

(** ** Not every bilinear function is continued *)
Lemma bilinear_case : exists (m m' : mem QcS) c,
  allocated m (xu 1) /\ (forall i j k, in_box (patch xlo xhi 0) [i; j; k] -> fel (xu 1) [i; j; k] m = Some (lit (i * j))) /\
  extrapolate_around xlo xhi 1 (0%nat, 0) six twelve eight m = Some m' /\
  exists i j k, c = [i; j; k] /\ in_box (patch xlo xhi 1) c /\ fel (xu 1) c m' <> Some (lit (i * j)).
Proof.
  exists (xmem 1 (xfill xbil)), (out (extrapolate_around xlo xhi 1 (0%nat, 0) six twelve eight (xmem 1 (xfill xbil)))), [2; 2; 0].
  split; [apply xmem_allocated; vm_compute; reflexivity|]. split.
  - intros i j k Hc. exact (xmem_patch 1 xbil ltac:(vm_compute; reflexivity) [i; j; k] Hc).
  - split; [apply out_some; vm_compute; reflexivity|]. exists 2, 2, 0. split; [reflexivity|]. split; [apply in_box3; exists 2, 2, 0; vm_compute; repeat split; discriminate|].
    apply is_value_ne. vm_compute. reflexivity.
Qed.

(** ** Edges before faces *)
Lemma order_case : exists (m m' : mem QcS) g c,
  affine g /\ allocated m (xu 1) /\ (forall c, in_box (patch xlo xhi 0) c -> fel (xu 1) c m = Some (g c)) /\
  (m1 <- forM twelve (extrapolate_piece xlo xhi 1 (0%nat, 0) 2) m ;; m2 <- forM six (extrapolate_piece xlo xhi 1 (0%nat, 0) 1) m1 ;;
   forM eight (extrapolate_piece xlo xhi 1 (0%nat, 0) 3) m2) = Some m' /\
  in_box (patch xlo xhi 1) c /\ fel (xu 1) c m' <> Some (g c).
Proof.
  exists (xmem 1 (xfill xaff)), (out (m1 <- forM twelve (extrapolate_piece xlo xhi 1 (0%nat, 0) 2) (xmem 1 (xfill xaff)) ;; m2 <- forM six (extrapolate_piece xlo xhi 1 (0%nat, 0) 1) m1 ;;
   forM eight (extrapolate_piece xlo xhi 1 (0%nat, 0) 3) m2)), xaff, [2; 2; 0].
  split; [exact xaff_affine|]. split; [apply xmem_allocated; vm_compute; reflexivity|]. split; [apply xmem_patch; vm_compute; reflexivity|].
  split; [apply out_some; vm_compute; reflexivity|]. split; [apply in_box3; exists 2, 2, 0; vm_compute; repeat split; discriminate|].
  apply is_value_ne. vm_compute. reflexivity.
Qed.

(** ** A segment of two layers: the cells next to the patch are left, the outer ones
    continue them *)
Definition wide_lo (d : Z) : Z := if d =? 0 then -2 else 0.
Definition wide_hi (d : Z) : Z := if d =? 0 then -1 else 1.

Lemma wide_case : exists (m m' : mem QcS) g c c',
  affine g /\ allocated m (xu 2) /\ (forall c, in_box (patch xlo xhi 0) c -> fel (xu 2) c m = Some (g c)) /\
  linearextrap 0 1 0 1 0 1 2 (0%nat, 0) wide_lo wide_hi 0 1 m = Some m' /\
  in_box (segment wide_lo wide_hi) c /\ fel (xu 2) c m' = fel (xu 2) c m /\ fel (xu 2) c m' <> Some (g c) /\
  in_box (segment wide_lo wide_hi) c' /\ fel (xu 2) c' m' <> Some (g c').
Proof.
  exists (xmem 2 (xfill xaff)), (out (linearextrap 0 1 0 1 0 1 2 (0%nat, 0) wide_lo wide_hi 0 1 (xmem 2 (xfill xaff)))), xaff, [-1; 0; 0], [-2; 0; 0].
  split; [exact xaff_affine|]. split; [apply xmem_allocated; vm_compute; reflexivity|]. split; [apply xmem_patch; vm_compute; reflexivity|].
  split; [apply out_some; vm_compute; reflexivity|]. split; [apply in_box3; exists (-1), 0, 0; vm_compute; repeat split; discriminate|].
  split; [vm_compute; reflexivity|]. split; [apply is_value_ne; vm_compute; reflexivity|].
  split; [apply in_box3; exists (-2), 0, 0; vm_compute; repeat split; discriminate|]. apply is_value_ne; vm_compute; reflexivity.
Qed.
