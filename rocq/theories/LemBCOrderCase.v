(** * Cases for the order of boundary calls *)

From Coq Require Import Permutation QArith Qcanon.
From Verif Require Import Base FortranBase SpecKernel SpecBoundary SpecBCOrder SpecBCCalls Instances.
Import ListNotations.
Open Scope Z_scope.

(** A patch of three by two cells; two boxes on the low face of direction 0 with
    different conditions, one on the high face of direction 1, and two corners. *)
Definition olo (_ : Z) : Z := 0.
Definition ohi (d : Z) : Z := if d =? 0 then 2 else 1.
Definition obox (x0 y0 x1 y1 : Z) : (Z -> Z) * (Z -> Z) :=
  (fun d => if d =? 0 then x0 else y0, fun d => if d =? 0 then x1 else y1).
Definition ocall (type face : Z) (b : (Z -> Z) * (Z -> Z)) (btype order : Z) : bcall QcS :=
  mkCall type face (fst b) (snd b) btype order (lit 1 : QcS) (lit 1 : QcS).
Definition o_low_a := ocall 1 0 (obox (-1) 0 (-1) 0) 0 2.
Definition o_low_b := ocall 1 0 (obox (-1) 1 (-1) 1) 4 1.
Definition o_high := ocall 1 3 (obox 0 2 2 2) 1 1.
Definition o_corner_a := ocall 2 0 (obox (-1) (-1) (-1) (-1)) 0 1.
Definition o_corner_b := ocall 2 2 (obox (-1) 2 (-1) 2) 0 1.
Definition ocalls := [o_low_a; o_low_b; o_high; o_corner_a; o_corner_b].
Definition ocalls' := [o_high; o_low_b; o_low_a; o_corner_b; o_corner_a].

Definition omem : mem QcS :=
  mkMem (S := QcS) [map (fun k => lit (Z.of_nat k + 1)) (seq 0 8); map (fun k => lit (Z.of_nat k + 2)) (seq 0 9);
                    map (fun k => lit (Z.of_nat k * Z.of_nat k)) (seq 0 20)] [].

Lemma ocalls_ok : Permutation ocalls ocalls' /\ by_kind ocalls /\ by_kind ocalls' /\
  Forall (placed 2 olo ohi) ocalls /\ Forall (thick olo ohi) ocalls /\ ForallOrdPairs (separate 2 olo ohi) ocalls.
Proof.
  split.
  { unfold ocalls, ocalls'.
    apply Permutation_cons_app with (l1 := [o_high; o_low_b]) (l2 := [o_corner_b; o_corner_a]). cbn [app].
    apply Permutation_cons_app with (l1 := [o_high]) (l2 := [o_corner_b; o_corner_a]). cbn [app].
    apply perm_skip. apply perm_swap. }
  split; [repeat constructor; cbn; lia|]. split; [repeat constructor; cbn; lia|].
  split.
  { repeat (apply Forall_cons || apply Forall_nil); (split; [vm_compute; split; [discriminate|reflexivity]|]);
      intros d Hd; assert (d = 0 \/ d = 1) as [->| ->] by lia; vm_compute; intuition (discriminate || reflexivity). }
  split.
  { repeat (apply Forall_cons || apply Forall_nil); intros H; vm_compute in H |- *; discriminate. }
  repeat (apply FOP_cons || apply FOP_nil); repeat (apply Forall_cons || apply Forall_nil);
    intros q H H'; destruct (H 0 ltac:(lia)) as [A _], (H 1 ltac:(lia)) as [B _], (H' 0 ltac:(lia)) as [A' _], (H' 1 ltac:(lia)) as [B' _];
    cbn in A, B, A', B'; lia.
Qed.

(** Values compared as fractions. *)
Definition ovals (r : option (mem QcS)) : option (list (list Q)) :=
  match r with Some m => Some (map (map this) (cells m)) | None => None end.
Definition qeqb (x y : Q) : bool := (Z.eqb (Qnum x) (Qnum y) && Pos.eqb (Qden x) (Qden y))%bool.
Fixpoint leqb {A} (f : A -> A -> bool) (l l' : list A) : bool :=
  match l, l' with [], [] => true | x :: l, y :: l' => (f x y && leqb f l l')%bool | _, _ => false end.
Definition oeqb (r r' : option (mem QcS)) : bool :=
  match ovals r, ovals r' with Some a, Some b => leqb (leqb qeqb) a b | _, _ => true end.

Lemma leqb_refl {A} (f : A -> A -> bool) l : (forall x, f x x = true) -> leqb f l l = true.
Proof. intros H. induction l; cbn; [reflexivity|]. rewrite H. exact IHl. Qed.

Lemma oeqb_ne r r' : oeqb r r' = false -> r <> None /\ r' <> None /\ r <> r'.
Proof.
  intros H. unfold oeqb, ovals in H. destruct r as [m|], r' as [m'|]; try discriminate H.
  split; [discriminate|]. split; [discriminate|]. intros E. injection E as ->.
  rewrite leqb_refl in H; [discriminate H|]. intros l. apply leqb_refl. intros x. unfold qeqb.
  rewrite Z.eqb_refl, Pos.eqb_refl. reflexivity.
Qed.

(** The ghost cells do change, and all calls succeed. *)
Lemma ocalls_run :
  let K := call_set_bc_2d olo ohi (fun _ => lit 1 : QcS) 0 (0%nat, 0) (1%nat, 0) 1 (2%nat, 0) in
  forM ocalls K omem <> None /\ forM ocalls K omem <> Some omem.
Proof.
  cbv zeta. destruct (oeqb_ne (forM ocalls (call_set_bc_2d olo ohi (fun _ => lit 1 : QcS) 0 (0%nat, 0) (1%nat, 0) 1 (2%nat, 0)) omem) (Some omem)) as (A & _ & B).
  - vm_compute. reflexivity.
  - split; assumption.
Qed.

(** ** Corners before faces *)


Lemma swapped_case :
  let K := call_set_bc_2d olo ohi (fun _ => lit 1 : QcS) 0 (0%nat, 0) (1%nat, 0) 1 (2%nat, 0) in
  forM [o_low_a; o_corner_a] K omem <> None /\ forM [o_corner_a; o_low_a] K omem <> None /\
  forM [o_low_a; o_corner_a] K omem <> forM [o_corner_a; o_low_a] K omem.
Proof. cbv zeta. apply oeqb_ne. vm_compute. reflexivity. Qed.

Lemma swapped_ok : Forall (placed 2 olo ohi) [o_low_a; o_corner_a] /\ Forall (thick olo ohi) [o_low_a; o_corner_a] /\
  ForallOrdPairs (separate 2 olo ohi) [o_low_a; o_corner_a].
Proof.
  destruct ocalls_ok as (_ & _ & _ & A & B & C). unfold ocalls in *.
  inversion A as [|? ? A1 A2]; subst. inversion A2 as [|? ? _ A3]; subst. inversion A3 as [|? ? _ A4]; subst. inversion A4 as [|? ? A5 _]; subst.
  inversion B as [|? ? B1 B2]; subst. inversion B2 as [|? ? _ B3]; subst. inversion B3 as [|? ? _ B4]; subst. inversion B4 as [|? ? B5 _]; subst.
  inversion C as [|? ? C1 _]; subst. inversion C1 as [|? ? _ C2]; subst. inversion C2 as [|? ? _ C3]; subst. inversion C3 as [|? ? C4 _]; subst.
  split; [repeat (apply Forall_cons || apply Forall_nil); assumption|]. split; [repeat (apply Forall_cons || apply Forall_nil); assumption|].
  repeat (apply FOP_cons || apply FOP_nil); repeat (apply Forall_cons || apply Forall_nil); assumption.
Qed.

(** ** A patch of one cell *)

Definition t_low : bcall QcS := mkCall 1 0 (fun _ => -1) (fun _ => -1) 0 2 (lit 1 : QcS) (lit 1 : QcS).
Definition t_high : bcall QcS := mkCall 1 1 (fun _ => 1) (fun _ => 1) 0 2 (lit 1 : QcS) (lit 1 : QcS).
Definition tlo (_ : Z) : Z := 0.
Definition tmem : mem QcS := mkMem (S := QcS) [[lit 1; lit 1]; [lit 3; lit 5; lit 7]] [].

Lemma thin_ok : Forall (placed 1 tlo tlo) [t_low; t_high] /\ ForallOrdPairs (separate 1 tlo tlo) [t_low; t_high].
Proof.
  split.
  - repeat (apply Forall_cons || apply Forall_nil); (split; [vm_compute; split; [discriminate|reflexivity]|]);
      intros d Hd; assert (d = 0) as -> by lia; vm_compute; intuition (discriminate || reflexivity).
  - apply FOP_cons; [apply Forall_cons; [|apply Forall_nil]|apply FOP_cons; [apply Forall_nil|apply FOP_nil]]. intros q H H'. destruct (H 0 ltac:(lia)) as [A _], (H' 0 ltac:(lia)) as [A' _]. cbn in A, A'. lia.
Qed.

Lemma thin_case :
  let K := call_set_bc_1d tlo tlo (fun _ => lit 1 : QcS) 0 (0%nat, 0) 1 (1%nat, 0) in
  forM [t_low; t_high] K tmem <> None /\ forM [t_high; t_low] K tmem <> None /\
  forM [t_low; t_high] K tmem <> forM [t_high; t_low] K tmem.
Proof. cbv zeta. apply oeqb_ne. vm_compute. reflexivity. Qed.

Lemma thin_again_case :
  let K := call_set_bc_1d tlo tlo (fun _ => lit 1 : QcS) 0 (0%nat, 0) 1 (1%nat, 0) in
  forM ([t_low; t_high] ++ [t_low; t_high]) K tmem <> None /\ forM [t_low; t_high] K tmem <> None /\
  forM ([t_low; t_high] ++ [t_low; t_high]) K tmem <> forM [t_low; t_high] K tmem.
Proof. cbv zeta. apply oeqb_ne. vm_compute. reflexivity. Qed.

(** ** A list for the three-dimensional kernels: a face, an edge and a corner *)

Definition o3 (_ : Z) : Z := 0.
Definition o3h (_ : Z) : Z := 1.
Definition box3 (x0 y0 z0 x1 y1 z1 : Z) : (Z -> Z) * (Z -> Z) :=
  (fun d => if d =? 0 then x0 else if d =? 1 then y0 else z0, fun d => if d =? 0 then x1 else if d =? 1 then y1 else z1).
Definition o3_faces := [ocall 1 4 (box3 0 0 (-1) 1 1 (-1)) 0 2; ocall 1 1 (box3 2 0 0 2 1 1) 1 1].
Definition o3_edge := ocall 2 5 (box3 2 0 (-1) 2 1 (-1)) 0 1.
Definition o3_corner := ocall 3 3 (box3 2 2 (-1) 2 2 (-1)) 0 1.
Definition o3_calls := o3_faces ++ [o3_edge; o3_corner].
Definition o3_mem : mem QcS :=
  mkMem (S := QcS) [map (fun k => lit (Z.of_nat k + 1)) (seq 0 12); map (fun k => lit (Z.of_nat k + 2)) (seq 0 12); map (fun k => lit (Z.of_nat k + 3)) (seq 0 12);
                    map (fun k => lit (Z.of_nat k * Z.of_nat k)) (seq 0 64)] [].

Lemma o3_ok : by_kind o3_calls /\ Forall (placed 3 o3 o3h) o3_calls /\ Forall (thick o3 o3h) o3_calls /\ ForallOrdPairs (separate 3 o3 o3h) o3_calls.
Proof.
  split; [repeat constructor; cbn; lia|]. split.
  { repeat (apply Forall_cons || apply Forall_nil); (split; [vm_compute; split; [discriminate|reflexivity]|]);
      intros d Hd; assert (d = 0 \/ d = 1 \/ d = 2) as [->|[->| ->]] by lia; vm_compute; intuition (discriminate || reflexivity). }
  split.
  { repeat (apply Forall_cons || apply Forall_nil); intros H; vm_compute in H |- *; discriminate. }
  repeat (apply FOP_cons || apply FOP_nil); repeat (apply Forall_cons || apply Forall_nil);
    intros q H H'; destruct (H 0 ltac:(lia)) as [A _], (H 1 ltac:(lia)) as [B _], (H 2 ltac:(lia)) as [C _],
      (H' 0 ltac:(lia)) as [A' _], (H' 1 ltac:(lia)) as [B' _], (H' 2 ltac:(lia)) as [C' _];
    cbn in A, B, C, A', B', C'; lia.
Qed.

Lemma o3_run :
  let K := call_set_bc_3d o3 o3h (fun _ => lit 1 : QcS) 0 (0%nat, 0) (1%nat, 0) (2%nat, 0) 1 (3%nat, 0) in
  forM o3_calls K o3_mem <> None /\ forM o3_calls K o3_mem <> Some o3_mem.
Proof.
  cbv zeta. destruct (oeqb_ne (forM o3_calls (call_set_bc_3d o3 o3h (fun _ => lit 1 : QcS) 0 (0%nat, 0) (1%nat, 0) (2%nat, 0) 1 (3%nat, 0)) o3_mem) (Some o3_mem)) as (A & _ & B).
  - vm_compute. reflexivity.
  - split; assumption.
Qed.
