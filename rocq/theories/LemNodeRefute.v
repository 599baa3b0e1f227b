(** * Cases in which a node-centred subroutine differs from the cell-centred one *)

From Verif Require Import Base FortranBase FortranFlux FortranApply FortranStencil1 FortranStencil2 FortranStencil3
  FortranNode FortranNodeStencil1 FortranNodeStencil2 FortranNodeStencil3 Instances SpecNode.
Import ListNotations.
Open Scope Z_scope.

(** A memory of arrays with unequal entries for a two by two by two patch: three
    face arrays (10, 100 and 1000 based), a seven point stencil, a cell array with
    one layer of ghosts, a right-hand side, a result and three flux arrays. *)
Definition ramp (n : nat) (c : Z) : list ZS := map (fun i => c + Z.of_nat i * Z.of_nat i : ZS) (seq 0 n).
Definition node_mem : mem ZS :=
  mkMem [ramp 12 10; ramp 12 100; ramp 12 1000; ramp 56 0; ramp 64 0; ramp 8 5; ramp 8 0; ramp 12 0; ramp 12 0; ramp 12 0] [].
Definition dx1 (_ : Z) : ZS := 1.
Definition p (k : nat) : ptr := (k, 0).

(** The outcomes compared by computation. *)
Definition differs (s1 s2 : mem ZS -> option (mem ZS)) (m : mem ZS) : bool :=
  match s1 m, s2 m with
  | Some m1, Some m2 => if list_eq_dec (list_eq_dec Z.eq_dec) (cells m1) (cells m2) then false else true
  | None, Some _ => true
  | _, None => false
  end.

Lemma differs_ok s1 s2 m : differs s1 s2 m = true -> disagree s1 s2 m.
Proof.
  unfold differs, disagree. destruct (s1 m) as [m1|], (s2 m) as [m2|]; intros H; try discriminate H.
  - exists m2. split; [reflexivity|]. intros E. injection E as ->.
    destruct (list_eq_dec _ _ _) as [_|N]; [discriminate H|]. apply N. reflexivity.
  - exists m2. split; [reflexivity|]. discriminate.
Qed.

Lemma nodediffusionflux3d_differs :
  disagree (nodediffusionflux3d 0 0 0 1 1 1 dx1 (p 0) (p 1) (p 2) 1 (p 4) (p 7) (p 8) (p 9))
  (celldiffusionflux3d 0 0 0 1 1 1 dx1 (p 0) (p 1) (p 2) 1 (p 4) (p 7) (p 8) (p 9)) node_mem.
Proof. apply differs_ok. vm_compute. reflexivity. Qed.

Lemma nodediffusionv2apply3d_differs :
  disagree (nodediffusionv2apply3d 0 1 0 1 0 1 (1 : ZS) (1 : ZS) dx1 1 (p 4) 0 (p 5) (p 0) (p 1) (3%nat, 7) (-1
  : ZS) (1 : ZS) 0 (p 6)) (celldiffusionv2res3d 0 1 0 1 0 1 (1 : ZS) (1 : ZS) dx1 1 (p 4) 0 (p 5) (p 0) (p 1)
  (3%nat, 7) 0 (p 6)) node_mem.
Proof. apply differs_ok. vm_compute. reflexivity. Qed.

Lemma nodepoissonapply3d_differs :
  disagree (nodepoissonapply3d 0 1 0 1 0 1 (1 : ZS) dx1 0 (p 5) (p 0) (p 1) (3%nat, 7) (-1 : ZS) (1 : ZS) 0 (p
  6)) (cellpoissonv1res3d 0 1 0 1 0 1 (1 : ZS) dx1 0 (p 5) (p 0) (p 1) (3%nat, 7) 0 (p 6)) node_mem.
Proof. apply differs_ok. vm_compute. reflexivity. Qed.

Lemma adjnodediffusiondiag3d_differs :
  disagree (adjnodediffusiondiag3d 0 0 0 1 1 1 2 0 0 2 1 1 0 1 0 2 dx1 (1 : ZS) (p 0) (p 1) (p 2) (p 3))
  (adjcelldiffusiondiag3d 0 0 0 1 1 1 2 0 0 2 1 1 0 1 0 2 dx1 (1 : ZS) (p 0) (p 1) (p 2) 0 (p 3)) node_mem.
Proof. apply differs_ok. vm_compute. reflexivity. Qed.

Lemma adjnodepoissondiag3d_differs :
  disagree (adjnodepoissondiag3d 0 0 0 1 1 1 2 0 0 2 1 1 0 1 0 2 dx1 (3 : ZS) (p 3)) (adjcellpoissondiag3d 0 0 0
  1 1 1 2 0 0 2 1 1 0 1 0 2 dx1 (3 : ZS) 0 (p 3)) node_mem.
Proof. apply differs_ok. vm_compute. reflexivity. Qed.

Lemma adjnodediffusioncfdiag3d_differs :
  disagree (adjnodediffusioncfdiag3d 0 0 0 1 1 1 0 0 2 1 1 2 3 2 1 2 dx1 (3 : ZS) (p 0) (p 1) (p 2) (p 3))
  (adjcelldiffusioncfdiag3d 0 0 0 1 1 1 0 0 2 1 1 2 3 2 1 2 dx1 (3 : ZS) (p 0) (p 1) (p 2) 0 (p 3)) node_mem.
Proof. apply differs_ok. vm_compute. reflexivity. Qed.

Lemma adjnodediffusionoffdiag3d_differs :
  disagree (adjnodediffusionoffdiag3d 0 0 0 1 1 1 0 2 0 1 2 1 1 1 4 2 dx1 (1 : ZS) (1 : ZS) (1 : ZS) (p 0) (p 1)
  (p 2) (p 3)) (adjcelldiffusionoffdiag3d 0 0 0 1 1 1 0 2 0 1 2 1 1 1 4 2 dx1 (1 : ZS) (1 : ZS) (1 : ZS) (p 0)
  (p 1) (p 2) 0 (p 3)) node_mem.
Proof. apply differs_ok. vm_compute. reflexivity. Qed.

Lemma adjnodepoissonoffdiag3d_differs :
  disagree (adjnodepoissonoffdiag3d 0 0 0 1 1 1 0 0 2 1 1 2 2 1 4 2 dx1 (1 : ZS) (1 : ZS) (1 : ZS) (p 3))
  (adjcellpoissonoffdiag3d 0 0 0 1 1 1 0 0 2 1 1 2 2 1 4 2 dx1 (1 : ZS) (1 : ZS) (1 : ZS) 0 (p 3)) node_mem.
Proof. apply differs_ok. vm_compute. reflexivity. Qed.

Lemma readjnodediffusionoffdiag3d_differs :
  disagree (readjnodediffusionoffdiag3d 0 0 0 1 1 1 0 0 2 1 1 2 2 1 (p 3)) (readjcelldiffusionoffdiag3d 0 0 0 1
  1 1 0 0 2 1 1 2 2 1 0 (p 3)) node_mem.
Proof. apply differs_ok. vm_compute. reflexivity. Qed.
