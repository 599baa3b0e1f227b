(** * Property C53: the node-centred subroutines *)

From Verif Require Import Base FortranBase FortranFlux FortranApply FortranStencil1 FortranStencil2 FortranStencil3
  FortranNode FortranNodeStencil1 FortranNodeStencil2 FortranNodeStencil3 Instances SpecNode LemNode LemNodeRefute.
Import ListNotations.
Open Scope Z_scope.

(** The node-centred subroutines (m4/node*.m4) are meant to do to node arrays what
    the cell-centred ones do to cell arrays.  They take the same arguments, except
    that their stencil arrays have no ghosts ([sgcw] is 0) and that the operators
    return [b f + a L u] where the cell-centred ones return [f - L u] or [L u]. *)

(** A memory of twelve arrays for the cases below. *)
Definition ex_mem : mem ZS := mkMem (map (fun k => ramp 200 (Z.of_nat k * 7 + 3)) (seq 0 12)) [].

(** The same with constant arrays. *)
Definition ex_flat : mem ZS := mkMem (map (fun k => repeat (Z.of_nat k * 7 + 3 : ZS) 200) (seq 0 12)) [].

(** The subroutine returns and has changed the memory. *)
Definition acts (s : mem ZS -> option (mem ZS)) (m : mem ZS) : bool :=
  match s m with Some m' => if list_eq_dec (list_eq_dec Z.eq_dec) (cells m) (cells m') then false else true | None => false end.

(** ** Fluxes *)

Theorem C53_nodediffusionflux1d : forall (S : Scalar),
  forall (ifirst0 ilast0 : Z) (dx : Z -> S) (b0 : ptr) (gcw : Z) (u flux0 : ptr) (m : mem S),
  nodediffusionflux1d ifirst0 ilast0 dx b0 gcw u flux0 m = celldiffusionflux1d ifirst0 ilast0 dx b0 gcw u
  flux0 m.
Proof. exact @nodediffusionflux1d_cell. Qed.
Print Assumptions C53_nodediffusionflux1d.
Example C53_nodediffusionflux1d_example :
  acts (nodediffusionflux1d 0 1 dx1 (p 4) 1 (p 2) (p 7)) ex_mem = true.
Proof. vm_compute. reflexivity. Qed.

Theorem C53_nodepoissonflux1d : forall (S : Scalar),
  forall (ifirst0 ilast0 : Z) (dx : Z -> S) (gcw : Z) (u flux0 : ptr) (m : mem S),
  nodepoissonflux1d ifirst0 ilast0 dx gcw u flux0 m = cellpoissonflux1d ifirst0 ilast0 dx gcw u flux0 m.
Proof. exact @nodepoissonflux1d_cell. Qed.
Print Assumptions C53_nodepoissonflux1d.
Example C53_nodepoissonflux1d_example :
  acts (nodepoissonflux1d 0 1 dx1 1 (p 2) (p 7)) ex_mem = true.
Proof. vm_compute. reflexivity. Qed.

Theorem C53_nodediffusionflux2d : forall (S : Scalar),
  forall (ifirst0 ifirst1 ilast0 ilast1 : Z) (dx : Z -> S) (b0 b1 : ptr) (gcw : Z) (u flux0 flux1 : ptr) (m :
  mem S),
  nodediffusionflux2d ifirst0 ifirst1 ilast0 ilast1 dx b0 b1 gcw u flux0 flux1 m = celldiffusionflux2d ifirst0
  ifirst1 ilast0 ilast1 dx b0 b1 gcw u flux0 flux1 m.
Proof. exact @nodediffusionflux2d_cell. Qed.
Print Assumptions C53_nodediffusionflux2d.
Example C53_nodediffusionflux2d_example :
  acts (nodediffusionflux2d 0 0 1 1 dx1 (p 4) (p 5) 1 (p 2) (p 7) (p 8)) ex_mem = true.
Proof. vm_compute. reflexivity. Qed.

Theorem C53_nodepoissonflux2d : forall (S : Scalar),
  forall (ifirst0 ifirst1 ilast0 ilast1 : Z) (dx : Z -> S) (gcw : Z) (u flux0 flux1 : ptr) (m : mem S),
  nodepoissonflux2d ifirst0 ifirst1 ilast0 ilast1 dx gcw u flux0 flux1 m = cellpoissonflux2d ifirst0 ifirst1
  ilast0 ilast1 dx gcw u flux0 flux1 m.
Proof. exact @nodepoissonflux2d_cell. Qed.
Print Assumptions C53_nodepoissonflux2d.
Example C53_nodepoissonflux2d_example :
  acts (nodepoissonflux2d 0 0 1 1 dx1 1 (p 2) (p 7) (p 8)) ex_mem = true.
Proof. vm_compute. reflexivity. Qed.

(** The third direction reads [b1] where [b2] is meant: the two agree when the
    entries read coincide. *)
Theorem C53_nodediffusionflux3d : forall (S : Scalar),
  forall (ifirst0 ifirst1 ifirst2 ilast0 ilast1 ilast2 : Z) (dx : Z -> S) (b0 b1 b2 : ptr) (gcw : Z)
  (u flux0 flux1 flux2 : ptr) (m : mem S),
  Forall (fun q => fst q <> fst b1 /\ fst q <> fst b2) [flux0; flux1; flux2] ->
  (forall i j k, ifirst0 <= i <= ilast0 -> ifirst1 <= j <= ilast1 -> ifirst2 <= k <= ilast2 + 1 ->
    load m (faddr (mkFa b1 (FACE3d1 ifirst0 ifirst1 ifirst2 ilast0 ilast1 ilast2 0)) [k; i; j]) =
    load m (faddr (mkFa b2 (FACE3d2 ifirst0 ifirst1 ifirst2 ilast0 ilast1 ilast2 0)) [k; i; j])) ->
  nodediffusionflux3d ifirst0 ifirst1 ifirst2 ilast0 ilast1 ilast2 dx b0 b1 b2 gcw u flux0 flux1 flux2 m =
  celldiffusionflux3d ifirst0 ifirst1 ifirst2 ilast0 ilast1 ilast2 dx b0 b1 b2 gcw u flux0 flux1 flux2 m.
Proof. exact @nodediffusionflux3d_cell. Qed.
Print Assumptions C53_nodediffusionflux3d.
Example C53_nodediffusionflux3d_example :
  (forall i j k, 0 <= i <= 1 -> 0 <= j <= 1 -> 0 <= k <= 1 + 1 ->
    load ex_flat (faddr (mkFa (p 5) (FACE3d1 0 0 0 1 1 1 0)) [k; i; j]) =
    load ex_flat (faddr (mkFa (p 5) (FACE3d2 0 0 0 1 1 1 0)) [k; i; j])) /\
  acts (nodediffusionflux3d 0 0 0 1 1 1 dx1 (p 4) (p 5) (p 5) 1 (p 2) (p 7) (p 8) (p 9)) ex_flat = true.
Proof. 
  split; [|vm_compute; reflexivity]. intros i j k Hi Hj Hk.
  assert (i = 0 \/ i = 1) as [->| ->] by lia; assert (j = 0 \/ j = 1) as [->| ->] by lia;
    assert (k = 0 \/ k = 1 \/ k = 2) as [->|[->| ->]] by lia; vm_compute; reflexivity.
 Qed.

Theorem C53_nodepoissonflux3d : forall (S : Scalar),
  forall (ifirst0 ifirst1 ifirst2 ilast0 ilast1 ilast2 : Z) (dx : Z -> S) (gcw : Z) (u flux0 flux1 flux2 :
  ptr) (m : mem S),
  nodepoissonflux3d ifirst0 ifirst1 ifirst2 ilast0 ilast1 ilast2 dx gcw u flux0 flux1 flux2 m =
  cellpoissonflux3d ifirst0 ifirst1 ifirst2 ilast0 ilast1 ilast2 dx gcw u flux0 flux1 flux2 m.
Proof. exact @nodepoissonflux3d_cell. Qed.
Print Assumptions C53_nodepoissonflux3d.
Example C53_nodepoissonflux3d_example :
  acts (nodepoissonflux3d 0 0 0 1 1 1 dx1 1 (p 2) (p 7) (p 8) (p 9)) ex_mem = true.
Proof. vm_compute. reflexivity. Qed.

(** ** Operators *)

Theorem C53_nodediffusionv1apply1d : forall (S : Scalar),
  forall (ifirst0 ilast0 : Z) (alpha beta : S) (dx : Z -> S) (agcw : Z) (acoef : ptr) (ugcw : Z) (u : ptr)
  (fgcw : Z) (f flux0 : ptr) (rgcw : Z) (res : ptr) (m : mem S), field_laws S ->
  nodediffusionv1apply1d ifirst0 ilast0 alpha beta dx agcw acoef ugcw u fgcw f flux0 (- #1)%T (#1)%T rgcw res
  m = celldiffusionv1res1d ifirst0 ilast0 alpha beta dx agcw acoef ugcw u fgcw f flux0 rgcw res m.
Proof. exact @nodediffusionv1apply1d_cell. Qed.
Print Assumptions C53_nodediffusionv1apply1d.
Example C53_nodediffusionv1apply1d_example :
  acts (nodediffusionv1apply1d 0 1 (3 : ZS) (3 : ZS) dx1 0 (p 0) 1 (p 2) 0 (p 3) (p 7) (-1 : ZS) (1 : ZS) 0 (p
  10)) ex_mem = true.
Proof. vm_compute. reflexivity. Qed.

Theorem C53_nodediffusionv1apply1d_at : forall (S : Scalar),
  forall (ifirst0 ilast0 : Z) (alpha beta : S) (dx : Z -> S) (agcw : Z) (acoef : ptr) (ugcw : Z) (u : ptr)
  (fgcw : Z) (f flux0 : ptr) (a b : S) (rgcw : Z) (res : ptr) (m m1 m2 : mem S), 0 <= rgcw ->
  Forall (fun q => fst res <> fst q) [acoef; u; f; flux0] ->
  nodediffusionv1apply1d ifirst0 ilast0 alpha beta dx agcw acoef ugcw u fgcw f flux0 a b rgcw res m = Some m1
  ->
  celldiffusionv1apply1d ifirst0 ilast0 alpha beta dx agcw acoef ugcw u flux0 rgcw res m = Some m2 ->
  forall i, ifirst0 <= i <= ilast0 ->
  exists v w,
    load m (faddr (mkFa f (CELL1d ifirst0 ilast0 fgcw)) [i]) = Some v /\
    load m2 (faddr (mkFa res (CELL1d ifirst0 ilast0 rgcw)) [i]) = Some w /\
    load m1 (faddr (mkFa res (CELL1d ifirst0 ilast0 rgcw)) [i]) = Some (b * v + a * w)%T.
Proof. exact @nodediffusionv1apply1d_at. Qed.
Print Assumptions C53_nodediffusionv1apply1d_at.
Example C53_nodediffusionv1apply1d_at_example :
  acts (nodediffusionv1apply1d 0 1 (3 : ZS) (3 : ZS) dx1 0 (p 0) 1 (p 2) 0 (p 3) (p 7) (5 : ZS) (7 : ZS) 0 (p
  10)) ex_mem = true.
Proof. vm_compute. reflexivity. Qed.

Theorem C53_nodediffusionv2apply1d : forall (S : Scalar),
  forall (ifirst0 ilast0 : Z) (alpha beta : S) (dx : Z -> S) (ugcw : Z) (u : ptr) (fgcw : Z) (f flux0 : ptr)
  (rgcw : Z) (res : ptr) (m : mem S), field_laws S ->
  nodediffusionv2apply1d ifirst0 ilast0 alpha beta dx ugcw u fgcw f flux0 (- #1)%T (#1)%T rgcw res m =
  celldiffusionv2res1d ifirst0 ilast0 alpha beta dx ugcw u fgcw f flux0 rgcw res m.
Proof. exact @nodediffusionv2apply1d_cell. Qed.
Print Assumptions C53_nodediffusionv2apply1d.
Example C53_nodediffusionv2apply1d_example :
  acts (nodediffusionv2apply1d 0 1 (3 : ZS) (3 : ZS) dx1 1 (p 2) 0 (p 3) (p 7) (-1 : ZS) (1 : ZS) 0 (p 10))
  ex_mem = true.
Proof. vm_compute. reflexivity. Qed.

Theorem C53_nodediffusionv2apply1d_at : forall (S : Scalar),
  forall (ifirst0 ilast0 : Z) (alpha beta : S) (dx : Z -> S) (ugcw : Z) (u : ptr) (fgcw : Z) (f flux0 : ptr)
  (a b : S) (rgcw : Z) (res : ptr) (m m1 m2 : mem S), 0 <= rgcw ->
  Forall (fun q => fst res <> fst q) [u; f; flux0] ->
  nodediffusionv2apply1d ifirst0 ilast0 alpha beta dx ugcw u fgcw f flux0 a b rgcw res m = Some m1 ->
  celldiffusionv2apply1d ifirst0 ilast0 alpha beta dx ugcw u flux0 rgcw res m = Some m2 ->
  forall i, ifirst0 <= i <= ilast0 ->
  exists v w,
    load m (faddr (mkFa f (CELL1d ifirst0 ilast0 fgcw)) [i]) = Some v /\
    load m2 (faddr (mkFa res (CELL1d ifirst0 ilast0 rgcw)) [i]) = Some w /\
    load m1 (faddr (mkFa res (CELL1d ifirst0 ilast0 rgcw)) [i]) = Some (b * v + a * w)%T.
Proof. exact @nodediffusionv2apply1d_at. Qed.
Print Assumptions C53_nodediffusionv2apply1d_at.
Example C53_nodediffusionv2apply1d_at_example :
  acts (nodediffusionv2apply1d 0 1 (3 : ZS) (3 : ZS) dx1 1 (p 2) 0 (p 3) (p 7) (5 : ZS) (7 : ZS) 0 (p 10))
  ex_mem = true.
Proof. vm_compute. reflexivity. Qed.

Theorem C53_nodepoissonapply1d : forall (S : Scalar),
  forall (ifirst0 ilast0 : Z) (beta : S) (dx : Z -> S) (fgcw : Z) (f flux0 : ptr) (rgcw : Z) (res : ptr) (m :
  mem S), field_laws S ->
  nodepoissonapply1d ifirst0 ilast0 beta dx fgcw f flux0 (- #1)%T (#1)%T rgcw res m = cellpoissonv1res1d
  ifirst0 ilast0 beta dx fgcw f flux0 rgcw res m.
Proof. exact @nodepoissonapply1d_cell. Qed.
Print Assumptions C53_nodepoissonapply1d.
Example C53_nodepoissonapply1d_example :
  acts (nodepoissonapply1d 0 1 (3 : ZS) dx1 0 (p 3) (p 7) (-1 : ZS) (1 : ZS) 0 (p 10)) ex_mem = true.
Proof. vm_compute. reflexivity. Qed.

Theorem C53_nodepoissonapply1d_at : forall (S : Scalar),
  forall (ifirst0 ilast0 : Z) (beta : S) (dx : Z -> S) (fgcw : Z) (f flux0 : ptr) (a b : S) (rgcw : Z) (res :
  ptr) (m m1 m2 : mem S), 0 <= rgcw ->
  Forall (fun q => fst res <> fst q) [f; flux0] ->
  nodepoissonapply1d ifirst0 ilast0 beta dx fgcw f flux0 a b rgcw res m = Some m1 ->
  cellpoissonv2apply1d ifirst0 ilast0 beta dx flux0 rgcw res m = Some m2 ->
  forall i, ifirst0 <= i <= ilast0 ->
  exists v w,
    load m (faddr (mkFa f (CELL1d ifirst0 ilast0 fgcw)) [i]) = Some v /\
    load m2 (faddr (mkFa res (CELL1d ifirst0 ilast0 rgcw)) [i]) = Some w /\
    load m1 (faddr (mkFa res (CELL1d ifirst0 ilast0 rgcw)) [i]) = Some (b * v + a * w)%T.
Proof. exact @nodepoissonapply1d_at. Qed.
Print Assumptions C53_nodepoissonapply1d_at.
Example C53_nodepoissonapply1d_at_example :
  acts (nodepoissonapply1d 0 1 (3 : ZS) dx1 0 (p 3) (p 7) (5 : ZS) (7 : ZS) 0 (p 10)) ex_mem = true.
Proof. vm_compute. reflexivity. Qed.

Theorem C53_nodediffusionv1apply2d : forall (S : Scalar),
  forall (ifirst0 ilast0 ifirst1 ilast1 : Z) (alpha beta : S) (dx : Z -> S) (agcw : Z) (acoef : ptr) (ugcw :
  Z) (u : ptr) (fgcw : Z) (f flux0 flux1 : ptr) (rgcw : Z) (res : ptr) (m : mem S), field_laws S ->
  nodediffusionv1apply2d ifirst0 ilast0 ifirst1 ilast1 alpha beta dx agcw acoef ugcw u fgcw f flux0 flux1 (-
  #1)%T (#1)%T rgcw res m = celldiffusionv1res2d ifirst0 ilast0 ifirst1 ilast1 alpha beta dx agcw acoef ugcw u
  fgcw f flux0 flux1 rgcw res m.
Proof. exact @nodediffusionv1apply2d_cell. Qed.
Print Assumptions C53_nodediffusionv1apply2d.
Example C53_nodediffusionv1apply2d_example :
  acts (nodediffusionv1apply2d 0 1 0 1 (3 : ZS) (3 : ZS) dx1 0 (p 0) 1 (p 2) 0 (p 3) (p 7) (p 8) (-1 : ZS) (1 :
  ZS) 0 (p 10)) ex_mem = true.
Proof. vm_compute. reflexivity. Qed.

Theorem C53_nodediffusionv1apply2d_at : forall (S : Scalar),
  forall (ifirst0 ilast0 ifirst1 ilast1 : Z) (alpha beta : S) (dx : Z -> S) (agcw : Z) (acoef : ptr) (ugcw :
  Z) (u : ptr) (fgcw : Z) (f flux0 flux1 : ptr) (a b : S) (rgcw : Z) (res : ptr) (m m1 m2 : mem S), 0 <= rgcw
  ->
  Forall (fun q => fst res <> fst q) [acoef; u; f; flux0; flux1] ->
  nodediffusionv1apply2d ifirst0 ilast0 ifirst1 ilast1 alpha beta dx agcw acoef ugcw u fgcw f flux0 flux1 a b
  rgcw res m = Some m1 ->
  celldiffusionv1apply2d ifirst0 ilast0 ifirst1 ilast1 alpha beta dx agcw acoef ugcw u flux0 flux1 rgcw res m
  = Some m2 ->
  forall i j, ifirst0 <= i <= ilast0 -> ifirst1 <= j <= ilast1 ->
  exists v w,
    load m (faddr (mkFa f (CELL2d ifirst0 ifirst1 ilast0 ilast1 fgcw)) [i; j]) = Some v /\
    load m2 (faddr (mkFa res (CELL2d ifirst0 ifirst1 ilast0 ilast1 rgcw)) [i; j]) = Some w /\
    load m1 (faddr (mkFa res (CELL2d ifirst0 ifirst1 ilast0 ilast1 rgcw)) [i; j]) = Some (b * v + a * w)%T.
Proof. exact @nodediffusionv1apply2d_at. Qed.
Print Assumptions C53_nodediffusionv1apply2d_at.
Example C53_nodediffusionv1apply2d_at_example :
  acts (nodediffusionv1apply2d 0 1 0 1 (3 : ZS) (3 : ZS) dx1 0 (p 0) 1 (p 2) 0 (p 3) (p 7) (p 8) (5 : ZS) (7 :
  ZS) 0 (p 10)) ex_mem = true.
Proof. vm_compute. reflexivity. Qed.

Theorem C53_nodediffusionv2apply2d : forall (S : Scalar),
  forall (ifirst0 ilast0 ifirst1 ilast1 : Z) (alpha beta : S) (dx : Z -> S) (ugcw : Z) (u : ptr) (fgcw : Z) (f
  flux0 flux1 : ptr) (rgcw : Z) (res : ptr) (m : mem S), field_laws S ->
  nodediffusionv2apply2d ifirst0 ilast0 ifirst1 ilast1 alpha beta dx ugcw u fgcw f flux0 flux1 (- #1)%T (#1)%T
  rgcw res m = celldiffusionv2res2d ifirst0 ilast0 ifirst1 ilast1 alpha beta dx ugcw u fgcw f flux0 flux1 rgcw
  res m.
Proof. exact @nodediffusionv2apply2d_cell. Qed.
Print Assumptions C53_nodediffusionv2apply2d.
Example C53_nodediffusionv2apply2d_example :
  acts (nodediffusionv2apply2d 0 1 0 1 (3 : ZS) (3 : ZS) dx1 1 (p 2) 0 (p 3) (p 7) (p 8) (-1 : ZS) (1 : ZS) 0 (p
  10)) ex_mem = true.
Proof. vm_compute. reflexivity. Qed.

Theorem C53_nodediffusionv2apply2d_at : forall (S : Scalar),
  forall (ifirst0 ilast0 ifirst1 ilast1 : Z) (alpha beta : S) (dx : Z -> S) (ugcw : Z) (u : ptr) (fgcw : Z) (f
  flux0 flux1 : ptr) (a b : S) (rgcw : Z) (res : ptr) (m m1 m2 : mem S), 0 <= rgcw ->
  Forall (fun q => fst res <> fst q) [u; f; flux0; flux1] ->
  nodediffusionv2apply2d ifirst0 ilast0 ifirst1 ilast1 alpha beta dx ugcw u fgcw f flux0 flux1 a b rgcw res m
  = Some m1 ->
  celldiffusionv2apply2d ifirst0 ilast0 ifirst1 ilast1 alpha beta dx ugcw u flux0 flux1 rgcw res m = Some m2
  ->
  forall i j, ifirst0 <= i <= ilast0 -> ifirst1 <= j <= ilast1 ->
  exists v w,
    load m (faddr (mkFa f (CELL2d ifirst0 ifirst1 ilast0 ilast1 fgcw)) [i; j]) = Some v /\
    load m2 (faddr (mkFa res (CELL2d ifirst0 ifirst1 ilast0 ilast1 rgcw)) [i; j]) = Some w /\
    load m1 (faddr (mkFa res (CELL2d ifirst0 ifirst1 ilast0 ilast1 rgcw)) [i; j]) = Some (b * v + a * w)%T.
Proof. exact @nodediffusionv2apply2d_at. Qed.
Print Assumptions C53_nodediffusionv2apply2d_at.
Example C53_nodediffusionv2apply2d_at_example :
  acts (nodediffusionv2apply2d 0 1 0 1 (3 : ZS) (3 : ZS) dx1 1 (p 2) 0 (p 3) (p 7) (p 8) (5 : ZS) (7 : ZS) 0 (p
  10)) ex_mem = true.
Proof. vm_compute. reflexivity. Qed.

Theorem C53_nodepoissonapply2d : forall (S : Scalar),
  forall (ifirst0 ilast0 ifirst1 ilast1 : Z) (beta : S) (dx : Z -> S) (fgcw : Z) (f flux0 flux1 : ptr) (rgcw :
  Z) (res : ptr) (m : mem S), field_laws S ->
  nodepoissonapply2d ifirst0 ilast0 ifirst1 ilast1 beta dx fgcw f flux0 flux1 (- #1)%T (#1)%T rgcw res m =
  cellpoissonv1res2d ifirst0 ilast0 ifirst1 ilast1 beta dx fgcw f flux0 flux1 rgcw res m.
Proof. exact @nodepoissonapply2d_cell. Qed.
Print Assumptions C53_nodepoissonapply2d.
Example C53_nodepoissonapply2d_example :
  acts (nodepoissonapply2d 0 1 0 1 (3 : ZS) dx1 0 (p 3) (p 7) (p 8) (-1 : ZS) (1 : ZS) 0 (p 10)) ex_mem = true.
Proof. vm_compute. reflexivity. Qed.

Theorem C53_nodepoissonapply2d_at : forall (S : Scalar),
  forall (ifirst0 ilast0 ifirst1 ilast1 : Z) (beta : S) (dx : Z -> S) (fgcw : Z) (f flux0 flux1 : ptr) (a b :
  S) (rgcw : Z) (res : ptr) (m m1 m2 : mem S), 0 <= rgcw ->
  Forall (fun q => fst res <> fst q) [f; flux0; flux1] ->
  nodepoissonapply2d ifirst0 ilast0 ifirst1 ilast1 beta dx fgcw f flux0 flux1 a b rgcw res m = Some m1 ->
  cellpoissonv2apply2d ifirst0 ilast0 ifirst1 ilast1 beta dx flux0 flux1 rgcw res m = Some m2 ->
  forall i j, ifirst0 <= i <= ilast0 -> ifirst1 <= j <= ilast1 ->
  exists v w,
    load m (faddr (mkFa f (CELL2d ifirst0 ifirst1 ilast0 ilast1 fgcw)) [i; j]) = Some v /\
    load m2 (faddr (mkFa res (CELL2d ifirst0 ifirst1 ilast0 ilast1 rgcw)) [i; j]) = Some w /\
    load m1 (faddr (mkFa res (CELL2d ifirst0 ifirst1 ilast0 ilast1 rgcw)) [i; j]) = Some (b * v + a * w)%T.
Proof. exact @nodepoissonapply2d_at. Qed.
Print Assumptions C53_nodepoissonapply2d_at.
Example C53_nodepoissonapply2d_at_example :
  acts (nodepoissonapply2d 0 1 0 1 (3 : ZS) dx1 0 (p 3) (p 7) (p 8) (5 : ZS) (7 : ZS) 0 (p 10)) ex_mem = true.
Proof. vm_compute. reflexivity. Qed.

Theorem C53_nodediffusionv1apply3d : forall (S : Scalar),
  forall (ifirst0 ilast0 ifirst1 ilast1 ifirst2 ilast2 : Z) (alpha beta : S) (dx : Z -> S) (agcw : Z) (acoef :
  ptr) (ugcw : Z) (u : ptr) (fgcw : Z) (f flux0 flux1 flux2 : ptr) (rgcw : Z) (res : ptr) (m : mem S),
  field_laws S ->
  nodediffusionv1apply3d ifirst0 ilast0 ifirst1 ilast1 ifirst2 ilast2 alpha beta dx agcw acoef ugcw u fgcw f
  flux0 flux1 flux2 (- #1)%T (#1)%T rgcw res m = celldiffusionv1res3d ifirst0 ilast0 ifirst1 ilast1 ifirst2
  ilast2 alpha beta dx agcw acoef ugcw u fgcw f flux0 flux1 flux2 rgcw res m.
Proof. exact @nodediffusionv1apply3d_cell. Qed.
Print Assumptions C53_nodediffusionv1apply3d.
Example C53_nodediffusionv1apply3d_example :
  acts (nodediffusionv1apply3d 0 1 0 1 0 1 (3 : ZS) (3 : ZS) dx1 0 (p 0) 1 (p 2) 0 (p 3) (p 7) (p 8) (p 9) (-1 :
  ZS) (1 : ZS) 0 (p 10)) ex_mem = true.
Proof. vm_compute. reflexivity. Qed.

Theorem C53_nodediffusionv1apply3d_at : forall (S : Scalar),
  forall (ifirst0 ilast0 ifirst1 ilast1 ifirst2 ilast2 : Z) (alpha beta : S) (dx : Z -> S) (agcw : Z) (acoef :
  ptr) (ugcw : Z) (u : ptr) (fgcw : Z) (f flux0 flux1 flux2 : ptr) (a b : S) (rgcw : Z) (res : ptr) (m m1 m2 :
  mem S), 0 <= rgcw ->
  Forall (fun q => fst res <> fst q) [acoef; u; f; flux0; flux1; flux2] ->
  nodediffusionv1apply3d ifirst0 ilast0 ifirst1 ilast1 ifirst2 ilast2 alpha beta dx agcw acoef ugcw u fgcw f
  flux0 flux1 flux2 a b rgcw res m = Some m1 ->
  celldiffusionv1apply3d ifirst0 ilast0 ifirst1 ilast1 ifirst2 ilast2 alpha beta dx agcw acoef ugcw u flux0
  flux1 flux2 rgcw res m = Some m2 ->
  forall i j k, ifirst0 <= i <= ilast0 -> ifirst1 <= j <= ilast1 -> ifirst2 <= k <= ilast2 ->
  exists v w,
    load m (faddr (mkFa f (CELL3d ifirst0 ifirst1 ifirst2 ilast0 ilast1 ilast2 fgcw)) [i; j; k]) = Some v /\
    load m2 (faddr (mkFa res (CELL3d ifirst0 ifirst1 ifirst2 ilast0 ilast1 ilast2 rgcw)) [i; j; k]) = Some w /\
    load m1 (faddr (mkFa res (CELL3d ifirst0 ifirst1 ifirst2 ilast0 ilast1 ilast2 rgcw)) [i; j; k]) = Some (b * v + a * w)%T.
Proof. exact @nodediffusionv1apply3d_at. Qed.
Print Assumptions C53_nodediffusionv1apply3d_at.
Example C53_nodediffusionv1apply3d_at_example :
  acts (nodediffusionv1apply3d 0 1 0 1 0 1 (3 : ZS) (3 : ZS) dx1 0 (p 0) 1 (p 2) 0 (p 3) (p 7) (p 8) (p 9) (5 :
  ZS) (7 : ZS) 0 (p 10)) ex_mem = true.
Proof. vm_compute. reflexivity. Qed.

(** The third direction reads [flux1] where [flux2] is meant: the two agree when the
    entries read coincide. *)
Theorem C53_nodediffusionv2apply3d : forall (S : Scalar),
  forall (ifirst0 ilast0 ifirst1 ilast1 ifirst2 ilast2 : Z) (alpha beta : S) (dx : Z -> S) (ugcw : Z) (u : ptr) (fgcw : Z)
  (f flux0 flux1 flux2 : ptr) (rgcw : Z) (res : ptr) (m : mem S), field_laws S ->
  fst res <> fst flux1 -> fst res <> fst flux2 ->
  (forall i j k, ifirst0 <= i <= ilast0 -> ifirst1 <= j <= ilast1 -> ifirst2 <= k <= ilast2 + 1 ->
    load m (faddr (mkFa flux1 (FACE3d1 ifirst0 ifirst1 ifirst2 ilast0 ilast1 ilast2 0)) [k; i; j]) =
    load m (faddr (mkFa flux2 (FACE3d2 ifirst0 ifirst1 ifirst2 ilast0 ilast1 ilast2 0)) [k; i; j])) ->
  nodediffusionv2apply3d ifirst0 ilast0 ifirst1 ilast1 ifirst2 ilast2 alpha beta dx ugcw u fgcw f flux0 flux1 flux2 (- #1)%T (#1)%T rgcw res m =
  celldiffusionv2res3d ifirst0 ilast0 ifirst1 ilast1 ifirst2 ilast2 alpha beta dx ugcw u fgcw f flux0 flux1 flux2 rgcw res m.
Proof. exact @nodediffusionv2apply3d_cell. Qed.
Print Assumptions C53_nodediffusionv2apply3d.
Example C53_nodediffusionv2apply3d_example :
  (forall i j k, 0 <= i <= 1 -> 0 <= j <= 1 -> 0 <= k <= 1 + 1 ->
    load ex_flat (faddr (mkFa (p 8) (FACE3d1 0 0 0 1 1 1 0)) [k; i; j]) =
    load ex_flat (faddr (mkFa (p 8) (FACE3d2 0 0 0 1 1 1 0)) [k; i; j])) /\
  acts (nodediffusionv2apply3d 0 1 0 1 0 1 (3 : ZS) (3 : ZS) dx1 1 (p 2) 0 (p 3) (p 7) (p 8) (p 8) (-1 : ZS) (1
  : ZS) 0 (p 10)) ex_flat = true.
Proof. 
  split; [|vm_compute; reflexivity]. intros i j k Hi Hj Hk.
  assert (i = 0 \/ i = 1) as [->| ->] by lia; assert (j = 0 \/ j = 1) as [->| ->] by lia;
    assert (k = 0 \/ k = 1 \/ k = 2) as [->|[->| ->]] by lia; vm_compute; reflexivity.
 Qed.

(** The third direction reads [flux1] where [flux2] is meant: the two agree when the
    entries read coincide. *)
Theorem C53_nodepoissonapply3d : forall (S : Scalar),
  forall (ifirst0 ilast0 ifirst1 ilast1 ifirst2 ilast2 : Z) (beta : S) (dx : Z -> S) (fgcw : Z)
  (f flux0 flux1 flux2 : ptr) (rgcw : Z) (res : ptr) (m : mem S), field_laws S ->
  fst res <> fst flux1 -> fst res <> fst flux2 ->
  (forall i j k, ifirst0 <= i <= ilast0 -> ifirst1 <= j <= ilast1 -> ifirst2 <= k <= ilast2 + 1 ->
    load m (faddr (mkFa flux1 (FACE3d1 ifirst0 ifirst1 ifirst2 ilast0 ilast1 ilast2 0)) [k; i; j]) =
    load m (faddr (mkFa flux2 (FACE3d2 ifirst0 ifirst1 ifirst2 ilast0 ilast1 ilast2 0)) [k; i; j])) ->
  nodepoissonapply3d ifirst0 ilast0 ifirst1 ilast1 ifirst2 ilast2 beta dx fgcw f flux0 flux1 flux2 (- #1)%T (#1)%T rgcw res m =
  cellpoissonv1res3d ifirst0 ilast0 ifirst1 ilast1 ifirst2 ilast2 beta dx fgcw f flux0 flux1 flux2 rgcw res m.
Proof. exact @nodepoissonapply3d_cell. Qed.
Print Assumptions C53_nodepoissonapply3d.
Example C53_nodepoissonapply3d_example :
  (forall i j k, 0 <= i <= 1 -> 0 <= j <= 1 -> 0 <= k <= 1 + 1 ->
    load ex_flat (faddr (mkFa (p 8) (FACE3d1 0 0 0 1 1 1 0)) [k; i; j]) =
    load ex_flat (faddr (mkFa (p 8) (FACE3d2 0 0 0 1 1 1 0)) [k; i; j])) /\
  acts (nodepoissonapply3d 0 1 0 1 0 1 (3 : ZS) dx1 0 (p 3) (p 7) (p 8) (p 8) (-1 : ZS) (1 : ZS) 0 (p 10))
  ex_flat = true.
Proof. 
  split; [|vm_compute; reflexivity]. intros i j k Hi Hj Hk.
  assert (i = 0 \/ i = 1) as [->| ->] by lia; assert (j = 0 \/ j = 1) as [->| ->] by lia;
    assert (k = 0 \/ k = 1 \/ k = 2) as [->|[->| ->]] by lia; vm_compute; reflexivity.
 Qed.

(** ** Matrices, one dimension *)

Theorem C53_nodediffusionoffdiag1d : forall (S : Scalar),
  forall (ifirst0 ilast0 bilo0 bihi0 : Z) (dx : Z -> S) (beta : S) (b0 stencil : ptr) (m : mem S),
  nodediffusionoffdiag1d ifirst0 ilast0 bilo0 bihi0 dx beta b0 stencil m = celldiffusionoffdiag1d ifirst0
  ilast0 bilo0 bihi0 dx beta b0 0 stencil m.
Proof. exact @nodediffusionoffdiag1d_cell. Qed.
Print Assumptions C53_nodediffusionoffdiag1d.
Example C53_nodediffusionoffdiag1d_example :
  acts (nodediffusionoffdiag1d 0 1 0 1 dx1 (3 : ZS) (p 4) (p 11)) ex_mem = true.
Proof. vm_compute. reflexivity. Qed.

Theorem C53_nodepoissonoffdiag1d : forall (S : Scalar),
  forall (ifirst0 ilast0 : Z) (dx : Z -> S) (beta : S) (stencil : ptr) (m : mem S),
  nodepoissonoffdiag1d ifirst0 ilast0 dx beta stencil m = cellpoissonoffdiag1d ifirst0 ilast0 dx beta 0
  stencil m.
Proof. exact @nodepoissonoffdiag1d_cell. Qed.
Print Assumptions C53_nodepoissonoffdiag1d.
Example C53_nodepoissonoffdiag1d_example :
  acts (nodepoissonoffdiag1d 0 1 dx1 (3 : ZS) (p 11)) ex_mem = true.
Proof. vm_compute. reflexivity. Qed.

Theorem C53_nodediffusionv1diag1d : forall (S : Scalar),
  forall (ifirst0 ilast0 ailo0 aihi0 : Z) (alpha : S) (a stencil : ptr) (m : mem S),
  nodediffusionv1diag1d ifirst0 ilast0 ailo0 aihi0 alpha a stencil m = celldiffusionv1diag1d ifirst0 ilast0
  ailo0 aihi0 alpha a 0 stencil m.
Proof. exact @nodediffusionv1diag1d_cell. Qed.
Print Assumptions C53_nodediffusionv1diag1d.
Example C53_nodediffusionv1diag1d_example :
  acts (nodediffusionv1diag1d 0 1 0 1 (3 : ZS) (p 1) (p 11)) ex_mem = true.
Proof. vm_compute. reflexivity. Qed.

Theorem C53_nodediffusionv2diag1d : forall (S : Scalar),
  forall (ifirst0 ilast0 : Z) (alpha : S) (stencil : ptr) (m : mem S),
  nodediffusionv2diag1d ifirst0 ilast0 alpha stencil m = celldiffusionv2diag1d ifirst0 ilast0 alpha 0 stencil
  m.
Proof. exact @nodediffusionv2diag1d_cell. Qed.
Print Assumptions C53_nodediffusionv2diag1d.
Example C53_nodediffusionv2diag1d_example :
  acts (nodediffusionv2diag1d 0 1 (3 : ZS) (p 11)) ex_mem = true.
Proof. vm_compute. reflexivity. Qed.

Theorem C53_nodepoissondiag1d : forall (S : Scalar),
  forall (ifirst0 ilast0 : Z) (stencil : ptr) (m : mem S),
  nodepoissondiag1d ifirst0 ilast0 stencil m = cellpoissondiag1d ifirst0 ilast0 0 stencil m.
Proof. exact @nodepoissondiag1d_cell. Qed.
Print Assumptions C53_nodepoissondiag1d.
Example C53_nodepoissondiag1d_example :
  acts (nodepoissondiag1d 0 1 (p 11)) ex_mem = true.
Proof. vm_compute. reflexivity. Qed.

Theorem C53_adjnodediffusiondiag1d : forall (S : Scalar),
  forall (ifirst0 ilast0 pfirst0 plast0 side bdrytype extrapOrder : Z) (dx : Z -> S) (beta : S) (b0 stencil :
  ptr) (m : mem S),
  adjnodediffusiondiag1d ifirst0 ilast0 pfirst0 plast0 side bdrytype extrapOrder dx beta b0 stencil m =
  adjcelldiffusiondiag1d ifirst0 ilast0 pfirst0 plast0 side bdrytype extrapOrder dx beta b0 0 stencil m.
Proof. exact @adjnodediffusiondiag1d_cell. Qed.
Print Assumptions C53_adjnodediffusiondiag1d.
Example C53_adjnodediffusiondiag1d_example :
  acts (adjnodediffusiondiag1d 0 1 (-1) (-1) 0 4 2 dx1 (3 : ZS) (p 4) (p 11)) ex_mem = true.
Proof. vm_compute. reflexivity. Qed.

Theorem C53_adjnodepoissondiag1d : forall (S : Scalar),
  forall (ifirst0 ilast0 pfirst0 plast0 side bdrytype extrapOrder : Z) (dx : Z -> S) (beta : S) (stencil :
  ptr) (m : mem S),
  adjnodepoissondiag1d ifirst0 ilast0 pfirst0 plast0 side bdrytype extrapOrder dx beta stencil m =
  adjcellpoissondiag1d ifirst0 ilast0 pfirst0 plast0 side bdrytype extrapOrder dx beta 0 stencil m.
Proof. exact @adjnodepoissondiag1d_cell. Qed.
Print Assumptions C53_adjnodepoissondiag1d.
Example C53_adjnodepoissondiag1d_example :
  acts (adjnodepoissondiag1d 0 1 (-1) (-1) 0 4 2 dx1 (3 : ZS) (p 11)) ex_mem = true.
Proof. vm_compute. reflexivity. Qed.

Theorem C53_adjnodediffusioncfdiag1d : forall (S : Scalar),
  forall (ifirst0 ilast0 pfirst0 plast0 r side interporder : Z) (dx : Z -> S) (beta : S) (b0 stencil : ptr) (m
  : mem S),
  adjnodediffusioncfdiag1d ifirst0 ilast0 pfirst0 plast0 r side interporder dx beta b0 stencil m =
  adjcelldiffusioncfdiag1d ifirst0 ilast0 pfirst0 plast0 r side interporder dx beta b0 0 stencil m.
Proof. exact @adjnodediffusioncfdiag1d_cell. Qed.
Print Assumptions C53_adjnodediffusioncfdiag1d.
Example C53_adjnodediffusioncfdiag1d_example :
  acts (adjnodediffusioncfdiag1d 0 1 (-1) (-1) 3 0 2 dx1 (3 : ZS) (p 4) (p 11)) ex_mem = true.
Proof. vm_compute. reflexivity. Qed.

Theorem C53_adjnodepoissoncfdiag1d : forall (S : Scalar),
  forall (ifirst0 ilast0 pfirst0 plast0 r side interporder : Z) (dx : Z -> S) (beta : S) (stencil : ptr) (m :
  mem S),
  adjnodepoissoncfdiag1d ifirst0 ilast0 pfirst0 plast0 r side interporder dx beta stencil m =
  adjcellpoissoncfdiag1d ifirst0 ilast0 pfirst0 plast0 r side interporder dx beta 0 stencil m.
Proof. exact @adjnodepoissoncfdiag1d_cell. Qed.
Print Assumptions C53_adjnodepoissoncfdiag1d.
Example C53_adjnodepoissoncfdiag1d_example :
  acts (adjnodepoissoncfdiag1d 0 1 (-1) (-1) 3 0 2 dx1 (3 : ZS) (p 11)) ex_mem = true.
Proof. vm_compute. reflexivity. Qed.

Theorem C53_adjnodediffusionoffdiag1d : forall (S : Scalar),
  forall (ifirst0 ilast0 pfirst0 plast0 side bdrytype extrapOrder : Z) (dx : Z -> S) (dirfactor neufactor beta
  : S) (b0 stencil : ptr) (m : mem S),
  adjnodediffusionoffdiag1d ifirst0 ilast0 pfirst0 plast0 side bdrytype extrapOrder dx dirfactor neufactor
  beta b0 stencil m = adjcelldiffusionoffdiag1d ifirst0 ilast0 pfirst0 plast0 side bdrytype extrapOrder dx
  dirfactor neufactor beta b0 0 stencil m.
Proof. exact @adjnodediffusionoffdiag1d_cell. Qed.
Print Assumptions C53_adjnodediffusionoffdiag1d.
Example C53_adjnodediffusionoffdiag1d_example :
  acts (adjnodediffusionoffdiag1d 0 1 (-1) (-1) 0 4 2 dx1 (3 : ZS) (3 : ZS) (3 : ZS) (p 4) (p 11)) ex_mem = true.
Proof. vm_compute. reflexivity. Qed.

Theorem C53_adjnodepoissonoffdiag1d : forall (S : Scalar),
  forall (ifirst0 ilast0 pfirst0 plast0 side bdrytype extrapOrder : Z) (dx : Z -> S) (dirfactor neufactor beta
  : S) (stencil : ptr) (m : mem S),
  adjnodepoissonoffdiag1d ifirst0 ilast0 pfirst0 plast0 side bdrytype extrapOrder dx dirfactor neufactor beta
  stencil m = adjcellpoissonoffdiag1d ifirst0 ilast0 pfirst0 plast0 side bdrytype extrapOrder dx dirfactor
  neufactor beta 0 stencil m.
Proof. exact @adjnodepoissonoffdiag1d_cell. Qed.
Print Assumptions C53_adjnodepoissonoffdiag1d.
Example C53_adjnodepoissonoffdiag1d_example :
  acts (adjnodepoissonoffdiag1d 0 1 (-1) (-1) 0 4 2 dx1 (3 : ZS) (3 : ZS) (3 : ZS) (p 11)) ex_mem = true.
Proof. vm_compute. reflexivity. Qed.

Theorem C53_adjnodediffusioncfoffdiag1d : forall (S : Scalar),
  forall (ifirst0 ilast0 cfirst0 clast0 r side interporder : Z) (stencil : ptr) (m : mem S),
  adjnodediffusioncfoffdiag1d ifirst0 ilast0 cfirst0 clast0 r side interporder stencil m =
  adjcelldiffusioncfoffdiag1d ifirst0 ilast0 cfirst0 clast0 r side interporder 0 stencil m.
Proof. exact @adjnodediffusioncfoffdiag1d_cell. Qed.
Print Assumptions C53_adjnodediffusioncfoffdiag1d.
Example C53_adjnodediffusioncfoffdiag1d_example :
  acts (adjnodediffusioncfoffdiag1d 0 1 0 1 3 0 2 (p 11)) ex_mem = true.
Proof. vm_compute. reflexivity. Qed.

Theorem C53_readjnodediffusionoffdiag1d : forall (S : Scalar),
  forall (ifirst0 ilast0 pfirst0 plast0 side : Z) (stencil : ptr) (m : mem S),
  readjnodediffusionoffdiag1d ifirst0 ilast0 pfirst0 plast0 side stencil m = readjcelldiffusionoffdiag1d
  ifirst0 ilast0 pfirst0 plast0 side 0 stencil m.
Proof. exact @readjnodediffusionoffdiag1d_cell. Qed.
Print Assumptions C53_readjnodediffusionoffdiag1d.
Example C53_readjnodediffusionoffdiag1d_example :
  acts (readjnodediffusionoffdiag1d 0 1 (-1) (-1) 0 (p 11)) ex_mem = true.
Proof. vm_compute. reflexivity. Qed.

Theorem C53_adjnodediffusioncfbdryrhs1d : forall (S : Scalar),
  forall (ifirst0 ilast0 pfirst0 plast0 side : Z) (stencil : ptr) (gcw : Z) (u rhs : ptr) (m : mem S),
  adjnodediffusioncfbdryrhs1d ifirst0 ilast0 pfirst0 plast0 side stencil gcw u rhs m =
  adjcelldiffusioncfbdryrhs1d ifirst0 ilast0 pfirst0 plast0 side 0 stencil gcw u rhs m.
Proof. exact @adjnodediffusioncfbdryrhs1d_cell. Qed.
Print Assumptions C53_adjnodediffusioncfbdryrhs1d.
Example C53_adjnodediffusioncfbdryrhs1d_example :
  acts (adjnodediffusioncfbdryrhs1d 0 1 (-1) (-1) 0 (p 11) 1 (p 2) (p 1)) ex_mem = true.
Proof. vm_compute. reflexivity. Qed.

(** ** Matrices, two dimensions *)

Theorem C53_nodediffusionoffdiag2d : forall (S : Scalar),
  forall (ifirst0 ifirst1 ilast0 ilast1 bilo0 bilo1 bihi0 bihi1 : Z) (dx : Z -> S) (beta : S) (b0 b1 stencil :
  ptr) (m : mem S),
  nodediffusionoffdiag2d ifirst0 ifirst1 ilast0 ilast1 bilo0 bilo1 bihi0 bihi1 dx beta b0 b1 stencil m =
  celldiffusionoffdiag2d ifirst0 ifirst1 ilast0 ilast1 bilo0 bilo1 bihi0 bihi1 dx beta b0 b1 0 stencil m.
Proof. exact @nodediffusionoffdiag2d_cell. Qed.
Print Assumptions C53_nodediffusionoffdiag2d.
Example C53_nodediffusionoffdiag2d_example :
  acts (nodediffusionoffdiag2d 0 0 1 1 0 0 1 1 dx1 (3 : ZS) (p 4) (p 5) (p 11)) ex_mem = true.
Proof. vm_compute. reflexivity. Qed.

Theorem C53_nodepoissonoffdiag2d : forall (S : Scalar),
  forall (ifirst0 ifirst1 ilast0 ilast1 : Z) (dx : Z -> S) (beta : S) (stencil : ptr) (m : mem S),
  nodepoissonoffdiag2d ifirst0 ifirst1 ilast0 ilast1 dx beta stencil m = cellpoissonoffdiag2d ifirst0 ifirst1
  ilast0 ilast1 dx beta 0 stencil m.
Proof. exact @nodepoissonoffdiag2d_cell. Qed.
Print Assumptions C53_nodepoissonoffdiag2d.
Example C53_nodepoissonoffdiag2d_example :
  acts (nodepoissonoffdiag2d 0 0 1 1 dx1 (3 : ZS) (p 11)) ex_mem = true.
Proof. vm_compute. reflexivity. Qed.

Theorem C53_nodediffusionv1diag2d : forall (S : Scalar),
  forall (ifirst0 ifirst1 ilast0 ilast1 ailo0 ailo1 aihi0 aihi1 : Z) (alpha : S) (a stencil : ptr) (m : mem
  S),
  nodediffusionv1diag2d ifirst0 ifirst1 ilast0 ilast1 ailo0 ailo1 aihi0 aihi1 alpha a stencil m =
  celldiffusionv1diag2d ifirst0 ifirst1 ilast0 ilast1 ailo0 ailo1 aihi0 aihi1 alpha a 0 stencil m.
Proof. exact @nodediffusionv1diag2d_cell. Qed.
Print Assumptions C53_nodediffusionv1diag2d.
Example C53_nodediffusionv1diag2d_example :
  acts (nodediffusionv1diag2d 0 0 1 1 0 0 1 1 (3 : ZS) (p 1) (p 11)) ex_mem = true.
Proof. vm_compute. reflexivity. Qed.

Theorem C53_nodediffusionv2diag2d : forall (S : Scalar),
  forall (ifirst0 ifirst1 ilast0 ilast1 : Z) (alpha : S) (stencil : ptr) (m : mem S),
  nodediffusionv2diag2d ifirst0 ifirst1 ilast0 ilast1 alpha stencil m = celldiffusionv2diag2d ifirst0 ifirst1
  ilast0 ilast1 alpha 0 stencil m.
Proof. exact @nodediffusionv2diag2d_cell. Qed.
Print Assumptions C53_nodediffusionv2diag2d.
Example C53_nodediffusionv2diag2d_example :
  acts (nodediffusionv2diag2d 0 0 1 1 (3 : ZS) (p 11)) ex_mem = true.
Proof. vm_compute. reflexivity. Qed.

Theorem C53_nodepoissondiag2d : forall (S : Scalar),
  forall (ifirst0 ifirst1 ilast0 ilast1 : Z) (stencil : ptr) (m : mem S),
  nodepoissondiag2d ifirst0 ifirst1 ilast0 ilast1 stencil m = cellpoissondiag2d ifirst0 ifirst1 ilast0 ilast1
  0 stencil m.
Proof. exact @nodepoissondiag2d_cell. Qed.
Print Assumptions C53_nodepoissondiag2d.
Example C53_nodepoissondiag2d_example :
  acts (nodepoissondiag2d 0 0 1 1 (p 11)) ex_mem = true.
Proof. vm_compute. reflexivity. Qed.

Theorem C53_adjnodediffusiondiag2d : forall (S : Scalar),
  forall (ifirst0 ifirst1 ilast0 ilast1 pfirst0 pfirst1 plast0 plast1 direction side bdrytype extrapOrder : Z)
  (dx : Z -> S) (beta : S) (b0 b1 stencil : ptr) (m : mem S),
  adjnodediffusiondiag2d ifirst0 ifirst1 ilast0 ilast1 pfirst0 pfirst1 plast0 plast1 direction side bdrytype
  extrapOrder dx beta b0 b1 stencil m = adjcelldiffusiondiag2d ifirst0 ifirst1 ilast0 ilast1 pfirst0 pfirst1
  plast0 plast1 direction side bdrytype extrapOrder dx beta b0 b1 0 stencil m.
Proof. exact @adjnodediffusiondiag2d_cell. Qed.
Print Assumptions C53_adjnodediffusiondiag2d.
Example C53_adjnodediffusiondiag2d_example :
  acts (adjnodediffusiondiag2d 0 0 1 1 (-1) 0 (-1) 1 0 0 4 2 dx1 (3 : ZS) (p 4) (p 5) (p 11)) ex_mem = true.
Proof. vm_compute. reflexivity. Qed.

Theorem C53_adjnodepoissondiag2d : forall (S : Scalar),
  forall (ifirst0 ifirst1 ilast0 ilast1 pfirst0 pfirst1 plast0 plast1 direction side bdrytype extrapOrder : Z)
  (dx : Z -> S) (beta : S) (stencil : ptr) (m : mem S),
  adjnodepoissondiag2d ifirst0 ifirst1 ilast0 ilast1 pfirst0 pfirst1 plast0 plast1 direction side bdrytype
  extrapOrder dx beta stencil m = adjcellpoissondiag2d ifirst0 ifirst1 ilast0 ilast1 pfirst0 pfirst1 plast0
  plast1 direction side bdrytype extrapOrder dx beta 0 stencil m.
Proof. exact @adjnodepoissondiag2d_cell. Qed.
Print Assumptions C53_adjnodepoissondiag2d.
Example C53_adjnodepoissondiag2d_example :
  acts (adjnodepoissondiag2d 0 0 1 1 (-1) 0 (-1) 1 0 0 4 2 dx1 (3 : ZS) (p 11)) ex_mem = true.
Proof. vm_compute. reflexivity. Qed.

Theorem C53_adjnodediffusioncfdiag2d : forall (S : Scalar),
  forall (ifirst0 ifirst1 ilast0 ilast1 pfirst0 pfirst1 plast0 plast1 r direction side interporder : Z) (dx :
  Z -> S) (beta : S) (b0 b1 stencil : ptr) (m : mem S),
  adjnodediffusioncfdiag2d ifirst0 ifirst1 ilast0 ilast1 pfirst0 pfirst1 plast0 plast1 r direction side
  interporder dx beta b0 b1 stencil m = adjcelldiffusioncfdiag2d ifirst0 ifirst1 ilast0 ilast1 pfirst0 pfirst1
  plast0 plast1 r direction side interporder dx beta b0 b1 0 stencil m.
Proof. exact @adjnodediffusioncfdiag2d_cell. Qed.
Print Assumptions C53_adjnodediffusioncfdiag2d.
Example C53_adjnodediffusioncfdiag2d_example :
  acts (adjnodediffusioncfdiag2d 0 0 1 1 (-1) 0 (-1) 1 3 0 0 2 dx1 (3 : ZS) (p 4) (p 5) (p 11)) ex_mem = true.
Proof. vm_compute. reflexivity. Qed.

Theorem C53_adjnodepoissoncfdiag2d : forall (S : Scalar),
  forall (ifirst0 ifirst1 ilast0 ilast1 pfirst0 pfirst1 plast0 plast1 r direction side interporder : Z) (dx :
  Z -> S) (beta : S) (stencil : ptr) (m : mem S),
  adjnodepoissoncfdiag2d ifirst0 ifirst1 ilast0 ilast1 pfirst0 pfirst1 plast0 plast1 r direction side
  interporder dx beta stencil m = adjcellpoissoncfdiag2d ifirst0 ifirst1 ilast0 ilast1 pfirst0 pfirst1 plast0
  plast1 r direction side interporder dx beta 0 stencil m.
Proof. exact @adjnodepoissoncfdiag2d_cell. Qed.
Print Assumptions C53_adjnodepoissoncfdiag2d.
Example C53_adjnodepoissoncfdiag2d_example :
  acts (adjnodepoissoncfdiag2d 0 0 1 1 (-1) 0 (-1) 1 3 0 0 2 dx1 (3 : ZS) (p 11)) ex_mem = true.
Proof. vm_compute. reflexivity. Qed.

Theorem C53_adjnodediffusionoffdiag2d : forall (S : Scalar),
  forall (ifirst0 ifirst1 ilast0 ilast1 pfirst0 pfirst1 plast0 plast1 direction side bdrytype extrapOrder : Z)
  (dx : Z -> S) (dirfactor neufactor beta : S) (b0 b1 stencil : ptr) (m : mem S),
  adjnodediffusionoffdiag2d ifirst0 ifirst1 ilast0 ilast1 pfirst0 pfirst1 plast0 plast1 direction side
  bdrytype extrapOrder dx dirfactor neufactor beta b0 b1 stencil m = adjcelldiffusionoffdiag2d ifirst0 ifirst1
  ilast0 ilast1 pfirst0 pfirst1 plast0 plast1 direction side bdrytype extrapOrder dx dirfactor neufactor beta
  b0 b1 0 stencil m.
Proof. exact @adjnodediffusionoffdiag2d_cell. Qed.
Print Assumptions C53_adjnodediffusionoffdiag2d.
Example C53_adjnodediffusionoffdiag2d_example :
  acts (adjnodediffusionoffdiag2d 0 0 1 1 (-1) 0 (-1) 1 0 0 4 2 dx1 (3 : ZS) (3 : ZS) (3 : ZS) (p 4) (p 5) (p
  11)) ex_mem = true.
Proof. vm_compute. reflexivity. Qed.

Theorem C53_adjnodepoissonoffdiag2d : forall (S : Scalar),
  forall (ifirst0 ifirst1 ilast0 ilast1 pfirst0 pfirst1 plast0 plast1 direction side bdrytype extrapOrder : Z)
  (dx : Z -> S) (dirfactor neufactor beta : S) (stencil : ptr) (m : mem S),
  adjnodepoissonoffdiag2d ifirst0 ifirst1 ilast0 ilast1 pfirst0 pfirst1 plast0 plast1 direction side bdrytype
  extrapOrder dx dirfactor neufactor beta stencil m = adjcellpoissonoffdiag2d ifirst0 ifirst1 ilast0 ilast1
  pfirst0 pfirst1 plast0 plast1 direction side bdrytype extrapOrder dx dirfactor neufactor beta 0 stencil m.
Proof. exact @adjnodepoissonoffdiag2d_cell. Qed.
Print Assumptions C53_adjnodepoissonoffdiag2d.
Example C53_adjnodepoissonoffdiag2d_example :
  acts (adjnodepoissonoffdiag2d 0 0 1 1 (-1) 0 (-1) 1 0 0 4 2 dx1 (3 : ZS) (3 : ZS) (3 : ZS) (p 11)) ex_mem =
  true.
Proof. vm_compute. reflexivity. Qed.

Theorem C53_adjnodediffusioncfoffdiag2d : forall (S : Scalar),
  forall (ifirst0 ifirst1 ilast0 ilast1 cfirst0 cfirst1 clast0 clast1 r direction side interporder : Z)
  (stencil : ptr) (m : mem S),
  adjnodediffusioncfoffdiag2d ifirst0 ifirst1 ilast0 ilast1 cfirst0 cfirst1 clast0 clast1 r direction side
  interporder stencil m = adjcelldiffusioncfoffdiag2d ifirst0 ifirst1 ilast0 ilast1 cfirst0 cfirst1 clast0
  clast1 r direction side interporder 0 stencil m.
Proof. exact @adjnodediffusioncfoffdiag2d_cell. Qed.
Print Assumptions C53_adjnodediffusioncfoffdiag2d.
Example C53_adjnodediffusioncfoffdiag2d_example :
  acts (adjnodediffusioncfoffdiag2d 0 0 1 1 0 0 1 1 3 0 0 2 (p 11)) ex_mem = true.
Proof. vm_compute. reflexivity. Qed.

Theorem C53_readjnodediffusionoffdiag2d : forall (S : Scalar),
  forall (ifirst0 ifirst1 ilast0 ilast1 pfirst0 pfirst1 plast0 plast1 direction side : Z) (stencil : ptr) (m :
  mem S),
  readjnodediffusionoffdiag2d ifirst0 ifirst1 ilast0 ilast1 pfirst0 pfirst1 plast0 plast1 direction side
  stencil m = readjcelldiffusionoffdiag2d ifirst0 ifirst1 ilast0 ilast1 pfirst0 pfirst1 plast0 plast1
  direction side 0 stencil m.
Proof. exact @readjnodediffusionoffdiag2d_cell. Qed.
Print Assumptions C53_readjnodediffusionoffdiag2d.
Example C53_readjnodediffusionoffdiag2d_example :
  acts (readjnodediffusionoffdiag2d 0 0 1 1 (-1) 0 (-1) 1 0 0 (p 11)) ex_mem = true.
Proof. vm_compute. reflexivity. Qed.

Theorem C53_adjnodediffusioncfbdryrhs2d : forall (S : Scalar),
  forall (ifirst0 ifirst1 ilast0 ilast1 pfirst0 pfirst1 plast0 plast1 direction side : Z) (stencil : ptr) (gcw
  : Z) (u rhs : ptr) (m : mem S),
  adjnodediffusioncfbdryrhs2d ifirst0 ifirst1 ilast0 ilast1 pfirst0 pfirst1 plast0 plast1 direction side
  stencil gcw u rhs m = adjcelldiffusioncfbdryrhs2d ifirst0 ifirst1 ilast0 ilast1 pfirst0 pfirst1 plast0
  plast1 direction side 0 stencil gcw u rhs m.
Proof. exact @adjnodediffusioncfbdryrhs2d_cell. Qed.
Print Assumptions C53_adjnodediffusioncfbdryrhs2d.
Example C53_adjnodediffusioncfbdryrhs2d_example :
  acts (adjnodediffusioncfbdryrhs2d 0 0 1 1 (-1) 0 (-1) 1 0 0 (p 11) 1 (p 2) (p 1)) ex_mem = true.
Proof. vm_compute. reflexivity. Qed.

(** ** Matrices, three dimensions *)

Theorem C53_nodediffusionoffdiag3d : forall (S : Scalar),
  forall (ifirst0 ifirst1 ifirst2 ilast0 ilast1 ilast2 bilo0 bilo1 bilo2 bihi0 bihi1 bihi2 : Z) (dx : Z -> S)
  (beta : S) (b0 b1 b2 stencil : ptr) (m : mem S),
  nodediffusionoffdiag3d ifirst0 ifirst1 ifirst2 ilast0 ilast1 ilast2 bilo0 bilo1 bilo2 bihi0 bihi1 bihi2 dx
  beta b0 b1 b2 stencil m = celldiffusionoffdiag3d ifirst0 ifirst1 ifirst2 ilast0 ilast1 ilast2 bilo0 bilo1
  bilo2 bihi0 bihi1 bihi2 dx beta b0 b1 b2 0 stencil m.
Proof. exact @nodediffusionoffdiag3d_cell. Qed.
Print Assumptions C53_nodediffusionoffdiag3d.
Example C53_nodediffusionoffdiag3d_example :
  acts (nodediffusionoffdiag3d 0 0 0 1 1 1 0 0 0 1 1 1 dx1 (3 : ZS) (p 4) (p 5) (p 6) (p 11)) ex_mem = true.
Proof. vm_compute. reflexivity. Qed.

Theorem C53_nodepoissonoffdiag3d : forall (S : Scalar),
  forall (ifirst0 ifirst1 ifirst2 ilast0 ilast1 ilast2 : Z) (dx : Z -> S) (beta : S) (stencil : ptr) (m : mem
  S),
  nodepoissonoffdiag3d ifirst0 ifirst1 ifirst2 ilast0 ilast1 ilast2 dx beta stencil m = cellpoissonoffdiag3d
  ifirst0 ifirst1 ifirst2 ilast0 ilast1 ilast2 dx beta 0 stencil m.
Proof. exact @nodepoissonoffdiag3d_cell. Qed.
Print Assumptions C53_nodepoissonoffdiag3d.
Example C53_nodepoissonoffdiag3d_example :
  acts (nodepoissonoffdiag3d 0 0 0 1 1 1 dx1 (3 : ZS) (p 11)) ex_mem = true.
Proof. vm_compute. reflexivity. Qed.

Theorem C53_nodediffusionv1diag3d : forall (S : Scalar),
  forall (ifirst0 ifirst1 ifirst2 ilast0 ilast1 ilast2 ailo0 ailo1 ailo2 aihi0 aihi1 aihi2 : Z) (alpha : S) (a
  stencil : ptr) (m : mem S),
  nodediffusionv1diag3d ifirst0 ifirst1 ifirst2 ilast0 ilast1 ilast2 ailo0 ailo1 ailo2 aihi0 aihi1 aihi2 alpha
  a stencil m = celldiffusionv1diag3d ifirst0 ifirst1 ifirst2 ilast0 ilast1 ilast2 ailo0 ailo1 ailo2 aihi0
  aihi1 aihi2 alpha a 0 stencil m.
Proof. exact @nodediffusionv1diag3d_cell. Qed.
Print Assumptions C53_nodediffusionv1diag3d.
Example C53_nodediffusionv1diag3d_example :
  acts (nodediffusionv1diag3d 0 0 0 1 1 1 0 0 0 1 1 1 (3 : ZS) (p 1) (p 11)) ex_mem = true.
Proof. vm_compute. reflexivity. Qed.

Theorem C53_nodediffusionv2diag3d : forall (S : Scalar),
  forall (ifirst0 ifirst1 ifirst2 ilast0 ilast1 ilast2 : Z) (alpha : S) (stencil : ptr) (m : mem S),
  nodediffusionv2diag3d ifirst0 ifirst1 ifirst2 ilast0 ilast1 ilast2 alpha stencil m = celldiffusionv2diag3d
  ifirst0 ifirst1 ifirst2 ilast0 ilast1 ilast2 alpha 0 stencil m.
Proof. exact @nodediffusionv2diag3d_cell. Qed.
Print Assumptions C53_nodediffusionv2diag3d.
Example C53_nodediffusionv2diag3d_example :
  acts (nodediffusionv2diag3d 0 0 0 1 1 1 (3 : ZS) (p 11)) ex_mem = true.
Proof. vm_compute. reflexivity. Qed.

Theorem C53_nodepoissondiag3d : forall (S : Scalar),
  forall (ifirst0 ifirst1 ifirst2 ilast0 ilast1 ilast2 : Z) (stencil : ptr) (m : mem S),
  nodepoissondiag3d ifirst0 ifirst1 ifirst2 ilast0 ilast1 ilast2 stencil m = cellpoissondiag3d ifirst0 ifirst1
  ifirst2 ilast0 ilast1 ilast2 0 stencil m.
Proof. exact @nodepoissondiag3d_cell. Qed.
Print Assumptions C53_nodepoissondiag3d.
Example C53_nodepoissondiag3d_example :
  acts (nodepoissondiag3d 0 0 0 1 1 1 (p 11)) ex_mem = true.
Proof. vm_compute. reflexivity. Qed.

Theorem C53_adjnodediffusiondiag3d : forall (S : Scalar),
  forall (ifirst0 ifirst1 ifirst2 ilast0 ilast1 ilast2 pfirst0 pfirst1 pfirst2 plast0 plast1 plast2 direction
  side bdrytype extrapOrder : Z) (dx : Z -> S) (beta : S) (b0 b1 b2 stencil : ptr) (m : mem S), (side = 0 \/
  (side = 1 /\ bdrytype <> 0)) ->
  adjnodediffusiondiag3d ifirst0 ifirst1 ifirst2 ilast0 ilast1 ilast2 pfirst0 pfirst1 pfirst2 plast0 plast1
  plast2 direction side bdrytype extrapOrder dx beta b0 b1 b2 stencil m = adjcelldiffusiondiag3d ifirst0
  ifirst1 ifirst2 ilast0 ilast1 ilast2 pfirst0 pfirst1 pfirst2 plast0 plast1 plast2 direction side bdrytype
  extrapOrder dx beta b0 b1 b2 0 stencil m.
Proof. exact @adjnodediffusiondiag3d_cell. Qed.
Print Assumptions C53_adjnodediffusiondiag3d.
Example C53_adjnodediffusiondiag3d_example :
  acts (adjnodediffusiondiag3d 0 0 0 1 1 1 (-1) 0 0 (-1) 1 1 0 0 4 2 dx1 (3 : ZS) (p 4) (p 5) (p 6) (p 11))
  ex_mem = true.
Proof. vm_compute. reflexivity. Qed.

Theorem C53_adjnodepoissondiag3d : forall (S : Scalar),
  forall (ifirst0 ifirst1 ifirst2 ilast0 ilast1 ilast2 pfirst0 pfirst1 pfirst2 plast0 plast1 plast2 direction
  side bdrytype extrapOrder : Z) (dx : Z -> S) (beta : S) (stencil : ptr) (m : mem S), (side = 0 \/ (side = 1
  /\ bdrytype <> 0)) ->
  adjnodepoissondiag3d ifirst0 ifirst1 ifirst2 ilast0 ilast1 ilast2 pfirst0 pfirst1 pfirst2 plast0 plast1
  plast2 direction side bdrytype extrapOrder dx beta stencil m = adjcellpoissondiag3d ifirst0 ifirst1 ifirst2
  ilast0 ilast1 ilast2 pfirst0 pfirst1 pfirst2 plast0 plast1 plast2 direction side bdrytype extrapOrder dx
  beta 0 stencil m.
Proof. exact @adjnodepoissondiag3d_cell. Qed.
Print Assumptions C53_adjnodepoissondiag3d.
Example C53_adjnodepoissondiag3d_example :
  acts (adjnodepoissondiag3d 0 0 0 1 1 1 (-1) 0 0 (-1) 1 1 0 0 4 2 dx1 (3 : ZS) (p 11)) ex_mem = true.
Proof. vm_compute. reflexivity. Qed.

Theorem C53_adjnodediffusioncfdiag3d : forall (S : Scalar),
  forall (ifirst0 ifirst1 ifirst2 ilast0 ilast1 ilast2 pfirst0 pfirst1 pfirst2 plast0 plast1 plast2 r
  direction side interporder : Z) (dx : Z -> S) (beta : S) (b0 b1 b2 stencil : ptr) (m : mem S), (direction <>
  2 \/ interporder <> 2) ->
  adjnodediffusioncfdiag3d ifirst0 ifirst1 ifirst2 ilast0 ilast1 ilast2 pfirst0 pfirst1 pfirst2 plast0 plast1
  plast2 r direction side interporder dx beta b0 b1 b2 stencil m = adjcelldiffusioncfdiag3d ifirst0 ifirst1
  ifirst2 ilast0 ilast1 ilast2 pfirst0 pfirst1 pfirst2 plast0 plast1 plast2 r direction side interporder dx
  beta b0 b1 b2 0 stencil m.
Proof. exact @adjnodediffusioncfdiag3d_cell. Qed.
Print Assumptions C53_adjnodediffusioncfdiag3d.
Example C53_adjnodediffusioncfdiag3d_example :
  acts (adjnodediffusioncfdiag3d 0 0 0 1 1 1 (-1) 0 0 (-1) 1 1 3 0 0 2 dx1 (3 : ZS) (p 4) (p 5) (p 6) (p 11))
  ex_mem = true.
Proof. vm_compute. reflexivity. Qed.

Theorem C53_adjnodepoissoncfdiag3d : forall (S : Scalar),
  forall (ifirst0 ifirst1 ifirst2 ilast0 ilast1 ilast2 pfirst0 pfirst1 pfirst2 plast0 plast1 plast2 r
  direction side interporder : Z) (dx : Z -> S) (beta : S) (stencil : ptr) (m : mem S),
  adjnodepoissoncfdiag3d ifirst0 ifirst1 ifirst2 ilast0 ilast1 ilast2 pfirst0 pfirst1 pfirst2 plast0 plast1
  plast2 r direction side interporder dx beta stencil m = adjcellpoissoncfdiag3d ifirst0 ifirst1 ifirst2
  ilast0 ilast1 ilast2 pfirst0 pfirst1 pfirst2 plast0 plast1 plast2 r direction side interporder dx beta 0
  stencil m.
Proof. exact @adjnodepoissoncfdiag3d_cell. Qed.
Print Assumptions C53_adjnodepoissoncfdiag3d.
Example C53_adjnodepoissoncfdiag3d_example :
  acts (adjnodepoissoncfdiag3d 0 0 0 1 1 1 (-1) 0 0 (-1) 1 1 3 0 0 2 dx1 (3 : ZS) (p 11)) ex_mem = true.
Proof. vm_compute. reflexivity. Qed.

Theorem C53_adjnodediffusionoffdiag3d : forall (S : Scalar),
  forall (ifirst0 ifirst1 ifirst2 ilast0 ilast1 ilast2 pfirst0 pfirst1 pfirst2 plast0 plast1 plast2 direction
  side bdrytype extrapOrder : Z) (dx : Z -> S) (dirfactor neufactor beta : S) (b0 b1 b2 stencil : ptr) (m :
  mem S), (side = 0 \/ direction = 0 \/ bdrytype <> 4 \/ extrapOrder <> 2) ->
  adjnodediffusionoffdiag3d ifirst0 ifirst1 ifirst2 ilast0 ilast1 ilast2 pfirst0 pfirst1 pfirst2 plast0 plast1
  plast2 direction side bdrytype extrapOrder dx dirfactor neufactor beta b0 b1 b2 stencil m =
  adjcelldiffusionoffdiag3d ifirst0 ifirst1 ifirst2 ilast0 ilast1 ilast2 pfirst0 pfirst1 pfirst2 plast0 plast1
  plast2 direction side bdrytype extrapOrder dx dirfactor neufactor beta b0 b1 b2 0 stencil m.
Proof. exact @adjnodediffusionoffdiag3d_cell. Qed.
Print Assumptions C53_adjnodediffusionoffdiag3d.
Example C53_adjnodediffusionoffdiag3d_example :
  acts (adjnodediffusionoffdiag3d 0 0 0 1 1 1 (-1) 0 0 (-1) 1 1 0 0 4 2 dx1 (3 : ZS) (3 : ZS) (3 : ZS) (p 4) (p
  5) (p 6) (p 11)) ex_mem = true.
Proof. vm_compute. reflexivity. Qed.

Theorem C53_adjnodepoissonoffdiag3d : forall (S : Scalar),
  forall (ifirst0 ifirst1 ifirst2 ilast0 ilast1 ilast2 pfirst0 pfirst1 pfirst2 plast0 plast1 plast2 direction
  side bdrytype extrapOrder : Z) (dx : Z -> S) (dirfactor neufactor beta : S) (stencil : ptr) (m : mem S),
  (side = 0 \/ direction = 0 \/ bdrytype <> 4 \/ extrapOrder <> 2) ->
  adjnodepoissonoffdiag3d ifirst0 ifirst1 ifirst2 ilast0 ilast1 ilast2 pfirst0 pfirst1 pfirst2 plast0 plast1
  plast2 direction side bdrytype extrapOrder dx dirfactor neufactor beta stencil m = adjcellpoissonoffdiag3d
  ifirst0 ifirst1 ifirst2 ilast0 ilast1 ilast2 pfirst0 pfirst1 pfirst2 plast0 plast1 plast2 direction side
  bdrytype extrapOrder dx dirfactor neufactor beta 0 stencil m.
Proof. exact @adjnodepoissonoffdiag3d_cell. Qed.
Print Assumptions C53_adjnodepoissonoffdiag3d.
Example C53_adjnodepoissonoffdiag3d_example :
  acts (adjnodepoissonoffdiag3d 0 0 0 1 1 1 (-1) 0 0 (-1) 1 1 0 0 4 2 dx1 (3 : ZS) (3 : ZS) (3 : ZS) (p 11))
  ex_mem = true.
Proof. vm_compute. reflexivity. Qed.

Theorem C53_adjnodediffusioncfoffdiag3d : forall (S : Scalar),
  forall (ifirst0 ifirst1 ifirst2 ilast0 ilast1 ilast2 cfirst0 cfirst1 cfirst2 clast0 clast1 clast2 r
  direction side interporder : Z) (stencil : ptr) (m : mem S),
  adjnodediffusioncfoffdiag3d ifirst0 ifirst1 ifirst2 ilast0 ilast1 ilast2 cfirst0 cfirst1 cfirst2 clast0
  clast1 clast2 r direction side interporder stencil m = adjcelldiffusioncfoffdiag3d ifirst0 ifirst1 ifirst2
  ilast0 ilast1 ilast2 cfirst0 cfirst1 cfirst2 clast0 clast1 clast2 r direction side interporder 0 stencil m.
Proof. exact @adjnodediffusioncfoffdiag3d_cell. Qed.
Print Assumptions C53_adjnodediffusioncfoffdiag3d.
Example C53_adjnodediffusioncfoffdiag3d_example :
  acts (adjnodediffusioncfoffdiag3d 0 0 0 1 1 1 0 0 0 1 1 1 3 0 0 2 (p 11)) ex_mem = true.
Proof. vm_compute. reflexivity. Qed.

Theorem C53_readjnodediffusionoffdiag3d : forall (S : Scalar),
  forall (ifirst0 ifirst1 ifirst2 ilast0 ilast1 ilast2 pfirst0 pfirst1 pfirst2 plast0 plast1 plast2 direction
  side : Z) (stencil : ptr) (m : mem S), (direction <> 2 \/ pfirst1 = pfirst2) ->
  readjnodediffusionoffdiag3d ifirst0 ifirst1 ifirst2 ilast0 ilast1 ilast2 pfirst0 pfirst1 pfirst2 plast0
  plast1 plast2 direction side stencil m = readjcelldiffusionoffdiag3d ifirst0 ifirst1 ifirst2 ilast0 ilast1
  ilast2 pfirst0 pfirst1 pfirst2 plast0 plast1 plast2 direction side 0 stencil m.
Proof. exact @readjnodediffusionoffdiag3d_cell. Qed.
Print Assumptions C53_readjnodediffusionoffdiag3d.
Example C53_readjnodediffusionoffdiag3d_example :
  acts (readjnodediffusionoffdiag3d 0 0 0 1 1 1 (-1) 0 0 (-1) 1 1 0 0 (p 11)) ex_mem = true.
Proof. vm_compute. reflexivity. Qed.

Theorem C53_adjnodediffusioncfbdryrhs3d : forall (S : Scalar),
  forall (ifirst0 ifirst1 ifirst2 ilast0 ilast1 ilast2 pfirst0 pfirst1 pfirst2 plast0 plast1 plast2 direction
  side : Z) (stencil : ptr) (gcw : Z) (u rhs : ptr) (m : mem S),
  adjnodediffusioncfbdryrhs3d ifirst0 ifirst1 ifirst2 ilast0 ilast1 ilast2 pfirst0 pfirst1 pfirst2 plast0
  plast1 plast2 direction side stencil gcw u rhs m = adjcelldiffusioncfbdryrhs3d ifirst0 ifirst1 ifirst2
  ilast0 ilast1 ilast2 pfirst0 pfirst1 pfirst2 plast0 plast1 plast2 direction side 0 stencil gcw u rhs m.
Proof. exact @adjnodediffusioncfbdryrhs3d_cell. Qed.
Print Assumptions C53_adjnodediffusioncfbdryrhs3d.
Example C53_adjnodediffusioncfbdryrhs3d_example :
  acts (adjnodediffusioncfbdryrhs3d 0 0 0 1 1 1 (-1) 0 0 (-1) 1 1 0 0 (p 11) 1 (p 2) (p 1)) ex_mem = true.
Proof. vm_compute. reflexivity. Qed.

(** ** Subroutines that differ *)

(** On a two by two by two patch (indices 0 and 1), with the boundary box on its
    upper side in the given direction; [node_mem] holds arrays of unequal entries. *)

Theorem C53_nodediffusionflux3d_refuted :
  disagree (nodediffusionflux3d 0 0 0 1 1 1 dx1 (p 0) (p 1) (p 2) 1 (p 4) (p 7) (p 8) (p 9))
  (celldiffusionflux3d 0 0 0 1 1 1 dx1 (p 0) (p 1) (p 2) 1 (p 4) (p 7) (p 8) (p 9)) node_mem.
Proof. exact nodediffusionflux3d_differs. Qed.
Print Assumptions C53_nodediffusionflux3d_refuted.

Theorem C53_nodediffusionv2apply3d_refuted :
  disagree (nodediffusionv2apply3d 0 1 0 1 0 1 (1 : ZS) (1 : ZS) dx1 1 (p 4) 0 (p 5) (p 0) (p 1) (3%nat, 7) (-1
  : ZS) (1 : ZS) 0 (p 6)) (celldiffusionv2res3d 0 1 0 1 0 1 (1 : ZS) (1 : ZS) dx1 1 (p 4) 0 (p 5) (p 0) (p 1)
  (3%nat, 7) 0 (p 6)) node_mem.
Proof. exact nodediffusionv2apply3d_differs. Qed.
Print Assumptions C53_nodediffusionv2apply3d_refuted.

Theorem C53_nodepoissonapply3d_refuted :
  disagree (nodepoissonapply3d 0 1 0 1 0 1 (1 : ZS) dx1 0 (p 5) (p 0) (p 1) (3%nat, 7) (-1 : ZS) (1 : ZS) 0 (p
  6)) (cellpoissonv1res3d 0 1 0 1 0 1 (1 : ZS) dx1 0 (p 5) (p 0) (p 1) (3%nat, 7) 0 (p 6)) node_mem.
Proof. exact nodepoissonapply3d_differs. Qed.
Print Assumptions C53_nodepoissonapply3d_refuted.

Theorem C53_adjnodediffusiondiag3d_refuted :
  disagree (adjnodediffusiondiag3d 0 0 0 1 1 1 2 0 0 2 1 1 0 1 0 2 dx1 (1 : ZS) (p 0) (p 1) (p 2) (p 3))
  (adjcelldiffusiondiag3d 0 0 0 1 1 1 2 0 0 2 1 1 0 1 0 2 dx1 (1 : ZS) (p 0) (p 1) (p 2) 0 (p 3)) node_mem.
Proof. exact adjnodediffusiondiag3d_differs. Qed.
Print Assumptions C53_adjnodediffusiondiag3d_refuted.

Theorem C53_adjnodepoissondiag3d_refuted :
  disagree (adjnodepoissondiag3d 0 0 0 1 1 1 2 0 0 2 1 1 0 1 0 2 dx1 (3 : ZS) (p 3)) (adjcellpoissondiag3d 0 0 0
  1 1 1 2 0 0 2 1 1 0 1 0 2 dx1 (3 : ZS) 0 (p 3)) node_mem.
Proof. exact adjnodepoissondiag3d_differs. Qed.
Print Assumptions C53_adjnodepoissondiag3d_refuted.

Theorem C53_adjnodediffusioncfdiag3d_refuted :
  disagree (adjnodediffusioncfdiag3d 0 0 0 1 1 1 0 0 2 1 1 2 3 2 1 2 dx1 (3 : ZS) (p 0) (p 1) (p 2) (p 3))
  (adjcelldiffusioncfdiag3d 0 0 0 1 1 1 0 0 2 1 1 2 3 2 1 2 dx1 (3 : ZS) (p 0) (p 1) (p 2) 0 (p 3)) node_mem.
Proof. exact adjnodediffusioncfdiag3d_differs. Qed.
Print Assumptions C53_adjnodediffusioncfdiag3d_refuted.

Theorem C53_adjnodediffusionoffdiag3d_refuted :
  disagree (adjnodediffusionoffdiag3d 0 0 0 1 1 1 0 2 0 1 2 1 1 1 4 2 dx1 (1 : ZS) (1 : ZS) (1 : ZS) (p 0) (p 1)
  (p 2) (p 3)) (adjcelldiffusionoffdiag3d 0 0 0 1 1 1 0 2 0 1 2 1 1 1 4 2 dx1 (1 : ZS) (1 : ZS) (1 : ZS) (p 0)
  (p 1) (p 2) 0 (p 3)) node_mem.
Proof. exact adjnodediffusionoffdiag3d_differs. Qed.
Print Assumptions C53_adjnodediffusionoffdiag3d_refuted.

Theorem C53_adjnodepoissonoffdiag3d_refuted :
  disagree (adjnodepoissonoffdiag3d 0 0 0 1 1 1 0 0 2 1 1 2 2 1 4 2 dx1 (1 : ZS) (1 : ZS) (1 : ZS) (p 3))
  (adjcellpoissonoffdiag3d 0 0 0 1 1 1 0 0 2 1 1 2 2 1 4 2 dx1 (1 : ZS) (1 : ZS) (1 : ZS) 0 (p 3)) node_mem.
Proof. exact adjnodepoissonoffdiag3d_differs. Qed.
Print Assumptions C53_adjnodepoissonoffdiag3d_refuted.

Theorem C53_readjnodediffusionoffdiag3d_refuted :
  disagree (readjnodediffusionoffdiag3d 0 0 0 1 1 1 0 0 2 1 1 2 2 1 (p 3)) (readjcelldiffusionoffdiag3d 0 0 0 1
  1 1 0 0 2 1 1 2 2 1 0 (p 3)) node_mem.
Proof. exact readjnodediffusionoffdiag3d_differs. Qed.
Print Assumptions C53_readjnodediffusionoffdiag3d_refuted.
