(** * The node-centred Fortran subroutines against the cell-centred ones *)

From Coq Require Import Field.
From Verif Require Import Base FortranBase FortranFlux FortranApply FortranStencil1 FortranStencil2 FortranStencil3
  FortranNode FortranNodeStencil1 FortranNodeStencil2 FortranNodeStencil3 LemBase SpecIter LemDomain LemKernel LemKernel2
  LemBC LemField LemStencil LemFortran.
Import ListNotations.
Open Scope Z_scope.

Section Comb.
  Context (S : Scalar) (L : field_laws S).
  Add Field SF : (s_field S L) (morphism (lit_morph S L), constants [lit_cst]).
  Open Scope scalar_scope.

  (** Right-hand side minus operator, as the weighted sum the node routines form. *)
  Lemma node_comb (f lu : S) : #1 * f + (- #1) * lu = f - lu.
  Proof. ring. Qed.
End Comb.

(** Step into the same branch on both sides. *)
Ltac n_if :=
  repeat match goal with
    | |- (if ?c then _ else _) ?m = _ => destruct c eqn:?
    end;
  rewrite ?Z.eqb_eq, ?Z.eqb_neq in *.

(** An operator: the loop bodies agree element by element. *)
Ltac n_apply L :=
  repeat (apply do_ext; intros); unfold flet, fset, fop, fneg, fsc, bind;
  repeat (match goal with |- context [fel ?a ?i ?m] => destruct (fel a i m) end; try reflexivity);
  rewrite ?(node_comb _ L); reflexivity.

(** Loops around the empty statement. *)
Ltac n_skip := repeat (rewrite do_skip; [reflexivity|]; intros); try reflexivity.

(** Index expressions, once the side is known. *)
Ltac n_side := repeat match goal with
  | |- context [?p - 2 * 0 + 1] => replace (p - 2 * 0 + 1) with (p + 1) by lia
  | |- context [?p - 0 + 1] => replace (p - 0 + 1) with (p + 1) by lia
  | |- context [?p - 2 * 1 + 1 + 1] => replace (p - 2 * 1 + 1 + 1) with p by lia
  | |- context [?p - 2 * 1 + 1] => replace (p - 2 * 1 + 1) with (p - 1) by lia
  | |- context [?p - 1 + 1] => replace (p - 1 + 1) with p by lia
  end.

Section Node.
  Context {S : Scalar}.

  Lemma nodediffusionflux1d_cell :
    forall (ifirst0 ilast0 : Z) (dx : Z -> S) (b0 : ptr) (gcw : Z) (u flux0 : ptr) (m : mem S),
    nodediffusionflux1d ifirst0 ilast0 dx b0 gcw u flux0 m = celldiffusionflux1d ifirst0 ilast0 dx b0 gcw u
    flux0 m.
  Proof. reflexivity. Qed.

  Lemma nodepoissonflux1d_cell :
    forall (ifirst0 ilast0 : Z) (dx : Z -> S) (gcw : Z) (u flux0 : ptr) (m : mem S),
    nodepoissonflux1d ifirst0 ilast0 dx gcw u flux0 m = cellpoissonflux1d ifirst0 ilast0 dx gcw u flux0 m.
  Proof. reflexivity. Qed.

  Lemma nodediffusionflux2d_cell :
    forall (ifirst0 ifirst1 ilast0 ilast1 : Z) (dx : Z -> S) (b0 b1 : ptr) (gcw : Z) (u flux0 flux1 : ptr) (m :
    mem S),
    nodediffusionflux2d ifirst0 ifirst1 ilast0 ilast1 dx b0 b1 gcw u flux0 flux1 m = celldiffusionflux2d ifirst0
    ifirst1 ilast0 ilast1 dx b0 b1 gcw u flux0 flux1 m.
  Proof. reflexivity. Qed.

  Lemma nodepoissonflux2d_cell :
    forall (ifirst0 ifirst1 ilast0 ilast1 : Z) (dx : Z -> S) (gcw : Z) (u flux0 flux1 : ptr) (m : mem S),
    nodepoissonflux2d ifirst0 ifirst1 ilast0 ilast1 dx gcw u flux0 flux1 m = cellpoissonflux2d ifirst0 ifirst1
    ilast0 ilast1 dx gcw u flux0 flux1 m.
  Proof. reflexivity. Qed.

  Lemma nodepoissonflux3d_cell :
    forall (ifirst0 ifirst1 ifirst2 ilast0 ilast1 ilast2 : Z) (dx : Z -> S) (gcw : Z) (u flux0 flux1 flux2 :
    ptr) (m : mem S),
    nodepoissonflux3d ifirst0 ifirst1 ifirst2 ilast0 ilast1 ilast2 dx gcw u flux0 flux1 flux2 m =
    cellpoissonflux3d ifirst0 ifirst1 ifirst2 ilast0 ilast1 ilast2 dx gcw u flux0 flux1 flux2 m.
  Proof. reflexivity. Qed.

  Lemma nodediffusionv1apply1d_cell :
    forall (ifirst0 ilast0 : Z) (alpha beta : S) (dx : Z -> S) (agcw : Z) (acoef : ptr) (ugcw : Z) (u : ptr)
    (fgcw : Z) (f flux0 : ptr) (rgcw : Z) (res : ptr) (m : mem S), field_laws S ->
    nodediffusionv1apply1d ifirst0 ilast0 alpha beta dx agcw acoef ugcw u fgcw f flux0 (- #1)%T (#1)%T rgcw res
    m = celldiffusionv1res1d ifirst0 ilast0 alpha beta dx agcw acoef ugcw u fgcw f flux0 rgcw res m.
  Proof. intros. unfold nodediffusionv1apply1d, celldiffusionv1res1d. cbv zeta. n_apply H. Qed.

  Lemma nodediffusionv2apply1d_cell :
    forall (ifirst0 ilast0 : Z) (alpha beta : S) (dx : Z -> S) (ugcw : Z) (u : ptr) (fgcw : Z) (f flux0 : ptr)
    (rgcw : Z) (res : ptr) (m : mem S), field_laws S ->
    nodediffusionv2apply1d ifirst0 ilast0 alpha beta dx ugcw u fgcw f flux0 (- #1)%T (#1)%T rgcw res m =
    celldiffusionv2res1d ifirst0 ilast0 alpha beta dx ugcw u fgcw f flux0 rgcw res m.
  Proof. intros. unfold nodediffusionv2apply1d, celldiffusionv2res1d. cbv zeta. n_apply H. Qed.

  Lemma nodepoissonapply1d_cell :
    forall (ifirst0 ilast0 : Z) (beta : S) (dx : Z -> S) (fgcw : Z) (f flux0 : ptr) (rgcw : Z) (res : ptr) (m :
    mem S), field_laws S ->
    nodepoissonapply1d ifirst0 ilast0 beta dx fgcw f flux0 (- #1)%T (#1)%T rgcw res m = cellpoissonv1res1d
    ifirst0 ilast0 beta dx fgcw f flux0 rgcw res m.
  Proof. intros. unfold nodepoissonapply1d, cellpoissonv1res1d. cbv zeta. n_apply H. Qed.

  Lemma nodediffusionv1apply2d_cell :
    forall (ifirst0 ilast0 ifirst1 ilast1 : Z) (alpha beta : S) (dx : Z -> S) (agcw : Z) (acoef : ptr) (ugcw :
    Z) (u : ptr) (fgcw : Z) (f flux0 flux1 : ptr) (rgcw : Z) (res : ptr) (m : mem S), field_laws S ->
    nodediffusionv1apply2d ifirst0 ilast0 ifirst1 ilast1 alpha beta dx agcw acoef ugcw u fgcw f flux0 flux1 (-
    #1)%T (#1)%T rgcw res m = celldiffusionv1res2d ifirst0 ilast0 ifirst1 ilast1 alpha beta dx agcw acoef ugcw u
    fgcw f flux0 flux1 rgcw res m.
  Proof. intros. unfold nodediffusionv1apply2d, celldiffusionv1res2d. cbv zeta. n_apply H. Qed.

  Lemma nodediffusionv2apply2d_cell :
    forall (ifirst0 ilast0 ifirst1 ilast1 : Z) (alpha beta : S) (dx : Z -> S) (ugcw : Z) (u : ptr) (fgcw : Z) (f
    flux0 flux1 : ptr) (rgcw : Z) (res : ptr) (m : mem S), field_laws S ->
    nodediffusionv2apply2d ifirst0 ilast0 ifirst1 ilast1 alpha beta dx ugcw u fgcw f flux0 flux1 (- #1)%T (#1)%T
    rgcw res m = celldiffusionv2res2d ifirst0 ilast0 ifirst1 ilast1 alpha beta dx ugcw u fgcw f flux0 flux1 rgcw
    res m.
  Proof. intros. unfold nodediffusionv2apply2d, celldiffusionv2res2d. cbv zeta. n_apply H. Qed.

  Lemma nodepoissonapply2d_cell :
    forall (ifirst0 ilast0 ifirst1 ilast1 : Z) (beta : S) (dx : Z -> S) (fgcw : Z) (f flux0 flux1 : ptr) (rgcw :
    Z) (res : ptr) (m : mem S), field_laws S ->
    nodepoissonapply2d ifirst0 ilast0 ifirst1 ilast1 beta dx fgcw f flux0 flux1 (- #1)%T (#1)%T rgcw res m =
    cellpoissonv1res2d ifirst0 ilast0 ifirst1 ilast1 beta dx fgcw f flux0 flux1 rgcw res m.
  Proof. intros. unfold nodepoissonapply2d, cellpoissonv1res2d. cbv zeta. n_apply H. Qed.

  Lemma nodediffusionv1apply3d_cell :
    forall (ifirst0 ilast0 ifirst1 ilast1 ifirst2 ilast2 : Z) (alpha beta : S) (dx : Z -> S) (agcw : Z) (acoef :
    ptr) (ugcw : Z) (u : ptr) (fgcw : Z) (f flux0 flux1 flux2 : ptr) (rgcw : Z) (res : ptr) (m : mem S),
    field_laws S ->
    nodediffusionv1apply3d ifirst0 ilast0 ifirst1 ilast1 ifirst2 ilast2 alpha beta dx agcw acoef ugcw u fgcw f
    flux0 flux1 flux2 (- #1)%T (#1)%T rgcw res m = celldiffusionv1res3d ifirst0 ilast0 ifirst1 ilast1 ifirst2
    ilast2 alpha beta dx agcw acoef ugcw u fgcw f flux0 flux1 flux2 rgcw res m.
  Proof. intros. unfold nodediffusionv1apply3d, celldiffusionv1res3d. cbv zeta. n_apply H. Qed.

  Lemma nodediffusionoffdiag1d_cell :
    forall (ifirst0 ilast0 bilo0 bihi0 : Z) (dx : Z -> S) (beta : S) (b0 stencil : ptr) (m : mem S),
    nodediffusionoffdiag1d ifirst0 ilast0 bilo0 bihi0 dx beta b0 stencil m = celldiffusionoffdiag1d ifirst0
    ilast0 bilo0 bihi0 dx beta b0 0 stencil m.
  Proof. reflexivity. Qed.

  Lemma nodepoissonoffdiag1d_cell :
    forall (ifirst0 ilast0 : Z) (dx : Z -> S) (beta : S) (stencil : ptr) (m : mem S),
    nodepoissonoffdiag1d ifirst0 ilast0 dx beta stencil m = cellpoissonoffdiag1d ifirst0 ilast0 dx beta 0
    stencil m.
  Proof. reflexivity. Qed.

  Lemma nodediffusionv1diag1d_cell :
    forall (ifirst0 ilast0 ailo0 aihi0 : Z) (alpha : S) (a stencil : ptr) (m : mem S),
    nodediffusionv1diag1d ifirst0 ilast0 ailo0 aihi0 alpha a stencil m = celldiffusionv1diag1d ifirst0 ilast0
    ailo0 aihi0 alpha a 0 stencil m.
  Proof. reflexivity. Qed.

  Lemma nodediffusionv2diag1d_cell :
    forall (ifirst0 ilast0 : Z) (alpha : S) (stencil : ptr) (m : mem S),
    nodediffusionv2diag1d ifirst0 ilast0 alpha stencil m = celldiffusionv2diag1d ifirst0 ilast0 alpha 0 stencil
    m.
  Proof. reflexivity. Qed.

  Lemma nodepoissondiag1d_cell :
    forall (ifirst0 ilast0 : Z) (stencil : ptr) (m : mem S),
    nodepoissondiag1d ifirst0 ilast0 stencil m = cellpoissondiag1d ifirst0 ilast0 0 stencil m.
  Proof. reflexivity. Qed.

  Lemma adjnodediffusiondiag1d_cell :
    forall (ifirst0 ilast0 pfirst0 plast0 side bdrytype extrapOrder : Z) (dx : Z -> S) (beta : S) (b0 stencil :
    ptr) (m : mem S),
    adjnodediffusiondiag1d ifirst0 ilast0 pfirst0 plast0 side bdrytype extrapOrder dx beta b0 stencil m =
    adjcelldiffusiondiag1d ifirst0 ilast0 pfirst0 plast0 side bdrytype extrapOrder dx beta b0 0 stencil m.
  Proof. reflexivity. Qed.

  Lemma adjnodepoissondiag1d_cell :
    forall (ifirst0 ilast0 pfirst0 plast0 side bdrytype extrapOrder : Z) (dx : Z -> S) (beta : S) (stencil :
    ptr) (m : mem S),
    adjnodepoissondiag1d ifirst0 ilast0 pfirst0 plast0 side bdrytype extrapOrder dx beta stencil m =
    adjcellpoissondiag1d ifirst0 ilast0 pfirst0 plast0 side bdrytype extrapOrder dx beta 0 stencil m.
  Proof. reflexivity. Qed.

  Lemma adjnodediffusioncfdiag1d_cell :
    forall (ifirst0 ilast0 pfirst0 plast0 r side interporder : Z) (dx : Z -> S) (beta : S) (b0 stencil : ptr) (m
    : mem S),
    adjnodediffusioncfdiag1d ifirst0 ilast0 pfirst0 plast0 r side interporder dx beta b0 stencil m =
    adjcelldiffusioncfdiag1d ifirst0 ilast0 pfirst0 plast0 r side interporder dx beta b0 0 stencil m.
  Proof. reflexivity. Qed.

  Lemma adjnodepoissoncfdiag1d_cell :
    forall (ifirst0 ilast0 pfirst0 plast0 r side interporder : Z) (dx : Z -> S) (beta : S) (stencil : ptr) (m :
    mem S),
    adjnodepoissoncfdiag1d ifirst0 ilast0 pfirst0 plast0 r side interporder dx beta stencil m =
    adjcellpoissoncfdiag1d ifirst0 ilast0 pfirst0 plast0 r side interporder dx beta 0 stencil m.
  Proof. reflexivity. Qed.

  Lemma adjnodediffusionoffdiag1d_cell :
    forall (ifirst0 ilast0 pfirst0 plast0 side bdrytype extrapOrder : Z) (dx : Z -> S) (dirfactor neufactor beta
    : S) (b0 stencil : ptr) (m : mem S),
    adjnodediffusionoffdiag1d ifirst0 ilast0 pfirst0 plast0 side bdrytype extrapOrder dx dirfactor neufactor
    beta b0 stencil m = adjcelldiffusionoffdiag1d ifirst0 ilast0 pfirst0 plast0 side bdrytype extrapOrder dx
    dirfactor neufactor beta b0 0 stencil m.
  Proof. reflexivity. Qed.

  Lemma adjnodepoissonoffdiag1d_cell :
    forall (ifirst0 ilast0 pfirst0 plast0 side bdrytype extrapOrder : Z) (dx : Z -> S) (dirfactor neufactor beta
    : S) (stencil : ptr) (m : mem S),
    adjnodepoissonoffdiag1d ifirst0 ilast0 pfirst0 plast0 side bdrytype extrapOrder dx dirfactor neufactor beta
    stencil m = adjcellpoissonoffdiag1d ifirst0 ilast0 pfirst0 plast0 side bdrytype extrapOrder dx dirfactor
    neufactor beta 0 stencil m.
  Proof. reflexivity. Qed.

  Lemma adjnodediffusioncfoffdiag1d_cell :
    forall (ifirst0 ilast0 cfirst0 clast0 r side interporder : Z) (stencil : ptr) (m : mem S),
    adjnodediffusioncfoffdiag1d ifirst0 ilast0 cfirst0 clast0 r side interporder stencil m =
    adjcelldiffusioncfoffdiag1d ifirst0 ilast0 cfirst0 clast0 r side interporder 0 stencil m.
  Proof. reflexivity. Qed.

  Lemma readjnodediffusionoffdiag1d_cell :
    forall (ifirst0 ilast0 pfirst0 plast0 side : Z) (stencil : ptr) (m : mem S),
    readjnodediffusionoffdiag1d ifirst0 ilast0 pfirst0 plast0 side stencil m = readjcelldiffusionoffdiag1d
    ifirst0 ilast0 pfirst0 plast0 side 0 stencil m.
  Proof. reflexivity. Qed.

  Lemma adjnodediffusioncfbdryrhs1d_cell :
    forall (ifirst0 ilast0 pfirst0 plast0 side : Z) (stencil : ptr) (gcw : Z) (u rhs : ptr) (m : mem S),
    adjnodediffusioncfbdryrhs1d ifirst0 ilast0 pfirst0 plast0 side stencil gcw u rhs m =
    adjcelldiffusioncfbdryrhs1d ifirst0 ilast0 pfirst0 plast0 side 0 stencil gcw u rhs m.
  Proof. reflexivity. Qed.

  Lemma nodediffusionoffdiag2d_cell :
    forall (ifirst0 ifirst1 ilast0 ilast1 bilo0 bilo1 bihi0 bihi1 : Z) (dx : Z -> S) (beta : S) (b0 b1 stencil :
    ptr) (m : mem S),
    nodediffusionoffdiag2d ifirst0 ifirst1 ilast0 ilast1 bilo0 bilo1 bihi0 bihi1 dx beta b0 b1 stencil m =
    celldiffusionoffdiag2d ifirst0 ifirst1 ilast0 ilast1 bilo0 bilo1 bihi0 bihi1 dx beta b0 b1 0 stencil m.
  Proof. reflexivity. Qed.

  Lemma nodepoissonoffdiag2d_cell :
    forall (ifirst0 ifirst1 ilast0 ilast1 : Z) (dx : Z -> S) (beta : S) (stencil : ptr) (m : mem S),
    nodepoissonoffdiag2d ifirst0 ifirst1 ilast0 ilast1 dx beta stencil m = cellpoissonoffdiag2d ifirst0 ifirst1
    ilast0 ilast1 dx beta 0 stencil m.
  Proof. reflexivity. Qed.

  Lemma nodediffusionv1diag2d_cell :
    forall (ifirst0 ifirst1 ilast0 ilast1 ailo0 ailo1 aihi0 aihi1 : Z) (alpha : S) (a stencil : ptr) (m : mem
    S),
    nodediffusionv1diag2d ifirst0 ifirst1 ilast0 ilast1 ailo0 ailo1 aihi0 aihi1 alpha a stencil m =
    celldiffusionv1diag2d ifirst0 ifirst1 ilast0 ilast1 ailo0 ailo1 aihi0 aihi1 alpha a 0 stencil m.
  Proof. reflexivity. Qed.

  Lemma nodediffusionv2diag2d_cell :
    forall (ifirst0 ifirst1 ilast0 ilast1 : Z) (alpha : S) (stencil : ptr) (m : mem S),
    nodediffusionv2diag2d ifirst0 ifirst1 ilast0 ilast1 alpha stencil m = celldiffusionv2diag2d ifirst0 ifirst1
    ilast0 ilast1 alpha 0 stencil m.
  Proof. reflexivity. Qed.

  Lemma nodepoissondiag2d_cell :
    forall (ifirst0 ifirst1 ilast0 ilast1 : Z) (stencil : ptr) (m : mem S),
    nodepoissondiag2d ifirst0 ifirst1 ilast0 ilast1 stencil m = cellpoissondiag2d ifirst0 ifirst1 ilast0 ilast1
    0 stencil m.
  Proof. reflexivity. Qed.

  Lemma adjnodediffusiondiag2d_cell :
    forall (ifirst0 ifirst1 ilast0 ilast1 pfirst0 pfirst1 plast0 plast1 direction side bdrytype extrapOrder : Z)
    (dx : Z -> S) (beta : S) (b0 b1 stencil : ptr) (m : mem S),
    adjnodediffusiondiag2d ifirst0 ifirst1 ilast0 ilast1 pfirst0 pfirst1 plast0 plast1 direction side bdrytype
    extrapOrder dx beta b0 b1 stencil m = adjcelldiffusiondiag2d ifirst0 ifirst1 ilast0 ilast1 pfirst0 pfirst1
    plast0 plast1 direction side bdrytype extrapOrder dx beta b0 b1 0 stencil m.
  Proof. reflexivity. Qed.

  Lemma adjnodepoissondiag2d_cell :
    forall (ifirst0 ifirst1 ilast0 ilast1 pfirst0 pfirst1 plast0 plast1 direction side bdrytype extrapOrder : Z)
    (dx : Z -> S) (beta : S) (stencil : ptr) (m : mem S),
    adjnodepoissondiag2d ifirst0 ifirst1 ilast0 ilast1 pfirst0 pfirst1 plast0 plast1 direction side bdrytype
    extrapOrder dx beta stencil m = adjcellpoissondiag2d ifirst0 ifirst1 ilast0 ilast1 pfirst0 pfirst1 plast0
    plast1 direction side bdrytype extrapOrder dx beta 0 stencil m.
  Proof. reflexivity. Qed.

  Lemma adjnodediffusioncfdiag2d_cell :
    forall (ifirst0 ifirst1 ilast0 ilast1 pfirst0 pfirst1 plast0 plast1 r direction side interporder : Z) (dx :
    Z -> S) (beta : S) (b0 b1 stencil : ptr) (m : mem S),
    adjnodediffusioncfdiag2d ifirst0 ifirst1 ilast0 ilast1 pfirst0 pfirst1 plast0 plast1 r direction side
    interporder dx beta b0 b1 stencil m = adjcelldiffusioncfdiag2d ifirst0 ifirst1 ilast0 ilast1 pfirst0 pfirst1
    plast0 plast1 r direction side interporder dx beta b0 b1 0 stencil m.
  Proof. reflexivity. Qed.

  Lemma adjnodepoissoncfdiag2d_cell :
    forall (ifirst0 ifirst1 ilast0 ilast1 pfirst0 pfirst1 plast0 plast1 r direction side interporder : Z) (dx :
    Z -> S) (beta : S) (stencil : ptr) (m : mem S),
    adjnodepoissoncfdiag2d ifirst0 ifirst1 ilast0 ilast1 pfirst0 pfirst1 plast0 plast1 r direction side
    interporder dx beta stencil m = adjcellpoissoncfdiag2d ifirst0 ifirst1 ilast0 ilast1 pfirst0 pfirst1 plast0
    plast1 r direction side interporder dx beta 0 stencil m.
  Proof. reflexivity. Qed.

  Lemma adjnodediffusionoffdiag2d_cell :
    forall (ifirst0 ifirst1 ilast0 ilast1 pfirst0 pfirst1 plast0 plast1 direction side bdrytype extrapOrder : Z)
    (dx : Z -> S) (dirfactor neufactor beta : S) (b0 b1 stencil : ptr) (m : mem S),
    adjnodediffusionoffdiag2d ifirst0 ifirst1 ilast0 ilast1 pfirst0 pfirst1 plast0 plast1 direction side
    bdrytype extrapOrder dx dirfactor neufactor beta b0 b1 stencil m = adjcelldiffusionoffdiag2d ifirst0 ifirst1
    ilast0 ilast1 pfirst0 pfirst1 plast0 plast1 direction side bdrytype extrapOrder dx dirfactor neufactor beta
    b0 b1 0 stencil m.
  Proof. reflexivity. Qed.

  Lemma adjnodepoissonoffdiag2d_cell :
    forall (ifirst0 ifirst1 ilast0 ilast1 pfirst0 pfirst1 plast0 plast1 direction side bdrytype extrapOrder : Z)
    (dx : Z -> S) (dirfactor neufactor beta : S) (stencil : ptr) (m : mem S),
    adjnodepoissonoffdiag2d ifirst0 ifirst1 ilast0 ilast1 pfirst0 pfirst1 plast0 plast1 direction side bdrytype
    extrapOrder dx dirfactor neufactor beta stencil m = adjcellpoissonoffdiag2d ifirst0 ifirst1 ilast0 ilast1
    pfirst0 pfirst1 plast0 plast1 direction side bdrytype extrapOrder dx dirfactor neufactor beta 0 stencil m.
  Proof. reflexivity. Qed.

  Lemma adjnodediffusioncfoffdiag2d_cell :
    forall (ifirst0 ifirst1 ilast0 ilast1 cfirst0 cfirst1 clast0 clast1 r direction side interporder : Z)
    (stencil : ptr) (m : mem S),
    adjnodediffusioncfoffdiag2d ifirst0 ifirst1 ilast0 ilast1 cfirst0 cfirst1 clast0 clast1 r direction side
    interporder stencil m = adjcelldiffusioncfoffdiag2d ifirst0 ifirst1 ilast0 ilast1 cfirst0 cfirst1 clast0
    clast1 r direction side interporder 0 stencil m.
  Proof. reflexivity. Qed.

  Lemma readjnodediffusionoffdiag2d_cell :
    forall (ifirst0 ifirst1 ilast0 ilast1 pfirst0 pfirst1 plast0 plast1 direction side : Z) (stencil : ptr) (m :
    mem S),
    readjnodediffusionoffdiag2d ifirst0 ifirst1 ilast0 ilast1 pfirst0 pfirst1 plast0 plast1 direction side
    stencil m = readjcelldiffusionoffdiag2d ifirst0 ifirst1 ilast0 ilast1 pfirst0 pfirst1 plast0 plast1
    direction side 0 stencil m.
  Proof. reflexivity. Qed.

  Lemma adjnodediffusioncfbdryrhs2d_cell :
    forall (ifirst0 ifirst1 ilast0 ilast1 pfirst0 pfirst1 plast0 plast1 direction side : Z) (stencil : ptr) (gcw
    : Z) (u rhs : ptr) (m : mem S),
    adjnodediffusioncfbdryrhs2d ifirst0 ifirst1 ilast0 ilast1 pfirst0 pfirst1 plast0 plast1 direction side
    stencil gcw u rhs m = adjcelldiffusioncfbdryrhs2d ifirst0 ifirst1 ilast0 ilast1 pfirst0 pfirst1 plast0
    plast1 direction side 0 stencil gcw u rhs m.
  Proof. reflexivity. Qed.

  Lemma nodediffusionoffdiag3d_cell :
    forall (ifirst0 ifirst1 ifirst2 ilast0 ilast1 ilast2 bilo0 bilo1 bilo2 bihi0 bihi1 bihi2 : Z) (dx : Z -> S)
    (beta : S) (b0 b1 b2 stencil : ptr) (m : mem S),
    nodediffusionoffdiag3d ifirst0 ifirst1 ifirst2 ilast0 ilast1 ilast2 bilo0 bilo1 bilo2 bihi0 bihi1 bihi2 dx
    beta b0 b1 b2 stencil m = celldiffusionoffdiag3d ifirst0 ifirst1 ifirst2 ilast0 ilast1 ilast2 bilo0 bilo1
    bilo2 bihi0 bihi1 bihi2 dx beta b0 b1 b2 0 stencil m.
  Proof. reflexivity. Qed.

  Lemma nodepoissonoffdiag3d_cell :
    forall (ifirst0 ifirst1 ifirst2 ilast0 ilast1 ilast2 : Z) (dx : Z -> S) (beta : S) (stencil : ptr) (m : mem
    S),
    nodepoissonoffdiag3d ifirst0 ifirst1 ifirst2 ilast0 ilast1 ilast2 dx beta stencil m = cellpoissonoffdiag3d
    ifirst0 ifirst1 ifirst2 ilast0 ilast1 ilast2 dx beta 0 stencil m.
  Proof. reflexivity. Qed.

  Lemma nodediffusionv1diag3d_cell :
    forall (ifirst0 ifirst1 ifirst2 ilast0 ilast1 ilast2 ailo0 ailo1 ailo2 aihi0 aihi1 aihi2 : Z) (alpha : S) (a
    stencil : ptr) (m : mem S),
    nodediffusionv1diag3d ifirst0 ifirst1 ifirst2 ilast0 ilast1 ilast2 ailo0 ailo1 ailo2 aihi0 aihi1 aihi2 alpha
    a stencil m = celldiffusionv1diag3d ifirst0 ifirst1 ifirst2 ilast0 ilast1 ilast2 ailo0 ailo1 ailo2 aihi0
    aihi1 aihi2 alpha a 0 stencil m.
  Proof. reflexivity. Qed.

  Lemma nodediffusionv2diag3d_cell :
    forall (ifirst0 ifirst1 ifirst2 ilast0 ilast1 ilast2 : Z) (alpha : S) (stencil : ptr) (m : mem S),
    nodediffusionv2diag3d ifirst0 ifirst1 ifirst2 ilast0 ilast1 ilast2 alpha stencil m = celldiffusionv2diag3d
    ifirst0 ifirst1 ifirst2 ilast0 ilast1 ilast2 alpha 0 stencil m.
  Proof. reflexivity. Qed.

  Lemma nodepoissondiag3d_cell :
    forall (ifirst0 ifirst1 ifirst2 ilast0 ilast1 ilast2 : Z) (stencil : ptr) (m : mem S),
    nodepoissondiag3d ifirst0 ifirst1 ifirst2 ilast0 ilast1 ilast2 stencil m = cellpoissondiag3d ifirst0 ifirst1
    ifirst2 ilast0 ilast1 ilast2 0 stencil m.
  Proof. reflexivity. Qed.

  Lemma adjnodediffusiondiag3d_cell :
    forall (ifirst0 ifirst1 ifirst2 ilast0 ilast1 ilast2 pfirst0 pfirst1 pfirst2 plast0 plast1 plast2 direction
    side bdrytype extrapOrder : Z) (dx : Z -> S) (beta : S) (b0 b1 b2 stencil : ptr) (m : mem S), (side = 0 \/
    (side = 1 /\ bdrytype <> 0)) ->
    adjnodediffusiondiag3d ifirst0 ifirst1 ifirst2 ilast0 ilast1 ilast2 pfirst0 pfirst1 pfirst2 plast0 plast1
    plast2 direction side bdrytype extrapOrder dx beta b0 b1 b2 stencil m = adjcelldiffusiondiag3d ifirst0
    ifirst1 ifirst2 ilast0 ilast1 ilast2 pfirst0 pfirst1 pfirst2 plast0 plast1 plast2 direction side bdrytype
    extrapOrder dx beta b0 b1 b2 0 stencil m.
  Proof.
    intros. unfold adjnodediffusiondiag3d, adjcelldiffusiondiag3d, flet, fsc, bind. cbv zeta. destruct H as [H|[H Hb]].
    - subst side. n_side. destruct (bdrytype =? 4), (bdrytype =? 1), (direction =? 0), (direction =? 1); n_skip.
    - subst side. destruct (Z.eqb_spec bdrytype 0); [lia|].
      n_side. destruct (bdrytype =? 4), (bdrytype =? 1), (direction =? 0), (direction =? 1); n_skip.
  Qed.

  Lemma adjnodepoissondiag3d_cell :
    forall (ifirst0 ifirst1 ifirst2 ilast0 ilast1 ilast2 pfirst0 pfirst1 pfirst2 plast0 plast1 plast2 direction
    side bdrytype extrapOrder : Z) (dx : Z -> S) (beta : S) (stencil : ptr) (m : mem S), (side = 0 \/ (side = 1
    /\ bdrytype <> 0)) ->
    adjnodepoissondiag3d ifirst0 ifirst1 ifirst2 ilast0 ilast1 ilast2 pfirst0 pfirst1 pfirst2 plast0 plast1
    plast2 direction side bdrytype extrapOrder dx beta stencil m = adjcellpoissondiag3d ifirst0 ifirst1 ifirst2
    ilast0 ilast1 ilast2 pfirst0 pfirst1 pfirst2 plast0 plast1 plast2 direction side bdrytype extrapOrder dx
    beta 0 stencil m.
  Proof.
    intros. unfold adjnodepoissondiag3d, adjcellpoissondiag3d, flet, fsc, bind. cbv zeta. destruct H as [H|[H Hb]].
    - subst side. n_side. destruct (bdrytype =? 4), (bdrytype =? 1), (direction =? 0), (direction =? 1); n_skip.
    - subst side. destruct (Z.eqb_spec bdrytype 0); [lia|].
      n_side. destruct (bdrytype =? 4), (bdrytype =? 1), (direction =? 0), (direction =? 1); n_skip.
  Qed.

  Lemma adjnodediffusioncfdiag3d_cell :
    forall (ifirst0 ifirst1 ifirst2 ilast0 ilast1 ilast2 pfirst0 pfirst1 pfirst2 plast0 plast1 plast2 r
    direction side interporder : Z) (dx : Z -> S) (beta : S) (b0 b1 b2 stencil : ptr) (m : mem S), (direction <>
    2 \/ interporder <> 2) ->
    adjnodediffusioncfdiag3d ifirst0 ifirst1 ifirst2 ilast0 ilast1 ilast2 pfirst0 pfirst1 pfirst2 plast0 plast1
    plast2 r direction side interporder dx beta b0 b1 b2 stencil m = adjcelldiffusioncfdiag3d ifirst0 ifirst1
    ifirst2 ilast0 ilast1 ilast2 pfirst0 pfirst1 pfirst2 plast0 plast1 plast2 r direction side interporder dx
    beta b0 b1 b2 0 stencil m.
  Proof.
    intros. unfold adjnodediffusioncfdiag3d, adjcelldiffusioncfdiag3d, flet, fsc, bind. cbv zeta. destruct H as [H|H].
    - destruct (Z.eqb_spec direction 2); [lia|]. reflexivity.
    - destruct (Z.eqb_spec interporder 2); [lia|]. reflexivity.
  Qed.

  Lemma adjnodepoissoncfdiag3d_cell :
    forall (ifirst0 ifirst1 ifirst2 ilast0 ilast1 ilast2 pfirst0 pfirst1 pfirst2 plast0 plast1 plast2 r
    direction side interporder : Z) (dx : Z -> S) (beta : S) (stencil : ptr) (m : mem S),
    adjnodepoissoncfdiag3d ifirst0 ifirst1 ifirst2 ilast0 ilast1 ilast2 pfirst0 pfirst1 pfirst2 plast0 plast1
    plast2 r direction side interporder dx beta stencil m = adjcellpoissoncfdiag3d ifirst0 ifirst1 ifirst2
    ilast0 ilast1 ilast2 pfirst0 pfirst1 pfirst2 plast0 plast1 plast2 r direction side interporder dx beta 0
    stencil m.
  Proof. reflexivity. Qed.

  Lemma adjnodediffusionoffdiag3d_cell :
    forall (ifirst0 ifirst1 ifirst2 ilast0 ilast1 ilast2 pfirst0 pfirst1 pfirst2 plast0 plast1 plast2 direction
    side bdrytype extrapOrder : Z) (dx : Z -> S) (dirfactor neufactor beta : S) (b0 b1 b2 stencil : ptr) (m :
    mem S), (side = 0 \/ direction = 0 \/ bdrytype <> 4 \/ extrapOrder <> 2) ->
    adjnodediffusionoffdiag3d ifirst0 ifirst1 ifirst2 ilast0 ilast1 ilast2 pfirst0 pfirst1 pfirst2 plast0 plast1
    plast2 direction side bdrytype extrapOrder dx dirfactor neufactor beta b0 b1 b2 stencil m =
    adjcelldiffusionoffdiag3d ifirst0 ifirst1 ifirst2 ilast0 ilast1 ilast2 pfirst0 pfirst1 pfirst2 plast0 plast1
    plast2 direction side bdrytype extrapOrder dx dirfactor neufactor beta b0 b1 b2 0 stencil m.
  Proof.
    intros. unfold adjnodediffusionoffdiag3d, adjcelldiffusionoffdiag3d. cbv zeta. destruct H as [H|[H|[H|H]]].
    - destruct (Z.eqb_spec side 0); [|lia]. reflexivity.
    - destruct (Z.eqb_spec direction 0); [|lia]. reflexivity.
    - destruct (Z.eqb_spec bdrytype 4); [lia|]. reflexivity.
    - destruct (Z.eqb_spec extrapOrder 2); [lia|]. reflexivity.
  Qed.

  Lemma adjnodepoissonoffdiag3d_cell :
    forall (ifirst0 ifirst1 ifirst2 ilast0 ilast1 ilast2 pfirst0 pfirst1 pfirst2 plast0 plast1 plast2 direction
    side bdrytype extrapOrder : Z) (dx : Z -> S) (dirfactor neufactor beta : S) (stencil : ptr) (m : mem S),
    (side = 0 \/ direction = 0 \/ bdrytype <> 4 \/ extrapOrder <> 2) ->
    adjnodepoissonoffdiag3d ifirst0 ifirst1 ifirst2 ilast0 ilast1 ilast2 pfirst0 pfirst1 pfirst2 plast0 plast1
    plast2 direction side bdrytype extrapOrder dx dirfactor neufactor beta stencil m = adjcellpoissonoffdiag3d
    ifirst0 ifirst1 ifirst2 ilast0 ilast1 ilast2 pfirst0 pfirst1 pfirst2 plast0 plast1 plast2 direction side
    bdrytype extrapOrder dx dirfactor neufactor beta 0 stencil m.
  Proof.
    intros. unfold adjnodepoissonoffdiag3d, adjcellpoissonoffdiag3d. cbv zeta. destruct H as [H|[H|[H|H]]].
    - destruct (Z.eqb_spec side 0); [|lia]. reflexivity.
    - destruct (Z.eqb_spec direction 0); [|lia]. reflexivity.
    - destruct (Z.eqb_spec bdrytype 4); [lia|]. reflexivity.
    - destruct (Z.eqb_spec extrapOrder 2); [lia|]. reflexivity.
  Qed.

  Lemma adjnodediffusioncfoffdiag3d_cell :
    forall (ifirst0 ifirst1 ifirst2 ilast0 ilast1 ilast2 cfirst0 cfirst1 cfirst2 clast0 clast1 clast2 r
    direction side interporder : Z) (stencil : ptr) (m : mem S),
    adjnodediffusioncfoffdiag3d ifirst0 ifirst1 ifirst2 ilast0 ilast1 ilast2 cfirst0 cfirst1 cfirst2 clast0
    clast1 clast2 r direction side interporder stencil m = adjcelldiffusioncfoffdiag3d ifirst0 ifirst1 ifirst2
    ilast0 ilast1 ilast2 cfirst0 cfirst1 cfirst2 clast0 clast1 clast2 r direction side interporder 0 stencil m.
  Proof. reflexivity. Qed.

  Lemma readjnodediffusionoffdiag3d_cell :
    forall (ifirst0 ifirst1 ifirst2 ilast0 ilast1 ilast2 pfirst0 pfirst1 pfirst2 plast0 plast1 plast2 direction
    side : Z) (stencil : ptr) (m : mem S), (direction <> 2 \/ pfirst1 = pfirst2) ->
    readjnodediffusionoffdiag3d ifirst0 ifirst1 ifirst2 ilast0 ilast1 ilast2 pfirst0 pfirst1 pfirst2 plast0
    plast1 plast2 direction side stencil m = readjcelldiffusionoffdiag3d ifirst0 ifirst1 ifirst2 ilast0 ilast1
    ilast2 pfirst0 pfirst1 pfirst2 plast0 plast1 plast2 direction side 0 stencil m.
  Proof.
    intros. unfold readjnodediffusionoffdiag3d, readjcelldiffusionoffdiag3d, fseq, fskip, bind. cbv zeta. destruct H as [H|H].
    - destruct (Z.eqb_spec direction 2); [lia|]. reflexivity.
    - rewrite H. reflexivity.
  Qed.

  Lemma adjnodediffusioncfbdryrhs3d_cell :
    forall (ifirst0 ifirst1 ifirst2 ilast0 ilast1 ilast2 pfirst0 pfirst1 pfirst2 plast0 plast1 plast2 direction
    side : Z) (stencil : ptr) (gcw : Z) (u rhs : ptr) (m : mem S),
    adjnodediffusioncfbdryrhs3d ifirst0 ifirst1 ifirst2 ilast0 ilast1 ilast2 pfirst0 pfirst1 pfirst2 plast0
    plast1 plast2 direction side stencil gcw u rhs m = adjcelldiffusioncfbdryrhs3d ifirst0 ifirst1 ifirst2
    ilast0 ilast1 ilast2 pfirst0 pfirst1 pfirst2 plast0 plast1 plast2 direction side 0 stencil gcw u rhs m.
  Proof. reflexivity. Qed.

  Lemma nodediffusionv1apply1d_at :
    forall (ifirst0 ilast0 : Z) (alpha beta : S) (dx : Z -> S) (agcw : Z) (acoef : ptr) (ugcw : Z) (u : ptr)
    (fgcw : Z) (f flux0 : ptr) (a b : S) (rgcw : Z) (res : ptr) (m m1 m2 : mem S), 0 <= rgcw ->
    Forall (fun q => fst res <> fst q) [acoef; u; f; flux0] ->
    nodediffusionv1apply1d ifirst0 ilast0 alpha beta dx agcw acoef ugcw u fgcw f flux0 a b rgcw res m = Some m1
    ->
    celldiffusionv1apply1d ifirst0 ilast0 alpha beta dx agcw acoef ugcw u flux0 rgcw res m = Some m2 ->
    forall i, ifirst0 <= i <= ilast0 ->
    exists v w,
      load m (faddr (mkFa f (CELL1d ifirst0 ilast0 fgcw)) [i]) = Some v /\
      load m2 (faddr (mkFa res (CELL1d ifirst0 ilast0 rgcw)) [i]) = Some w /\
      load m1 (faddr (mkFa res (CELL1d ifirst0 ilast0 rgcw)) [i]) = Some (b * v + a * w)%T.
  Proof.
    intros until m2. intros Hg Hd En Ec. repeat (apply Forall_cons_iff in Hd as [? Hd]). clear Hd.
    unfold nodediffusionv1apply1d in En. unfold celldiffusionv1apply1d in Ec. cbv zeta in En, Ec. unfold CELL1d in En, Ec |- *.
    eapply (do1_put res (fst res) eq_refl) in En as [_ En];
      [|intros; repeat (apply flet_put; intros); reflexivity|cbn; lia..|intros; f_blind].
    eapply (do1_put res (fst res) eq_refl) in Ec as [_ Ec];
      [|intros; reflexivity|cbn; lia..|intros; f_blind].
    intros. edestruct En as (x & Ex & Lx); [eassumption..|]. edestruct Ec as (y & Ey & Ly); [eassumption..|].
    unfold fel in Lx, Ly. rewrite Lx, Ly. clear En Ec Lx Ly.
    unfold fop, fneg, fsc, fel, bind in * .
    repeat match goal with _ : context [load ?m ?p] |- _ => destruct (load m p); [|discriminate] end.
    injection Ex as <-. injection Ey as <-. do 2 eexists. repeat split; reflexivity.
  Qed.

  Lemma nodediffusionv2apply1d_at :
    forall (ifirst0 ilast0 : Z) (alpha beta : S) (dx : Z -> S) (ugcw : Z) (u : ptr) (fgcw : Z) (f flux0 : ptr)
    (a b : S) (rgcw : Z) (res : ptr) (m m1 m2 : mem S), 0 <= rgcw ->
    Forall (fun q => fst res <> fst q) [u; f; flux0] ->
    nodediffusionv2apply1d ifirst0 ilast0 alpha beta dx ugcw u fgcw f flux0 a b rgcw res m = Some m1 ->
    celldiffusionv2apply1d ifirst0 ilast0 alpha beta dx ugcw u flux0 rgcw res m = Some m2 ->
    forall i, ifirst0 <= i <= ilast0 ->
    exists v w,
      load m (faddr (mkFa f (CELL1d ifirst0 ilast0 fgcw)) [i]) = Some v /\
      load m2 (faddr (mkFa res (CELL1d ifirst0 ilast0 rgcw)) [i]) = Some w /\
      load m1 (faddr (mkFa res (CELL1d ifirst0 ilast0 rgcw)) [i]) = Some (b * v + a * w)%T.
  Proof.
    intros until m2. intros Hg Hd En Ec. repeat (apply Forall_cons_iff in Hd as [? Hd]). clear Hd.
    unfold nodediffusionv2apply1d in En. unfold celldiffusionv2apply1d in Ec. cbv zeta in En, Ec. unfold CELL1d in En, Ec |- *.
    eapply (do1_put res (fst res) eq_refl) in En as [_ En];
      [|intros; repeat (apply flet_put; intros); reflexivity|cbn; lia..|intros; f_blind].
    eapply (do1_put res (fst res) eq_refl) in Ec as [_ Ec];
      [|intros; reflexivity|cbn; lia..|intros; f_blind].
    intros. edestruct En as (x & Ex & Lx); [eassumption..|]. edestruct Ec as (y & Ey & Ly); [eassumption..|].
    unfold fel in Lx, Ly. rewrite Lx, Ly. clear En Ec Lx Ly.
    unfold fop, fneg, fsc, fel, bind in * .
    repeat match goal with _ : context [load ?m ?p] |- _ => destruct (load m p); [|discriminate] end.
    injection Ex as <-. injection Ey as <-. do 2 eexists. repeat split; reflexivity.
  Qed.

  Lemma nodepoissonapply1d_at :
    forall (ifirst0 ilast0 : Z) (beta : S) (dx : Z -> S) (fgcw : Z) (f flux0 : ptr) (a b : S) (rgcw : Z) (res :
    ptr) (m m1 m2 : mem S), 0 <= rgcw ->
    Forall (fun q => fst res <> fst q) [f; flux0] ->
    nodepoissonapply1d ifirst0 ilast0 beta dx fgcw f flux0 a b rgcw res m = Some m1 ->
    cellpoissonv2apply1d ifirst0 ilast0 beta dx flux0 rgcw res m = Some m2 ->
    forall i, ifirst0 <= i <= ilast0 ->
    exists v w,
      load m (faddr (mkFa f (CELL1d ifirst0 ilast0 fgcw)) [i]) = Some v /\
      load m2 (faddr (mkFa res (CELL1d ifirst0 ilast0 rgcw)) [i]) = Some w /\
      load m1 (faddr (mkFa res (CELL1d ifirst0 ilast0 rgcw)) [i]) = Some (b * v + a * w)%T.
  Proof.
    intros until m2. intros Hg Hd En Ec. repeat (apply Forall_cons_iff in Hd as [? Hd]). clear Hd.
    unfold nodepoissonapply1d in En. unfold cellpoissonv2apply1d in Ec. cbv zeta in En, Ec. unfold CELL1d in En, Ec |- *.
    eapply (do1_put res (fst res) eq_refl) in En as [_ En];
      [|intros; repeat (apply flet_put; intros); reflexivity|cbn; lia..|intros; f_blind].
    eapply (do1_put res (fst res) eq_refl) in Ec as [_ Ec];
      [|intros; reflexivity|cbn; lia..|intros; f_blind].
    intros. edestruct En as (x & Ex & Lx); [eassumption..|]. edestruct Ec as (y & Ey & Ly); [eassumption..|].
    unfold fel in Lx, Ly. rewrite Lx, Ly. clear En Ec Lx Ly.
    unfold fop, fneg, fsc, fel, bind in * .
    repeat match goal with _ : context [load ?m ?p] |- _ => destruct (load m p); [|discriminate] end.
    injection Ex as <-. injection Ey as <-. do 2 eexists. repeat split; reflexivity.
  Qed.

  Lemma nodediffusionv1apply2d_at :
    forall (ifirst0 ilast0 ifirst1 ilast1 : Z) (alpha beta : S) (dx : Z -> S) (agcw : Z) (acoef : ptr) (ugcw :
    Z) (u : ptr) (fgcw : Z) (f flux0 flux1 : ptr) (a b : S) (rgcw : Z) (res : ptr) (m m1 m2 : mem S), 0 <= rgcw
    ->
    Forall (fun q => fst res <> fst q) [acoef; u; f; flux0; flux1] ->
    nodediffusionv1apply2d ifirst0 ilast0 ifirst1 ilast1 alpha beta dx agcw acoef ugcw u fgcw f flux0 flux1 a b
    rgcw res m = Some m1 ->
    celldiffusionv1apply2d ifirst0 ilast0 ifirst1 ilast1 alpha beta dx agcw acoef ugcw u flux0 flux1 rgcw res m
    = Some m2 ->
    forall i j, ifirst0 <= i <= ilast0 -> ifirst1 <= j <= ilast1 ->
    exists v w,
      load m (faddr (mkFa f (CELL2d ifirst0 ifirst1 ilast0 ilast1 fgcw)) [i; j]) = Some v /\
      load m2 (faddr (mkFa res (CELL2d ifirst0 ifirst1 ilast0 ilast1 rgcw)) [i; j]) = Some w /\
      load m1 (faddr (mkFa res (CELL2d ifirst0 ifirst1 ilast0 ilast1 rgcw)) [i; j]) = Some (b * v + a * w)%T.
  Proof.
    intros until m2. intros Hg Hd En Ec. repeat (apply Forall_cons_iff in Hd as [? Hd]). clear Hd.
    unfold nodediffusionv1apply2d in En. unfold celldiffusionv1apply2d in Ec. cbv zeta in En, Ec. unfold CELL2d in En, Ec |- *.
    eapply (do2_put res (fst res) eq_refl) in En as [_ En];
      [|intros; repeat (apply flet_put; intros); reflexivity|cbn; lia..|intros; f_blind].
    eapply (do2_put res (fst res) eq_refl) in Ec as [_ Ec];
      [|intros; reflexivity|cbn; lia..|intros; f_blind].
    intros. edestruct En as (x & Ex & Lx); [eassumption..|]. edestruct Ec as (y & Ey & Ly); [eassumption..|].
    unfold fel in Lx, Ly. rewrite Lx, Ly. clear En Ec Lx Ly.
    unfold fop, fneg, fsc, fel, bind in * .
    repeat match goal with _ : context [load ?m ?p] |- _ => destruct (load m p); [|discriminate] end.
    injection Ex as <-. injection Ey as <-. do 2 eexists. repeat split; reflexivity.
  Qed.

  Lemma nodediffusionv2apply2d_at :
    forall (ifirst0 ilast0 ifirst1 ilast1 : Z) (alpha beta : S) (dx : Z -> S) (ugcw : Z) (u : ptr) (fgcw : Z) (f
    flux0 flux1 : ptr) (a b : S) (rgcw : Z) (res : ptr) (m m1 m2 : mem S), 0 <= rgcw ->
    Forall (fun q => fst res <> fst q) [u; f; flux0; flux1] ->
    nodediffusionv2apply2d ifirst0 ilast0 ifirst1 ilast1 alpha beta dx ugcw u fgcw f flux0 flux1 a b rgcw res m
    = Some m1 ->
    celldiffusionv2apply2d ifirst0 ilast0 ifirst1 ilast1 alpha beta dx ugcw u flux0 flux1 rgcw res m = Some m2
    ->
    forall i j, ifirst0 <= i <= ilast0 -> ifirst1 <= j <= ilast1 ->
    exists v w,
      load m (faddr (mkFa f (CELL2d ifirst0 ifirst1 ilast0 ilast1 fgcw)) [i; j]) = Some v /\
      load m2 (faddr (mkFa res (CELL2d ifirst0 ifirst1 ilast0 ilast1 rgcw)) [i; j]) = Some w /\
      load m1 (faddr (mkFa res (CELL2d ifirst0 ifirst1 ilast0 ilast1 rgcw)) [i; j]) = Some (b * v + a * w)%T.
  Proof.
    intros until m2. intros Hg Hd En Ec. repeat (apply Forall_cons_iff in Hd as [? Hd]). clear Hd.
    unfold nodediffusionv2apply2d in En. unfold celldiffusionv2apply2d in Ec. cbv zeta in En, Ec. unfold CELL2d in En, Ec |- *.
    eapply (do2_put res (fst res) eq_refl) in En as [_ En];
      [|intros; repeat (apply flet_put; intros); reflexivity|cbn; lia..|intros; f_blind].
    eapply (do2_put res (fst res) eq_refl) in Ec as [_ Ec];
      [|intros; reflexivity|cbn; lia..|intros; f_blind].
    intros. edestruct En as (x & Ex & Lx); [eassumption..|]. edestruct Ec as (y & Ey & Ly); [eassumption..|].
    unfold fel in Lx, Ly. rewrite Lx, Ly. clear En Ec Lx Ly.
    unfold fop, fneg, fsc, fel, bind in * .
    repeat match goal with _ : context [load ?m ?p] |- _ => destruct (load m p); [|discriminate] end.
    injection Ex as <-. injection Ey as <-. do 2 eexists. repeat split; reflexivity.
  Qed.

  Lemma nodepoissonapply2d_at :
    forall (ifirst0 ilast0 ifirst1 ilast1 : Z) (beta : S) (dx : Z -> S) (fgcw : Z) (f flux0 flux1 : ptr) (a b :
    S) (rgcw : Z) (res : ptr) (m m1 m2 : mem S), 0 <= rgcw ->
    Forall (fun q => fst res <> fst q) [f; flux0; flux1] ->
    nodepoissonapply2d ifirst0 ilast0 ifirst1 ilast1 beta dx fgcw f flux0 flux1 a b rgcw res m = Some m1 ->
    cellpoissonv2apply2d ifirst0 ilast0 ifirst1 ilast1 beta dx flux0 flux1 rgcw res m = Some m2 ->
    forall i j, ifirst0 <= i <= ilast0 -> ifirst1 <= j <= ilast1 ->
    exists v w,
      load m (faddr (mkFa f (CELL2d ifirst0 ifirst1 ilast0 ilast1 fgcw)) [i; j]) = Some v /\
      load m2 (faddr (mkFa res (CELL2d ifirst0 ifirst1 ilast0 ilast1 rgcw)) [i; j]) = Some w /\
      load m1 (faddr (mkFa res (CELL2d ifirst0 ifirst1 ilast0 ilast1 rgcw)) [i; j]) = Some (b * v + a * w)%T.
  Proof.
    intros until m2. intros Hg Hd En Ec. repeat (apply Forall_cons_iff in Hd as [? Hd]). clear Hd.
    unfold nodepoissonapply2d in En. unfold cellpoissonv2apply2d in Ec. cbv zeta in En, Ec. unfold CELL2d in En, Ec |- *.
    eapply (do2_put res (fst res) eq_refl) in En as [_ En];
      [|intros; repeat (apply flet_put; intros); reflexivity|cbn; lia..|intros; f_blind].
    eapply (do2_put res (fst res) eq_refl) in Ec as [_ Ec];
      [|intros; reflexivity|cbn; lia..|intros; f_blind].
    intros. edestruct En as (x & Ex & Lx); [eassumption..|]. edestruct Ec as (y & Ey & Ly); [eassumption..|].
    unfold fel in Lx, Ly. rewrite Lx, Ly. clear En Ec Lx Ly.
    unfold fop, fneg, fsc, fel, bind in * .
    repeat match goal with _ : context [load ?m ?p] |- _ => destruct (load m p); [|discriminate] end.
    injection Ex as <-. injection Ey as <-. do 2 eexists. repeat split; reflexivity.
  Qed.

  Lemma nodediffusionv1apply3d_at :
    forall (ifirst0 ilast0 ifirst1 ilast1 ifirst2 ilast2 : Z) (alpha beta : S) (dx : Z -> S) (agcw : Z) (acoef :
    ptr) (ugcw : Z) (u : ptr) (fgcw : Z) (f flux0 flux1 flux2 : ptr) (a b : S) (rgcw : Z) (res : ptr) (m m1 m2 :
    mem S), 0 <= rgcw ->
    Forall (fun q => fst res <> fst q) [acoef; u; f; flux0; flux1; flux2] ->
    nodediffusionv1apply3d ifirst0 ilast0 ifirst1 ilast1 ifirst2 ilast2 alpha beta dx agcw acoef ugcw u fgcw f
    flux0 flux1 flux2 a b rgcw res m = Some m1 ->
    celldiffusionv1apply3d ifirst0 ilast0 ifirst1 ilast1 ifirst2 ilast2 alpha beta dx agcw acoef ugcw u flux0
    flux1 flux2 rgcw res m = Some m2 ->
    forall i j k, ifirst0 <= i <= ilast0 -> ifirst1 <= j <= ilast1 -> ifirst2 <= k <= ilast2 ->
    exists v w,
      load m (faddr (mkFa f (CELL3d ifirst0 ifirst1 ifirst2 ilast0 ilast1 ilast2 fgcw)) [i; j; k]) = Some v /\
      load m2 (faddr (mkFa res (CELL3d ifirst0 ifirst1 ifirst2 ilast0 ilast1 ilast2 rgcw)) [i; j; k]) = Some w /\
      load m1 (faddr (mkFa res (CELL3d ifirst0 ifirst1 ifirst2 ilast0 ilast1 ilast2 rgcw)) [i; j; k]) = Some (b * v + a * w)%T.
  Proof.
    intros until m2. intros Hg Hd En Ec. repeat (apply Forall_cons_iff in Hd as [? Hd]). clear Hd.
    unfold nodediffusionv1apply3d in En. unfold celldiffusionv1apply3d in Ec. cbv zeta in En, Ec. unfold CELL3d in En, Ec |- *.
    eapply (do3_put res (fst res) eq_refl) in En as [_ En];
      [|intros; repeat (apply flet_put; intros); reflexivity|cbn; lia..|intros; f_blind].
    eapply (do3_put res (fst res) eq_refl) in Ec as [_ Ec];
      [|intros; reflexivity|cbn; lia..|intros; f_blind].
    intros. edestruct En as (x & Ex & Lx); [eassumption..|]. edestruct Ec as (y & Ey & Ly); [eassumption..|].
    unfold fel in Lx, Ly. rewrite Lx, Ly. clear En Ec Lx Ly.
    unfold fop, fneg, fsc, fel, bind in * .
    repeat match goal with _ : context [load ?m ?p] |- _ => destruct (load m p); [|discriminate] end.
    injection Ex as <-. injection Ey as <-. do 2 eexists. repeat split; reflexivity.
  Qed.

  Lemma nodediffusionflux3d_cell :
    forall (ifirst0 ifirst1 ifirst2 ilast0 ilast1 ilast2 : Z) (dx : Z -> S) (b0 b1 b2 : ptr) (gcw : Z)
    (u flux0 flux1 flux2 : ptr) (m : mem S),
    Forall (fun q => fst q <> fst b1 /\ fst q <> fst b2) [flux0; flux1; flux2] ->
    (forall i j k, ifirst0 <= i <= ilast0 -> ifirst1 <= j <= ilast1 -> ifirst2 <= k <= ilast2 + 1 ->
      load m (faddr (mkFa b1 (FACE3d1 ifirst0 ifirst1 ifirst2 ilast0 ilast1 ilast2 0)) [k; i; j]) =
      load m (faddr (mkFa b2 (FACE3d2 ifirst0 ifirst1 ifirst2 ilast0 ilast1 ilast2 0)) [k; i; j])) ->
    nodediffusionflux3d ifirst0 ifirst1 ifirst2 ilast0 ilast1 ilast2 dx b0 b1 b2 gcw u flux0 flux1 flux2 m =
    celldiffusionflux3d ifirst0 ifirst1 ifirst2 ilast0 ilast1 ilast2 dx b0 b1 b2 gcw u flux0 flux1 flux2 m.
  Proof.
    intros until m. intros Hd Hm.
    apply Forall_cons_iff in Hd as [[D01 D02] Hd]. apply Forall_cons_iff in Hd as [[D11 D12] Hd].
    apply Forall_cons_iff in Hd as [[D21 D22] _].
    set (Q := fun m : mem S => forall i j k,
      ifirst0 <= i <= ilast0 -> ifirst1 <= j <= ilast1 -> ifirst2 <= k <= ilast2 + 1 ->
      load m (faddr (mkFa b1 (FACE3d1 ifirst0 ifirst1 ifirst2 ilast0 ilast1 ilast2 0)) [k; i; j]) =
      load m (faddr (mkFa b2 (FACE3d2 ifirst0 ifirst1 ifirst2 ilast0 ilast1 ilast2 0)) [k; i; j])).
    assert (Put : forall (a : farray) is e, fst (fa_ptr a) <> fst b1 -> fst (fa_ptr a) <> fst b2 -> keeps Q (fset a is e)).
    { intros a is e N1 N2 m0 m1 HQ H. unfold fset in H. apply bind_Some_inv in H as [v [_ H]].
      intros i j k Hi Hj Hk. specialize (HQ i j k Hi Hj Hk).
      rewrite !(load_other _ _ _ _ _ _ _ H) by assumption. exact HQ. }
    unfold nodediffusionflux3d, celldiffusionflux3d. cbv zeta. unfold fseq, bind.
    destruct (do_ ifirst2 ilast2 _ m) as [m1|] eqn:E1; [|reflexivity].
    assert (Q1 : Q m1) by (refine (do_keeps Q _ _ _ _ _ _ Hm E1); intros; repeat (apply do_keeps; intros); apply Put; assumption).
    destruct (do_ ifirst0 ilast0 _ m1) as [m2|] eqn:E2; [|reflexivity].
    assert (Q2 : Q m2) by (refine (do_keeps Q _ _ _ _ _ _ Q1 E2); intros; repeat (apply do_keeps; intros); apply Put; assumption).
    apply (do_ext_keeps Q); [|intros; repeat (apply do_keeps; intros); apply Put; assumption|exact Q2].
    intros j m3 Hj Q3. apply (do_ext_keeps Q); [|intros; repeat (apply do_keeps; intros); apply Put; assumption|exact Q3].
    intros i m4 Hi Q4. apply (do_ext_keeps Q); [|intros; repeat (apply do_keeps; intros); apply Put; assumption|exact Q4].
    intros k m5 Hk Q5. unfold fset, fop, fel. rewrite (Q5 i j k Hi Hj Hk). reflexivity.
  Qed.

  Lemma nodediffusionv2apply3d_cell :
    forall (ifirst0 ilast0 ifirst1 ilast1 ifirst2 ilast2 : Z) (alpha beta : S) (dx : Z -> S) (ugcw : Z) (u : ptr) (fgcw : Z)
    (f flux0 flux1 flux2 : ptr) (rgcw : Z) (res : ptr) (m : mem S), field_laws S ->
    fst res <> fst flux1 -> fst res <> fst flux2 ->
    (forall i j k, ifirst0 <= i <= ilast0 -> ifirst1 <= j <= ilast1 -> ifirst2 <= k <= ilast2 + 1 ->
      load m (faddr (mkFa flux1 (FACE3d1 ifirst0 ifirst1 ifirst2 ilast0 ilast1 ilast2 0)) [k; i; j]) =
      load m (faddr (mkFa flux2 (FACE3d2 ifirst0 ifirst1 ifirst2 ilast0 ilast1 ilast2 0)) [k; i; j])) ->
    nodediffusionv2apply3d ifirst0 ilast0 ifirst1 ilast1 ifirst2 ilast2 alpha beta dx ugcw u fgcw f flux0 flux1 flux2 (- #1)%T (#1)%T rgcw res m =
    celldiffusionv2res3d ifirst0 ilast0 ifirst1 ilast1 ifirst2 ilast2 alpha beta dx ugcw u fgcw f flux0 flux1 flux2 rgcw res m.
  Proof.
    intros until m. intros L D1 D2 Hm.
    set (Q := fun m : mem S => forall i j k,
      ifirst0 <= i <= ilast0 -> ifirst1 <= j <= ilast1 -> ifirst2 <= k <= ilast2 + 1 ->
      load m (faddr (mkFa flux1 (FACE3d1 ifirst0 ifirst1 ifirst2 ilast0 ilast1 ilast2 0)) [k; i; j]) =
      load m (faddr (mkFa flux2 (FACE3d2 ifirst0 ifirst1 ifirst2 ilast0 ilast1 ilast2 0)) [k; i; j])).
    assert (Put : forall ds is e, keeps Q (fset (mkFa res ds) is e)).
    { intros ds is e m0 m1 HQ H. unfold fset in H. apply bind_Some_inv in H as [v [_ H]].
      intros i j k Hi Hj Hk. specialize (HQ i j k Hi Hj Hk).
      rewrite !(load_other _ _ _ _ _ _ _ H) by assumption. exact HQ. }
    unfold nodediffusionv2apply3d, celldiffusionv2res3d. cbv zeta.
    apply (do_ext_keeps Q); [|intros; repeat (apply do_keeps; intros); apply Put|exact Hm].
    intros k m3 Hk Q3. apply (do_ext_keeps Q); [|intros; repeat (apply do_keeps; intros); apply Put|exact Q3].
    intros j m4 Hj Q4. apply (do_ext_keeps Q); [|intros; repeat (apply do_keeps; intros); apply Put|exact Q4].
    intros i m5 Hi Q5. unfold flet, fset, fop, fneg, fsc, fel, bind.
    rewrite (Q5 i j (k + 1) Hi Hj ltac:(lia)), (Q5 i j k Hi Hj ltac:(lia)).
    repeat (match goal with |- context [load ?m ?p] => destruct (load m p) end; try reflexivity).
    rewrite (node_comb _ L). reflexivity.
  Qed.

  Lemma nodepoissonapply3d_cell :
    forall (ifirst0 ilast0 ifirst1 ilast1 ifirst2 ilast2 : Z) (beta : S) (dx : Z -> S) (fgcw : Z)
    (f flux0 flux1 flux2 : ptr) (rgcw : Z) (res : ptr) (m : mem S), field_laws S ->
    fst res <> fst flux1 -> fst res <> fst flux2 ->
    (forall i j k, ifirst0 <= i <= ilast0 -> ifirst1 <= j <= ilast1 -> ifirst2 <= k <= ilast2 + 1 ->
      load m (faddr (mkFa flux1 (FACE3d1 ifirst0 ifirst1 ifirst2 ilast0 ilast1 ilast2 0)) [k; i; j]) =
      load m (faddr (mkFa flux2 (FACE3d2 ifirst0 ifirst1 ifirst2 ilast0 ilast1 ilast2 0)) [k; i; j])) ->
    nodepoissonapply3d ifirst0 ilast0 ifirst1 ilast1 ifirst2 ilast2 beta dx fgcw f flux0 flux1 flux2 (- #1)%T (#1)%T rgcw res m =
    cellpoissonv1res3d ifirst0 ilast0 ifirst1 ilast1 ifirst2 ilast2 beta dx fgcw f flux0 flux1 flux2 rgcw res m.
  Proof.
    intros until m. intros L D1 D2 Hm.
    set (Q := fun m : mem S => forall i j k,
      ifirst0 <= i <= ilast0 -> ifirst1 <= j <= ilast1 -> ifirst2 <= k <= ilast2 + 1 ->
      load m (faddr (mkFa flux1 (FACE3d1 ifirst0 ifirst1 ifirst2 ilast0 ilast1 ilast2 0)) [k; i; j]) =
      load m (faddr (mkFa flux2 (FACE3d2 ifirst0 ifirst1 ifirst2 ilast0 ilast1 ilast2 0)) [k; i; j])).
    assert (Put : forall ds is e, keeps Q (fset (mkFa res ds) is e)).
    { intros ds is e m0 m1 HQ H. unfold fset in H. apply bind_Some_inv in H as [v [_ H]].
      intros i j k Hi Hj Hk. specialize (HQ i j k Hi Hj Hk).
      rewrite !(load_other _ _ _ _ _ _ _ H) by assumption. exact HQ. }
    unfold nodepoissonapply3d, cellpoissonv1res3d. cbv zeta.
    apply (do_ext_keeps Q); [|intros; repeat (apply do_keeps; intros); apply Put|exact Hm].
    intros k m3 Hk Q3. apply (do_ext_keeps Q); [|intros; repeat (apply do_keeps; intros); apply Put|exact Q3].
    intros j m4 Hj Q4. apply (do_ext_keeps Q); [|intros; repeat (apply do_keeps; intros); apply Put|exact Q4].
    intros i m5 Hi Q5. unfold flet, fset, fop, fneg, fsc, fel, bind.
    rewrite (Q5 i j (k + 1) Hi Hj ltac:(lia)), (Q5 i j k Hi Hj ltac:(lia)).
    repeat (match goal with |- context [load ?m ?p] => destruct (load m p) end; try reflexivity).
    rewrite (node_comb _ L). reflexivity.
  Qed.
End Node.
