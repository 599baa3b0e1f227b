(** * FortranStencil1, FortranStencil2, FortranStencil3: uniform (generated by tools/gen_uniform.py) *)

From Verif Require Import Base ModelBounds ModelIters ModelSpan ModelProxy SpecRel LemRel.
From Verif Require Import FortranBase FortranLoops LemRelF LemRelTac FortranStencil1 FortranStencil2 FortranStencil3.
Import ListNotations.
Open Scope Z_scope.

Lemma celldiffusionoffdiag1d_uniform (ifirst0 ilast0 bilo0 bihi0 : Z) (b0 : ptr) (sgcw : Z) (stencil : ptr) :
  uniform (fun S p => @celldiffusionoffdiag1d S ifirst0 ilast0 bilo0 bihi0 p (p 4) b0 sgcw stencil).
Proof. u_sub. unfold celldiffusionoffdiag1d. u_go. Qed.

Lemma cellpoissonoffdiag1d_uniform (ifirst0 ilast0 sgcw : Z) (stencil : ptr) :
  uniform (fun S p => @cellpoissonoffdiag1d S ifirst0 ilast0 p (p 4) sgcw stencil).
Proof. u_sub. unfold cellpoissonoffdiag1d. u_go. Qed.

Lemma celldiffusionv1diag1d_uniform (ifirst0 ilast0 ailo0 aihi0 : Z) (a : ptr) (sgcw : Z) (stencil : ptr) :
  uniform (fun S p => @celldiffusionv1diag1d S ifirst0 ilast0 ailo0 aihi0 (p 3) a sgcw stencil).
Proof. u_sub. unfold celldiffusionv1diag1d. u_go. Qed.

Lemma celldiffusionv2diag1d_uniform (ifirst0 ilast0 sgcw : Z) (stencil : ptr) :
  uniform (fun S p => @celldiffusionv2diag1d S ifirst0 ilast0 (p 3) sgcw stencil).
Proof. u_sub. unfold celldiffusionv2diag1d. u_go. Qed.

Lemma cellpoissondiag1d_uniform (ifirst0 ilast0 sgcw : Z) (stencil : ptr) :
  uniform (fun S p => @cellpoissondiag1d S ifirst0 ilast0 sgcw stencil).
Proof. u_sub. unfold cellpoissondiag1d. u_go. Qed.

Lemma adjcelldiffusiondiag1d_uniform (ifirst0 ilast0 pfirst0 plast0 side bdrytype extrapOrder : Z) (b0 : ptr) (sgcw : Z) (stencil : ptr) :
  uniform (fun S p => @adjcelldiffusiondiag1d S ifirst0 ilast0 pfirst0 plast0 side bdrytype extrapOrder p (p 4) b0 sgcw stencil).
Proof. u_sub. unfold adjcelldiffusiondiag1d. u_go. Qed.

Lemma adjcellpoissondiag1d_uniform (ifirst0 ilast0 pfirst0 plast0 side bdrytype extrapOrder sgcw : Z) (stencil : ptr) :
  uniform (fun S p => @adjcellpoissondiag1d S ifirst0 ilast0 pfirst0 plast0 side bdrytype extrapOrder p (p 4) sgcw stencil).
Proof. u_sub. unfold adjcellpoissondiag1d. u_go. Qed.

Lemma adjcelldiffusioncfdiag1d_uniform (ifirst0 ilast0 pfirst0 plast0 r side interporder : Z) (b0 : ptr) (sgcw : Z) (stencil : ptr) :
  uniform (fun S p => @adjcelldiffusioncfdiag1d S ifirst0 ilast0 pfirst0 plast0 r side interporder p (p 4) b0 sgcw stencil).
Proof. u_sub. unfold adjcelldiffusioncfdiag1d. u_go. Qed.

Lemma adjcellpoissoncfdiag1d_uniform (ifirst0 ilast0 pfirst0 plast0 r side interporder sgcw : Z) (stencil : ptr) :
  uniform (fun S p => @adjcellpoissoncfdiag1d S ifirst0 ilast0 pfirst0 plast0 r side interporder p (p 4) sgcw stencil).
Proof. u_sub. unfold adjcellpoissoncfdiag1d. u_go. Qed.

Lemma adjcelldiffusionoffdiag1d_uniform (ifirst0 ilast0 pfirst0 plast0 side bdrytype extrapOrder : Z) (b0 : ptr) (sgcw : Z) (stencil : ptr) :
  uniform (fun S p => @adjcelldiffusionoffdiag1d S ifirst0 ilast0 pfirst0 plast0 side bdrytype extrapOrder p (p 5) (p 6) (p 4) b0 sgcw stencil).
Proof. u_sub. unfold adjcelldiffusionoffdiag1d. u_go. Qed.

Lemma adjcellpoissonoffdiag1d_uniform (ifirst0 ilast0 pfirst0 plast0 side bdrytype extrapOrder sgcw : Z) (stencil : ptr) :
  uniform (fun S p => @adjcellpoissonoffdiag1d S ifirst0 ilast0 pfirst0 plast0 side bdrytype extrapOrder p (p 5) (p 6) (p 4) sgcw stencil).
Proof. u_sub. unfold adjcellpoissonoffdiag1d. u_go. Qed.

Lemma adjcelldiffusioncfoffdiag1d_uniform (ifirst0 ilast0 cfirst0 clast0 r side interporder sgcw : Z) (stencil : ptr) :
  uniform (fun S p => @adjcelldiffusioncfoffdiag1d S ifirst0 ilast0 cfirst0 clast0 r side interporder sgcw stencil).
Proof. u_sub. unfold adjcelldiffusioncfoffdiag1d. u_go. Qed.

Lemma readjcelldiffusionoffdiag1d_uniform (ifirst0 ilast0 pfirst0 plast0 side sgcw : Z) (stencil : ptr) :
  uniform (fun S p => @readjcelldiffusionoffdiag1d S ifirst0 ilast0 pfirst0 plast0 side sgcw stencil).
Proof. u_sub. unfold readjcelldiffusionoffdiag1d. u_go. Qed.

Lemma adjcelldiffusioncfbdryrhs1d_uniform (ifirst0 ilast0 pfirst0 plast0 side sgcw : Z) (stencil : ptr) (gcw : Z) (u rhs : ptr) :
  uniform (fun S p => @adjcelldiffusioncfbdryrhs1d S ifirst0 ilast0 pfirst0 plast0 side sgcw stencil gcw u rhs).
Proof. u_sub. unfold adjcelldiffusioncfbdryrhs1d. u_go. Qed.

Lemma celldiffusionoffdiag2d_uniform (ifirst0 ifirst1 ilast0 ilast1 bilo0 bilo1 bihi0 bihi1 : Z) (b0 b1 : ptr) (sgcw : Z) (stencil : ptr) :
  uniform (fun S p => @celldiffusionoffdiag2d S ifirst0 ifirst1 ilast0 ilast1 bilo0 bilo1 bihi0 bihi1 p (p 4) b0 b1 sgcw stencil).
Proof. u_sub. unfold celldiffusionoffdiag2d. u_go. Qed.

Lemma cellpoissonoffdiag2d_uniform (ifirst0 ifirst1 ilast0 ilast1 sgcw : Z) (stencil : ptr) :
  uniform (fun S p => @cellpoissonoffdiag2d S ifirst0 ifirst1 ilast0 ilast1 p (p 4) sgcw stencil).
Proof. u_sub. unfold cellpoissonoffdiag2d. u_go. Qed.

Lemma celldiffusionv1diag2d_uniform (ifirst0 ifirst1 ilast0 ilast1 ailo0 ailo1 aihi0 aihi1 : Z) (a : ptr) (sgcw : Z) (stencil : ptr) :
  uniform (fun S p => @celldiffusionv1diag2d S ifirst0 ifirst1 ilast0 ilast1 ailo0 ailo1 aihi0 aihi1 (p 3) a sgcw stencil).
Proof. u_sub. unfold celldiffusionv1diag2d. u_go. Qed.

Lemma celldiffusionv2diag2d_uniform (ifirst0 ifirst1 ilast0 ilast1 sgcw : Z) (stencil : ptr) :
  uniform (fun S p => @celldiffusionv2diag2d S ifirst0 ifirst1 ilast0 ilast1 (p 3) sgcw stencil).
Proof. u_sub. unfold celldiffusionv2diag2d. u_go. Qed.

Lemma cellpoissondiag2d_uniform (ifirst0 ifirst1 ilast0 ilast1 sgcw : Z) (stencil : ptr) :
  uniform (fun S p => @cellpoissondiag2d S ifirst0 ifirst1 ilast0 ilast1 sgcw stencil).
Proof. u_sub. unfold cellpoissondiag2d. u_go. Qed.

Lemma adjcelldiffusiondiag2d_uniform (ifirst0 ifirst1 ilast0 ilast1 pfirst0 pfirst1 plast0 plast1 direction side bdrytype extrapOrder : Z) (b0 b1 : ptr) (sgcw : Z) (stencil : ptr) :
  uniform (fun S p => @adjcelldiffusiondiag2d S ifirst0 ifirst1 ilast0 ilast1 pfirst0 pfirst1 plast0 plast1 direction side bdrytype extrapOrder p (p 4) b0 b1 sgcw stencil).
Proof. u_sub. unfold adjcelldiffusiondiag2d. u_go. Qed.

Lemma adjcellpoissondiag2d_uniform (ifirst0 ifirst1 ilast0 ilast1 pfirst0 pfirst1 plast0 plast1 direction side bdrytype extrapOrder sgcw : Z) (stencil : ptr) :
  uniform (fun S p => @adjcellpoissondiag2d S ifirst0 ifirst1 ilast0 ilast1 pfirst0 pfirst1 plast0 plast1 direction side bdrytype extrapOrder p (p 4) sgcw stencil).
Proof. u_sub. unfold adjcellpoissondiag2d. u_go. Qed.

Lemma adjcelldiffusioncfdiag2d_uniform (ifirst0 ifirst1 ilast0 ilast1 pfirst0 pfirst1 plast0 plast1 r direction side interporder : Z) (b0 b1 : ptr) (sgcw : Z) (stencil : ptr) :
  uniform (fun S p => @adjcelldiffusioncfdiag2d S ifirst0 ifirst1 ilast0 ilast1 pfirst0 pfirst1 plast0 plast1 r direction side interporder p (p 4) b0 b1 sgcw stencil).
Proof. u_sub. unfold adjcelldiffusioncfdiag2d. u_go. Qed.

Lemma adjcellpoissoncfdiag2d_uniform (ifirst0 ifirst1 ilast0 ilast1 pfirst0 pfirst1 plast0 plast1 r direction side interporder sgcw : Z) (stencil : ptr) :
  uniform (fun S p => @adjcellpoissoncfdiag2d S ifirst0 ifirst1 ilast0 ilast1 pfirst0 pfirst1 plast0 plast1 r direction side interporder p (p 4) sgcw stencil).
Proof. u_sub. unfold adjcellpoissoncfdiag2d. u_go. Qed.

Lemma adjcelldiffusionoffdiag2d_uniform (ifirst0 ifirst1 ilast0 ilast1 pfirst0 pfirst1 plast0 plast1 direction side bdrytype extrapOrder : Z) (b0 b1 : ptr) (sgcw : Z) (stencil : ptr) :
  uniform (fun S p => @adjcelldiffusionoffdiag2d S ifirst0 ifirst1 ilast0 ilast1 pfirst0 pfirst1 plast0 plast1 direction side bdrytype extrapOrder p (p 5) (p 6) (p 4) b0 b1 sgcw stencil).
Proof. u_sub. unfold adjcelldiffusionoffdiag2d. u_go. Qed.

Lemma adjcellpoissonoffdiag2d_uniform (ifirst0 ifirst1 ilast0 ilast1 pfirst0 pfirst1 plast0 plast1 direction side bdrytype extrapOrder sgcw : Z) (stencil : ptr) :
  uniform (fun S p => @adjcellpoissonoffdiag2d S ifirst0 ifirst1 ilast0 ilast1 pfirst0 pfirst1 plast0 plast1 direction side bdrytype extrapOrder p (p 5) (p 6) (p 4) sgcw stencil).
Proof. u_sub. unfold adjcellpoissonoffdiag2d. u_go. Qed.

Lemma adjcelldiffusioncfoffdiag2d_uniform (ifirst0 ifirst1 ilast0 ilast1 cfirst0 cfirst1 clast0 clast1 r direction side interporder sgcw : Z) (stencil : ptr) :
  uniform (fun S p => @adjcelldiffusioncfoffdiag2d S ifirst0 ifirst1 ilast0 ilast1 cfirst0 cfirst1 clast0 clast1 r direction side interporder sgcw stencil).
Proof. u_sub. unfold adjcelldiffusioncfoffdiag2d. u_go. Qed.

Lemma readjcelldiffusionoffdiag2d_uniform (ifirst0 ifirst1 ilast0 ilast1 pfirst0 pfirst1 plast0 plast1 direction side sgcw : Z) (stencil : ptr) :
  uniform (fun S p => @readjcelldiffusionoffdiag2d S ifirst0 ifirst1 ilast0 ilast1 pfirst0 pfirst1 plast0 plast1 direction side sgcw stencil).
Proof. u_sub. unfold readjcelldiffusionoffdiag2d. u_go. Qed.

Lemma adjcelldiffusioncfbdryrhs2d_uniform (ifirst0 ifirst1 ilast0 ilast1 pfirst0 pfirst1 plast0 plast1 direction side sgcw : Z) (stencil : ptr) (gcw : Z) (u rhs : ptr) :
  uniform (fun S p => @adjcelldiffusioncfbdryrhs2d S ifirst0 ifirst1 ilast0 ilast1 pfirst0 pfirst1 plast0 plast1 direction side sgcw stencil gcw u rhs).
Proof. u_sub. unfold adjcelldiffusioncfbdryrhs2d. u_go. Qed.

Lemma celldiffusionoffdiag3d_uniform (ifirst0 ifirst1 ifirst2 ilast0 ilast1 ilast2 bilo0 bilo1 bilo2 bihi0 bihi1 bihi2 : Z) (b0 b1 b2 : ptr) (sgcw : Z) (stencil : ptr) :
  uniform (fun S p => @celldiffusionoffdiag3d S ifirst0 ifirst1 ifirst2 ilast0 ilast1 ilast2 bilo0 bilo1 bilo2 bihi0 bihi1 bihi2 p (p 4) b0 b1 b2 sgcw stencil).
Proof. u_sub. unfold celldiffusionoffdiag3d. u_go. Qed.

Lemma cellpoissonoffdiag3d_uniform (ifirst0 ifirst1 ifirst2 ilast0 ilast1 ilast2 sgcw : Z) (stencil : ptr) :
  uniform (fun S p => @cellpoissonoffdiag3d S ifirst0 ifirst1 ifirst2 ilast0 ilast1 ilast2 p (p 4) sgcw stencil).
Proof. u_sub. unfold cellpoissonoffdiag3d. u_go. Qed.

Lemma celldiffusionv1diag3d_uniform (ifirst0 ifirst1 ifirst2 ilast0 ilast1 ilast2 ailo0 ailo1 ailo2 aihi0 aihi1 aihi2 : Z) (a : ptr) (sgcw : Z) (stencil : ptr) :
  uniform (fun S p => @celldiffusionv1diag3d S ifirst0 ifirst1 ifirst2 ilast0 ilast1 ilast2 ailo0 ailo1 ailo2 aihi0 aihi1 aihi2 (p 3) a sgcw stencil).
Proof. u_sub. unfold celldiffusionv1diag3d. u_go. Qed.

Lemma celldiffusionv2diag3d_uniform (ifirst0 ifirst1 ifirst2 ilast0 ilast1 ilast2 sgcw : Z) (stencil : ptr) :
  uniform (fun S p => @celldiffusionv2diag3d S ifirst0 ifirst1 ifirst2 ilast0 ilast1 ilast2 (p 3) sgcw stencil).
Proof. u_sub. unfold celldiffusionv2diag3d. u_go. Qed.

Lemma cellpoissondiag3d_uniform (ifirst0 ifirst1 ifirst2 ilast0 ilast1 ilast2 sgcw : Z) (stencil : ptr) :
  uniform (fun S p => @cellpoissondiag3d S ifirst0 ifirst1 ifirst2 ilast0 ilast1 ilast2 sgcw stencil).
Proof. u_sub. unfold cellpoissondiag3d. u_go. Qed.

Lemma adjcelldiffusiondiag3d_uniform (ifirst0 ifirst1 ifirst2 ilast0 ilast1 ilast2 pfirst0 pfirst1 pfirst2 plast0 plast1 plast2 direction side bdrytype extrapOrder : Z) (b0 b1 b2 : ptr) (sgcw : Z) (stencil : ptr) :
  uniform (fun S p => @adjcelldiffusiondiag3d S ifirst0 ifirst1 ifirst2 ilast0 ilast1 ilast2 pfirst0 pfirst1 pfirst2 plast0 plast1 plast2 direction side bdrytype extrapOrder p (p 4) b0 b1 b2 sgcw stencil).
Proof. u_sub. unfold adjcelldiffusiondiag3d. u_go. Qed.

Lemma adjcellpoissondiag3d_uniform (ifirst0 ifirst1 ifirst2 ilast0 ilast1 ilast2 pfirst0 pfirst1 pfirst2 plast0 plast1 plast2 direction side bdrytype extrapOrder sgcw : Z) (stencil : ptr) :
  uniform (fun S p => @adjcellpoissondiag3d S ifirst0 ifirst1 ifirst2 ilast0 ilast1 ilast2 pfirst0 pfirst1 pfirst2 plast0 plast1 plast2 direction side bdrytype extrapOrder p (p 4) sgcw stencil).
Proof. u_sub. unfold adjcellpoissondiag3d. u_go. Qed.

Lemma adjcelldiffusioncfdiag3d_uniform (ifirst0 ifirst1 ifirst2 ilast0 ilast1 ilast2 pfirst0 pfirst1 pfirst2 plast0 plast1 plast2 r direction side interporder : Z) (b0 b1 b2 : ptr) (sgcw : Z) (stencil : ptr) :
  uniform (fun S p => @adjcelldiffusioncfdiag3d S ifirst0 ifirst1 ifirst2 ilast0 ilast1 ilast2 pfirst0 pfirst1 pfirst2 plast0 plast1 plast2 r direction side interporder p (p 4) b0 b1 b2 sgcw stencil).
Proof. u_sub. unfold adjcelldiffusioncfdiag3d. u_go. Qed.

Lemma adjcellpoissoncfdiag3d_uniform (ifirst0 ifirst1 ifirst2 ilast0 ilast1 ilast2 pfirst0 pfirst1 pfirst2 plast0 plast1 plast2 r direction side interporder sgcw : Z) (stencil : ptr) :
  uniform (fun S p => @adjcellpoissoncfdiag3d S ifirst0 ifirst1 ifirst2 ilast0 ilast1 ilast2 pfirst0 pfirst1 pfirst2 plast0 plast1 plast2 r direction side interporder p (p 4) sgcw stencil).
Proof. u_sub. unfold adjcellpoissoncfdiag3d. u_go. Qed.

Lemma adjcelldiffusionoffdiag3d_uniform (ifirst0 ifirst1 ifirst2 ilast0 ilast1 ilast2 pfirst0 pfirst1 pfirst2 plast0 plast1 plast2 direction side bdrytype extrapOrder : Z) (b0 b1 b2 : ptr) (sgcw : Z) (stencil : ptr) :
  uniform (fun S p => @adjcelldiffusionoffdiag3d S ifirst0 ifirst1 ifirst2 ilast0 ilast1 ilast2 pfirst0 pfirst1 pfirst2 plast0 plast1 plast2 direction side bdrytype extrapOrder p (p 5) (p 6) (p 4) b0 b1 b2 sgcw stencil).
Proof. u_sub. unfold adjcelldiffusionoffdiag3d. u_go. Qed.

Lemma adjcellpoissonoffdiag3d_uniform (ifirst0 ifirst1 ifirst2 ilast0 ilast1 ilast2 pfirst0 pfirst1 pfirst2 plast0 plast1 plast2 direction side bdrytype extrapOrder sgcw : Z) (stencil : ptr) :
  uniform (fun S p => @adjcellpoissonoffdiag3d S ifirst0 ifirst1 ifirst2 ilast0 ilast1 ilast2 pfirst0 pfirst1 pfirst2 plast0 plast1 plast2 direction side bdrytype extrapOrder p (p 5) (p 6) (p 4) sgcw stencil).
Proof. u_sub. unfold adjcellpoissonoffdiag3d. u_go. Qed.

Lemma adjcelldiffusioncfoffdiag3d_uniform (ifirst0 ifirst1 ifirst2 ilast0 ilast1 ilast2 cfirst0 cfirst1 cfirst2 clast0 clast1 clast2 r direction side interporder sgcw : Z) (stencil : ptr) :
  uniform (fun S p => @adjcelldiffusioncfoffdiag3d S ifirst0 ifirst1 ifirst2 ilast0 ilast1 ilast2 cfirst0 cfirst1 cfirst2 clast0 clast1 clast2 r direction side interporder sgcw stencil).
Proof. u_sub. unfold adjcelldiffusioncfoffdiag3d. u_go. Qed.

Lemma readjcelldiffusionoffdiag3d_uniform (ifirst0 ifirst1 ifirst2 ilast0 ilast1 ilast2 pfirst0 pfirst1 pfirst2 plast0 plast1 plast2 direction side sgcw : Z) (stencil : ptr) :
  uniform (fun S p => @readjcelldiffusionoffdiag3d S ifirst0 ifirst1 ifirst2 ilast0 ilast1 ilast2 pfirst0 pfirst1 pfirst2 plast0 plast1 plast2 direction side sgcw stencil).
Proof. u_sub. unfold readjcelldiffusionoffdiag3d. u_go. Qed.

Lemma adjcelldiffusioncfbdryrhs3d_uniform (ifirst0 ifirst1 ifirst2 ilast0 ilast1 ilast2 pfirst0 pfirst1 pfirst2 plast0 plast1 plast2 direction side sgcw : Z) (stencil : ptr) (gcw : Z) (u rhs : ptr) :
  uniform (fun S p => @adjcelldiffusioncfbdryrhs3d S ifirst0 ifirst1 ifirst2 ilast0 ilast1 ilast2 pfirst0 pfirst1 pfirst2 plast0 plast1 plast2 direction side sgcw stencil gcw u rhs).
Proof. u_sub. unfold adjcelldiffusioncfbdryrhs3d. u_go. Qed.
