(** * FortranFlux, FortranApply, FortranCopy, FortranHomog: uniform (generated by tools/gen_uniform.py) *)

From Verif Require Import Base ModelBounds ModelIters ModelSpan ModelProxy SpecRel LemRel.
From Verif Require Import FortranBase FortranLoops LemRelF LemRelTac FortranFlux FortranApply FortranCopy FortranHomog.
Import ListNotations.
Open Scope Z_scope.

Lemma celldiffusionflux1d_uniform (ifirst0 ilast0 : Z) (b0 : ptr) (gcw : Z) (u flux0 : ptr) :
  uniform (fun S p => @celldiffusionflux1d S ifirst0 ilast0 p b0 gcw u flux0).
Proof. u_sub. unfold celldiffusionflux1d. u_go. Qed.

Lemma cellpoissonflux1d_uniform (ifirst0 ilast0 gcw : Z) (u flux0 : ptr) :
  uniform (fun S p => @cellpoissonflux1d S ifirst0 ilast0 p gcw u flux0).
Proof. u_sub. unfold cellpoissonflux1d. u_go. Qed.

Lemma celldiffusionflux2d_uniform (ifirst0 ifirst1 ilast0 ilast1 : Z) (b0 b1 : ptr) (gcw : Z) (u flux0 flux1 : ptr) :
  uniform (fun S p => @celldiffusionflux2d S ifirst0 ifirst1 ilast0 ilast1 p b0 b1 gcw u flux0 flux1).
Proof. u_sub. unfold celldiffusionflux2d. u_go. Qed.

Lemma cellpoissonflux2d_uniform (ifirst0 ifirst1 ilast0 ilast1 gcw : Z) (u flux0 flux1 : ptr) :
  uniform (fun S p => @cellpoissonflux2d S ifirst0 ifirst1 ilast0 ilast1 p gcw u flux0 flux1).
Proof. u_sub. unfold cellpoissonflux2d. u_go. Qed.

Lemma celldiffusionflux3d_uniform (ifirst0 ifirst1 ifirst2 ilast0 ilast1 ilast2 : Z) (b0 b1 b2 : ptr) (gcw : Z) (u flux0 flux1 flux2 : ptr) :
  uniform (fun S p => @celldiffusionflux3d S ifirst0 ifirst1 ifirst2 ilast0 ilast1 ilast2 p b0 b1 b2 gcw u flux0 flux1 flux2).
Proof. u_sub. unfold celldiffusionflux3d. u_go. Qed.

Lemma cellpoissonflux3d_uniform (ifirst0 ifirst1 ifirst2 ilast0 ilast1 ilast2 gcw : Z) (u flux0 flux1 flux2 : ptr) :
  uniform (fun S p => @cellpoissonflux3d S ifirst0 ifirst1 ifirst2 ilast0 ilast1 ilast2 p gcw u flux0 flux1 flux2).
Proof. u_sub. unfold cellpoissonflux3d. u_go. Qed.

Lemma celldiffusionv1res1d_uniform (ifirst0 ilast0 agcw : Z) (acoef : ptr) (ugcw : Z) (u : ptr) (fgcw : Z) (f flux0 : ptr) (rgcw : Z) (res : ptr) :
  uniform (fun S p => @celldiffusionv1res1d S ifirst0 ilast0 (p 3) (p 4) p agcw acoef ugcw u fgcw f flux0 rgcw res).
Proof. u_sub. unfold celldiffusionv1res1d. u_go. Qed.

Lemma celldiffusionv2res1d_uniform (ifirst0 ilast0 ugcw : Z) (u : ptr) (fgcw : Z) (f flux0 : ptr) (rgcw : Z) (res : ptr) :
  uniform (fun S p => @celldiffusionv2res1d S ifirst0 ilast0 (p 3) (p 4) p ugcw u fgcw f flux0 rgcw res).
Proof. u_sub. unfold celldiffusionv2res1d. u_go. Qed.

Lemma cellpoissonv1res1d_uniform (ifirst0 ilast0 fgcw : Z) (f flux0 : ptr) (rgcw : Z) (res : ptr) :
  uniform (fun S p => @cellpoissonv1res1d S ifirst0 ilast0 (p 4) p fgcw f flux0 rgcw res).
Proof. u_sub. unfold cellpoissonv1res1d. u_go. Qed.

Lemma celldiffusionv1apply1d_uniform (ifirst0 ilast0 agcw : Z) (acoef : ptr) (ugcw : Z) (u flux0 : ptr) (rgcw : Z) (res : ptr) :
  uniform (fun S p => @celldiffusionv1apply1d S ifirst0 ilast0 (p 3) (p 4) p agcw acoef ugcw u flux0 rgcw res).
Proof. u_sub. unfold celldiffusionv1apply1d. u_go. Qed.

Lemma celldiffusionv2apply1d_uniform (ifirst0 ilast0 ugcw : Z) (u flux0 : ptr) (rgcw : Z) (res : ptr) :
  uniform (fun S p => @celldiffusionv2apply1d S ifirst0 ilast0 (p 3) (p 4) p ugcw u flux0 rgcw res).
Proof. u_sub. unfold celldiffusionv2apply1d. u_go. Qed.

Lemma cellpoissonv2apply1d_uniform (ifirst0 ilast0 : Z) (flux0 : ptr) (rgcw : Z) (res : ptr) :
  uniform (fun S p => @cellpoissonv2apply1d S ifirst0 ilast0 (p 4) p flux0 rgcw res).
Proof. u_sub. unfold cellpoissonv2apply1d. u_go. Qed.

Lemma celldiffusionv1res2d_uniform (ifirst0 ilast0 ifirst1 ilast1 agcw : Z) (acoef : ptr) (ugcw : Z) (u : ptr) (fgcw : Z) (f flux0 flux1 : ptr) (rgcw : Z) (res : ptr) :
  uniform (fun S p => @celldiffusionv1res2d S ifirst0 ilast0 ifirst1 ilast1 (p 3) (p 4) p agcw acoef ugcw u fgcw f flux0 flux1 rgcw res).
Proof. u_sub. unfold celldiffusionv1res2d. u_go. Qed.

Lemma celldiffusionv2res2d_uniform (ifirst0 ilast0 ifirst1 ilast1 ugcw : Z) (u : ptr) (fgcw : Z) (f flux0 flux1 : ptr) (rgcw : Z) (res : ptr) :
  uniform (fun S p => @celldiffusionv2res2d S ifirst0 ilast0 ifirst1 ilast1 (p 3) (p 4) p ugcw u fgcw f flux0 flux1 rgcw res).
Proof. u_sub. unfold celldiffusionv2res2d. u_go. Qed.

Lemma cellpoissonv1res2d_uniform (ifirst0 ilast0 ifirst1 ilast1 fgcw : Z) (f flux0 flux1 : ptr) (rgcw : Z) (res : ptr) :
  uniform (fun S p => @cellpoissonv1res2d S ifirst0 ilast0 ifirst1 ilast1 (p 4) p fgcw f flux0 flux1 rgcw res).
Proof. u_sub. unfold cellpoissonv1res2d. u_go. Qed.

Lemma celldiffusionv1apply2d_uniform (ifirst0 ilast0 ifirst1 ilast1 agcw : Z) (acoef : ptr) (ugcw : Z) (u flux0 flux1 : ptr) (rgcw : Z) (res : ptr) :
  uniform (fun S p => @celldiffusionv1apply2d S ifirst0 ilast0 ifirst1 ilast1 (p 3) (p 4) p agcw acoef ugcw u flux0 flux1 rgcw res).
Proof. u_sub. unfold celldiffusionv1apply2d. u_go. Qed.

Lemma celldiffusionv2apply2d_uniform (ifirst0 ilast0 ifirst1 ilast1 ugcw : Z) (u flux0 flux1 : ptr) (rgcw : Z) (res : ptr) :
  uniform (fun S p => @celldiffusionv2apply2d S ifirst0 ilast0 ifirst1 ilast1 (p 3) (p 4) p ugcw u flux0 flux1 rgcw res).
Proof. u_sub. unfold celldiffusionv2apply2d. u_go. Qed.

Lemma cellpoissonv2apply2d_uniform (ifirst0 ilast0 ifirst1 ilast1 : Z) (flux0 flux1 : ptr) (rgcw : Z) (res : ptr) :
  uniform (fun S p => @cellpoissonv2apply2d S ifirst0 ilast0 ifirst1 ilast1 (p 4) p flux0 flux1 rgcw res).
Proof. u_sub. unfold cellpoissonv2apply2d. u_go. Qed.

Lemma celldiffusionv1res3d_uniform (ifirst0 ilast0 ifirst1 ilast1 ifirst2 ilast2 agcw : Z) (acoef : ptr) (ugcw : Z) (u : ptr) (fgcw : Z) (f flux0 flux1 flux2 : ptr) (rgcw : Z) (res : ptr) :
  uniform (fun S p => @celldiffusionv1res3d S ifirst0 ilast0 ifirst1 ilast1 ifirst2 ilast2 (p 3) (p 4) p agcw acoef ugcw u fgcw f flux0 flux1 flux2 rgcw res).
Proof. u_sub. unfold celldiffusionv1res3d. u_go. Qed.

Lemma celldiffusionv2res3d_uniform (ifirst0 ilast0 ifirst1 ilast1 ifirst2 ilast2 ugcw : Z) (u : ptr) (fgcw : Z) (f flux0 flux1 flux2 : ptr) (rgcw : Z) (res : ptr) :
  uniform (fun S p => @celldiffusionv2res3d S ifirst0 ilast0 ifirst1 ilast1 ifirst2 ilast2 (p 3) (p 4) p ugcw u fgcw f flux0 flux1 flux2 rgcw res).
Proof. u_sub. unfold celldiffusionv2res3d. u_go. Qed.

Lemma cellpoissonv1res3d_uniform (ifirst0 ilast0 ifirst1 ilast1 ifirst2 ilast2 fgcw : Z) (f flux0 flux1 flux2 : ptr) (rgcw : Z) (res : ptr) :
  uniform (fun S p => @cellpoissonv1res3d S ifirst0 ilast0 ifirst1 ilast1 ifirst2 ilast2 (p 4) p fgcw f flux0 flux1 flux2 rgcw res).
Proof. u_sub. unfold cellpoissonv1res3d. u_go. Qed.

Lemma celldiffusionv1apply3d_uniform (ifirst0 ilast0 ifirst1 ilast1 ifirst2 ilast2 agcw : Z) (acoef : ptr) (ugcw : Z) (u flux0 flux1 flux2 : ptr) (rgcw : Z) (res : ptr) :
  uniform (fun S p => @celldiffusionv1apply3d S ifirst0 ilast0 ifirst1 ilast1 ifirst2 ilast2 (p 3) (p 4) p agcw acoef ugcw u flux0 flux1 flux2 rgcw res).
Proof. u_sub. unfold celldiffusionv1apply3d. u_go. Qed.

Lemma celldiffusionv2apply3d_uniform (ifirst0 ilast0 ifirst1 ilast1 ifirst2 ilast2 ugcw : Z) (u flux0 flux1 flux2 : ptr) (rgcw : Z) (res : ptr) :
  uniform (fun S p => @celldiffusionv2apply3d S ifirst0 ilast0 ifirst1 ilast1 ifirst2 ilast2 (p 3) (p 4) p ugcw u flux0 flux1 flux2 rgcw res).
Proof. u_sub. unfold celldiffusionv2apply3d. u_go. Qed.

Lemma cellpoissonv2apply3d_uniform (ifirst0 ilast0 ifirst1 ilast1 ifirst2 ilast2 : Z) (flux0 flux1 flux2 : ptr) (rgcw : Z) (res : ptr) :
  uniform (fun S p => @cellpoissonv2apply3d S ifirst0 ilast0 ifirst1 ilast1 ifirst2 ilast2 (p 4) p flux0 flux1 flux2 rgcw res).
Proof. u_sub. unfold cellpoissonv2apply3d. u_go. Qed.

Lemma copycoarsetofine3d_uniform (clo0 chi0 clo1 chi1 clo2 chi2 flo0 fhi0 flo1 fhi1 flo2 fhi2 axis cblo0 cbhi0 cblo1 cbhi1 cblo2 cbhi2 fblo0 fbhi0 fblo1 fbhi1 fblo2 fbhi2 gcw : Z) (ratio : Z -> Z) (cdata fdata : ptr) :
  uniform (fun S p => @copycoarsetofine3d S clo0 chi0 clo1 chi1 clo2 chi2 flo0 fhi0 flo1 fhi1 flo2 fhi2 axis cblo0 cbhi0 cblo1 cbhi1 cblo2 cbhi2 fblo0 fbhi0 fblo1 fbhi1 fblo2 fbhi2 gcw ratio cdata fdata).
Proof. u_sub. unfold copycoarsetofine3d. u_go. Qed.

Lemma copycoarsetofinecorner3d_uniform (clo0 chi0 clo1 chi1 clo2 chi2 flo0 fhi0 flo1 fhi1 flo2 fhi2 cblo0 cbhi0 cblo1 cbhi1 cblo2 cbhi2 fblo0 fbhi0 fblo1 fbhi1 fblo2 fbhi2 gcw : Z) (cdata fdata : ptr) :
  uniform (fun S p => @copycoarsetofinecorner3d S clo0 chi0 clo1 chi1 clo2 chi2 flo0 fhi0 flo1 fhi1 flo2 fhi2 cblo0 cbhi0 cblo1 cbhi1 cblo2 cbhi2 fblo0 fbhi0 fblo1 fbhi1 fblo2 fbhi2 gcw cdata fdata).
Proof. u_sub. unfold copycoarsetofinecorner3d. u_go. Qed.

Lemma cellsethomogenousbc2d_uniform (lo0 lo1 hi0 hi1 face : Z) (segLo segHi : Z -> Z) (extrapOrder : Z) (var : ptr) :
  uniform (fun S p => @cellsethomogenousbc2d S lo0 lo1 hi0 hi1 face segLo segHi extrapOrder var).
Proof. u_sub. unfold cellsethomogenousbc2d, homog_coeff. u_go. Qed.
