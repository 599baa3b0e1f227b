(** * FortranSmooth: uniform (generated by tools/gen_uniform.py) *)

From Verif Require Import Base ModelBounds ModelIters ModelSpan ModelProxy SpecRel LemRel.
From Verif Require Import FortranBase FortranLoops LemRelF LemRelTac FortranSmooth.
Import ListNotations.
Open Scope Z_scope.

Lemma applystencilatpoint1d_uniform (lo0 hi0 i stencilsize : Z) (offsets stencil : ptr) (fgcw : Z) (f : ptr) (ugcw : Z) (u : ptr) (rgcw : Z) (r : ptr) :
  uniform (fun S p => @applystencilatpoint1d S lo0 hi0 i stencilsize offsets stencil (p 3) (p 4) fgcw f ugcw u rgcw r).
Proof. u_sub. unfold applystencilatpoint1d. u_go. Qed.

Lemma applystencilonpatch1d_uniform (lo0 hi0 stencilsize : Z) (offsets stencil : ptr) (fgcw : Z) (f : ptr) (ugcw : Z) (u : ptr) (rgcw : Z) (r : ptr) :
  uniform (fun S p => @applystencilonpatch1d S lo0 hi0 stencilsize offsets stencil (p 3) (p 4) fgcw f ugcw u rgcw r).
Proof. u_sub. unfold applystencilonpatch1d. u_go. Qed.

Lemma applystencilatpoint2d_uniform (lo0 hi0 lo1 hi1 i j stencilsize : Z) (offsets stencil : ptr) (fgcw : Z) (f : ptr) (ugcw : Z) (u : ptr) (rgcw : Z) (r : ptr) :
  uniform (fun S p => @applystencilatpoint2d S lo0 hi0 lo1 hi1 i j stencilsize offsets stencil (p 3) (p 4) fgcw f ugcw u rgcw r).
Proof. u_sub. unfold applystencilatpoint2d. u_go. Qed.

Lemma applystencilonpatch2d_uniform (lo0 hi0 lo1 hi1 stencilsize : Z) (offsets stencil : ptr) (fgcw : Z) (f : ptr) (ugcw : Z) (u : ptr) (rgcw : Z) (r : ptr) :
  uniform (fun S p => @applystencilonpatch2d S lo0 hi0 lo1 hi1 stencilsize offsets stencil (p 3) (p 4) fgcw f ugcw u rgcw r).
Proof. u_sub. unfold applystencilonpatch2d. u_go. Qed.

Lemma applystencilatpoint3d_uniform (lo0 hi0 lo1 hi1 lo2 hi2 i j k stencilsize : Z) (offsets stencil : ptr) (fgcw : Z) (f : ptr) (ugcw : Z) (u : ptr) (rgcw : Z) (r : ptr) :
  uniform (fun S p => @applystencilatpoint3d S lo0 hi0 lo1 hi1 lo2 hi2 i j k stencilsize offsets stencil (p 3) (p 4) fgcw f ugcw u rgcw r).
Proof. u_sub. unfold applystencilatpoint3d. u_go. Qed.

Lemma applystencilonpatch3d_uniform (lo0 hi0 lo1 hi1 lo2 hi2 stencilsize : Z) (offsets stencil : ptr) (fgcw : Z) (f : ptr) (ugcw : Z) (u : ptr) (rgcw : Z) (r : ptr) :
  uniform (fun S p => @applystencilonpatch3d S lo0 hi0 lo1 hi1 lo2 hi2 stencilsize offsets stencil (p 3) (p 4) fgcw f ugcw u rgcw r).
Proof. u_sub. unfold applystencilonpatch3d. u_go. Qed.

Lemma celljacobi1d_uniform (lo0 hi0 stencilsize : Z) (offset : ptr) (slo0 shi0 : Z) (stencil : ptr) (flo0 fhi0 : Z) (f : ptr) (ulo0 uhi0 : Z) (u r : ptr) :
  uniform (fun S p => @celljacobi1d S lo0 hi0 stencilsize offset slo0 shi0 stencil flo0 fhi0 f ulo0 uhi0 u r).
Proof. u_sub. unfold celljacobi1d. u_go. Qed.

Lemma cellgs1d_uniform (lo0 hi0 stencilsize : Z) (offset : ptr) (slo0 shi0 : Z) (stencil : ptr) (flo0 fhi0 : Z) (f : ptr) (ulo0 uhi0 : Z) (u : ptr) :
  uniform (fun S p => @cellgs1d S lo0 hi0 stencilsize offset slo0 shi0 stencil flo0 fhi0 f ulo0 uhi0 u).
Proof. u_sub. unfold cellgs1d. u_go. Qed.

Lemma cellrbgs1d_uniform (lo0 hi0 color stencilsize : Z) (offset : ptr) (slo0 shi0 : Z) (stencil : ptr) (flo0 fhi0 : Z) (f : ptr) (ulo0 uhi0 : Z) (u : ptr) :
  uniform (fun S p => @cellrbgs1d S lo0 hi0 color stencilsize offset slo0 shi0 stencil flo0 fhi0 f ulo0 uhi0 u).
Proof. u_sub. unfold cellrbgs1d. u_go. Qed.

Lemma celljacobi2d_uniform (lo0 hi0 lo1 hi1 stencilsize : Z) (offset : ptr) (slo0 shi0 slo1 shi1 : Z) (stencil : ptr) (flo0 fhi0 flo1 fhi1 : Z) (f : ptr) (ulo0 uhi0 ulo1 uhi1 : Z) (u r : ptr) :
  uniform (fun S p => @celljacobi2d S lo0 hi0 lo1 hi1 stencilsize offset slo0 shi0 slo1 shi1 stencil flo0 fhi0 flo1 fhi1 f ulo0 uhi0 ulo1 uhi1 u r (p 5)).
Proof. u_sub. unfold celljacobi2d. u_go. Qed.

Lemma cellgs2d_uniform (lo0 hi0 lo1 hi1 stencilsize : Z) (offset : ptr) (slo0 shi0 slo1 shi1 : Z) (stencil : ptr) (flo0 fhi0 flo1 fhi1 : Z) (f : ptr) (ulo0 uhi0 ulo1 uhi1 : Z) (u : ptr) :
  uniform (fun S p => @cellgs2d S lo0 hi0 lo1 hi1 stencilsize offset slo0 shi0 slo1 shi1 stencil flo0 fhi0 flo1 fhi1 f ulo0 uhi0 ulo1 uhi1 u).
Proof. u_sub. unfold cellgs2d. u_go. Qed.

Lemma cellrbgs2d_uniform (lo0 hi0 lo1 hi1 color stencilsize : Z) (offset : ptr) (slo0 shi0 slo1 shi1 : Z) (stencil : ptr) (flo0 fhi0 flo1 fhi1 : Z) (f : ptr) (ulo0 uhi0 ulo1 uhi1 : Z) (u : ptr) :
  uniform (fun S p => @cellrbgs2d S lo0 hi0 lo1 hi1 color stencilsize offset slo0 shi0 slo1 shi1 stencil flo0 fhi0 flo1 fhi1 f ulo0 uhi0 ulo1 uhi1 u).
Proof. u_sub. unfold cellrbgs2d. u_go. Qed.

Lemma cells5rbgs2d_uniform (lo0 hi0 lo1 hi1 color slo0 shi0 slo1 shi1 : Z) (stencil : ptr) (flo0 fhi0 flo1 fhi1 : Z) (f : ptr) (ulo0 uhi0 ulo1 uhi1 : Z) (u : ptr) :
  uniform (fun S p => @cells5rbgs2d S lo0 hi0 lo1 hi1 color slo0 shi0 slo1 shi1 stencil flo0 fhi0 flo1 fhi1 f ulo0 uhi0 ulo1 uhi1 u).
Proof. u_sub. unfold cells5rbgs2d. u_go. Qed.

Lemma cells9rbgs2d_uniform (lo0 hi0 lo1 hi1 color slo0 shi0 slo1 shi1 : Z) (stencil : ptr) (flo0 fhi0 flo1 fhi1 : Z) (f : ptr) (ulo0 uhi0 ulo1 uhi1 : Z) (u : ptr) :
  uniform (fun S p => @cells9rbgs2d S lo0 hi0 lo1 hi1 color slo0 shi0 slo1 shi1 stencil flo0 fhi0 flo1 fhi1 f ulo0 uhi0 ulo1 uhi1 u).
Proof. u_sub. unfold cells9rbgs2d. u_go. Qed.

Lemma celljacobi3d_uniform (lo0 hi0 lo1 hi1 lo2 hi2 stencilsize : Z) (offset : ptr) (slo0 shi0 slo1 shi1 slo2 shi2 : Z) (stencil : ptr) (flo0 fhi0 flo1 fhi1 flo2 fhi2 : Z) (f : ptr) (ulo0 uhi0 ulo1 uhi1 ulo2 uhi2 : Z) (u r : ptr) :
  uniform (fun S p => @celljacobi3d S lo0 hi0 lo1 hi1 lo2 hi2 stencilsize offset slo0 shi0 slo1 shi1 slo2 shi2 stencil flo0 fhi0 flo1 fhi1 flo2 fhi2 f ulo0 uhi0 ulo1 uhi1 ulo2 uhi2 u r (p 5)).
Proof. u_sub. unfold celljacobi3d. u_go. Qed.

Lemma cellgs3d_uniform (lo0 hi0 lo1 hi1 lo2 hi2 stencilsize : Z) (offset : ptr) (slo0 shi0 slo1 shi1 slo2 shi2 : Z) (stencil : ptr) (flo0 fhi0 flo1 fhi1 flo2 fhi2 : Z) (f : ptr) (ulo0 uhi0 ulo1 uhi1 ulo2 uhi2 : Z) (u : ptr) :
  uniform (fun S p => @cellgs3d S lo0 hi0 lo1 hi1 lo2 hi2 stencilsize offset slo0 shi0 slo1 shi1 slo2 shi2 stencil flo0 fhi0 flo1 fhi1 flo2 fhi2 f ulo0 uhi0 ulo1 uhi1 ulo2 uhi2 u).
Proof. u_sub. unfold cellgs3d. u_go. Qed.

Lemma cellrbgs3d_uniform (lo0 hi0 lo1 hi1 lo2 hi2 color stencilsize : Z) (offset : ptr) (slo0 shi0 slo1 shi1 slo2 shi2 : Z) (stencil : ptr) (flo0 fhi0 flo1 fhi1 flo2 fhi2 : Z) (f : ptr) (ulo0 uhi0 ulo1 uhi1 ulo2 uhi2 : Z) (u : ptr) :
  uniform (fun S p => @cellrbgs3d S lo0 hi0 lo1 hi1 lo2 hi2 color stencilsize offset slo0 shi0 slo1 shi1 slo2 shi2 stencil flo0 fhi0 flo1 fhi1 flo2 fhi2 f ulo0 uhi0 ulo1 uhi1 ulo2 uhi2 u).
Proof. u_sub. unfold cellrbgs3d. u_go. Qed.

Lemma cells7rbgs3d_uniform (lo0 hi0 lo1 hi1 lo2 hi2 color slo0 shi0 slo1 shi1 slo2 shi2 : Z) (stencil : ptr) (flo0 fhi0 flo1 fhi1 flo2 fhi2 : Z) (f : ptr) (ulo0 uhi0 ulo1 uhi1 ulo2 uhi2 : Z) (u : ptr) :
  uniform (fun S p => @cells7rbgs3d S lo0 hi0 lo1 hi1 lo2 hi2 color slo0 shi0 slo1 shi1 slo2 shi2 stencil flo0 fhi0 flo1 fhi1 flo2 fhi2 f ulo0 uhi0 ulo1 uhi1 ulo2 uhi2 u).
Proof. u_sub. unfold cells7rbgs3d. u_go. Qed.

Lemma cellblock1x1jacobi1d_uniform (lo0 hi0 : Z) (stencil : ptr) (fgcw : Z) (f : ptr) (ugcw : Z) (u : ptr) :
  uniform (fun S p => @cellblock1x1jacobi1d S lo0 hi0 stencil fgcw f ugcw u).
Proof. u_sub. unfold cellblock1x1jacobi1d. u_go. Qed.

Lemma cellblock2x2jacobi1d_uniform (lo0 hi0 : Z) (a : ptr) (fgcw : Z) (f0 f1 : ptr) (ugcw : Z) (u0 u1 : ptr) :
  uniform (fun S p => @cellblock2x2jacobi1d S lo0 hi0 a fgcw f0 f1 ugcw u0 u1).
Proof. u_sub. unfold cellblock2x2jacobi1d. u_go. Qed.

Lemma cellblock1x1jacobi2d_uniform (lo0 hi0 lo1 hi1 : Z) (stencil : ptr) (fgcw : Z) (f : ptr) (ugcw : Z) (u : ptr) :
  uniform (fun S p => @cellblock1x1jacobi2d S lo0 hi0 lo1 hi1 stencil fgcw f ugcw u (p 5)).
Proof. u_sub. unfold cellblock1x1jacobi2d. u_go. Qed.

Lemma cellblock2x2jacobi2d_uniform (lo0 hi0 lo1 hi1 : Z) (a : ptr) (fgcw : Z) (f0 f1 : ptr) (ugcw : Z) (u0 u1 : ptr) :
  uniform (fun S p => @cellblock2x2jacobi2d S lo0 hi0 lo1 hi1 a fgcw f0 f1 ugcw u0 u1 (p 5)).
Proof. u_sub. unfold cellblock2x2jacobi2d. u_go. Qed.

Lemma creatematrix_uniform (A : ptr) (stencilsize : Z) (stencil offset : ptr) (bSizeX bSizeY bSizeZ : Z) :
  uniform (fun S p => @creatematrix S A stencilsize stencil offset bSizeX bSizeY bSizeZ).
Proof. u_sub. unfold creatematrix. u_go. Qed.

Lemma adjcellcrsfinebdryrhs1d_uniform (ifirst0 ilast0 pfirst0 plast0 side stencilsize : Z) (offset stencil : ptr) (gcw : Z) (u rhs ul : ptr) :
  uniform (fun S p => @adjcellcrsfinebdryrhs1d S ifirst0 ilast0 pfirst0 plast0 side stencilsize offset stencil gcw u rhs ul).
Proof. u_sub. unfold adjcellcrsfinebdryrhs1d. u_go. Qed.

Lemma celladjustsystemrhspatch1d_uniform (ifirst0 ilast0 noffsets : Z) (offset : ptr) (stencilsize : Z) (stencil : ptr) (ugcw : Z) (u : ptr) (fgcw : Z) (f : ptr) :
  uniform (fun S p => @celladjustsystemrhspatch1d S ifirst0 ilast0 noffsets offset stencilsize stencil ugcw u fgcw f).
Proof. u_sub. unfold celladjustsystemrhspatch1d. u_go. Qed.

Lemma adjcellcrsfinebdryrhs2d_uniform (ifirst0 ifirst1 ilast0 ilast1 pfirst0 pfirst1 plast0 plast1 direction side stencilsize : Z) (offset stencil : ptr) (gcw : Z) (u rhs ul : ptr) :
  uniform (fun S p => @adjcellcrsfinebdryrhs2d S ifirst0 ifirst1 ilast0 ilast1 pfirst0 pfirst1 plast0 plast1 direction side stencilsize offset stencil gcw u rhs ul).
Proof. u_sub. unfold adjcellcrsfinebdryrhs2d. u_go. Qed.

Lemma celladjustsystemrhspatch2d_uniform (ifirst0 ifirst1 ilast0 ilast1 noffsets : Z) (offset : ptr) (stencilsize : Z) (stencil : ptr) (ugcw : Z) (u : ptr) (fgcw : Z) (f : ptr) :
  uniform (fun S p => @celladjustsystemrhspatch2d S ifirst0 ifirst1 ilast0 ilast1 noffsets offset stencilsize stencil ugcw u fgcw f).
Proof. u_sub. unfold celladjustsystemrhspatch2d. u_go. Qed.

Lemma adjcellcrsfinebdryrhs3d_uniform (ifirst0 ifirst1 ifirst2 ilast0 ilast1 ilast2 pfirst0 pfirst1 pfirst2 plast0 plast1 plast2 direction side stencilsize : Z) (offset stencil : ptr) (gcw : Z) (u rhs ul : ptr) :
  uniform (fun S p => @adjcellcrsfinebdryrhs3d S ifirst0 ifirst1 ifirst2 ilast0 ilast1 ilast2 pfirst0 pfirst1 pfirst2 plast0 plast1 plast2 direction side stencilsize offset stencil gcw u rhs ul).
Proof. u_sub. unfold adjcellcrsfinebdryrhs3d. u_go. Qed.
