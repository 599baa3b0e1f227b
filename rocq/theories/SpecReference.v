(** * A kernel and the Fortran subroutine it replaces

    Generated by tools/gen_uniform.py from the statements of C36, C37, C38, C39 and
    C41: the pairs, and the conditions under which their results are equal in exact
    arithmetic with grid spacings other than 0.  The scalar parameters are as in
    SpecPrograms.v. *)

From Verif Require Import Base SpecAssign SpecRel SpecKernel KernelsFlux KernelsApply KernelsCopy KernelsBC KernelsStencil
  FortranFlux FortranApply FortranCopy FortranBC FortranHomog FortranStencil1 FortranStencil2 FortranStencil3.
Import ListNotations.
Open Scope Z_scope.

Inductive reference : prog -> prog -> Prop :=
| RC36_flux_1d i0 i1 b0 gcw u f0 :
    i0 <= i1 + 1 ->
    reference (fun S p => @cdf_1d_flux S i0 i1 p b0 gcw u f0)
              (fun S p => @celldiffusionflux1d S i0 i1 p b0 gcw u f0)
| RC36_flux_2d i0 j0 i1 j1 b0 b1 gcw u f0 f1 :
    i0 <= i1 + 1 ->
    j0 <= j1 + 1 ->
    reference (fun S p => @cdf_2d_flux S i0 j0 i1 j1 p b0 b1 gcw u f0 f1)
              (fun S p => @celldiffusionflux2d S i0 j0 i1 j1 p b0 b1 gcw u f0 f1)
| RC36_flux_3d i0 j0 k0 i1 j1 k1 b0 b1 b2 gcw u f0 f1 f2 :
    i0 <= i1 + 1 ->
    j0 <= j1 + 1 ->
    k0 <= k1 + 1 ->
    reference (fun S p => @cdf_3d_flux S i0 j0 k0 i1 j1 k1 p b0 b1 b2 gcw u f0 f1 f2)
              (fun S p => @celldiffusionflux3d S i0 j0 k0 i1 j1 k1 p b0 b1 b2 gcw u f0 f1 f2)
| RC36_poisson_flux_1d i0 i1 gcw u f0 :
    i0 <= i1 + 1 ->
    reference (fun S p => @cdf_1d_poisson_flux S i0 i1 p gcw u f0)
              (fun S p => @cellpoissonflux1d S i0 i1 p gcw u f0)
| RC36_poisson_flux_2d i0 j0 i1 j1 gcw u f0 f1 :
    i0 <= i1 + 1 ->
    j0 <= j1 + 1 ->
    fst f0 <> fst u ->
    fst f1 <> fst u ->
    reference (fun S p => @cdf_2d_poisson_flux S i0 j0 i1 j1 p gcw u f0 f1)
              (fun S p => @cellpoissonflux2d S i0 j0 i1 j1 p gcw u f0 f1)
| RC36_poisson_flux_3d i0 j0 k0 i1 j1 k1 gcw u f0 f1 f2 :
    i0 <= i1 + 1 ->
    j0 <= j1 + 1 ->
    k0 <= k1 + 1 ->
    reference (fun S p => @cdf_3d_poisson_flux S i0 j0 k0 i1 j1 k1 p gcw u f0 f1 f2)
              (fun S p => @cellpoissonflux3d S i0 j0 k0 i1 j1 k1 p gcw u f0 f1 f2)
| RC37_1d_diffusion_v1_res i0 i1 agcw a ugcw u fgcw f f0 rgcw res :
    i0 <= i1 + 1 ->
    reference (fun S p => @cd_apply_1d_diffusion_v1_res S i0 i1 (p 3) (p 4) p agcw a ugcw u fgcw f f0 rgcw res)
              (fun S p => @celldiffusionv1res1d S i0 i1 (p 3) (p 4) p agcw a ugcw u fgcw f f0 rgcw res)
| RC37_1d_diffusion_v2_res i0 i1 ugcw u fgcw f f0 rgcw res :
    i0 <= i1 + 1 ->
    reference (fun S p => @cd_apply_1d_diffusion_v2_res S i0 i1 (p 3) (p 4) p ugcw u fgcw f f0 rgcw res)
              (fun S p => @celldiffusionv2res1d S i0 i1 (p 3) (p 4) p ugcw u fgcw f f0 rgcw res)
| RC37_1d_poisson_v1_res i0 i1 fgcw f f0 rgcw res :
    i0 <= i1 + 1 ->
    reference (fun S p => @cd_apply_1d_poisson_v1_res S i0 i1 (p 4) p fgcw f f0 rgcw res)
              (fun S p => @cellpoissonv1res1d S i0 i1 (p 4) p fgcw f f0 rgcw res)
| RC37_1d_diffusion_v1_apply i0 i1 agcw a ugcw u f0 rgcw res :
    i0 <= i1 + 1 ->
    reference (fun S p => @cd_apply_1d_diffusion_v1_apply S i0 i1 (p 3) (p 4) p agcw a ugcw u f0 rgcw res)
              (fun S p => @celldiffusionv1apply1d S i0 i1 (p 3) (p 4) p agcw a ugcw u f0 rgcw res)
| RC37_1d_diffusion_v2_apply i0 i1 ugcw u f0 rgcw res :
    i0 <= i1 + 1 ->
    reference (fun S p => @cd_apply_1d_diffusion_v2_apply S i0 i1 (p 3) (p 4) p ugcw u f0 rgcw res)
              (fun S p => @celldiffusionv2apply1d S i0 i1 (p 3) (p 4) p ugcw u f0 rgcw res)
| RC37_1d_poisson_v2_apply i0 i1 f0 rgcw res :
    i0 <= i1 + 1 ->
    reference (fun S p => @cd_apply_1d_poisson_v2_apply S i0 i1 (p 4) p f0 rgcw res)
              (fun S p => @cellpoissonv2apply1d S i0 i1 (p 4) p f0 rgcw res)
| RC37_2d_diffusion_v1_res i0 i1 j0 j1 agcw a ugcw u fgcw f f0 f1 rgcw res :
    i0 <= i1 + 1 ->
    j0 <= j1 + 1 ->
    reference (fun S p => @cd_apply_2d_diffusion_v1_res S i0 i1 j0 j1 (p 3) (p 4) p agcw a ugcw u fgcw f f0 f1 rgcw res)
              (fun S p => @celldiffusionv1res2d S i0 i1 j0 j1 (p 3) (p 4) p agcw a ugcw u fgcw f f0 f1 rgcw res)
| RC37_2d_diffusion_v2_res i0 i1 j0 j1 ugcw u fgcw f f0 f1 rgcw res :
    i0 <= i1 + 1 ->
    j0 <= j1 + 1 ->
    reference (fun S p => @cd_apply_2d_diffusion_v2_res S i0 i1 j0 j1 (p 3) (p 4) p ugcw u fgcw f f0 f1 rgcw res)
              (fun S p => @celldiffusionv2res2d S i0 i1 j0 j1 (p 3) (p 4) p ugcw u fgcw f f0 f1 rgcw res)
| RC37_2d_poisson_v1_res i0 i1 j0 j1 fgcw f f0 f1 rgcw res :
    i0 <= i1 + 1 ->
    j0 <= j1 + 1 ->
    reference (fun S p => @cd_apply_2d_poisson_v1_res S i0 i1 j0 j1 (p 4) p fgcw f f0 f1 rgcw res)
              (fun S p => @cellpoissonv1res2d S i0 i1 j0 j1 (p 4) p fgcw f f0 f1 rgcw res)
| RC37_2d_diffusion_v1_apply i0 i1 j0 j1 agcw a ugcw u f0 f1 rgcw res :
    i0 <= i1 + 1 ->
    j0 <= j1 + 1 ->
    reference (fun S p => @cd_apply_2d_diffusion_v1_apply S i0 i1 j0 j1 (p 3) (p 4) p agcw a ugcw u f0 f1 rgcw res)
              (fun S p => @celldiffusionv1apply2d S i0 i1 j0 j1 (p 3) (p 4) p agcw a ugcw u f0 f1 rgcw res)
| RC37_2d_diffusion_v2_apply i0 i1 j0 j1 ugcw u f0 f1 rgcw res :
    i0 <= i1 + 1 ->
    j0 <= j1 + 1 ->
    reference (fun S p => @cd_apply_2d_diffusion_v2_apply S i0 i1 j0 j1 (p 3) (p 4) p ugcw u f0 f1 rgcw res)
              (fun S p => @celldiffusionv2apply2d S i0 i1 j0 j1 (p 3) (p 4) p ugcw u f0 f1 rgcw res)
| RC37_2d_poisson_v2_apply i0 i1 j0 j1 f0 f1 rgcw res :
    i0 <= i1 + 1 ->
    j0 <= j1 + 1 ->
    reference (fun S p => @cd_apply_2d_poisson_v2_apply S i0 i1 j0 j1 (p 4) p f0 f1 rgcw res)
              (fun S p => @cellpoissonv2apply2d S i0 i1 j0 j1 (p 4) p f0 f1 rgcw res)
| RC37_3d_diffusion_v1_res i0 i1 j0 j1 k0 k1 agcw a ugcw u fgcw f f0 f1 f2 rgcw res :
    i0 <= i1 + 1 ->
    j0 <= j1 + 1 ->
    k0 <= k1 + 1 ->
    reference (fun S p => @cd_apply_3d_diffusion_v1_res S i0 i1 j0 j1 k0 k1 (p 3) (p 4) p agcw a ugcw u fgcw f f0 f1 f2 rgcw res)
              (fun S p => @celldiffusionv1res3d S i0 i1 j0 j1 k0 k1 (p 3) (p 4) p agcw a ugcw u fgcw f f0 f1 f2 rgcw res)
| RC37_3d_diffusion_v2_res i0 i1 j0 j1 k0 k1 ugcw u fgcw f f0 f1 f2 rgcw res :
    i0 <= i1 + 1 ->
    j0 <= j1 + 1 ->
    k0 <= k1 + 1 ->
    reference (fun S p => @cd_apply_3d_diffusion_v2_res S i0 i1 j0 j1 k0 k1 (p 3) (p 4) p ugcw u fgcw f f0 f1 f2 rgcw res)
              (fun S p => @celldiffusionv2res3d S i0 i1 j0 j1 k0 k1 (p 3) (p 4) p ugcw u fgcw f f0 f1 f2 rgcw res)
| RC37_3d_poisson_v1_res i0 i1 j0 j1 k0 k1 fgcw f f0 f1 f2 rgcw res :
    i0 <= i1 + 1 ->
    j0 <= j1 + 1 ->
    k0 <= k1 + 1 ->
    reference (fun S p => @cd_apply_3d_poisson_v1_res S i0 i1 j0 j1 k0 k1 (p 4) p fgcw f f0 f1 f2 rgcw res)
              (fun S p => @cellpoissonv1res3d S i0 i1 j0 j1 k0 k1 (p 4) p fgcw f f0 f1 f2 rgcw res)
| RC37_3d_diffusion_v1_apply i0 i1 j0 j1 k0 k1 agcw a ugcw u f0 f1 f2 rgcw res :
    i0 <= i1 + 1 ->
    j0 <= j1 + 1 ->
    k0 <= k1 + 1 ->
    reference (fun S p => @cd_apply_3d_diffusion_v1_apply S i0 i1 j0 j1 k0 k1 (p 3) (p 4) p agcw a ugcw u f0 f1 f2 rgcw res)
              (fun S p => @celldiffusionv1apply3d S i0 i1 j0 j1 k0 k1 (p 3) (p 4) p agcw a ugcw u f0 f1 f2 rgcw res)
| RC37_3d_diffusion_v2_apply i0 i1 j0 j1 k0 k1 ugcw u f0 f1 f2 rgcw res :
    i0 <= i1 + 1 ->
    j0 <= j1 + 1 ->
    k0 <= k1 + 1 ->
    reference (fun S p => @cd_apply_3d_diffusion_v2_apply S i0 i1 j0 j1 k0 k1 (p 3) (p 4) p ugcw u f0 f1 f2 rgcw res)
              (fun S p => @celldiffusionv2apply3d S i0 i1 j0 j1 k0 k1 (p 3) (p 4) p ugcw u f0 f1 f2 rgcw res)
| RC37_3d_poisson_v2_apply i0 i1 j0 j1 k0 k1 f0 f1 f2 rgcw res :
    i0 <= i1 + 1 ->
    j0 <= j1 + 1 ->
    k0 <= k1 + 1 ->
    reference (fun S p => @cd_apply_3d_poisson_v2_apply S i0 i1 j0 j1 k0 k1 (p 4) p f0 f1 f2 rgcw res)
              (fun S p => @cellpoissonv2apply3d S i0 i1 j0 j1 k0 k1 (p 4) p f0 f1 f2 rgcw res)
| RC38_copy ci0 ci1 cj0 cj1 ck0 ck1 fi0 fi1 fj0 fj1 fk0 fk1 axis cbi0 cbi1 cbj0 cbj1 cbk0 cbk1 fbi0 fbi1 fbj0 fbj1 fbk0 fbk1 gcw ratio cdata fdata :
    fi0 <= fi1 + 1 ->
    fj0 <= fj1 + 1 ->
    fk0 <= fk1 + 1 ->
    (0 <= axis < 3 -> 1 <= ratio axis) ->
    reference (fun S p => @c2f_copy S ci0 ci1 cj0 cj1 ck0 ck1 fi0 fi1 fj0 fj1 fk0 fk1 axis cbi0 cbi1 cbj0 cbj1 cbk0 cbk1 fbi0 fbi1 fbj0 fbj1 fbk0 fbk1 gcw ratio cdata fdata)
              (fun S p => @copycoarsetofine3d S ci0 ci1 cj0 cj1 ck0 ck1 fi0 fi1 fj0 fj1 fk0 fk1 axis cbi0 cbi1 cbj0 cbj1 cbk0 cbk1 fbi0 fbi1 fbj0 fbj1 fbk0 fbk1 gcw ratio cdata fdata)
| RC38_copy_corner ci0 ci1 cj0 cj1 ck0 ck1 fi0 fi1 fj0 fj1 fk0 fk1 cbi0 cbi1 cbj0 cbj1 cbk0 cbk1 fbi0 fbi1 fbj0 fbj1 fbk0 fbk1 gcw cdata fdata :
    reference (fun S p => @c2f_copy_corner S ci0 ci1 cj0 cj1 ck0 ck1 fi0 fi1 fj0 fj1 fk0 fk1 cbi0 cbi1 cbj0 cbj1 cbk0 cbk1 fbi0 fbi1 fbj0 fbj1 fbk0 fbk1 gcw cdata fdata)
              (fun S p => @copycoarsetofinecorner3d S ci0 ci1 cj0 cj1 ck0 ck1 fi0 fi1 fj0 fj1 fk0 fk1 cbi0 cbi1 cbj0 cbj1 cbk0 cbk1 fbi0 fbi1 fbj0 fbj1 fbk0 fbk1 gcw cdata fdata)
| RC39_set_bc_1d i0 i1 dgcw d0 ugcw u bLo bHi exOrder face btype :
    reference (fun S p => @cd_1d_set_bc S i0 i1 p dgcw d0 ugcw u bLo bHi exOrder face btype (p 3) (p 4))
              (fun S p => @cellsetcorrectionbc1d S i0 i1 p dgcw d0 ugcw u bLo bHi exOrder face btype (p 3) (p 4))
| RC39_set_poisson_bc_1d i0 i1 ugcw u bLo bHi exOrder face btype :
    reference (fun S p => @cd_1d_set_poisson_bc S i0 i1 p ugcw u bLo bHi exOrder face btype (p 3) (p 4))
              (fun S p => @cellsetpoissoncorrectionbc1d S i0 i1 p ugcw u bLo bHi exOrder face btype (p 3) (p 4))
| RC39_set_bc_2d i0 i1 j0 j1 dgcw d0 d1 ugcw u bLo bHi exOrder face type btype :
    (type = 1 ->
    face = 0 \/ face = 1 ->
    seg_within j0 j1 (bLo 1) (bHi 1)) ->
    (type = 1 ->
    face = 2 \/ face = 3 ->
    seg_within i0 i1 (bLo 0) (bHi 0)) ->
    reference (fun S p => @cd_2d_set_bc S i0 i1 j0 j1 p dgcw d0 d1 ugcw u bLo bHi exOrder face type btype (p 3) (p 4))
              (fun S p => @cellsetcorrectionbc2d S i0 i1 j0 j1 p dgcw d0 d1 ugcw u bLo bHi exOrder face type btype (p 3) (p 4))
| RC39_set_poisson_bc_2d i0 i1 j0 j1 ugcw u bLo bHi exOrder face type btype :
    (type = 1 ->
    face = 0 \/ face = 1 ->
    seg_within j0 j1 (bLo 1) (bHi 1)) ->
    (type = 1 ->
    face = 2 \/ face = 3 ->
    seg_within i0 i1 (bLo 0) (bHi 0)) ->
    reference (fun S p => @cd_2d_set_poisson_bc S i0 i1 j0 j1 p ugcw u bLo bHi exOrder face type btype (p 3) (p 4))
              (fun S p => @cellsetpoissoncorrectionbc2d S i0 i1 j0 j1 p ugcw u bLo bHi exOrder face type btype (p 3) (p 4))
| RC39_set_corner_bc_2d i0 i1 j0 j1 gcw d0 d1 u bLo bHi exOrder face type btype :
    reference (fun S p => @cd_2d_set_corner_bc S i0 i1 j0 j1 gcw p d0 d1 u bLo bHi exOrder face type btype)
              (fun S p => @cellsetinteriorcornerbc2d S i0 i1 j0 j1 gcw p d0 d1 u bLo bHi exOrder face type btype)
| RC39_set_homogenous_bc_2d i0 j0 i1 j1 face bLo bHi exOrder u :
    1 <= exOrder <= 4 ->
    (face = 0 \/ face = 1 ->
    seg_meets j0 j1 (bLo 1) (bHi 1)) ->
    (face = 2 \/ face = 3 ->
    seg_meets i0 i1 (bLo 0) (bHi 0) /\ i0 <= i1 + 1) ->
    reference (fun S p => @cd_2d_set_homogenous_bc S i0 j0 i1 j1 face bLo bHi exOrder u)
              (fun S p => @cellsethomogenousbc2d S i0 j0 i1 j1 face bLo bHi exOrder u)
| RC39_set_bc_3d i0 i1 j0 j1 k0 k1 dgcw d0 d1 d2 ugcw u bLo bHi exOrder face type btype :
    (type = 1 ->
    face = 0 \/ face = 1 ->
    seg_meets j0 j1 (bLo 1) (bHi 1) /\ seg_meets k0 k1 (bLo 2) (bHi 2)) ->
    (type = 1 ->
    face = 2 \/ face = 3 ->
    seg_meets i0 i1 (bLo 0) (bHi 0) /\ seg_meets k0 k1 (bLo 2) (bHi 2)) ->
    (type = 1 ->
    face = 4 \/ face = 5 ->
    seg_meets i0 i1 (bLo 0) (bHi 0) /\ seg_meets j0 j1 (bLo 1) (bHi 1)) ->
    (type = 2 ->
    0 <= face < 4 ->
    seg_within k0 k1 (bLo 2) (bHi 2)) ->
    (type = 2 ->
    4 <= face < 8 ->
    seg_within j0 j1 (bLo 1) (bHi 1)) ->
    (type = 2 ->
    8 <= face < 12 ->
    seg_within i0 i1 (bLo 0) (bHi 0)) ->
    reference (fun S p => @cd_3d_set_bc S i0 i1 j0 j1 k0 k1 p dgcw d0 d1 d2 ugcw u bLo bHi exOrder face type btype (p 3) (p 4))
              (fun S p => @cellsetcorrectionbc3d S i0 i1 j0 j1 k0 k1 p dgcw d0 d1 d2 ugcw u bLo bHi exOrder face type btype (p 3) (p 4))
| RC39_set_poisson_bc_3d i0 i1 j0 j1 k0 k1 ugcw u bLo bHi exOrder face type btype :
    (type = 1 ->
    face = 0 \/ face = 1 ->
    seg_within j0 j1 (bLo 1) (bHi 1) /\ seg_within k0 k1 (bLo 2) (bHi 2)) ->
    (type = 1 ->
    face = 2 \/ face = 3 ->
    seg_within i0 i1 (bLo 0) (bHi 0) /\ seg_within k0 k1 (bLo 2) (bHi 2)) ->
    (type = 1 ->
    face = 4 \/ face = 5 ->
    seg_within i0 i1 (bLo 0) (bHi 0) /\ seg_within j0 j1 (bLo 1) (bHi 1)) ->
    (type = 2 ->
    0 <= face < 4 ->
    seg_within k0 k1 (bLo 2) (bHi 2)) ->
    (type = 2 ->
    4 <= face < 8 ->
    seg_within j0 j1 (bLo 1) (bHi 1)) ->
    (type = 2 ->
    8 <= face < 12 ->
    seg_within i0 i1 (bLo 0) (bHi 0)) ->
    reference (fun S p => @cd_3d_set_poisson_bc S i0 i1 j0 j1 k0 k1 p ugcw u bLo bHi exOrder face type btype (p 3) (p 4))
              (fun S p => @cellsetpoissoncorrectionbc3d S i0 i1 j0 j1 k0 k1 p ugcw u bLo bHi exOrder face type btype (p 3) (p 4))
| RC41_offdiag_1d i0 i1 bi0 bi1 b0 sgcw st :
    i0 <= i1 + 1 ->
    apart st [b0] ->
    reference (fun S p => @cd_stencil_1d_offdiag S i0 i1 bi0 bi1 p (p 4) b0 sgcw st)
              (fun S p => @celldiffusionoffdiag1d S i0 i1 bi0 bi1 p (p 4) b0 sgcw st)
| RC41_poisson_offdiag_1d i0 i1 sgcw st :
    i0 <= i1 + 1 ->
    reference (fun S p => @cd_stencil_1d_poisson_offdiag S i0 i1 p (p 4) sgcw st)
              (fun S p => @cellpoissonoffdiag1d S i0 i1 p (p 4) sgcw st)
| RC41_v1diag_1d i0 i1 ai0 ai1 a sgcw st :
    i0 <= i1 + 1 ->
    reference (fun S p => @cd_stencil_1d_v1diag S i0 i1 ai0 ai1 (p 3) a sgcw st)
              (fun S p => @celldiffusionv1diag1d S i0 i1 ai0 ai1 (p 3) a sgcw st)
| RC41_v2diag_1d i0 i1 sgcw st :
    i0 <= i1 + 1 ->
    reference (fun S p => @cd_stencil_1d_v2diag S i0 i1 (p 3) sgcw st)
              (fun S p => @celldiffusionv2diag1d S i0 i1 (p 3) sgcw st)
| RC41_poisson_diag_1d i0 i1 sgcw st :
    i0 <= i1 + 1 ->
    reference (fun S p => @cd_stencil_1d_poisson_diag S i0 i1 sgcw st)
              (fun S p => @cellpoissondiag1d S i0 i1 sgcw st)
| RC41_adj_diag_1d i0 i1 pi0 pi1 side btype exOrder b0 sgcw st :
    side = 0 \/ side = 1 ->
    reference (fun S p => @cd_stencil_1d_adj_diag S i0 i1 pi0 pi1 side btype exOrder p (p 4) b0 sgcw st)
              (fun S p => @adjcelldiffusiondiag1d S i0 i1 pi0 pi1 side btype exOrder p (p 4) b0 sgcw st)
| RC41_adj_poisson_diag_1d i0 i1 pi0 pi1 side btype exOrder sgcw st :
    side = 0 \/ side = 1 ->
    reference (fun S p => @cd_stencil_1d_adj_poisson_diag S i0 i1 pi0 pi1 side btype exOrder p (p 4) sgcw st)
              (fun S p => @adjcellpoissondiag1d S i0 i1 pi0 pi1 side btype exOrder p (p 4) sgcw st)
| RC41_adj_cf_diag_1d i0 i1 pi0 pi1 r side intOrder b0 sgcw st :
    side = 0 \/ side = 1 ->
    reference (fun S p => @cd_stencil_1d_adj_cf_diag S i0 i1 pi0 pi1 r side intOrder p (p 4) b0 sgcw st)
              (fun S p => @adjcelldiffusioncfdiag1d S i0 i1 pi0 pi1 r side intOrder p (p 4) b0 sgcw st)
| RC41_adj_poisson_cf_diag_1d i0 i1 pi0 pi1 r side intOrder sgcw st :
    side = 0 \/ side = 1 ->
    reference (fun S p => @cd_stencil_1d_adj_poisson_cf_diag S i0 i1 pi0 pi1 r side intOrder p (p 4) sgcw st)
              (fun S p => @adjcellpoissoncfdiag1d S i0 i1 pi0 pi1 r side intOrder p (p 4) sgcw st)
| RC41_adj_offdiag_1d i0 i1 pi0 pi1 side btype exOrder b0 sgcw st :
    side = 0 \/ side = 1 ->
    apart st [b0] ->
    reference (fun S p => @cd_stencil_1d_adj_offdiag S i0 i1 pi0 pi1 side btype exOrder p (p 5) (p 6) (p 4) b0 sgcw st)
              (fun S p => @adjcelldiffusionoffdiag1d S i0 i1 pi0 pi1 side btype exOrder p (p 5) (p 6) (p 4) b0 sgcw st)
| RC41_adj_poisson_offdiag_1d i0 i1 pi0 pi1 side btype exOrder sgcw st :
    side = 0 \/ side = 1 ->
    reference (fun S p => @cd_stencil_1d_adj_poisson_offdiag S i0 i1 pi0 pi1 side btype exOrder p (p 5) (p 6) (p 4) sgcw st)
              (fun S p => @adjcellpoissonoffdiag1d S i0 i1 pi0 pi1 side btype exOrder p (p 5) (p 6) (p 4) sgcw st)
| RC41_adj_cf_offdiag_1d i0 i1 ci0 ci1 r side intOrder sgcw st :
    side = 0 \/ side = 1 ->
    reference (fun S p => @cd_stencil_1d_adj_cf_offdiag S i0 i1 ci0 ci1 r side intOrder sgcw st)
              (fun S p => @adjcelldiffusioncfoffdiag1d S i0 i1 ci0 ci1 r side intOrder sgcw st)
| RC41_readj_offdiag_1d i0 i1 pi0 pi1 side sgcw st :
    side = 0 \/ side = 1 ->
    reference (fun S p => @cd_stencil_1d_readj_offdiag S i0 i1 pi0 pi1 side sgcw st)
              (fun S p => @readjcelldiffusionoffdiag1d S i0 i1 pi0 pi1 side sgcw st)
| RC41_adj_cf_bdryrhs_1d i0 i1 pi0 pi1 side sgcw st gcw u rhs :
    side = 0 \/ side = 1 ->
    reference (fun S p => @cd_stencil_1d_adj_cf_bdryrhs S i0 i1 pi0 pi1 side sgcw st gcw u rhs)
              (fun S p => @adjcelldiffusioncfbdryrhs1d S i0 i1 pi0 pi1 side sgcw st gcw u rhs)
| RC41_offdiag_2d i0 j0 i1 j1 bi0 bj0 bi1 bj1 b0 b1 sgcw st :
    i0 <= i1 + 1 ->
    j0 <= j1 + 1 ->
    apart st [b0; b1] ->
    reference (fun S p => @cd_stencil_2d_offdiag S i0 j0 i1 j1 bi0 bj0 bi1 bj1 p (p 4) b0 b1 sgcw st)
              (fun S p => @celldiffusionoffdiag2d S i0 j0 i1 j1 bi0 bj0 bi1 bj1 p (p 4) b0 b1 sgcw st)
| RC41_poisson_offdiag_2d i0 j0 i1 j1 sgcw st :
    i0 <= i1 + 1 ->
    j0 <= j1 + 1 ->
    reference (fun S p => @cd_stencil_2d_poisson_offdiag S i0 j0 i1 j1 p (p 4) sgcw st)
              (fun S p => @cellpoissonoffdiag2d S i0 j0 i1 j1 p (p 4) sgcw st)
| RC41_v1diag_2d i0 j0 i1 j1 ai0 aj0 ai1 aj1 a sgcw st :
    i0 <= i1 + 1 ->
    j0 <= j1 + 1 ->
    reference (fun S p => @cd_stencil_2d_v1diag S i0 j0 i1 j1 ai0 aj0 ai1 aj1 (p 3) a sgcw st)
              (fun S p => @celldiffusionv1diag2d S i0 j0 i1 j1 ai0 aj0 ai1 aj1 (p 3) a sgcw st)
| RC41_v2diag_2d i0 j0 i1 j1 sgcw st :
    i0 <= i1 + 1 ->
    j0 <= j1 + 1 ->
    reference (fun S p => @cd_stencil_2d_v2diag S i0 j0 i1 j1 (p 3) sgcw st)
              (fun S p => @celldiffusionv2diag2d S i0 j0 i1 j1 (p 3) sgcw st)
| RC41_poisson_diag_2d i0 j0 i1 j1 sgcw st :
    i0 <= i1 + 1 ->
    j0 <= j1 + 1 ->
    reference (fun S p => @cd_stencil_2d_poisson_diag S i0 j0 i1 j1 sgcw st)
              (fun S p => @cellpoissondiag2d S i0 j0 i1 j1 sgcw st)
| RC41_adj_diag_2d i0 j0 i1 j1 pi0 pj0 pi1 pj1 dir side btype exOrder b0 b1 sgcw st :
    side = 0 \/ side = 1 ->
    pi0 <= pi1 + 1 ->
    pj0 <= pj1 + 1 ->
    0 <= dir <= 2 ->
    reference (fun S p => @cd_stencil_2d_adj_diag S i0 j0 i1 j1 pi0 pj0 pi1 pj1 dir side btype exOrder p (p 4) b0 b1 sgcw st)
              (fun S p => @adjcelldiffusiondiag2d S i0 j0 i1 j1 pi0 pj0 pi1 pj1 dir side btype exOrder p (p 4) b0 b1 sgcw st)
| RC41_adj_poisson_diag_2d i0 j0 i1 j1 pi0 pj0 pi1 pj1 dir side btype exOrder sgcw st :
    side = 0 \/ side = 1 ->
    pi0 <= pi1 + 1 ->
    pj0 <= pj1 + 1 ->
    reference (fun S p => @cd_stencil_2d_adj_poisson_diag S i0 j0 i1 j1 pi0 pj0 pi1 pj1 dir side btype exOrder p (p 4) sgcw st)
              (fun S p => @adjcellpoissondiag2d S i0 j0 i1 j1 pi0 pj0 pi1 pj1 dir side btype exOrder p (p 4) sgcw st)
| RC41_adj_cf_diag_2d i0 j0 i1 j1 pi0 pj0 pi1 pj1 r dir side intOrder b0 b1 sgcw st :
    side = 0 \/ side = 1 ->
    pi0 <= pi1 + 1 ->
    pj0 <= pj1 + 1 ->
    0 <= dir <= 2 ->
    reference (fun S p => @cd_stencil_2d_adj_cf_diag S i0 j0 i1 j1 pi0 pj0 pi1 pj1 r dir side intOrder p (p 4) b0 b1 sgcw st)
              (fun S p => @adjcelldiffusioncfdiag2d S i0 j0 i1 j1 pi0 pj0 pi1 pj1 r dir side intOrder p (p 4) b0 b1 sgcw st)
| RC41_adj_poisson_cf_diag_2d i0 j0 i1 j1 pi0 pj0 pi1 pj1 r dir side intOrder sgcw st :
    side = 0 \/ side = 1 ->
    pi0 <= pi1 + 1 ->
    pj0 <= pj1 + 1 ->
    0 <= dir <= 2 ->
    reference (fun S p => @cd_stencil_2d_adj_poisson_cf_diag S i0 j0 i1 j1 pi0 pj0 pi1 pj1 r dir side intOrder p (p 4) sgcw st)
              (fun S p => @adjcellpoissoncfdiag2d S i0 j0 i1 j1 pi0 pj0 pi1 pj1 r dir side intOrder p (p 4) sgcw st)
| RC41_adj_offdiag_2d i0 j0 i1 j1 pi0 pj0 pi1 pj1 dir side btype exOrder b0 b1 sgcw st :
    side = 0 \/ side = 1 ->
    pi0 <= pi1 + 1 ->
    pj0 <= pj1 + 1 ->
    apart st [b0; b1] ->
    reference (fun S p => @cd_stencil_2d_adj_offdiag S i0 j0 i1 j1 pi0 pj0 pi1 pj1 dir side btype exOrder p (p 5) (p 6) (p 4) b0 b1 sgcw st)
              (fun S p => @adjcelldiffusionoffdiag2d S i0 j0 i1 j1 pi0 pj0 pi1 pj1 dir side btype exOrder p (p 5) (p 6) (p 4) b0 b1 sgcw st)
| RC41_adj_poisson_offdiag_2d i0 j0 i1 j1 pi0 pj0 pi1 pj1 dir side btype exOrder sgcw st :
    side = 0 \/ side = 1 ->
    pi0 <= pi1 + 1 ->
    pj0 <= pj1 + 1 ->
    reference (fun S p => @cd_stencil_2d_adj_poisson_offdiag S i0 j0 i1 j1 pi0 pj0 pi1 pj1 dir side btype exOrder p (p 5) (p 6) (p 4) sgcw st)
              (fun S p => @adjcellpoissonoffdiag2d S i0 j0 i1 j1 pi0 pj0 pi1 pj1 dir side btype exOrder p (p 5) (p 6) (p 4) sgcw st)
| RC41_adj_cf_offdiag_2d i0 j0 i1 j1 ci0 cj0 ci1 cj1 r dir side intOrder sgcw st :
    side = 0 \/ side = 1 ->
    ci0 <= ci1 + 1 ->
    cj0 <= cj1 + 1 ->
    reference (fun S p => @cd_stencil_2d_adj_cf_offdiag S i0 j0 i1 j1 ci0 cj0 ci1 cj1 r dir side intOrder sgcw st)
              (fun S p => @adjcelldiffusioncfoffdiag2d S i0 j0 i1 j1 ci0 cj0 ci1 cj1 r dir side intOrder sgcw st)
| RC41_readj_offdiag_2d i0 j0 i1 j1 pi0 pj0 pi1 pj1 dir side sgcw st :
    side = 0 \/ side = 1 ->
    pi0 <= pi1 + 1 ->
    pj0 <= pj1 + 1 ->
    reference (fun S p => @cd_stencil_2d_readj_offdiag S i0 j0 i1 j1 pi0 pj0 pi1 pj1 dir side sgcw st)
              (fun S p => @readjcelldiffusionoffdiag2d S i0 j0 i1 j1 pi0 pj0 pi1 pj1 dir side sgcw st)
| RC41_adj_cf_bdryrhs_2d i0 j0 i1 j1 pi0 pj0 pi1 pj1 dir side sgcw st gcw u rhs :
    side = 0 \/ side = 1 ->
    pi0 <= pi1 + 1 ->
    pj0 <= pj1 + 1 ->
    reference (fun S p => @cd_stencil_2d_adj_cf_bdryrhs S i0 j0 i1 j1 pi0 pj0 pi1 pj1 dir side sgcw st gcw u rhs)
              (fun S p => @adjcelldiffusioncfbdryrhs2d S i0 j0 i1 j1 pi0 pj0 pi1 pj1 dir side sgcw st gcw u rhs)
| RC41_offdiag_3d i0 j0 k0 i1 j1 k1 bi0 bj0 bk0 bi1 bj1 bk1 b0 b1 b2 sgcw st :
    i0 <= i1 + 1 ->
    j0 <= j1 + 1 ->
    k0 <= k1 + 1 ->
    apart st [b0; b1; b2] ->
    reference (fun S p => @cd_stencil_3d_offdiag S i0 j0 k0 i1 j1 k1 bi0 bj0 bk0 bi1 bj1 bk1 p (p 4) b0 b1 b2 sgcw st)
              (fun S p => @celldiffusionoffdiag3d S i0 j0 k0 i1 j1 k1 bi0 bj0 bk0 bi1 bj1 bk1 p (p 4) b0 b1 b2 sgcw st)
| RC41_poisson_offdiag_3d i0 j0 k0 i1 j1 k1 sgcw st :
    i0 <= i1 + 1 ->
    j0 <= j1 + 1 ->
    k0 <= k1 + 1 ->
    reference (fun S p => @cd_stencil_3d_poisson_offdiag S i0 j0 k0 i1 j1 k1 p (p 4) sgcw st)
              (fun S p => @cellpoissonoffdiag3d S i0 j0 k0 i1 j1 k1 p (p 4) sgcw st)
| RC41_v1diag_3d i0 j0 k0 i1 j1 k1 ai0 aj0 ak0 ai1 aj1 ak1 a sgcw st :
    i0 <= i1 + 1 ->
    j0 <= j1 + 1 ->
    k0 <= k1 + 1 ->
    reference (fun S p => @cd_stencil_3d_v1diag S i0 j0 k0 i1 j1 k1 ai0 aj0 ak0 ai1 aj1 ak1 (p 3) a sgcw st)
              (fun S p => @celldiffusionv1diag3d S i0 j0 k0 i1 j1 k1 ai0 aj0 ak0 ai1 aj1 ak1 (p 3) a sgcw st)
| RC41_v2diag_3d i0 j0 k0 i1 j1 k1 sgcw st :
    i0 <= i1 + 1 ->
    j0 <= j1 + 1 ->
    k0 <= k1 + 1 ->
    reference (fun S p => @cd_stencil_3d_v2diag S i0 j0 k0 i1 j1 k1 (p 3) sgcw st)
              (fun S p => @celldiffusionv2diag3d S i0 j0 k0 i1 j1 k1 (p 3) sgcw st)
| RC41_poisson_diag_3d i0 j0 k0 i1 j1 k1 sgcw st :
    i0 <= i1 + 1 ->
    j0 <= j1 + 1 ->
    k0 <= k1 + 1 ->
    reference (fun S p => @cd_stencil_3d_poisson_diag S i0 j0 k0 i1 j1 k1 sgcw st)
              (fun S p => @cellpoissondiag3d S i0 j0 k0 i1 j1 k1 sgcw st)
| RC41_adj_diag_3d i0 j0 k0 i1 j1 k1 pi0 pj0 pk0 pi1 pj1 pk1 dir side btype exOrder b0 b1 b2 sgcw st :
    side = 0 \/ side = 1 ->
    pi0 <= pi1 + 1 ->
    pj0 <= pj1 + 1 ->
    pk0 <= pk1 + 1 ->
    0 <= dir <= 2 ->
    reference (fun S p => @cd_stencil_3d_adj_diag S i0 j0 k0 i1 j1 k1 pi0 pj0 pk0 pi1 pj1 pk1 dir side btype exOrder p (p 4) b0 b1 b2 sgcw st)
              (fun S p => @adjcelldiffusiondiag3d S i0 j0 k0 i1 j1 k1 pi0 pj0 pk0 pi1 pj1 pk1 dir side btype exOrder p (p 4) b0 b1 b2 sgcw st)
| RC41_adj_poisson_diag_3d i0 j0 k0 i1 j1 k1 pi0 pj0 pk0 pi1 pj1 pk1 dir side btype exOrder sgcw st :
    side = 0 \/ side = 1 ->
    pi0 <= pi1 + 1 ->
    pj0 <= pj1 + 1 ->
    pk0 <= pk1 + 1 ->
    0 <= dir <= 2 ->
    reference (fun S p => @cd_stencil_3d_adj_poisson_diag S i0 j0 k0 i1 j1 k1 pi0 pj0 pk0 pi1 pj1 pk1 dir side btype exOrder p (p 4) sgcw st)
              (fun S p => @adjcellpoissondiag3d S i0 j0 k0 i1 j1 k1 pi0 pj0 pk0 pi1 pj1 pk1 dir side btype exOrder p (p 4) sgcw st)
| RC41_adj_cf_diag_3d i0 j0 k0 i1 j1 k1 pi0 pj0 pk0 pi1 pj1 pk1 r dir side intOrder b0 b1 b2 sgcw st :
    side = 0 \/ side = 1 ->
    pi0 <= pi1 + 1 ->
    pj0 <= pj1 + 1 ->
    pk0 <= pk1 + 1 ->
    0 <= dir <= 2 ->
    reference (fun S p => @cd_stencil_3d_adj_cf_diag S i0 j0 k0 i1 j1 k1 pi0 pj0 pk0 pi1 pj1 pk1 r dir side intOrder p (p 4) b0 b1 b2 sgcw st)
              (fun S p => @adjcelldiffusioncfdiag3d S i0 j0 k0 i1 j1 k1 pi0 pj0 pk0 pi1 pj1 pk1 r dir side intOrder p (p 4) b0 b1 b2 sgcw st)
| RC41_adj_poisson_cf_diag_3d i0 j0 k0 i1 j1 k1 pi0 pj0 pk0 pi1 pj1 pk1 r dir side intOrder sgcw st :
    side = 0 \/ side = 1 ->
    pi0 <= pi1 + 1 ->
    pj0 <= pj1 + 1 ->
    pk0 <= pk1 + 1 ->
    0 <= dir <= 2 ->
    reference (fun S p => @cd_stencil_3d_adj_poisson_cf_diag S i0 j0 k0 i1 j1 k1 pi0 pj0 pk0 pi1 pj1 pk1 r dir side intOrder p (p 4) sgcw st)
              (fun S p => @adjcellpoissoncfdiag3d S i0 j0 k0 i1 j1 k1 pi0 pj0 pk0 pi1 pj1 pk1 r dir side intOrder p (p 4) sgcw st)
| RC41_adj_offdiag_3d i0 j0 k0 i1 j1 k1 pi0 pj0 pk0 pi1 pj1 pk1 dir side btype exOrder b0 b1 b2 sgcw st :
    side = 0 \/ side = 1 ->
    pi0 <= pi1 + 1 ->
    pj0 <= pj1 + 1 ->
    pk0 <= pk1 + 1 ->
    apart st [b0; b1; b2] ->
    reference (fun S p => @cd_stencil_3d_adj_offdiag S i0 j0 k0 i1 j1 k1 pi0 pj0 pk0 pi1 pj1 pk1 dir side btype exOrder p (p 5) (p 6) (p 4) b0 b1 b2 sgcw st)
              (fun S p => @adjcelldiffusionoffdiag3d S i0 j0 k0 i1 j1 k1 pi0 pj0 pk0 pi1 pj1 pk1 dir side btype exOrder p (p 5) (p 6) (p 4) b0 b1 b2 sgcw st)
| RC41_adj_poisson_offdiag_3d i0 j0 k0 i1 j1 k1 pi0 pj0 pk0 pi1 pj1 pk1 dir side btype exOrder sgcw st :
    side = 0 \/ side = 1 ->
    pi0 <= pi1 + 1 ->
    pj0 <= pj1 + 1 ->
    pk0 <= pk1 + 1 ->
    reference (fun S p => @cd_stencil_3d_adj_poisson_offdiag S i0 j0 k0 i1 j1 k1 pi0 pj0 pk0 pi1 pj1 pk1 dir side btype exOrder p (p 5) (p 6) (p 4) sgcw st)
              (fun S p => @adjcellpoissonoffdiag3d S i0 j0 k0 i1 j1 k1 pi0 pj0 pk0 pi1 pj1 pk1 dir side btype exOrder p (p 5) (p 6) (p 4) sgcw st)
| RC41_adj_cf_offdiag_3d i0 j0 k0 i1 j1 k1 ci0 cj0 ck0 ci1 cj1 ck1 r dir side intOrder sgcw st :
    side = 0 \/ side = 1 ->
    ci0 <= ci1 + 1 ->
    cj0 <= cj1 + 1 ->
    ck0 <= ck1 + 1 ->
    reference (fun S p => @cd_stencil_3d_adj_cf_offdiag S i0 j0 k0 i1 j1 k1 ci0 cj0 ck0 ci1 cj1 ck1 r dir side intOrder sgcw st)
              (fun S p => @adjcelldiffusioncfoffdiag3d S i0 j0 k0 i1 j1 k1 ci0 cj0 ck0 ci1 cj1 ck1 r dir side intOrder sgcw st)
| RC41_readj_offdiag_3d i0 j0 k0 i1 j1 k1 pi0 pj0 pk0 pi1 pj1 pk1 dir side sgcw st :
    side = 0 \/ side = 1 ->
    pi0 <= pi1 + 1 ->
    pj0 <= pj1 + 1 ->
    pk0 <= pk1 + 1 ->
    reference (fun S p => @cd_stencil_3d_readj_offdiag S i0 j0 k0 i1 j1 k1 pi0 pj0 pk0 pi1 pj1 pk1 dir side sgcw st)
              (fun S p => @readjcelldiffusionoffdiag3d S i0 j0 k0 i1 j1 k1 pi0 pj0 pk0 pi1 pj1 pk1 dir side sgcw st)
| RC41_adj_cf_bdryrhs_3d i0 j0 k0 i1 j1 k1 pi0 pj0 pk0 pi1 pj1 pk1 dir side sgcw st gcw u rhs :
    side = 0 \/ side = 1 ->
    pi0 <= pi1 + 1 ->
    pj0 <= pj1 + 1 ->
    pk0 <= pk1 + 1 ->
    reference (fun S p => @cd_stencil_3d_adj_cf_bdryrhs S i0 j0 k0 i1 j1 k1 pi0 pj0 pk0 pi1 pj1 pk1 dir side sgcw st gcw u rhs)
              (fun S p => @adjcelldiffusioncfbdryrhs3d S i0 j0 k0 i1 j1 k1 pi0 pj0 pk0 pi1 pj1 pk1 dir side sgcw st gcw u rhs).
