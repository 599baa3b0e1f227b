(** * The kernels and the reference subroutines as programs

    Generated by tools/gen_uniform.py.  The scalar parameters of a kernel are the
    values of one function [p]: [dx] is [p] itself, so that its three entries are
    [p 0], [p 1] and [p 2]; [alpha] (or [a]) is [p 3], [beta] (or [b]) is [p 4],
    and [dir_factor] (or the weight of a smoother) and [neu_factor] are [p 5] and
    [p 6].  Integers and addresses are fixed. *)

From Verif Require Import Base SpecRel KernelsFlux KernelsApply KernelsCopy KernelsDot KernelsBC KernelsStencil FortranFlux FortranApply FortranCopy FortranBC FortranHomog FortranStencil1 FortranStencil2 FortranStencil3 FortranSmooth.
Import ListNotations.
Open Scope Z_scope.

(** The kernels of src/cuda. *)
Inductive kernel : prog -> Prop :=
(* KernelsFlux.v *)
| L_cdf_1d_flux (i0 i1 : Z) (b0 : ptr) (gcw : Z) (u f0 : ptr) :
    kernel (fun S p => @cdf_1d_flux S i0 i1 p b0 gcw u f0)
| L_cdf_1d_poisson_flux (i0 i1 gcw : Z) (u f0 : ptr) :
    kernel (fun S p => @cdf_1d_poisson_flux S i0 i1 p gcw u f0)
| L_cdf_2d_flux (i0 j0 i1 j1 : Z) (b0 b1 : ptr) (gcw : Z) (u f0 f1 : ptr) :
    kernel (fun S p => @cdf_2d_flux S i0 j0 i1 j1 p b0 b1 gcw u f0 f1)
| L_cdf_2d_poisson_flux (i0 j0 i1 j1 gcw : Z) (u f0 f1 : ptr) :
    kernel (fun S p => @cdf_2d_poisson_flux S i0 j0 i1 j1 p gcw u f0 f1)
| L_cdf_3d_flux (i0 j0 k0 i1 j1 k1 : Z) (b0 b1 b2 : ptr) (gcw : Z) (u f0 f1 f2 : ptr) :
    kernel (fun S p => @cdf_3d_flux S i0 j0 k0 i1 j1 k1 p b0 b1 b2 gcw u f0 f1 f2)
| L_cdf_3d_poisson_flux (i0 j0 k0 i1 j1 k1 gcw : Z) (u f0 f1 f2 : ptr) :
    kernel (fun S p => @cdf_3d_poisson_flux S i0 j0 k0 i1 j1 k1 p gcw u f0 f1 f2)
(* KernelsApply.v *)
| L_cd_apply_1d_diffusion_v1_res (i0 i1 agcw : Z) (a : ptr) (ugcw : Z) (u : ptr) (fgcw : Z) (f f0 : ptr) (rgcw : Z) (res : ptr) :
    kernel (fun S p => @cd_apply_1d_diffusion_v1_res S i0 i1 (p 3) (p 4) p agcw a ugcw u fgcw f f0 rgcw res)
| L_cd_apply_1d_diffusion_v2_res (i0 i1 ugcw : Z) (u : ptr) (fgcw : Z) (f f0 : ptr) (rgcw : Z) (res : ptr) :
    kernel (fun S p => @cd_apply_1d_diffusion_v2_res S i0 i1 (p 3) (p 4) p ugcw u fgcw f f0 rgcw res)
| L_cd_apply_1d_poisson_v1_res (i0 i1 fgcw : Z) (f f0 : ptr) (rgcw : Z) (res : ptr) :
    kernel (fun S p => @cd_apply_1d_poisson_v1_res S i0 i1 (p 4) p fgcw f f0 rgcw res)
| L_cd_apply_1d_diffusion_v1_apply (i0 i1 agcw : Z) (a : ptr) (ugcw : Z) (u f0 : ptr) (rgcw : Z) (res : ptr) :
    kernel (fun S p => @cd_apply_1d_diffusion_v1_apply S i0 i1 (p 3) (p 4) p agcw a ugcw u f0 rgcw res)
| L_cd_apply_1d_diffusion_v2_apply (i0 i1 ugcw : Z) (u f0 : ptr) (rgcw : Z) (res : ptr) :
    kernel (fun S p => @cd_apply_1d_diffusion_v2_apply S i0 i1 (p 3) (p 4) p ugcw u f0 rgcw res)
| L_cd_apply_1d_poisson_v2_apply (i0 i1 : Z) (f0 : ptr) (rgcw : Z) (res : ptr) :
    kernel (fun S p => @cd_apply_1d_poisson_v2_apply S i0 i1 (p 4) p f0 rgcw res)
| L_cd_apply_2d_diffusion_v1_res (i0 i1 j0 j1 agcw : Z) (a : ptr) (ugcw : Z) (u : ptr) (fgcw : Z) (f f0 f1 : ptr) (rgcw : Z) (res : ptr) :
    kernel (fun S p => @cd_apply_2d_diffusion_v1_res S i0 i1 j0 j1 (p 3) (p 4) p agcw a ugcw u fgcw f f0 f1 rgcw res)
| L_cd_apply_2d_diffusion_v2_res (i0 i1 j0 j1 ugcw : Z) (u : ptr) (fgcw : Z) (f f0 f1 : ptr) (rgcw : Z) (res : ptr) :
    kernel (fun S p => @cd_apply_2d_diffusion_v2_res S i0 i1 j0 j1 (p 3) (p 4) p ugcw u fgcw f f0 f1 rgcw res)
| L_cd_apply_2d_poisson_v1_res (i0 i1 j0 j1 fgcw : Z) (f f0 f1 : ptr) (rgcw : Z) (res : ptr) :
    kernel (fun S p => @cd_apply_2d_poisson_v1_res S i0 i1 j0 j1 (p 4) p fgcw f f0 f1 rgcw res)
| L_cd_apply_2d_diffusion_v1_apply (i0 i1 j0 j1 agcw : Z) (a : ptr) (ugcw : Z) (u f0 f1 : ptr) (rgcw : Z) (res : ptr) :
    kernel (fun S p => @cd_apply_2d_diffusion_v1_apply S i0 i1 j0 j1 (p 3) (p 4) p agcw a ugcw u f0 f1 rgcw res)
| L_cd_apply_2d_diffusion_v2_apply (i0 i1 j0 j1 ugcw : Z) (u f0 f1 : ptr) (rgcw : Z) (res : ptr) :
    kernel (fun S p => @cd_apply_2d_diffusion_v2_apply S i0 i1 j0 j1 (p 3) (p 4) p ugcw u f0 f1 rgcw res)
| L_cd_apply_2d_poisson_v2_apply (i0 i1 j0 j1 : Z) (f0 f1 : ptr) (rgcw : Z) (res : ptr) :
    kernel (fun S p => @cd_apply_2d_poisson_v2_apply S i0 i1 j0 j1 (p 4) p f0 f1 rgcw res)
| L_cd_apply_3d_diffusion_v1_res (i0 i1 j0 j1 k0 k1 agcw : Z) (a : ptr) (ugcw : Z) (u : ptr) (fgcw : Z) (f f0 f1 f2 : ptr) (rgcw : Z) (res : ptr) :
    kernel (fun S p => @cd_apply_3d_diffusion_v1_res S i0 i1 j0 j1 k0 k1 (p 3) (p 4) p agcw a ugcw u fgcw f f0 f1 f2 rgcw res)
| L_cd_apply_3d_diffusion_v2_res (i0 i1 j0 j1 k0 k1 ugcw : Z) (u : ptr) (fgcw : Z) (f f0 f1 f2 : ptr) (rgcw : Z) (res : ptr) :
    kernel (fun S p => @cd_apply_3d_diffusion_v2_res S i0 i1 j0 j1 k0 k1 (p 3) (p 4) p ugcw u fgcw f f0 f1 f2 rgcw res)
| L_cd_apply_3d_poisson_v1_res (i0 i1 j0 j1 k0 k1 fgcw : Z) (f f0 f1 f2 : ptr) (rgcw : Z) (res : ptr) :
    kernel (fun S p => @cd_apply_3d_poisson_v1_res S i0 i1 j0 j1 k0 k1 (p 4) p fgcw f f0 f1 f2 rgcw res)
| L_cd_apply_3d_diffusion_v1_apply (i0 i1 j0 j1 k0 k1 agcw : Z) (a : ptr) (ugcw : Z) (u f0 f1 f2 : ptr) (rgcw : Z) (res : ptr) :
    kernel (fun S p => @cd_apply_3d_diffusion_v1_apply S i0 i1 j0 j1 k0 k1 (p 3) (p 4) p agcw a ugcw u f0 f1 f2 rgcw res)
| L_cd_apply_3d_diffusion_v2_apply (i0 i1 j0 j1 k0 k1 ugcw : Z) (u f0 f1 f2 : ptr) (rgcw : Z) (res : ptr) :
    kernel (fun S p => @cd_apply_3d_diffusion_v2_apply S i0 i1 j0 j1 k0 k1 (p 3) (p 4) p ugcw u f0 f1 f2 rgcw res)
| L_cd_apply_3d_poisson_v2_apply (i0 i1 j0 j1 k0 k1 : Z) (f0 f1 f2 : ptr) (rgcw : Z) (res : ptr) :
    kernel (fun S p => @cd_apply_3d_poisson_v2_apply S i0 i1 j0 j1 k0 k1 (p 4) p f0 f1 f2 rgcw res)
(* KernelsCopy.v *)
| L_c2f_copy (ci0 ci1 cj0 cj1 ck0 ck1 fi0 fi1 fj0 fj1 fk0 fk1 axis cbi0 cbi1 cbj0 cbj1 cbk0 cbk1 fbi0 fbi1 fbj0 fbj1 fbk0 fbk1 gcw : Z) (ratio : Z -> Z) (cdata fdata : ptr) :
    kernel (fun S p => @c2f_copy S ci0 ci1 cj0 cj1 ck0 ck1 fi0 fi1 fj0 fj1 fk0 fk1 axis cbi0 cbi1 cbj0 cbj1 cbk0 cbk1 fbi0 fbi1 fbj0 fbj1 fbk0 fbk1 gcw ratio cdata fdata)
| L_c2f_copy_corner (ci0 ci1 cj0 cj1 ck0 ck1 fi0 fi1 fj0 fj1 fk0 fk1 cbi0 cbi1 cbj0 cbj1 cbk0 cbk1 fbi0 fbi1 fbj0 fbj1 fbk0 fbk1 gcw : Z) (cdata fdata : ptr) :
    kernel (fun S p => @c2f_copy_corner S ci0 ci1 cj0 cj1 ck0 ck1 fi0 fi1 fj0 fj1 fk0 fk1 cbi0 cbi1 cbj0 cbj1 cbk0 cbk1 fbi0 fbi1 fbj0 fbj1 fbk0 fbk1 gcw cdata fdata)
(* KernelsDot.v *)
| L_dot_offset_1d (st : ptr) (sgcw : Z) (u : ptr) (ugcw : Z) (v : ptr) (vgcw : Z) (offset : ptr) (i0 i1 w1 : Z) :
    kernel (fun S p => @dot_offset_1d S st sgcw u ugcw v vgcw offset i0 i1 w1)
| L_dot_offset_2d (st : ptr) (sgcw : Z) (u : ptr) (ugcw : Z) (v : ptr) (vgcw : Z) (offset : ptr) (i0 i1 j0 j1 w1 : Z) :
    kernel (fun S p => @dot_offset_2d S st sgcw u ugcw v vgcw offset i0 i1 j0 j1 w1)
| L_dot_offset_3d (st : ptr) (sgcw : Z) (u : ptr) (ugcw : Z) (v : ptr) (vgcw : Z) (offset : ptr) (i0 i1 j0 j1 k0 k1 w1 : Z) :
    kernel (fun S p => @dot_offset_3d S st sgcw u ugcw v vgcw offset i0 i1 j0 j1 k0 k1 w1)
| L_ls_apply_st_3d_at_point (i0 i1 j0 j1 k0 k1 i j k stencil_sz : Z) (offsets st : ptr) (fgcw : Z) (f : ptr) (ugcw : Z) (u : ptr) (rgcw : Z) (r : ptr) :
    kernel (fun S p => @ls_apply_st_3d_at_point S i0 i1 j0 j1 k0 k1 i j k stencil_sz offsets st (p 3) (p 4) fgcw f ugcw u rgcw r)
(* KernelsBC.v *)
| L_cd_1d_set_bc (i0 i1 dgcw : Z) (d0 : ptr) (ugcw : Z) (u : ptr) (bLo bHi : Z -> Z) (exOrder face btype : Z) :
    kernel (fun S p => @cd_1d_set_bc S i0 i1 p dgcw d0 ugcw u bLo bHi exOrder face btype (p 3) (p 4))
| L_cd_1d_set_poisson_bc (i0 i1 ugcw : Z) (u : ptr) (bLo bHi : Z -> Z) (exOrder face btype : Z) :
    kernel (fun S p => @cd_1d_set_poisson_bc S i0 i1 p ugcw u bLo bHi exOrder face btype (p 3) (p 4))
| L_cd_2d_set_bc (i0 i1 j0 j1 dgcw : Z) (d0 d1 : ptr) (ugcw : Z) (u : ptr) (bLo bHi : Z -> Z) (exOrder face type btype : Z) :
    kernel (fun S p => @cd_2d_set_bc S i0 i1 j0 j1 p dgcw d0 d1 ugcw u bLo bHi exOrder face type btype (p 3) (p 4))
| L_cd_2d_set_poisson_bc (i0 i1 j0 j1 ugcw : Z) (u : ptr) (bLo bHi : Z -> Z) (exOrder face type btype : Z) :
    kernel (fun S p => @cd_2d_set_poisson_bc S i0 i1 j0 j1 p ugcw u bLo bHi exOrder face type btype (p 3) (p 4))
| L_cd_2d_set_corner_bc (i0 i1 j0 j1 gcw : Z) (d0 d1 u : ptr) (bLo bHi : Z -> Z) (exOrder face type btype : Z) :
    kernel (fun S p => @cd_2d_set_corner_bc S i0 i1 j0 j1 gcw p d0 d1 u bLo bHi exOrder face type btype)
| L_cd_2d_set_homogenous_bc (i0 j0 i1 j1 face : Z) (bLo bHi : Z -> Z) (exOrder : Z) (u : ptr) :
    kernel (fun S p => @cd_2d_set_homogenous_bc S i0 j0 i1 j1 face bLo bHi exOrder u)
| L_cd_3d_set_bc (i0 i1 j0 j1 k0 k1 dgcw : Z) (d0 d1 d2 : ptr) (ugcw : Z) (u : ptr) (bLo bHi : Z -> Z) (exOrder face type btype : Z) :
    kernel (fun S p => @cd_3d_set_bc S i0 i1 j0 j1 k0 k1 p dgcw d0 d1 d2 ugcw u bLo bHi exOrder face type btype (p 3) (p 4))
| L_cd_3d_set_poisson_bc (i0 i1 j0 j1 k0 k1 ugcw : Z) (u : ptr) (bLo bHi : Z -> Z) (exOrder face type btype : Z) :
    kernel (fun S p => @cd_3d_set_poisson_bc S i0 i1 j0 j1 k0 k1 p ugcw u bLo bHi exOrder face type btype (p 3) (p 4))
(* KernelsStencil.v *)
| L_cd_stencil_1d_offdiag (i0 i1 bi0 bi1 : Z) (b0 : ptr) (sgcw : Z) (st : ptr) :
    kernel (fun S p => @cd_stencil_1d_offdiag S i0 i1 bi0 bi1 p (p 4) b0 sgcw st)
| L_cd_stencil_1d_poisson_offdiag (i0 i1 sgcw : Z) (st : ptr) :
    kernel (fun S p => @cd_stencil_1d_poisson_offdiag S i0 i1 p (p 4) sgcw st)
| L_cd_stencil_1d_v1diag (i0 i1 ai0 ai1 : Z) (a : ptr) (sgcw : Z) (st : ptr) :
    kernel (fun S p => @cd_stencil_1d_v1diag S i0 i1 ai0 ai1 (p 3) a sgcw st)
| L_cd_stencil_1d_v2diag (i0 i1 sgcw : Z) (st : ptr) :
    kernel (fun S p => @cd_stencil_1d_v2diag S i0 i1 (p 3) sgcw st)
| L_cd_stencil_1d_poisson_diag (i0 i1 sgcw : Z) (st : ptr) :
    kernel (fun S p => @cd_stencil_1d_poisson_diag S i0 i1 sgcw st)
| L_cd_stencil_1d_adj_diag (i0 i1 pi0 pi1 side btype exOrder : Z) (b0 : ptr) (sgcw : Z) (st : ptr) :
    kernel (fun S p => @cd_stencil_1d_adj_diag S i0 i1 pi0 pi1 side btype exOrder p (p 4) b0 sgcw st)
| L_cd_stencil_1d_adj_poisson_diag (i0 i1 pi0 pi1 side btype exOrder sgcw : Z) (st : ptr) :
    kernel (fun S p => @cd_stencil_1d_adj_poisson_diag S i0 i1 pi0 pi1 side btype exOrder p (p 4) sgcw st)
| L_cd_stencil_1d_adj_cf_diag (i0 i1 pi0 pi1 r side intOrder : Z) (b0 : ptr) (sgcw : Z) (st : ptr) :
    kernel (fun S p => @cd_stencil_1d_adj_cf_diag S i0 i1 pi0 pi1 r side intOrder p (p 4) b0 sgcw st)
| L_cd_stencil_1d_adj_poisson_cf_diag (i0 i1 pi0 pi1 r side intOrder sgcw : Z) (st : ptr) :
    kernel (fun S p => @cd_stencil_1d_adj_poisson_cf_diag S i0 i1 pi0 pi1 r side intOrder p (p 4) sgcw st)
| L_cd_stencil_1d_adj_offdiag (i0 i1 pi0 pi1 side btype exOrder : Z) (b0 : ptr) (sgcw : Z) (st : ptr) :
    kernel (fun S p => @cd_stencil_1d_adj_offdiag S i0 i1 pi0 pi1 side btype exOrder p (p 5) (p 6) (p 4) b0 sgcw st)
| L_cd_stencil_1d_adj_poisson_offdiag (i0 i1 pi0 pi1 side btype exOrder sgcw : Z) (st : ptr) :
    kernel (fun S p => @cd_stencil_1d_adj_poisson_offdiag S i0 i1 pi0 pi1 side btype exOrder p (p 5) (p 6) (p 4) sgcw st)
| L_cd_stencil_1d_adj_cf_offdiag (i0 i1 ci0 ci1 r side intOrder sgcw : Z) (st : ptr) :
    kernel (fun S p => @cd_stencil_1d_adj_cf_offdiag S i0 i1 ci0 ci1 r side intOrder sgcw st)
| L_cd_stencil_1d_readj_offdiag (i0 i1 pi0 pi1 side sgcw : Z) (st : ptr) :
    kernel (fun S p => @cd_stencil_1d_readj_offdiag S i0 i1 pi0 pi1 side sgcw st)
| L_cd_stencil_1d_adj_cf_bdryrhs (i0 i1 pi0 pi1 side sgcw : Z) (st : ptr) (gcw : Z) (u rhs : ptr) :
    kernel (fun S p => @cd_stencil_1d_adj_cf_bdryrhs S i0 i1 pi0 pi1 side sgcw st gcw u rhs)
| L_cd_stencil_2d_offdiag (i0 j0 i1 j1 bi0 bj0 bi1 bj1 : Z) (b0 b1 : ptr) (sgcw : Z) (st : ptr) :
    kernel (fun S p => @cd_stencil_2d_offdiag S i0 j0 i1 j1 bi0 bj0 bi1 bj1 p (p 4) b0 b1 sgcw st)
| L_cd_stencil_2d_poisson_offdiag (i0 j0 i1 j1 sgcw : Z) (st : ptr) :
    kernel (fun S p => @cd_stencil_2d_poisson_offdiag S i0 j0 i1 j1 p (p 4) sgcw st)
| L_cd_stencil_2d_v1diag (i0 j0 i1 j1 ai0 aj0 ai1 aj1 : Z) (a : ptr) (sgcw : Z) (st : ptr) :
    kernel (fun S p => @cd_stencil_2d_v1diag S i0 j0 i1 j1 ai0 aj0 ai1 aj1 (p 3) a sgcw st)
| L_cd_stencil_2d_v2diag (i0 j0 i1 j1 sgcw : Z) (st : ptr) :
    kernel (fun S p => @cd_stencil_2d_v2diag S i0 j0 i1 j1 (p 3) sgcw st)
| L_cd_stencil_2d_poisson_diag (i0 j0 i1 j1 sgcw : Z) (st : ptr) :
    kernel (fun S p => @cd_stencil_2d_poisson_diag S i0 j0 i1 j1 sgcw st)
| L_cd_stencil_2d_adj_diag (i0 j0 i1 j1 pi0 pj0 pi1 pj1 dir side btype exOrder : Z) (b0 b1 : ptr) (sgcw : Z) (st : ptr) :
    kernel (fun S p => @cd_stencil_2d_adj_diag S i0 j0 i1 j1 pi0 pj0 pi1 pj1 dir side btype exOrder p (p 4) b0 b1 sgcw st)
| L_cd_stencil_2d_adj_poisson_diag (i0 j0 i1 j1 pi0 pj0 pi1 pj1 dir side btype exOrder sgcw : Z) (st : ptr) :
    kernel (fun S p => @cd_stencil_2d_adj_poisson_diag S i0 j0 i1 j1 pi0 pj0 pi1 pj1 dir side btype exOrder p (p 4) sgcw st)
| L_cd_stencil_2d_adj_cf_diag (i0 j0 i1 j1 pi0 pj0 pi1 pj1 r dir side intOrder : Z) (b0 b1 : ptr) (sgcw : Z) (st : ptr) :
    kernel (fun S p => @cd_stencil_2d_adj_cf_diag S i0 j0 i1 j1 pi0 pj0 pi1 pj1 r dir side intOrder p (p 4) b0 b1 sgcw st)
| L_cd_stencil_2d_adj_poisson_cf_diag (i0 j0 i1 j1 pi0 pj0 pi1 pj1 r dir side intOrder sgcw : Z) (st : ptr) :
    kernel (fun S p => @cd_stencil_2d_adj_poisson_cf_diag S i0 j0 i1 j1 pi0 pj0 pi1 pj1 r dir side intOrder p (p 4) sgcw st)
| L_cd_stencil_2d_adj_offdiag (i0 j0 i1 j1 pi0 pj0 pi1 pj1 dir side btype exOrder : Z) (b0 b1 : ptr) (sgcw : Z) (st : ptr) :
    kernel (fun S p => @cd_stencil_2d_adj_offdiag S i0 j0 i1 j1 pi0 pj0 pi1 pj1 dir side btype exOrder p (p 5) (p 6) (p 4) b0 b1 sgcw st)
| L_cd_stencil_2d_adj_poisson_offdiag (i0 j0 i1 j1 pi0 pj0 pi1 pj1 dir side btype exOrder sgcw : Z) (st : ptr) :
    kernel (fun S p => @cd_stencil_2d_adj_poisson_offdiag S i0 j0 i1 j1 pi0 pj0 pi1 pj1 dir side btype exOrder p (p 5) (p 6) (p 4) sgcw st)
| L_cd_stencil_2d_adj_cf_offdiag (i0 j0 i1 j1 ci0 cj0 ci1 cj1 r dir side intOrder sgcw : Z) (st : ptr) :
    kernel (fun S p => @cd_stencil_2d_adj_cf_offdiag S i0 j0 i1 j1 ci0 cj0 ci1 cj1 r dir side intOrder sgcw st)
| L_cd_stencil_2d_readj_offdiag (i0 j0 i1 j1 pi0 pj0 pi1 pj1 dir side sgcw : Z) (st : ptr) :
    kernel (fun S p => @cd_stencil_2d_readj_offdiag S i0 j0 i1 j1 pi0 pj0 pi1 pj1 dir side sgcw st)
| L_cd_stencil_2d_adj_cf_bdryrhs (i0 j0 i1 j1 pi0 pj0 pi1 pj1 dir side sgcw : Z) (st : ptr) (gcw : Z) (u rhs : ptr) :
    kernel (fun S p => @cd_stencil_2d_adj_cf_bdryrhs S i0 j0 i1 j1 pi0 pj0 pi1 pj1 dir side sgcw st gcw u rhs)
| L_cd_stencil_3d_offdiag (i0 j0 k0 i1 j1 k1 bi0 bj0 bk0 bi1 bj1 bk1 : Z) (b0 b1 b2 : ptr) (sgcw : Z) (st : ptr) :
    kernel (fun S p => @cd_stencil_3d_offdiag S i0 j0 k0 i1 j1 k1 bi0 bj0 bk0 bi1 bj1 bk1 p (p 4) b0 b1 b2 sgcw st)
| L_cd_stencil_3d_poisson_offdiag (i0 j0 k0 i1 j1 k1 sgcw : Z) (st : ptr) :
    kernel (fun S p => @cd_stencil_3d_poisson_offdiag S i0 j0 k0 i1 j1 k1 p (p 4) sgcw st)
| L_cd_stencil_3d_v1diag (i0 j0 k0 i1 j1 k1 ai0 aj0 ak0 ai1 aj1 ak1 : Z) (a : ptr) (sgcw : Z) (st : ptr) :
    kernel (fun S p => @cd_stencil_3d_v1diag S i0 j0 k0 i1 j1 k1 ai0 aj0 ak0 ai1 aj1 ak1 (p 3) a sgcw st)
| L_cd_stencil_3d_v2diag (i0 j0 k0 i1 j1 k1 sgcw : Z) (st : ptr) :
    kernel (fun S p => @cd_stencil_3d_v2diag S i0 j0 k0 i1 j1 k1 (p 3) sgcw st)
| L_cd_stencil_3d_poisson_diag (i0 j0 k0 i1 j1 k1 sgcw : Z) (st : ptr) :
    kernel (fun S p => @cd_stencil_3d_poisson_diag S i0 j0 k0 i1 j1 k1 sgcw st)
| L_cd_stencil_3d_adj_diag (i0 j0 k0 i1 j1 k1 pi0 pj0 pk0 pi1 pj1 pk1 dir side btype exOrder : Z) (b0 b1 b2 : ptr) (sgcw : Z) (st : ptr) :
    kernel (fun S p => @cd_stencil_3d_adj_diag S i0 j0 k0 i1 j1 k1 pi0 pj0 pk0 pi1 pj1 pk1 dir side btype exOrder p (p 4) b0 b1 b2 sgcw st)
| L_cd_stencil_3d_adj_poisson_diag (i0 j0 k0 i1 j1 k1 pi0 pj0 pk0 pi1 pj1 pk1 dir side btype exOrder sgcw : Z) (st : ptr) :
    kernel (fun S p => @cd_stencil_3d_adj_poisson_diag S i0 j0 k0 i1 j1 k1 pi0 pj0 pk0 pi1 pj1 pk1 dir side btype exOrder p (p 4) sgcw st)
| L_cd_stencil_3d_adj_cf_diag (i0 j0 k0 i1 j1 k1 pi0 pj0 pk0 pi1 pj1 pk1 r dir side intOrder : Z) (b0 b1 b2 : ptr) (sgcw : Z) (st : ptr) :
    kernel (fun S p => @cd_stencil_3d_adj_cf_diag S i0 j0 k0 i1 j1 k1 pi0 pj0 pk0 pi1 pj1 pk1 r dir side intOrder p (p 4) b0 b1 b2 sgcw st)
| L_cd_stencil_3d_adj_poisson_cf_diag (i0 j0 k0 i1 j1 k1 pi0 pj0 pk0 pi1 pj1 pk1 r dir side intOrder sgcw : Z) (st : ptr) :
    kernel (fun S p => @cd_stencil_3d_adj_poisson_cf_diag S i0 j0 k0 i1 j1 k1 pi0 pj0 pk0 pi1 pj1 pk1 r dir side intOrder p (p 4) sgcw st)
| L_cd_stencil_3d_adj_offdiag (i0 j0 k0 i1 j1 k1 pi0 pj0 pk0 pi1 pj1 pk1 dir side btype exOrder : Z) (b0 b1 b2 : ptr) (sgcw : Z) (st : ptr) :
    kernel (fun S p => @cd_stencil_3d_adj_offdiag S i0 j0 k0 i1 j1 k1 pi0 pj0 pk0 pi1 pj1 pk1 dir side btype exOrder p (p 5) (p 6) (p 4) b0 b1 b2 sgcw st)
| L_cd_stencil_3d_adj_poisson_offdiag (i0 j0 k0 i1 j1 k1 pi0 pj0 pk0 pi1 pj1 pk1 dir side btype exOrder sgcw : Z) (st : ptr) :
    kernel (fun S p => @cd_stencil_3d_adj_poisson_offdiag S i0 j0 k0 i1 j1 k1 pi0 pj0 pk0 pi1 pj1 pk1 dir side btype exOrder p (p 5) (p 6) (p 4) sgcw st)
| L_cd_stencil_3d_adj_cf_offdiag (i0 j0 k0 i1 j1 k1 ci0 cj0 ck0 ci1 cj1 ck1 r dir side intOrder sgcw : Z) (st : ptr) :
    kernel (fun S p => @cd_stencil_3d_adj_cf_offdiag S i0 j0 k0 i1 j1 k1 ci0 cj0 ck0 ci1 cj1 ck1 r dir side intOrder sgcw st)
| L_cd_stencil_3d_readj_offdiag (i0 j0 k0 i1 j1 k1 pi0 pj0 pk0 pi1 pj1 pk1 dir side sgcw : Z) (st : ptr) :
    kernel (fun S p => @cd_stencil_3d_readj_offdiag S i0 j0 k0 i1 j1 k1 pi0 pj0 pk0 pi1 pj1 pk1 dir side sgcw st)
| L_cd_stencil_3d_adj_cf_bdryrhs (i0 j0 k0 i1 j1 k1 pi0 pj0 pk0 pi1 pj1 pk1 dir side sgcw : Z) (st : ptr) (gcw : Z) (u rhs : ptr) :
    kernel (fun S p => @cd_stencil_3d_adj_cf_bdryrhs S i0 j0 k0 i1 j1 k1 pi0 pj0 pk0 pi1 pj1 pk1 dir side sgcw st gcw u rhs).

(** The subroutines of m4. *)
Inductive subroutine : prog -> Prop :=
(* FortranFlux.v *)
| L_celldiffusionflux1d (ifirst0 ilast0 : Z) (b0 : ptr) (gcw : Z) (u flux0 : ptr) :
    subroutine (fun S p => @celldiffusionflux1d S ifirst0 ilast0 p b0 gcw u flux0)
| L_cellpoissonflux1d (ifirst0 ilast0 gcw : Z) (u flux0 : ptr) :
    subroutine (fun S p => @cellpoissonflux1d S ifirst0 ilast0 p gcw u flux0)
| L_celldiffusionflux2d (ifirst0 ifirst1 ilast0 ilast1 : Z) (b0 b1 : ptr) (gcw : Z) (u flux0 flux1 : ptr) :
    subroutine (fun S p => @celldiffusionflux2d S ifirst0 ifirst1 ilast0 ilast1 p b0 b1 gcw u flux0 flux1)
| L_cellpoissonflux2d (ifirst0 ifirst1 ilast0 ilast1 gcw : Z) (u flux0 flux1 : ptr) :
    subroutine (fun S p => @cellpoissonflux2d S ifirst0 ifirst1 ilast0 ilast1 p gcw u flux0 flux1)
| L_celldiffusionflux3d (ifirst0 ifirst1 ifirst2 ilast0 ilast1 ilast2 : Z) (b0 b1 b2 : ptr) (gcw : Z) (u flux0 flux1 flux2 : ptr) :
    subroutine (fun S p => @celldiffusionflux3d S ifirst0 ifirst1 ifirst2 ilast0 ilast1 ilast2 p b0 b1 b2 gcw u flux0 flux1 flux2)
| L_cellpoissonflux3d (ifirst0 ifirst1 ifirst2 ilast0 ilast1 ilast2 gcw : Z) (u flux0 flux1 flux2 : ptr) :
    subroutine (fun S p => @cellpoissonflux3d S ifirst0 ifirst1 ifirst2 ilast0 ilast1 ilast2 p gcw u flux0 flux1 flux2)
(* FortranApply.v *)
| L_celldiffusionv1res1d (ifirst0 ilast0 agcw : Z) (acoef : ptr) (ugcw : Z) (u : ptr) (fgcw : Z) (f flux0 : ptr) (rgcw : Z) (res : ptr) :
    subroutine (fun S p => @celldiffusionv1res1d S ifirst0 ilast0 (p 3) (p 4) p agcw acoef ugcw u fgcw f flux0 rgcw res)
| L_celldiffusionv2res1d (ifirst0 ilast0 ugcw : Z) (u : ptr) (fgcw : Z) (f flux0 : ptr) (rgcw : Z) (res : ptr) :
    subroutine (fun S p => @celldiffusionv2res1d S ifirst0 ilast0 (p 3) (p 4) p ugcw u fgcw f flux0 rgcw res)
| L_cellpoissonv1res1d (ifirst0 ilast0 fgcw : Z) (f flux0 : ptr) (rgcw : Z) (res : ptr) :
    subroutine (fun S p => @cellpoissonv1res1d S ifirst0 ilast0 (p 4) p fgcw f flux0 rgcw res)
| L_celldiffusionv1apply1d (ifirst0 ilast0 agcw : Z) (acoef : ptr) (ugcw : Z) (u flux0 : ptr) (rgcw : Z) (res : ptr) :
    subroutine (fun S p => @celldiffusionv1apply1d S ifirst0 ilast0 (p 3) (p 4) p agcw acoef ugcw u flux0 rgcw res)
| L_celldiffusionv2apply1d (ifirst0 ilast0 ugcw : Z) (u flux0 : ptr) (rgcw : Z) (res : ptr) :
    subroutine (fun S p => @celldiffusionv2apply1d S ifirst0 ilast0 (p 3) (p 4) p ugcw u flux0 rgcw res)
| L_cellpoissonv2apply1d (ifirst0 ilast0 : Z) (flux0 : ptr) (rgcw : Z) (res : ptr) :
    subroutine (fun S p => @cellpoissonv2apply1d S ifirst0 ilast0 (p 4) p flux0 rgcw res)
| L_celldiffusionv1res2d (ifirst0 ilast0 ifirst1 ilast1 agcw : Z) (acoef : ptr) (ugcw : Z) (u : ptr) (fgcw : Z) (f flux0 flux1 : ptr) (rgcw : Z) (res : ptr) :
    subroutine (fun S p => @celldiffusionv1res2d S ifirst0 ilast0 ifirst1 ilast1 (p 3) (p 4) p agcw acoef ugcw u fgcw f flux0 flux1 rgcw res)
| L_celldiffusionv2res2d (ifirst0 ilast0 ifirst1 ilast1 ugcw : Z) (u : ptr) (fgcw : Z) (f flux0 flux1 : ptr) (rgcw : Z) (res : ptr) :
    subroutine (fun S p => @celldiffusionv2res2d S ifirst0 ilast0 ifirst1 ilast1 (p 3) (p 4) p ugcw u fgcw f flux0 flux1 rgcw res)
| L_cellpoissonv1res2d (ifirst0 ilast0 ifirst1 ilast1 fgcw : Z) (f flux0 flux1 : ptr) (rgcw : Z) (res : ptr) :
    subroutine (fun S p => @cellpoissonv1res2d S ifirst0 ilast0 ifirst1 ilast1 (p 4) p fgcw f flux0 flux1 rgcw res)
| L_celldiffusionv1apply2d (ifirst0 ilast0 ifirst1 ilast1 agcw : Z) (acoef : ptr) (ugcw : Z) (u flux0 flux1 : ptr) (rgcw : Z) (res : ptr) :
    subroutine (fun S p => @celldiffusionv1apply2d S ifirst0 ilast0 ifirst1 ilast1 (p 3) (p 4) p agcw acoef ugcw u flux0 flux1 rgcw res)
| L_celldiffusionv2apply2d (ifirst0 ilast0 ifirst1 ilast1 ugcw : Z) (u flux0 flux1 : ptr) (rgcw : Z) (res : ptr) :
    subroutine (fun S p => @celldiffusionv2apply2d S ifirst0 ilast0 ifirst1 ilast1 (p 3) (p 4) p ugcw u flux0 flux1 rgcw res)
| L_cellpoissonv2apply2d (ifirst0 ilast0 ifirst1 ilast1 : Z) (flux0 flux1 : ptr) (rgcw : Z) (res : ptr) :
    subroutine (fun S p => @cellpoissonv2apply2d S ifirst0 ilast0 ifirst1 ilast1 (p 4) p flux0 flux1 rgcw res)
| L_celldiffusionv1res3d (ifirst0 ilast0 ifirst1 ilast1 ifirst2 ilast2 agcw : Z) (acoef : ptr) (ugcw : Z) (u : ptr) (fgcw : Z) (f flux0 flux1 flux2 : ptr) (rgcw : Z) (res : ptr) :
    subroutine (fun S p => @celldiffusionv1res3d S ifirst0 ilast0 ifirst1 ilast1 ifirst2 ilast2 (p 3) (p 4) p agcw acoef ugcw u fgcw f flux0 flux1 flux2 rgcw res)
| L_celldiffusionv2res3d (ifirst0 ilast0 ifirst1 ilast1 ifirst2 ilast2 ugcw : Z) (u : ptr) (fgcw : Z) (f flux0 flux1 flux2 : ptr) (rgcw : Z) (res : ptr) :
    subroutine (fun S p => @celldiffusionv2res3d S ifirst0 ilast0 ifirst1 ilast1 ifirst2 ilast2 (p 3) (p 4) p ugcw u fgcw f flux0 flux1 flux2 rgcw res)
| L_cellpoissonv1res3d (ifirst0 ilast0 ifirst1 ilast1 ifirst2 ilast2 fgcw : Z) (f flux0 flux1 flux2 : ptr) (rgcw : Z) (res : ptr) :
    subroutine (fun S p => @cellpoissonv1res3d S ifirst0 ilast0 ifirst1 ilast1 ifirst2 ilast2 (p 4) p fgcw f flux0 flux1 flux2 rgcw res)
| L_celldiffusionv1apply3d (ifirst0 ilast0 ifirst1 ilast1 ifirst2 ilast2 agcw : Z) (acoef : ptr) (ugcw : Z) (u flux0 flux1 flux2 : ptr) (rgcw : Z) (res : ptr) :
    subroutine (fun S p => @celldiffusionv1apply3d S ifirst0 ilast0 ifirst1 ilast1 ifirst2 ilast2 (p 3) (p 4) p agcw acoef ugcw u flux0 flux1 flux2 rgcw res)
| L_celldiffusionv2apply3d (ifirst0 ilast0 ifirst1 ilast1 ifirst2 ilast2 ugcw : Z) (u flux0 flux1 flux2 : ptr) (rgcw : Z) (res : ptr) :
    subroutine (fun S p => @celldiffusionv2apply3d S ifirst0 ilast0 ifirst1 ilast1 ifirst2 ilast2 (p 3) (p 4) p ugcw u flux0 flux1 flux2 rgcw res)
| L_cellpoissonv2apply3d (ifirst0 ilast0 ifirst1 ilast1 ifirst2 ilast2 : Z) (flux0 flux1 flux2 : ptr) (rgcw : Z) (res : ptr) :
    subroutine (fun S p => @cellpoissonv2apply3d S ifirst0 ilast0 ifirst1 ilast1 ifirst2 ilast2 (p 4) p flux0 flux1 flux2 rgcw res)
(* FortranCopy.v *)
| L_copycoarsetofine3d (clo0 chi0 clo1 chi1 clo2 chi2 flo0 fhi0 flo1 fhi1 flo2 fhi2 axis cblo0 cbhi0 cblo1 cbhi1 cblo2 cbhi2 fblo0 fbhi0 fblo1 fbhi1 fblo2 fbhi2 gcw : Z) (ratio : Z -> Z) (cdata fdata : ptr) :
    subroutine (fun S p => @copycoarsetofine3d S clo0 chi0 clo1 chi1 clo2 chi2 flo0 fhi0 flo1 fhi1 flo2 fhi2 axis cblo0 cbhi0 cblo1 cbhi1 cblo2 cbhi2 fblo0 fbhi0 fblo1 fbhi1 fblo2 fbhi2 gcw ratio cdata fdata)
| L_copycoarsetofinecorner3d (clo0 chi0 clo1 chi1 clo2 chi2 flo0 fhi0 flo1 fhi1 flo2 fhi2 cblo0 cbhi0 cblo1 cbhi1 cblo2 cbhi2 fblo0 fbhi0 fblo1 fbhi1 fblo2 fbhi2 gcw : Z) (cdata fdata : ptr) :
    subroutine (fun S p => @copycoarsetofinecorner3d S clo0 chi0 clo1 chi1 clo2 chi2 flo0 fhi0 flo1 fhi1 flo2 fhi2 cblo0 cbhi0 cblo1 cbhi1 cblo2 cbhi2 fblo0 fbhi0 fblo1 fbhi1 fblo2 fbhi2 gcw cdata fdata)
(* FortranBC.v *)
| L_cellsetcorrectionbc1d (lo0 hi0 dgcw : Z) (d0 : ptr) (ugcw : Z) (u : ptr) (bdrySegLo bdrySegHi : Z -> Z) (extrapOrder face bdryType : Z) :
    subroutine (fun S p => @cellsetcorrectionbc1d S lo0 hi0 p dgcw d0 ugcw u bdrySegLo bdrySegHi extrapOrder face bdryType (p 3) (p 4))
| L_cellsetpoissoncorrectionbc1d (lo0 hi0 ugcw : Z) (u : ptr) (bdrySegLo bdrySegHi : Z -> Z) (extrapOrder face bdryType : Z) :
    subroutine (fun S p => @cellsetpoissoncorrectionbc1d S lo0 hi0 p ugcw u bdrySegLo bdrySegHi extrapOrder face bdryType (p 3) (p 4))
| L_cellsetcorrectionbc2d (lo0 hi0 lo1 hi1 dgcw : Z) (d0 d1 : ptr) (ugcw : Z) (u : ptr) (bdrySegLo bdrySegHi : Z -> Z) (extrapOrder face type bdryType : Z) :
    subroutine (fun S p => @cellsetcorrectionbc2d S lo0 hi0 lo1 hi1 p dgcw d0 d1 ugcw u bdrySegLo bdrySegHi extrapOrder face type bdryType (p 3) (p 4))
| L_cellsetpoissoncorrectionbc2d (lo0 hi0 lo1 hi1 ugcw : Z) (u : ptr) (bdrySegLo bdrySegHi : Z -> Z) (extrapOrder face type bdryType : Z) :
    subroutine (fun S p => @cellsetpoissoncorrectionbc2d S lo0 hi0 lo1 hi1 p ugcw u bdrySegLo bdrySegHi extrapOrder face type bdryType (p 3) (p 4))
| L_cellsetinteriorcornerbc2d (lo0 hi0 lo1 hi1 gcw : Z) (d0 d1 u : ptr) (bdrySegLo bdrySegHi : Z -> Z) (extrapOrder face type bdryType : Z) :
    subroutine (fun S p => @cellsetinteriorcornerbc2d S lo0 hi0 lo1 hi1 gcw p d0 d1 u bdrySegLo bdrySegHi extrapOrder face type bdryType)
| L_cellsetcorrectionbc3d (lo0 hi0 lo1 hi1 lo2 hi2 dgcw : Z) (d0 d1 d2 : ptr) (ugcw : Z) (u : ptr) (bdrySegLo bdrySegHi : Z -> Z) (extrapOrder face type bdryType : Z) :
    subroutine (fun S p => @cellsetcorrectionbc3d S lo0 hi0 lo1 hi1 lo2 hi2 p dgcw d0 d1 d2 ugcw u bdrySegLo bdrySegHi extrapOrder face type bdryType (p 3) (p 4))
| L_cellsetpoissoncorrectionbc3d (lo0 hi0 lo1 hi1 lo2 hi2 ugcw : Z) (u : ptr) (bdrySegLo bdrySegHi : Z -> Z) (extrapOrder face type bdryType : Z) :
    subroutine (fun S p => @cellsetpoissoncorrectionbc3d S lo0 hi0 lo1 hi1 lo2 hi2 p ugcw u bdrySegLo bdrySegHi extrapOrder face type bdryType (p 3) (p 4))
(* FortranHomog.v *)
| L_cellsethomogenousbc2d (lo0 lo1 hi0 hi1 face : Z) (segLo segHi : Z -> Z) (extrapOrder : Z) (var : ptr) :
    subroutine (fun S p => @cellsethomogenousbc2d S lo0 lo1 hi0 hi1 face segLo segHi extrapOrder var)
(* FortranStencil1.v *)
| L_celldiffusionoffdiag1d (ifirst0 ilast0 bilo0 bihi0 : Z) (b0 : ptr) (sgcw : Z) (stencil : ptr) :
    subroutine (fun S p => @celldiffusionoffdiag1d S ifirst0 ilast0 bilo0 bihi0 p (p 4) b0 sgcw stencil)
| L_cellpoissonoffdiag1d (ifirst0 ilast0 sgcw : Z) (stencil : ptr) :
    subroutine (fun S p => @cellpoissonoffdiag1d S ifirst0 ilast0 p (p 4) sgcw stencil)
| L_celldiffusionv1diag1d (ifirst0 ilast0 ailo0 aihi0 : Z) (a : ptr) (sgcw : Z) (stencil : ptr) :
    subroutine (fun S p => @celldiffusionv1diag1d S ifirst0 ilast0 ailo0 aihi0 (p 3) a sgcw stencil)
| L_celldiffusionv2diag1d (ifirst0 ilast0 sgcw : Z) (stencil : ptr) :
    subroutine (fun S p => @celldiffusionv2diag1d S ifirst0 ilast0 (p 3) sgcw stencil)
| L_cellpoissondiag1d (ifirst0 ilast0 sgcw : Z) (stencil : ptr) :
    subroutine (fun S p => @cellpoissondiag1d S ifirst0 ilast0 sgcw stencil)
| L_adjcelldiffusiondiag1d (ifirst0 ilast0 pfirst0 plast0 side bdrytype extrapOrder : Z) (b0 : ptr) (sgcw : Z) (stencil : ptr) :
    subroutine (fun S p => @adjcelldiffusiondiag1d S ifirst0 ilast0 pfirst0 plast0 side bdrytype extrapOrder p (p 4) b0 sgcw stencil)
| L_adjcellpoissondiag1d (ifirst0 ilast0 pfirst0 plast0 side bdrytype extrapOrder sgcw : Z) (stencil : ptr) :
    subroutine (fun S p => @adjcellpoissondiag1d S ifirst0 ilast0 pfirst0 plast0 side bdrytype extrapOrder p (p 4) sgcw stencil)
| L_adjcelldiffusioncfdiag1d (ifirst0 ilast0 pfirst0 plast0 r side interporder : Z) (b0 : ptr) (sgcw : Z) (stencil : ptr) :
    subroutine (fun S p => @adjcelldiffusioncfdiag1d S ifirst0 ilast0 pfirst0 plast0 r side interporder p (p 4) b0 sgcw stencil)
| L_adjcellpoissoncfdiag1d (ifirst0 ilast0 pfirst0 plast0 r side interporder sgcw : Z) (stencil : ptr) :
    subroutine (fun S p => @adjcellpoissoncfdiag1d S ifirst0 ilast0 pfirst0 plast0 r side interporder p (p 4) sgcw stencil)
| L_adjcelldiffusionoffdiag1d (ifirst0 ilast0 pfirst0 plast0 side bdrytype extrapOrder : Z) (b0 : ptr) (sgcw : Z) (stencil : ptr) :
    subroutine (fun S p => @adjcelldiffusionoffdiag1d S ifirst0 ilast0 pfirst0 plast0 side bdrytype extrapOrder p (p 5) (p 6) (p 4) b0 sgcw stencil)
| L_adjcellpoissonoffdiag1d (ifirst0 ilast0 pfirst0 plast0 side bdrytype extrapOrder sgcw : Z) (stencil : ptr) :
    subroutine (fun S p => @adjcellpoissonoffdiag1d S ifirst0 ilast0 pfirst0 plast0 side bdrytype extrapOrder p (p 5) (p 6) (p 4) sgcw stencil)
| L_adjcelldiffusioncfoffdiag1d (ifirst0 ilast0 cfirst0 clast0 r side interporder sgcw : Z) (stencil : ptr) :
    subroutine (fun S p => @adjcelldiffusioncfoffdiag1d S ifirst0 ilast0 cfirst0 clast0 r side interporder sgcw stencil)
| L_readjcelldiffusionoffdiag1d (ifirst0 ilast0 pfirst0 plast0 side sgcw : Z) (stencil : ptr) :
    subroutine (fun S p => @readjcelldiffusionoffdiag1d S ifirst0 ilast0 pfirst0 plast0 side sgcw stencil)
| L_adjcelldiffusioncfbdryrhs1d (ifirst0 ilast0 pfirst0 plast0 side sgcw : Z) (stencil : ptr) (gcw : Z) (u rhs : ptr) :
    subroutine (fun S p => @adjcelldiffusioncfbdryrhs1d S ifirst0 ilast0 pfirst0 plast0 side sgcw stencil gcw u rhs)
(* FortranStencil2.v *)
| L_celldiffusionoffdiag2d (ifirst0 ifirst1 ilast0 ilast1 bilo0 bilo1 bihi0 bihi1 : Z) (b0 b1 : ptr) (sgcw : Z) (stencil : ptr) :
    subroutine (fun S p => @celldiffusionoffdiag2d S ifirst0 ifirst1 ilast0 ilast1 bilo0 bilo1 bihi0 bihi1 p (p 4) b0 b1 sgcw stencil)
| L_cellpoissonoffdiag2d (ifirst0 ifirst1 ilast0 ilast1 sgcw : Z) (stencil : ptr) :
    subroutine (fun S p => @cellpoissonoffdiag2d S ifirst0 ifirst1 ilast0 ilast1 p (p 4) sgcw stencil)
| L_celldiffusionv1diag2d (ifirst0 ifirst1 ilast0 ilast1 ailo0 ailo1 aihi0 aihi1 : Z) (a : ptr) (sgcw : Z) (stencil : ptr) :
    subroutine (fun S p => @celldiffusionv1diag2d S ifirst0 ifirst1 ilast0 ilast1 ailo0 ailo1 aihi0 aihi1 (p 3) a sgcw stencil)
| L_celldiffusionv2diag2d (ifirst0 ifirst1 ilast0 ilast1 sgcw : Z) (stencil : ptr) :
    subroutine (fun S p => @celldiffusionv2diag2d S ifirst0 ifirst1 ilast0 ilast1 (p 3) sgcw stencil)
| L_cellpoissondiag2d (ifirst0 ifirst1 ilast0 ilast1 sgcw : Z) (stencil : ptr) :
    subroutine (fun S p => @cellpoissondiag2d S ifirst0 ifirst1 ilast0 ilast1 sgcw stencil)
| L_adjcelldiffusiondiag2d (ifirst0 ifirst1 ilast0 ilast1 pfirst0 pfirst1 plast0 plast1 direction side bdrytype extrapOrder : Z) (b0 b1 : ptr) (sgcw : Z) (stencil : ptr) :
    subroutine (fun S p => @adjcelldiffusiondiag2d S ifirst0 ifirst1 ilast0 ilast1 pfirst0 pfirst1 plast0 plast1 direction side bdrytype extrapOrder p (p 4) b0 b1 sgcw stencil)
| L_adjcellpoissondiag2d (ifirst0 ifirst1 ilast0 ilast1 pfirst0 pfirst1 plast0 plast1 direction side bdrytype extrapOrder sgcw : Z) (stencil : ptr) :
    subroutine (fun S p => @adjcellpoissondiag2d S ifirst0 ifirst1 ilast0 ilast1 pfirst0 pfirst1 plast0 plast1 direction side bdrytype extrapOrder p (p 4) sgcw stencil)
| L_adjcelldiffusioncfdiag2d (ifirst0 ifirst1 ilast0 ilast1 pfirst0 pfirst1 plast0 plast1 r direction side interporder : Z) (b0 b1 : ptr) (sgcw : Z) (stencil : ptr) :
    subroutine (fun S p => @adjcelldiffusioncfdiag2d S ifirst0 ifirst1 ilast0 ilast1 pfirst0 pfirst1 plast0 plast1 r direction side interporder p (p 4) b0 b1 sgcw stencil)
| L_adjcellpoissoncfdiag2d (ifirst0 ifirst1 ilast0 ilast1 pfirst0 pfirst1 plast0 plast1 r direction side interporder sgcw : Z) (stencil : ptr) :
    subroutine (fun S p => @adjcellpoissoncfdiag2d S ifirst0 ifirst1 ilast0 ilast1 pfirst0 pfirst1 plast0 plast1 r direction side interporder p (p 4) sgcw stencil)
| L_adjcelldiffusionoffdiag2d (ifirst0 ifirst1 ilast0 ilast1 pfirst0 pfirst1 plast0 plast1 direction side bdrytype extrapOrder : Z) (b0 b1 : ptr) (sgcw : Z) (stencil : ptr) :
    subroutine (fun S p => @adjcelldiffusionoffdiag2d S ifirst0 ifirst1 ilast0 ilast1 pfirst0 pfirst1 plast0 plast1 direction side bdrytype extrapOrder p (p 5) (p 6) (p 4) b0 b1 sgcw stencil)
| L_adjcellpoissonoffdiag2d (ifirst0 ifirst1 ilast0 ilast1 pfirst0 pfirst1 plast0 plast1 direction side bdrytype extrapOrder sgcw : Z) (stencil : ptr) :
    subroutine (fun S p => @adjcellpoissonoffdiag2d S ifirst0 ifirst1 ilast0 ilast1 pfirst0 pfirst1 plast0 plast1 direction side bdrytype extrapOrder p (p 5) (p 6) (p 4) sgcw stencil)
| L_adjcelldiffusioncfoffdiag2d (ifirst0 ifirst1 ilast0 ilast1 cfirst0 cfirst1 clast0 clast1 r direction side interporder sgcw : Z) (stencil : ptr) :
    subroutine (fun S p => @adjcelldiffusioncfoffdiag2d S ifirst0 ifirst1 ilast0 ilast1 cfirst0 cfirst1 clast0 clast1 r direction side interporder sgcw stencil)
| L_readjcelldiffusionoffdiag2d (ifirst0 ifirst1 ilast0 ilast1 pfirst0 pfirst1 plast0 plast1 direction side sgcw : Z) (stencil : ptr) :
    subroutine (fun S p => @readjcelldiffusionoffdiag2d S ifirst0 ifirst1 ilast0 ilast1 pfirst0 pfirst1 plast0 plast1 direction side sgcw stencil)
| L_adjcelldiffusioncfbdryrhs2d (ifirst0 ifirst1 ilast0 ilast1 pfirst0 pfirst1 plast0 plast1 direction side sgcw : Z) (stencil : ptr) (gcw : Z) (u rhs : ptr) :
    subroutine (fun S p => @adjcelldiffusioncfbdryrhs2d S ifirst0 ifirst1 ilast0 ilast1 pfirst0 pfirst1 plast0 plast1 direction side sgcw stencil gcw u rhs)
(* FortranStencil3.v *)
| L_celldiffusionoffdiag3d (ifirst0 ifirst1 ifirst2 ilast0 ilast1 ilast2 bilo0 bilo1 bilo2 bihi0 bihi1 bihi2 : Z) (b0 b1 b2 : ptr) (sgcw : Z) (stencil : ptr) :
    subroutine (fun S p => @celldiffusionoffdiag3d S ifirst0 ifirst1 ifirst2 ilast0 ilast1 ilast2 bilo0 bilo1 bilo2 bihi0 bihi1 bihi2 p (p 4) b0 b1 b2 sgcw stencil)
| L_cellpoissonoffdiag3d (ifirst0 ifirst1 ifirst2 ilast0 ilast1 ilast2 sgcw : Z) (stencil : ptr) :
    subroutine (fun S p => @cellpoissonoffdiag3d S ifirst0 ifirst1 ifirst2 ilast0 ilast1 ilast2 p (p 4) sgcw stencil)
| L_celldiffusionv1diag3d (ifirst0 ifirst1 ifirst2 ilast0 ilast1 ilast2 ailo0 ailo1 ailo2 aihi0 aihi1 aihi2 : Z) (a : ptr) (sgcw : Z) (stencil : ptr) :
    subroutine (fun S p => @celldiffusionv1diag3d S ifirst0 ifirst1 ifirst2 ilast0 ilast1 ilast2 ailo0 ailo1 ailo2 aihi0 aihi1 aihi2 (p 3) a sgcw stencil)
| L_celldiffusionv2diag3d (ifirst0 ifirst1 ifirst2 ilast0 ilast1 ilast2 sgcw : Z) (stencil : ptr) :
    subroutine (fun S p => @celldiffusionv2diag3d S ifirst0 ifirst1 ifirst2 ilast0 ilast1 ilast2 (p 3) sgcw stencil)
| L_cellpoissondiag3d (ifirst0 ifirst1 ifirst2 ilast0 ilast1 ilast2 sgcw : Z) (stencil : ptr) :
    subroutine (fun S p => @cellpoissondiag3d S ifirst0 ifirst1 ifirst2 ilast0 ilast1 ilast2 sgcw stencil)
| L_adjcelldiffusiondiag3d (ifirst0 ifirst1 ifirst2 ilast0 ilast1 ilast2 pfirst0 pfirst1 pfirst2 plast0 plast1 plast2 direction side bdrytype extrapOrder : Z) (b0 b1 b2 : ptr) (sgcw : Z) (stencil : ptr) :
    subroutine (fun S p => @adjcelldiffusiondiag3d S ifirst0 ifirst1 ifirst2 ilast0 ilast1 ilast2 pfirst0 pfirst1 pfirst2 plast0 plast1 plast2 direction side bdrytype extrapOrder p (p 4) b0 b1 b2 sgcw stencil)
| L_adjcellpoissondiag3d (ifirst0 ifirst1 ifirst2 ilast0 ilast1 ilast2 pfirst0 pfirst1 pfirst2 plast0 plast1 plast2 direction side bdrytype extrapOrder sgcw : Z) (stencil : ptr) :
    subroutine (fun S p => @adjcellpoissondiag3d S ifirst0 ifirst1 ifirst2 ilast0 ilast1 ilast2 pfirst0 pfirst1 pfirst2 plast0 plast1 plast2 direction side bdrytype extrapOrder p (p 4) sgcw stencil)
| L_adjcelldiffusioncfdiag3d (ifirst0 ifirst1 ifirst2 ilast0 ilast1 ilast2 pfirst0 pfirst1 pfirst2 plast0 plast1 plast2 r direction side interporder : Z) (b0 b1 b2 : ptr) (sgcw : Z) (stencil : ptr) :
    subroutine (fun S p => @adjcelldiffusioncfdiag3d S ifirst0 ifirst1 ifirst2 ilast0 ilast1 ilast2 pfirst0 pfirst1 pfirst2 plast0 plast1 plast2 r direction side interporder p (p 4) b0 b1 b2 sgcw stencil)
| L_adjcellpoissoncfdiag3d (ifirst0 ifirst1 ifirst2 ilast0 ilast1 ilast2 pfirst0 pfirst1 pfirst2 plast0 plast1 plast2 r direction side interporder sgcw : Z) (stencil : ptr) :
    subroutine (fun S p => @adjcellpoissoncfdiag3d S ifirst0 ifirst1 ifirst2 ilast0 ilast1 ilast2 pfirst0 pfirst1 pfirst2 plast0 plast1 plast2 r direction side interporder p (p 4) sgcw stencil)
| L_adjcelldiffusionoffdiag3d (ifirst0 ifirst1 ifirst2 ilast0 ilast1 ilast2 pfirst0 pfirst1 pfirst2 plast0 plast1 plast2 direction side bdrytype extrapOrder : Z) (b0 b1 b2 : ptr) (sgcw : Z) (stencil : ptr) :
    subroutine (fun S p => @adjcelldiffusionoffdiag3d S ifirst0 ifirst1 ifirst2 ilast0 ilast1 ilast2 pfirst0 pfirst1 pfirst2 plast0 plast1 plast2 direction side bdrytype extrapOrder p (p 5) (p 6) (p 4) b0 b1 b2 sgcw stencil)
| L_adjcellpoissonoffdiag3d (ifirst0 ifirst1 ifirst2 ilast0 ilast1 ilast2 pfirst0 pfirst1 pfirst2 plast0 plast1 plast2 direction side bdrytype extrapOrder sgcw : Z) (stencil : ptr) :
    subroutine (fun S p => @adjcellpoissonoffdiag3d S ifirst0 ifirst1 ifirst2 ilast0 ilast1 ilast2 pfirst0 pfirst1 pfirst2 plast0 plast1 plast2 direction side bdrytype extrapOrder p (p 5) (p 6) (p 4) sgcw stencil)
| L_adjcelldiffusioncfoffdiag3d (ifirst0 ifirst1 ifirst2 ilast0 ilast1 ilast2 cfirst0 cfirst1 cfirst2 clast0 clast1 clast2 r direction side interporder sgcw : Z) (stencil : ptr) :
    subroutine (fun S p => @adjcelldiffusioncfoffdiag3d S ifirst0 ifirst1 ifirst2 ilast0 ilast1 ilast2 cfirst0 cfirst1 cfirst2 clast0 clast1 clast2 r direction side interporder sgcw stencil)
| L_readjcelldiffusionoffdiag3d (ifirst0 ifirst1 ifirst2 ilast0 ilast1 ilast2 pfirst0 pfirst1 pfirst2 plast0 plast1 plast2 direction side sgcw : Z) (stencil : ptr) :
    subroutine (fun S p => @readjcelldiffusionoffdiag3d S ifirst0 ifirst1 ifirst2 ilast0 ilast1 ilast2 pfirst0 pfirst1 pfirst2 plast0 plast1 plast2 direction side sgcw stencil)
| L_adjcelldiffusioncfbdryrhs3d (ifirst0 ifirst1 ifirst2 ilast0 ilast1 ilast2 pfirst0 pfirst1 pfirst2 plast0 plast1 plast2 direction side sgcw : Z) (stencil : ptr) (gcw : Z) (u rhs : ptr) :
    subroutine (fun S p => @adjcelldiffusioncfbdryrhs3d S ifirst0 ifirst1 ifirst2 ilast0 ilast1 ilast2 pfirst0 pfirst1 pfirst2 plast0 plast1 plast2 direction side sgcw stencil gcw u rhs)
(* FortranSmooth.v *)
| L_applystencilatpoint1d (lo0 hi0 i stencilsize : Z) (offsets stencil : ptr) (fgcw : Z) (f : ptr) (ugcw : Z) (u : ptr) (rgcw : Z) (r : ptr) :
    subroutine (fun S p => @applystencilatpoint1d S lo0 hi0 i stencilsize offsets stencil (p 3) (p 4) fgcw f ugcw u rgcw r)
| L_applystencilonpatch1d (lo0 hi0 stencilsize : Z) (offsets stencil : ptr) (fgcw : Z) (f : ptr) (ugcw : Z) (u : ptr) (rgcw : Z) (r : ptr) :
    subroutine (fun S p => @applystencilonpatch1d S lo0 hi0 stencilsize offsets stencil (p 3) (p 4) fgcw f ugcw u rgcw r)
| L_applystencilatpoint2d (lo0 hi0 lo1 hi1 i j stencilsize : Z) (offsets stencil : ptr) (fgcw : Z) (f : ptr) (ugcw : Z) (u : ptr) (rgcw : Z) (r : ptr) :
    subroutine (fun S p => @applystencilatpoint2d S lo0 hi0 lo1 hi1 i j stencilsize offsets stencil (p 3) (p 4) fgcw f ugcw u rgcw r)
| L_applystencilonpatch2d (lo0 hi0 lo1 hi1 stencilsize : Z) (offsets stencil : ptr) (fgcw : Z) (f : ptr) (ugcw : Z) (u : ptr) (rgcw : Z) (r : ptr) :
    subroutine (fun S p => @applystencilonpatch2d S lo0 hi0 lo1 hi1 stencilsize offsets stencil (p 3) (p 4) fgcw f ugcw u rgcw r)
| L_applystencilatpoint3d (lo0 hi0 lo1 hi1 lo2 hi2 i j k stencilsize : Z) (offsets stencil : ptr) (fgcw : Z) (f : ptr) (ugcw : Z) (u : ptr) (rgcw : Z) (r : ptr) :
    subroutine (fun S p => @applystencilatpoint3d S lo0 hi0 lo1 hi1 lo2 hi2 i j k stencilsize offsets stencil (p 3) (p 4) fgcw f ugcw u rgcw r)
| L_applystencilonpatch3d (lo0 hi0 lo1 hi1 lo2 hi2 stencilsize : Z) (offsets stencil : ptr) (fgcw : Z) (f : ptr) (ugcw : Z) (u : ptr) (rgcw : Z) (r : ptr) :
    subroutine (fun S p => @applystencilonpatch3d S lo0 hi0 lo1 hi1 lo2 hi2 stencilsize offsets stencil (p 3) (p 4) fgcw f ugcw u rgcw r)
| L_celljacobi1d (lo0 hi0 stencilsize : Z) (offset : ptr) (slo0 shi0 : Z) (stencil : ptr) (flo0 fhi0 : Z) (f : ptr) (ulo0 uhi0 : Z) (u r : ptr) :
    subroutine (fun S p => @celljacobi1d S lo0 hi0 stencilsize offset slo0 shi0 stencil flo0 fhi0 f ulo0 uhi0 u r)
| L_cellgs1d (lo0 hi0 stencilsize : Z) (offset : ptr) (slo0 shi0 : Z) (stencil : ptr) (flo0 fhi0 : Z) (f : ptr) (ulo0 uhi0 : Z) (u : ptr) :
    subroutine (fun S p => @cellgs1d S lo0 hi0 stencilsize offset slo0 shi0 stencil flo0 fhi0 f ulo0 uhi0 u)
| L_cellrbgs1d (lo0 hi0 color stencilsize : Z) (offset : ptr) (slo0 shi0 : Z) (stencil : ptr) (flo0 fhi0 : Z) (f : ptr) (ulo0 uhi0 : Z) (u : ptr) :
    subroutine (fun S p => @cellrbgs1d S lo0 hi0 color stencilsize offset slo0 shi0 stencil flo0 fhi0 f ulo0 uhi0 u)
| L_celljacobi2d (lo0 hi0 lo1 hi1 stencilsize : Z) (offset : ptr) (slo0 shi0 slo1 shi1 : Z) (stencil : ptr) (flo0 fhi0 flo1 fhi1 : Z) (f : ptr) (ulo0 uhi0 ulo1 uhi1 : Z) (u r : ptr) :
    subroutine (fun S p => @celljacobi2d S lo0 hi0 lo1 hi1 stencilsize offset slo0 shi0 slo1 shi1 stencil flo0 fhi0 flo1 fhi1 f ulo0 uhi0 ulo1 uhi1 u r (p 5))
| L_cellgs2d (lo0 hi0 lo1 hi1 stencilsize : Z) (offset : ptr) (slo0 shi0 slo1 shi1 : Z) (stencil : ptr) (flo0 fhi0 flo1 fhi1 : Z) (f : ptr) (ulo0 uhi0 ulo1 uhi1 : Z) (u : ptr) :
    subroutine (fun S p => @cellgs2d S lo0 hi0 lo1 hi1 stencilsize offset slo0 shi0 slo1 shi1 stencil flo0 fhi0 flo1 fhi1 f ulo0 uhi0 ulo1 uhi1 u)
| L_cellrbgs2d (lo0 hi0 lo1 hi1 color stencilsize : Z) (offset : ptr) (slo0 shi0 slo1 shi1 : Z) (stencil : ptr) (flo0 fhi0 flo1 fhi1 : Z) (f : ptr) (ulo0 uhi0 ulo1 uhi1 : Z) (u : ptr) :
    subroutine (fun S p => @cellrbgs2d S lo0 hi0 lo1 hi1 color stencilsize offset slo0 shi0 slo1 shi1 stencil flo0 fhi0 flo1 fhi1 f ulo0 uhi0 ulo1 uhi1 u)
| L_cells5rbgs2d (lo0 hi0 lo1 hi1 color slo0 shi0 slo1 shi1 : Z) (stencil : ptr) (flo0 fhi0 flo1 fhi1 : Z) (f : ptr) (ulo0 uhi0 ulo1 uhi1 : Z) (u : ptr) :
    subroutine (fun S p => @cells5rbgs2d S lo0 hi0 lo1 hi1 color slo0 shi0 slo1 shi1 stencil flo0 fhi0 flo1 fhi1 f ulo0 uhi0 ulo1 uhi1 u)
| L_cells9rbgs2d (lo0 hi0 lo1 hi1 color slo0 shi0 slo1 shi1 : Z) (stencil : ptr) (flo0 fhi0 flo1 fhi1 : Z) (f : ptr) (ulo0 uhi0 ulo1 uhi1 : Z) (u : ptr) :
    subroutine (fun S p => @cells9rbgs2d S lo0 hi0 lo1 hi1 color slo0 shi0 slo1 shi1 stencil flo0 fhi0 flo1 fhi1 f ulo0 uhi0 ulo1 uhi1 u)
| L_celljacobi3d (lo0 hi0 lo1 hi1 lo2 hi2 stencilsize : Z) (offset : ptr) (slo0 shi0 slo1 shi1 slo2 shi2 : Z) (stencil : ptr) (flo0 fhi0 flo1 fhi1 flo2 fhi2 : Z) (f : ptr) (ulo0 uhi0 ulo1 uhi1 ulo2 uhi2 : Z) (u r : ptr) :
    subroutine (fun S p => @celljacobi3d S lo0 hi0 lo1 hi1 lo2 hi2 stencilsize offset slo0 shi0 slo1 shi1 slo2 shi2 stencil flo0 fhi0 flo1 fhi1 flo2 fhi2 f ulo0 uhi0 ulo1 uhi1 ulo2 uhi2 u r (p 5))
| L_cellgs3d (lo0 hi0 lo1 hi1 lo2 hi2 stencilsize : Z) (offset : ptr) (slo0 shi0 slo1 shi1 slo2 shi2 : Z) (stencil : ptr) (flo0 fhi0 flo1 fhi1 flo2 fhi2 : Z) (f : ptr) (ulo0 uhi0 ulo1 uhi1 ulo2 uhi2 : Z) (u : ptr) :
    subroutine (fun S p => @cellgs3d S lo0 hi0 lo1 hi1 lo2 hi2 stencilsize offset slo0 shi0 slo1 shi1 slo2 shi2 stencil flo0 fhi0 flo1 fhi1 flo2 fhi2 f ulo0 uhi0 ulo1 uhi1 ulo2 uhi2 u)
| L_cellrbgs3d (lo0 hi0 lo1 hi1 lo2 hi2 color stencilsize : Z) (offset : ptr) (slo0 shi0 slo1 shi1 slo2 shi2 : Z) (stencil : ptr) (flo0 fhi0 flo1 fhi1 flo2 fhi2 : Z) (f : ptr) (ulo0 uhi0 ulo1 uhi1 ulo2 uhi2 : Z) (u : ptr) :
    subroutine (fun S p => @cellrbgs3d S lo0 hi0 lo1 hi1 lo2 hi2 color stencilsize offset slo0 shi0 slo1 shi1 slo2 shi2 stencil flo0 fhi0 flo1 fhi1 flo2 fhi2 f ulo0 uhi0 ulo1 uhi1 ulo2 uhi2 u)
| L_cells7rbgs3d (lo0 hi0 lo1 hi1 lo2 hi2 color slo0 shi0 slo1 shi1 slo2 shi2 : Z) (stencil : ptr) (flo0 fhi0 flo1 fhi1 flo2 fhi2 : Z) (f : ptr) (ulo0 uhi0 ulo1 uhi1 ulo2 uhi2 : Z) (u : ptr) :
    subroutine (fun S p => @cells7rbgs3d S lo0 hi0 lo1 hi1 lo2 hi2 color slo0 shi0 slo1 shi1 slo2 shi2 stencil flo0 fhi0 flo1 fhi1 flo2 fhi2 f ulo0 uhi0 ulo1 uhi1 ulo2 uhi2 u)
| L_cellblock1x1jacobi1d (lo0 hi0 : Z) (stencil : ptr) (fgcw : Z) (f : ptr) (ugcw : Z) (u : ptr) :
    subroutine (fun S p => @cellblock1x1jacobi1d S lo0 hi0 stencil fgcw f ugcw u)
| L_cellblock2x2jacobi1d (lo0 hi0 : Z) (a : ptr) (fgcw : Z) (f0 f1 : ptr) (ugcw : Z) (u0 u1 : ptr) :
    subroutine (fun S p => @cellblock2x2jacobi1d S lo0 hi0 a fgcw f0 f1 ugcw u0 u1)
| L_cellblock1x1jacobi2d (lo0 hi0 lo1 hi1 : Z) (stencil : ptr) (fgcw : Z) (f : ptr) (ugcw : Z) (u : ptr) :
    subroutine (fun S p => @cellblock1x1jacobi2d S lo0 hi0 lo1 hi1 stencil fgcw f ugcw u (p 5))
| L_cellblock2x2jacobi2d (lo0 hi0 lo1 hi1 : Z) (a : ptr) (fgcw : Z) (f0 f1 : ptr) (ugcw : Z) (u0 u1 : ptr) :
    subroutine (fun S p => @cellblock2x2jacobi2d S lo0 hi0 lo1 hi1 a fgcw f0 f1 ugcw u0 u1 (p 5))
| L_creatematrix (A : ptr) (stencilsize : Z) (stencil offset : ptr) (bSizeX bSizeY bSizeZ : Z) :
    subroutine (fun S p => @creatematrix S A stencilsize stencil offset bSizeX bSizeY bSizeZ)
| L_adjcellcrsfinebdryrhs1d (ifirst0 ilast0 pfirst0 plast0 side stencilsize : Z) (offset stencil : ptr) (gcw : Z) (u rhs ul : ptr) :
    subroutine (fun S p => @adjcellcrsfinebdryrhs1d S ifirst0 ilast0 pfirst0 plast0 side stencilsize offset stencil gcw u rhs ul)
| L_celladjustsystemrhspatch1d (ifirst0 ilast0 noffsets : Z) (offset : ptr) (stencilsize : Z) (stencil : ptr) (ugcw : Z) (u : ptr) (fgcw : Z) (f : ptr) :
    subroutine (fun S p => @celladjustsystemrhspatch1d S ifirst0 ilast0 noffsets offset stencilsize stencil ugcw u fgcw f)
| L_adjcellcrsfinebdryrhs2d (ifirst0 ifirst1 ilast0 ilast1 pfirst0 pfirst1 plast0 plast1 direction side stencilsize : Z) (offset stencil : ptr) (gcw : Z) (u rhs ul : ptr) :
    subroutine (fun S p => @adjcellcrsfinebdryrhs2d S ifirst0 ifirst1 ilast0 ilast1 pfirst0 pfirst1 plast0 plast1 direction side stencilsize offset stencil gcw u rhs ul)
| L_celladjustsystemrhspatch2d (ifirst0 ifirst1 ilast0 ilast1 noffsets : Z) (offset : ptr) (stencilsize : Z) (stencil : ptr) (ugcw : Z) (u : ptr) (fgcw : Z) (f : ptr) :
    subroutine (fun S p => @celladjustsystemrhspatch2d S ifirst0 ifirst1 ilast0 ilast1 noffsets offset stencilsize stencil ugcw u fgcw f)
| L_adjcellcrsfinebdryrhs3d (ifirst0 ifirst1 ifirst2 ilast0 ilast1 ilast2 pfirst0 pfirst1 pfirst2 plast0 plast1 plast2 direction side stencilsize : Z) (offset stencil : ptr) (gcw : Z) (u rhs ul : ptr) :
    subroutine (fun S p => @adjcellcrsfinebdryrhs3d S ifirst0 ifirst1 ifirst2 ilast0 ilast1 ilast2 pfirst0 pfirst1 pfirst2 plast0 plast1 plast2 direction side stencilsize offset stencil gcw u rhs ul).
