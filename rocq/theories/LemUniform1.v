(** * KernelsFlux, KernelsApply, KernelsCopy, KernelsDot: uniform (generated by tools/gen_uniform.py) *)

From Verif Require Import Base ModelBounds ModelIters ModelSpan ModelProxy SpecRel LemRel.
From Verif Require Import FortranBase FortranLoops LemRelF LemRelTac KernelsFlux KernelsApply KernelsCopy KernelsDot.
Import ListNotations.
Open Scope Z_scope.

Lemma cdf_1d_flux_uniform (i0 i1 : Z) (b0 : ptr) (gcw : Z) (u f0 : ptr) :
  uniform (fun S p => @cdf_1d_flux S i0 i1 p b0 gcw u f0).
Proof. u_kernel. unfold cdf_1d_flux. u_go. Qed.

Lemma cdf_1d_poisson_flux_uniform (i0 i1 gcw : Z) (u f0 : ptr) :
  uniform (fun S p => @cdf_1d_poisson_flux S i0 i1 p gcw u f0).
Proof. u_kernel. unfold cdf_1d_poisson_flux. u_go. Qed.

Lemma cdf_2d_flux_uniform (i0 j0 i1 j1 : Z) (b0 b1 : ptr) (gcw : Z) (u f0 f1 : ptr) :
  uniform (fun S p => @cdf_2d_flux S i0 j0 i1 j1 p b0 b1 gcw u f0 f1).
Proof. u_kernel. unfold cdf_2d_flux. u_go. Qed.

Lemma cdf_2d_poisson_flux_uniform (i0 j0 i1 j1 gcw : Z) (u f0 f1 : ptr) :
  uniform (fun S p => @cdf_2d_poisson_flux S i0 j0 i1 j1 p gcw u f0 f1).
Proof. u_kernel. unfold cdf_2d_poisson_flux. u_go. Qed.

Lemma cdf_3d_flux_uniform (i0 j0 k0 i1 j1 k1 : Z) (b0 b1 b2 : ptr) (gcw : Z) (u f0 f1 f2 : ptr) :
  uniform (fun S p => @cdf_3d_flux S i0 j0 k0 i1 j1 k1 p b0 b1 b2 gcw u f0 f1 f2).
Proof. u_kernel. unfold cdf_3d_flux. u_go. Qed.

Lemma cdf_3d_poisson_flux_uniform (i0 j0 k0 i1 j1 k1 gcw : Z) (u f0 f1 f2 : ptr) :
  uniform (fun S p => @cdf_3d_poisson_flux S i0 j0 k0 i1 j1 k1 p gcw u f0 f1 f2).
Proof. u_kernel. unfold cdf_3d_poisson_flux. u_go. Qed.

Lemma cd_apply_1d_diffusion_v1_res_uniform (i0 i1 agcw : Z) (a : ptr) (ugcw : Z) (u : ptr) (fgcw : Z) (f f0 : ptr) (rgcw : Z) (res : ptr) :
  uniform (fun S p => @cd_apply_1d_diffusion_v1_res S i0 i1 (p 3) (p 4) p agcw a ugcw u fgcw f f0 rgcw res).
Proof. u_kernel. unfold cd_apply_1d_diffusion_v1_res. u_go. Qed.

Lemma cd_apply_1d_diffusion_v2_res_uniform (i0 i1 ugcw : Z) (u : ptr) (fgcw : Z) (f f0 : ptr) (rgcw : Z) (res : ptr) :
  uniform (fun S p => @cd_apply_1d_diffusion_v2_res S i0 i1 (p 3) (p 4) p ugcw u fgcw f f0 rgcw res).
Proof. u_kernel. unfold cd_apply_1d_diffusion_v2_res. u_go. Qed.

Lemma cd_apply_1d_poisson_v1_res_uniform (i0 i1 fgcw : Z) (f f0 : ptr) (rgcw : Z) (res : ptr) :
  uniform (fun S p => @cd_apply_1d_poisson_v1_res S i0 i1 (p 4) p fgcw f f0 rgcw res).
Proof. u_kernel. unfold cd_apply_1d_poisson_v1_res. u_go. Qed.

Lemma cd_apply_1d_diffusion_v1_apply_uniform (i0 i1 agcw : Z) (a : ptr) (ugcw : Z) (u f0 : ptr) (rgcw : Z) (res : ptr) :
  uniform (fun S p => @cd_apply_1d_diffusion_v1_apply S i0 i1 (p 3) (p 4) p agcw a ugcw u f0 rgcw res).
Proof. u_kernel. unfold cd_apply_1d_diffusion_v1_apply. u_go. Qed.

Lemma cd_apply_1d_diffusion_v2_apply_uniform (i0 i1 ugcw : Z) (u f0 : ptr) (rgcw : Z) (res : ptr) :
  uniform (fun S p => @cd_apply_1d_diffusion_v2_apply S i0 i1 (p 3) (p 4) p ugcw u f0 rgcw res).
Proof. u_kernel. unfold cd_apply_1d_diffusion_v2_apply. u_go. Qed.

Lemma cd_apply_1d_poisson_v2_apply_uniform (i0 i1 : Z) (f0 : ptr) (rgcw : Z) (res : ptr) :
  uniform (fun S p => @cd_apply_1d_poisson_v2_apply S i0 i1 (p 4) p f0 rgcw res).
Proof. u_kernel. unfold cd_apply_1d_poisson_v2_apply. u_go. Qed.

Lemma cd_apply_2d_diffusion_v1_res_uniform (i0 i1 j0 j1 agcw : Z) (a : ptr) (ugcw : Z) (u : ptr) (fgcw : Z) (f f0 f1 : ptr) (rgcw : Z) (res : ptr) :
  uniform (fun S p => @cd_apply_2d_diffusion_v1_res S i0 i1 j0 j1 (p 3) (p 4) p agcw a ugcw u fgcw f f0 f1 rgcw res).
Proof. u_kernel. unfold cd_apply_2d_diffusion_v1_res. u_go. Qed.

Lemma cd_apply_2d_diffusion_v2_res_uniform (i0 i1 j0 j1 ugcw : Z) (u : ptr) (fgcw : Z) (f f0 f1 : ptr) (rgcw : Z) (res : ptr) :
  uniform (fun S p => @cd_apply_2d_diffusion_v2_res S i0 i1 j0 j1 (p 3) (p 4) p ugcw u fgcw f f0 f1 rgcw res).
Proof. u_kernel. unfold cd_apply_2d_diffusion_v2_res. u_go. Qed.

Lemma cd_apply_2d_poisson_v1_res_uniform (i0 i1 j0 j1 fgcw : Z) (f f0 f1 : ptr) (rgcw : Z) (res : ptr) :
  uniform (fun S p => @cd_apply_2d_poisson_v1_res S i0 i1 j0 j1 (p 4) p fgcw f f0 f1 rgcw res).
Proof. u_kernel. unfold cd_apply_2d_poisson_v1_res. u_go. Qed.

Lemma cd_apply_2d_diffusion_v1_apply_uniform (i0 i1 j0 j1 agcw : Z) (a : ptr) (ugcw : Z) (u f0 f1 : ptr) (rgcw : Z) (res : ptr) :
  uniform (fun S p => @cd_apply_2d_diffusion_v1_apply S i0 i1 j0 j1 (p 3) (p 4) p agcw a ugcw u f0 f1 rgcw res).
Proof. u_kernel. unfold cd_apply_2d_diffusion_v1_apply. u_go. Qed.

Lemma cd_apply_2d_diffusion_v2_apply_uniform (i0 i1 j0 j1 ugcw : Z) (u f0 f1 : ptr) (rgcw : Z) (res : ptr) :
  uniform (fun S p => @cd_apply_2d_diffusion_v2_apply S i0 i1 j0 j1 (p 3) (p 4) p ugcw u f0 f1 rgcw res).
Proof. u_kernel. unfold cd_apply_2d_diffusion_v2_apply. u_go. Qed.

Lemma cd_apply_2d_poisson_v2_apply_uniform (i0 i1 j0 j1 : Z) (f0 f1 : ptr) (rgcw : Z) (res : ptr) :
  uniform (fun S p => @cd_apply_2d_poisson_v2_apply S i0 i1 j0 j1 (p 4) p f0 f1 rgcw res).
Proof. u_kernel. unfold cd_apply_2d_poisson_v2_apply. u_go. Qed.

Lemma cd_apply_3d_diffusion_v1_res_uniform (i0 i1 j0 j1 k0 k1 agcw : Z) (a : ptr) (ugcw : Z) (u : ptr) (fgcw : Z) (f f0 f1 f2 : ptr) (rgcw : Z) (res : ptr) :
  uniform (fun S p => @cd_apply_3d_diffusion_v1_res S i0 i1 j0 j1 k0 k1 (p 3) (p 4) p agcw a ugcw u fgcw f f0 f1 f2 rgcw res).
Proof. u_kernel. unfold cd_apply_3d_diffusion_v1_res. u_go. Qed.

Lemma cd_apply_3d_diffusion_v2_res_uniform (i0 i1 j0 j1 k0 k1 ugcw : Z) (u : ptr) (fgcw : Z) (f f0 f1 f2 : ptr) (rgcw : Z) (res : ptr) :
  uniform (fun S p => @cd_apply_3d_diffusion_v2_res S i0 i1 j0 j1 k0 k1 (p 3) (p 4) p ugcw u fgcw f f0 f1 f2 rgcw res).
Proof. u_kernel. unfold cd_apply_3d_diffusion_v2_res. u_go. Qed.

Lemma cd_apply_3d_poisson_v1_res_uniform (i0 i1 j0 j1 k0 k1 fgcw : Z) (f f0 f1 f2 : ptr) (rgcw : Z) (res : ptr) :
  uniform (fun S p => @cd_apply_3d_poisson_v1_res S i0 i1 j0 j1 k0 k1 (p 4) p fgcw f f0 f1 f2 rgcw res).
Proof. u_kernel. unfold cd_apply_3d_poisson_v1_res. u_go. Qed.

Lemma cd_apply_3d_diffusion_v1_apply_uniform (i0 i1 j0 j1 k0 k1 agcw : Z) (a : ptr) (ugcw : Z) (u f0 f1 f2 : ptr) (rgcw : Z) (res : ptr) :
  uniform (fun S p => @cd_apply_3d_diffusion_v1_apply S i0 i1 j0 j1 k0 k1 (p 3) (p 4) p agcw a ugcw u f0 f1 f2 rgcw res).
Proof. u_kernel. unfold cd_apply_3d_diffusion_v1_apply. u_go. Qed.

Lemma cd_apply_3d_diffusion_v2_apply_uniform (i0 i1 j0 j1 k0 k1 ugcw : Z) (u f0 f1 f2 : ptr) (rgcw : Z) (res : ptr) :
  uniform (fun S p => @cd_apply_3d_diffusion_v2_apply S i0 i1 j0 j1 k0 k1 (p 3) (p 4) p ugcw u f0 f1 f2 rgcw res).
Proof. u_kernel. unfold cd_apply_3d_diffusion_v2_apply. u_go. Qed.

Lemma cd_apply_3d_poisson_v2_apply_uniform (i0 i1 j0 j1 k0 k1 : Z) (f0 f1 f2 : ptr) (rgcw : Z) (res : ptr) :
  uniform (fun S p => @cd_apply_3d_poisson_v2_apply S i0 i1 j0 j1 k0 k1 (p 4) p f0 f1 f2 rgcw res).
Proof. u_kernel. unfold cd_apply_3d_poisson_v2_apply. u_go. Qed.

Lemma c2f_copy_uniform (ci0 ci1 cj0 cj1 ck0 ck1 fi0 fi1 fj0 fj1 fk0 fk1 axis cbi0 cbi1 cbj0 cbj1 cbk0 cbk1 fbi0 fbi1 fbj0 fbj1 fbk0 fbk1 gcw : Z) (ratio : Z -> Z) (cdata fdata : ptr) :
  uniform (fun S p => @c2f_copy S ci0 ci1 cj0 cj1 ck0 ck1 fi0 fi1 fj0 fj1 fk0 fk1 axis cbi0 cbi1 cbj0 cbj1 cbk0 cbk1 fbi0 fbi1 fbj0 fbj1 fbk0 fbk1 gcw ratio cdata fdata).
Proof. u_kernel. unfold c2f_copy. u_go. Qed.

Lemma c2f_copy_corner_uniform (ci0 ci1 cj0 cj1 ck0 ck1 fi0 fi1 fj0 fj1 fk0 fk1 cbi0 cbi1 cbj0 cbj1 cbk0 cbk1 fbi0 fbi1 fbj0 fbj1 fbk0 fbk1 gcw : Z) (cdata fdata : ptr) :
  uniform (fun S p => @c2f_copy_corner S ci0 ci1 cj0 cj1 ck0 ck1 fi0 fi1 fj0 fj1 fk0 fk1 cbi0 cbi1 cbj0 cbj1 cbk0 cbk1 fbi0 fbi1 fbj0 fbj1 fbk0 fbk1 gcw cdata fdata).
Proof. u_kernel. unfold c2f_copy_corner. u_go. Qed.

Lemma dot_offset_1d_uniform (st : ptr) (sgcw : Z) (u : ptr) (ugcw : Z) (v : ptr) (vgcw : Z) (offset : ptr) (i0 i1 w1 : Z) :
  uniform (fun S p => @dot_offset_1d S st sgcw u ugcw v vgcw offset i0 i1 w1).
Proof. u_kernel. unfold dot_offset_1d. u_go. Qed.

Lemma dot_offset_2d_uniform (st : ptr) (sgcw : Z) (u : ptr) (ugcw : Z) (v : ptr) (vgcw : Z) (offset : ptr) (i0 i1 j0 j1 w1 : Z) :
  uniform (fun S p => @dot_offset_2d S st sgcw u ugcw v vgcw offset i0 i1 j0 j1 w1).
Proof. u_kernel. unfold dot_offset_2d. u_go. Qed.

Lemma dot_offset_3d_uniform (st : ptr) (sgcw : Z) (u : ptr) (ugcw : Z) (v : ptr) (vgcw : Z) (offset : ptr) (i0 i1 j0 j1 k0 k1 w1 : Z) :
  uniform (fun S p => @dot_offset_3d S st sgcw u ugcw v vgcw offset i0 i1 j0 j1 k0 k1 w1).
Proof. u_kernel. unfold dot_offset_3d. u_go. Qed.

Lemma ls_apply_st_3d_at_point_uniform (i0 i1 j0 j1 k0 k1 i j k stencil_sz : Z) (offsets st : ptr) (fgcw : Z) (f : ptr) (ugcw : Z) (u : ptr) (rgcw : Z) (r : ptr) :
  uniform (fun S p => @ls_apply_st_3d_at_point S i0 i1 j0 j1 k0 k1 i j k stencil_sz offsets st (p 3) (p 4) fgcw f ugcw u rgcw r).
Proof. u_kernel. unfold ls_apply_st_3d_at_point. u_go. Qed.
