(** * KernelsBC: uniform (generated by tools/gen_uniform.py) *)

From Verif Require Import Base ModelBounds ModelIters ModelSpan ModelProxy SpecRel LemRel.
From Verif Require Import FortranBase FortranLoops LemRelF LemRelTac KernelsBC.
Import ListNotations.
Open Scope Z_scope.

Lemma cd_1d_set_bc_uniform (i0 i1 dgcw : Z) (d0 : ptr) (ugcw : Z) (u : ptr) (bLo bHi : Z -> Z) (exOrder face btype : Z) :
  uniform (fun S p => @cd_1d_set_bc S i0 i1 p dgcw d0 ugcw u bLo bHi exOrder face btype (p 3) (p 4)).
Proof. u_kernel. unfold cd_1d_set_bc. u_go. Qed.

Lemma cd_1d_set_poisson_bc_uniform (i0 i1 ugcw : Z) (u : ptr) (bLo bHi : Z -> Z) (exOrder face btype : Z) :
  uniform (fun S p => @cd_1d_set_poisson_bc S i0 i1 p ugcw u bLo bHi exOrder face btype (p 3) (p 4)).
Proof. u_kernel. unfold cd_1d_set_poisson_bc. u_go. Qed.

Lemma cd_2d_set_bc_uniform (i0 i1 j0 j1 dgcw : Z) (d0 d1 : ptr) (ugcw : Z) (u : ptr) (bLo bHi : Z -> Z) (exOrder face type btype : Z) :
  uniform (fun S p => @cd_2d_set_bc S i0 i1 j0 j1 p dgcw d0 d1 ugcw u bLo bHi exOrder face type btype (p 3) (p 4)).
Proof. u_kernel. unfold cd_2d_set_bc. u_go. Qed.

Lemma cd_2d_set_poisson_bc_uniform (i0 i1 j0 j1 ugcw : Z) (u : ptr) (bLo bHi : Z -> Z) (exOrder face type btype : Z) :
  uniform (fun S p => @cd_2d_set_poisson_bc S i0 i1 j0 j1 p ugcw u bLo bHi exOrder face type btype (p 3) (p 4)).
Proof. u_kernel. unfold cd_2d_set_poisson_bc. u_go. Qed.

Lemma cd_2d_set_corner_bc_uniform (i0 i1 j0 j1 gcw : Z) (d0 d1 u : ptr) (bLo bHi : Z -> Z) (exOrder face type btype : Z) :
  uniform (fun S p => @cd_2d_set_corner_bc S i0 i1 j0 j1 gcw p d0 d1 u bLo bHi exOrder face type btype).
Proof. u_kernel. unfold cd_2d_set_corner_bc. u_go. Qed.

Lemma cd_2d_set_homogenous_bc_uniform (i0 j0 i1 j1 face : Z) (bLo bHi : Z -> Z) (exOrder : Z) (u : ptr) :
  uniform (fun S p => @cd_2d_set_homogenous_bc S i0 j0 i1 j1 face bLo bHi exOrder u).
Proof. u_kernel. unfold cd_2d_set_homogenous_bc. u_go. Qed.

Lemma cd_3d_set_bc_uniform (i0 i1 j0 j1 k0 k1 dgcw : Z) (d0 d1 d2 : ptr) (ugcw : Z) (u : ptr) (bLo bHi : Z -> Z) (exOrder face type btype : Z) :
  uniform (fun S p => @cd_3d_set_bc S i0 i1 j0 j1 k0 k1 p dgcw d0 d1 d2 ugcw u bLo bHi exOrder face type btype (p 3) (p 4)).
Proof. u_kernel. unfold cd_3d_set_bc. u_go. Qed.

Lemma cd_3d_set_poisson_bc_uniform (i0 i1 j0 j1 k0 k1 ugcw : Z) (u : ptr) (bLo bHi : Z -> Z) (exOrder face type btype : Z) :
  uniform (fun S p => @cd_3d_set_poisson_bc S i0 i1 j0 j1 k0 k1 p ugcw u bLo bHi exOrder face type btype (p 3) (p 4)).
Proof. u_kernel. unfold cd_3d_set_poisson_bc. u_go. Qed.
