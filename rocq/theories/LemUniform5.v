(** * FortranBC: uniform (generated by tools/gen_uniform.py) *)

From Verif Require Import Base ModelBounds ModelIters ModelSpan ModelProxy SpecRel LemRel.
From Verif Require Import FortranBase FortranLoops LemRelF LemRelTac FortranBC.
Import ListNotations.
Open Scope Z_scope.

Lemma cellsetcorrectionbc1d_uniform (lo0 hi0 dgcw : Z) (d0 : ptr) (ugcw : Z) (u : ptr) (bdrySegLo bdrySegHi : Z -> Z) (extrapOrder face bdryType : Z) :
  uniform (fun S p => @cellsetcorrectionbc1d S lo0 hi0 p dgcw d0 ugcw u bdrySegLo bdrySegHi extrapOrder face bdryType (p 3) (p 4)).
Proof. u_sub. unfold cellsetcorrectionbc1d. u_go. Qed.

Lemma cellsetpoissoncorrectionbc1d_uniform (lo0 hi0 ugcw : Z) (u : ptr) (bdrySegLo bdrySegHi : Z -> Z) (extrapOrder face bdryType : Z) :
  uniform (fun S p => @cellsetpoissoncorrectionbc1d S lo0 hi0 p ugcw u bdrySegLo bdrySegHi extrapOrder face bdryType (p 3) (p 4)).
Proof. u_sub. unfold cellsetpoissoncorrectionbc1d. u_go. Qed.

Lemma cellsetcorrectionbc2d_uniform (lo0 hi0 lo1 hi1 dgcw : Z) (d0 d1 : ptr) (ugcw : Z) (u : ptr) (bdrySegLo bdrySegHi : Z -> Z) (extrapOrder face type bdryType : Z) :
  uniform (fun S p => @cellsetcorrectionbc2d S lo0 hi0 lo1 hi1 p dgcw d0 d1 ugcw u bdrySegLo bdrySegHi extrapOrder face type bdryType (p 3) (p 4)).
Proof. u_sub. unfold cellsetcorrectionbc2d. u_go. Qed.

Lemma cellsetpoissoncorrectionbc2d_uniform (lo0 hi0 lo1 hi1 ugcw : Z) (u : ptr) (bdrySegLo bdrySegHi : Z -> Z) (extrapOrder face type bdryType : Z) :
  uniform (fun S p => @cellsetpoissoncorrectionbc2d S lo0 hi0 lo1 hi1 p ugcw u bdrySegLo bdrySegHi extrapOrder face type bdryType (p 3) (p 4)).
Proof. u_sub. unfold cellsetpoissoncorrectionbc2d. u_go. Qed.

Lemma cellsetinteriorcornerbc2d_uniform (lo0 hi0 lo1 hi1 gcw : Z) (d0 d1 u : ptr) (bdrySegLo bdrySegHi : Z -> Z) (extrapOrder face type bdryType : Z) :
  uniform (fun S p => @cellsetinteriorcornerbc2d S lo0 hi0 lo1 hi1 gcw p d0 d1 u bdrySegLo bdrySegHi extrapOrder face type bdryType).
Proof. u_sub. unfold cellsetinteriorcornerbc2d. u_go. Qed.

Lemma cellsetcorrectionbc3d_uniform (lo0 hi0 lo1 hi1 lo2 hi2 dgcw : Z) (d0 d1 d2 : ptr) (ugcw : Z) (u : ptr) (bdrySegLo bdrySegHi : Z -> Z) (extrapOrder face type bdryType : Z) :
  uniform (fun S p => @cellsetcorrectionbc3d S lo0 hi0 lo1 hi1 lo2 hi2 p dgcw d0 d1 d2 ugcw u bdrySegLo bdrySegHi extrapOrder face type bdryType (p 3) (p 4)).
Proof. u_sub. unfold cellsetcorrectionbc3d. u_go. Qed.

Lemma cellsetpoissoncorrectionbc3d_uniform (lo0 hi0 lo1 hi1 lo2 hi2 ugcw : Z) (u : ptr) (bdrySegLo bdrySegHi : Z -> Z) (extrapOrder face type bdryType : Z) :
  uniform (fun S p => @cellsetpoissoncorrectionbc3d S lo0 hi0 lo1 hi1 lo2 hi2 p ugcw u bdrySegLo bdrySegHi extrapOrder face type bdryType (p 3) (p 4)).
Proof. u_sub. unfold cellsetpoissoncorrectionbc3d. u_go. Qed.
