(** * Where the index arithmetic does overflow *)

From Coq Require Import Permutation.
From Verif Require Import Base ModelBounds ModelIters ModelSpan ModelProxy ModelInt ModelIntProxy ModelPar Spec SpecInt
  FortranBase SpecKernel SpecSafe Instances KernelsFlux KernelsBy LemSafe LemSafeFlux.
Import ListNotations.
Open Scope Z_scope.

Lemma large_patch_refuted (S : Scalar) dx b0 b1 b2 u f0 f1 f2 (m : mem S) :
  (room m u (1302 * 1302 * 1302) ->
   room m b0 (1301 * 1300 * 1300) -> room m b1 (1300 * 1301 * 1300) -> room m b2 (1300 * 1300 * 1301) ->
   room m f0 (1301 * 1300 * 1300) -> room m f1 (1300 * 1301 * 1300) -> room m f2 (1300 * 1300 * 1301) ->
   safe (cdf_3d_flux 0 0 0 1299 1299 1299 dx b0 b1 b2 1 u f0 f1 f2) m) /\
  cdf_3d_flux_by int32 0 0 0 1299 1299 1299 dx b0 b1 b2 1 u f0 f1 f2 m = None.
Proof.
  split; [|vm_compute; reflexivity].
  intros. apply cdf_3d_flux_safe; assumption || lia.
Qed.

Lemma empty_domain_refuted (S : Scalar) p (t : S) (m : mem S) :
  let x := make_md_span p [Jb 0 1; Ib 0 1073741822] in
  let dom := [Jb 2 1; Ib 1073741822 1073741822] in
  int_array x /\ wf_dom dom /\ wf_assign dom (ANum x t) /\
  with_domain dom [ANum x t] m = Some m /\ with_domain32 dom [ANum x t] m = None.
Proof.
  cbv zeta. split.
  { split; [repeat constructor; unfold int_range, b_lb, b_ub; cbn; lia|apply Z.leb_le; vm_compute; reflexivity]. }
  split.
  { ex_dom. }
  split.
  { split; [ex_span|].
    split; [apply Permutation_refl|exact Logic.I]. }
  split; vm_compute; reflexivity.
Qed.
