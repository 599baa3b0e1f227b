(** * The coarse-to-fine copy and the homogeneous boundary values in parallel *)

From Coq Require Import Permutation.
From Verif Require Import Base ModelBounds ModelMatrix ModelIters ModelSpan ModelProxy Spec SpecIter ModelSched ModelPar
  LemBase LemDomain LemExpr LemExec SpecAssign LemAssign LemProps LemProps4 SpecWindow LemWindow
  FortranBase SpecKernel SpecSafe LemKernel LemKernel2 LemBC LemStencil LemRow LemRhs LemBoundary LemSafe KernelNotations
  KernelsFlux KernelsApply KernelsBC KernelsStencil KernelsCopy KernelsBy LemPar.
Import ListNotations.
Open Scope Z_scope.

Section Par.
  Context {S : Scalar}.

  Lemma c2f_copy_par O ci0 ci1 cj0 cj1 ck0 ck1 fi0 fi1 fj0 fj1 fk0 fk1 axis
      cbi0 cbi1 cbj0 cbj1 cbk0 cbk1 fbi0 fbi1 fbj0 fbj1 fbk0 fbk1 gcw ratio cdata fdata (m : mem S) :
    fi0 <= fi1 + 1 -> fj0 <= fj1 + 1 -> fk0 <= fk1 + 1 -> (0 <= axis < 3 -> 1 <= ratio axis) ->
    fbi0 - gcw <= fi0 <= fbi1 + gcw -> fbj0 - gcw <= fj0 <= fbj1 + gcw -> fbk0 - gcw <= fk0 <= fbk1 + gcw ->
    (axis = 0 -> fi1 <= fbi1 + gcw) -> (axis = 1 -> fj1 <= fbj1 + gcw) -> (axis = 2 -> fk1 <= fbk1 + gcw) ->
    apart fdata [cdata] ->
    c2f_copy_by (parallel O) ci0 ci1 cj0 cj1 ck0 ck1 fi0 fi1 fj0 fj1 fk0 fk1 axis
      cbi0 cbi1 cbj0 cbj1 cbk0 cbk1 fbi0 fbi1 fbj0 fbj1 fbk0 fbk1 gcw ratio cdata fdata m =
    c2f_copy ci0 ci1 cj0 cj1 ck0 ck1 fi0 fi1 fj0 fj1 fk0 fk1 axis
      cbi0 cbi1 cbj0 cbj1 cbk0 cbk1 fbi0 fbi1 fbj0 fbj1 fbk0 fbk1 gcw ratio cdata fdata m.
  Proof.
    intros Hi Hj Hk Hr Fi Fj Fk A0 A1 A2 HP. k_apart. unfold c2f_copy_by, c2f_copy. cbv zeta.
    destruct (Z.eqb_spec axis 0) as [->|N0]; [|destruct (Z.eqb_spec axis 1) as [->|N1];
      [|destruct (Z.eqb_spec axis 2) as [->|N2]; [|reflexivity]]].
    1: specialize (Hr ltac:(lia)); specialize (A0 eq_refl); clear A1 A2.
    2: specialize (Hr ltac:(lia)); specialize (A1 eq_refl); clear A0 A2.
    3: specialize (Hr ltac:(lia)); specialize (A2 eq_refl); clear A1 A0.
    all: match goal with |- x_domain (parallel ?O) ?d [?a] ?m = _ => apply (par_domain O d a m) end.
    all: try (apply avoids_independent; k_avoids).
    all: split; [k_dom|split; [|k_within]]; split; [k_span|split; [k_perm|cbv iota beta]];
      split; [k_span|split; [exact Hr|split; [k_nodup|split; [k_perm|]]]].
    1: exists dI, (Bnd fi0 fi1). 2: exists dJ, (Bnd fj0 fj1). 3: exists dK, (Bnd fk0 fk1).
    all: split; [simpl; tauto|]; split; [reflexivity|]; split; [k_perm|];
      repeat constructor; simpl; unfold b_lb, b_ub; cbn; lia.
  Qed.

  Lemma cd_2d_set_homogenous_bc_par O i0 j0 i1 j1 face bLo bHi exOrder u (m : mem S) :
    i0 <= i1 -> j0 <= j1 ->
    (face = 0 \/ face = 1 -> seg_meets j0 j1 (bLo 1) (bHi 1) /\ exOrder <= i1 - i0 + 2) ->
    (face = 2 \/ face = 3 -> seg_meets i0 i1 (bLo 0) (bHi 0) /\ exOrder <= j1 - j0 + 2) ->
    cd_2d_set_homogenous_bc_by (parallel O) i0 j0 i1 j1 face bLo bHi exOrder u m =
    cd_2d_set_homogenous_bc i0 j0 i1 j1 face bLo bHi exOrder u m.
  Proof.
    intros Hi Hj F0 F2. unfold cd_2d_set_homogenous_bc_by, cd_2d_set_homogenous_bc. cbv beta zeta.
    unfold seg_meets in * .
    destruct (Z.eqb_spec face 0) as [->|]; [specialize (F0 ltac:(lia)); clear F2|
    destruct (Z.eqb_spec face 1) as [->|]; [specialize (F0 ltac:(lia)); clear F2|
    destruct (Z.eqb_spec face 2) as [->|]; [specialize (F2 ltac:(lia)); clear F0|
    destruct (Z.eqb_spec face 3) as [->|]; [specialize (F2 ltac:(lia)); clear F0|reflexivity]]]].
    all: destruct (Z.eqb_spec exOrder 1) as [->|]; [|
         destruct (Z.eqb_spec exOrder 2) as [->|]; [|
         destruct (Z.eqb_spec exOrder 3) as [->|]; [|
         destruct (Z.eqb_spec exOrder 4) as [->|]]]].
    all: unfold shift_xy; cbn [bind];
      repeat lazymatch goal with
      | |- bind ?x ?f = bind ?y ?g =>
          let E := fresh "E" in
          assert (E : x = y); [|rewrite E; clear E; let n := fresh "n" in let H := fresh in apply bind_ext; intros n H; clear H]
      end; k_par1.
  Qed.
End Par.
