(** * Copies and the homogeneous boundary values with [int] index arithmetic *)

From Coq Require Import Permutation ZifyBool ZifyNat.
From Verif Require Import Base ModelBounds ModelMatrix ModelIters ModelSpan ModelProxy ModelInt ModelIntProxy Spec
  SpecWindow SpecInt FortranBase SpecKernel SpecSafe ModelPar LemBase LemMatrix LemDomain LemKernel LemKernel2 LemBC
  LemStencil LemSafe LemInt LemIntSpan LemWindow LemIntExec LemIntKernel KernelNotations KernelsFlux KernelsApply KernelsBC
  KernelsStencil KernelsCopy KernelsBy.
Import ListNotations.
Open Scope Z_scope.

(** ** One element: [s.at(is...)] *)

Lemma span_at_int s is : wf_span s -> sp_b s <> [] -> int_array s ->
  Forall2 (fun i b => b_lb (snd b) <= i <= b_ub (snd b)) is (sp_b s) ->
  span_at32 s is = span_at s is.
Proof.
  intros Hw Hne Hi HF. unfold span_at32, span_at.
  pose proof (Forall2_len _ _ _ HF) as HL.
  destruct (array_rep s Hw Hi) as [r ->]. cbn [bind].
  assert (mapM ck is = Some is) as ->.
  { clear -HF Hi. destruct Hi as [Ha _]. revert Ha; induction HF as [|i b is l Hb HF IH]; intros Ha; cbn [mapM]; [reflexivity|].
    inversion Ha as [|? ? [H1 _] H2]; subst. unfold int_range in H1. rewrite ck_ok by ilia. rewrite IH by exact H2. reflexivity. }
  cbn [bind]. rewrite HL, Nat.eqb_refl.
  assert (forall i, (i < length (sp_b s))%nat ->
    0 <= aget is i - b_lb (snd (nth i (sp_b s) (0%nat, mkBounds 0 0 1))) <
    extent (snd (nth i (sp_b s) (0%nat, mkBounds 0 0 1)))) as HR.
  { clear -HF. intros i Hi. unfold aget. revert i Hi; induction HF as [|x b is l Hb HF IH]; intros i Hi; cbn in * ; [lia|].
    destruct i as [|i]; [unfold extent; lia|]. apply IH. lia. }
  rewrite (sub_lb32_ok s is HL).
  2:{ intros i Hi'. specialize (HR i Hi'). pose proof (array_bnd s Hw Hi i Hi') as (_ & _ & _ & H). ilia. }
  cbn [bind]. rewrite (span_sizes32_ok s Hw Hi). apply bind_ext. intros sz Esz.
  destruct (fold_aset_range (fun i x => x - b_lb (snd (nth i (sp_b s) (0%nat, mkBounds 0 0 1)))) 0 (length (sp_b s)) is)
    as [L2 G2].
  set (c := fold_left _ _ is) in * .
  assert (c = map (fun p => fst p - b_lb (snd (snd p))) (combine is (sp_b s))) as Ec.
  { apply nth_ext with (d := 0) (d' := 0).
    - rewrite map_length, combine_length, L2. lia.
    - intros n Hn. rewrite L2, HL in Hn. fold (aget c n). rewrite G2 by lia.
      destruct (Nat.ltb_spec n (0 + length (sp_b s))); [|lia]. cbn [Nat.leb andb].
      erewrite (nth_indep _ 0), (map_nth (fun p : Z * dbnd => fst p - b_lb (snd (snd p))) _ (0, (0%nat, mkBounds 0 0 1)));
        [|rewrite map_length, combine_length; lia].
      rewrite combine_nth by exact HL. reflexivity. }
  assert (sz = map (fun b => extent (snd b)) (sp_b s)) as ->.
  { unfold span_sizes in Esz. rewrite (mapM_map _ (fun b => extent (snd b))) in Esz; [congruence|].
    intros b Hb. destruct Hw as [_ Hst]. rewrite Forall_forall in Hst. specialize (Hst b Hb).
    unfold b_size, cdiv, extent, b_lb, b_ub. rewrite Hst. cbn [Z.eqb Pos.eqb]. rewrite Z.quot_1_r. f_equal. lia. }
  assert (LemMatrix.in_range (map (fun b => extent (snd b)) (sp_b s)) c) as HIR.
  { apply Forall2_aget; [rewrite map_length; lia|]. rewrite map_length. intros i H0.
    rewrite aget_map with (d := (0%nat, mkBounds 0 0 1)) by exact H0.
    rewrite G2 by lia. destruct (Nat.ltb_spec i (0 + length (sp_b s))); [|lia]. cbn [Nat.leb andb]. apply HR. exact H0. }
  rewrite ravel32_ok; [rewrite Ec; reflexivity| | |apply array_ext; assumption| |].
  - intros E. apply map_eq_nil in E. congruence.
  - rewrite map_length. lia.
  - apply Forall_forall. intros x Hx. destruct (In_nth _ _ 0 Hx) as (i & H0 & <-). fold (aget c i).
    rewrite L2, HL in H0. rewrite G2 by lia. destruct (Nat.ltb_spec i (0 + length (sp_b s))); [|lia]. cbn [Nat.leb andb].
    apply HR. exact H0.
  - pose proof (rav_bound _ _ HIR). pose proof (array_cells s Hi). fold (cells_of (sp_b s)) in * . lia.
Qed.

Section Int.
  Context {S : Scalar}.

  Lemma at_int (f c : span) is js (m : mem S) : wf_span f -> wf_span c -> sp_b f <> [] -> sp_b c <> [] ->
    int_array f -> int_array c ->
    Forall2 (fun i b => b_lb (snd b) <= i <= b_ub (snd b)) is (sp_b f) ->
    Forall2 (fun i b => b_lb (snd b) <= i <= b_ub (snd b)) js (sp_b c) ->
    at_assign32 f is c js m = at_assign f is c js m.
  Proof. intros. unfold at_assign32, at_assign. rewrite !span_at_int by assumption. reflexivity. Qed.

  Lemma c2f_copy_corner_int ci0 ci1 cj0 cj1 ck0 ck1 fi0 fi1 fj0 fj1 fk0 fk1
      cbi0 cbi1 cbj0 cbj1 cbk0 cbk1 fbi0 fbi1 fbj0 fbj1 fbk0 fbk1 gcw cdata fdata (m : mem S) :
    cbi0 - gcw <= ci0 <= cbi1 + gcw -> cbj0 - gcw <= cj0 <= cbj1 + gcw -> cbk0 - gcw <= ck0 <= cbk1 + gcw ->
    fbi0 - gcw <= fi0 <= fbi1 + gcw -> fbj0 - gcw <= fj0 <= fbj1 + gcw -> fbk0 - gcw <= fk0 <= fbk1 + gcw ->
    int_dims (CELL3d cbi0 cbj0 cbk0 cbi1 cbj1 cbk1 gcw) -> int_dims (CELL3d fbi0 fbj0 fbk0 fbi1 fbj1 fbk1 gcw) ->
    c2f_copy_corner32 ci0 ci1 cj0 cj1 ck0 ck1 fi0 fi1 fj0 fj1 fk0 fk1
      cbi0 cbi1 cbj0 cbj1 cbk0 cbk1 fbi0 fbi1 fbj0 fbj1 fbk0 fbk1 gcw cdata fdata m =
    c2f_copy_corner ci0 ci1 cj0 cj1 ck0 ck1 fi0 fi1 fj0 fj1 fk0 fk1
      cbi0 cbi1 cbj0 cbj1 cbk0 cbk1 fbi0 fbi1 fbj0 fbj1 fbk0 fbk1 gcw cdata fdata m.
  Proof.
    intros Ci Cj Ck Fi Fj Fk. intros; k_dims. unfold c2f_copy_corner32, c2f_copy_corner. cbv zeta.
    apply at_int; [k_span|k_span|discriminate|discriminate|k_iarr|k_iarr| |];
      repeat constructor; unfold b_lb, b_ub; cbn; lia.
  Qed.

  Lemma c2f_copy_int ci0 ci1 cj0 cj1 ck0 ck1 fi0 fi1 fj0 fj1 fk0 fk1 axis
      cbi0 cbi1 cbj0 cbj1 cbk0 cbk1 fbi0 fbi1 fbj0 fbj1 fbk0 fbk1 gcw ratio cdata fdata (m : mem S) :
    fi0 <= fi1 -> fj0 <= fj1 -> fk0 <= fk1 ->
    (0 <= axis < 3 -> 1 <= ratio axis <= 2147483647) ->
    fbi0 - gcw <= fi0 <= fbi1 + gcw -> fbj0 - gcw <= fj0 <= fbj1 + gcw -> fbk0 - gcw <= fk0 <= fbk1 + gcw ->
    (axis = 0 -> fi1 <= fbi1 + gcw /\ cbi0 - gcw <= fi0 / ratio 0 /\ fi1 / ratio 0 <= cbi1 + gcw) ->
    (axis = 1 -> fj1 <= fbj1 + gcw /\ cbj0 - gcw <= fj0 / ratio 1 /\ fj1 / ratio 1 <= cbj1 + gcw) ->
    (axis = 2 -> fk1 <= fbk1 + gcw /\ cbk0 - gcw <= fk0 / ratio 2 /\ fk1 / ratio 2 <= cbk1 + gcw) ->
    (axis <> 0 -> cbi0 - gcw <= ci0 <= cbi1 + gcw) ->
    (axis <> 1 -> cbj0 - gcw <= cj0 <= cbj1 + gcw) ->
    (axis <> 2 -> cbk0 - gcw <= ck0 <= cbk1 + gcw) ->
    int_dims (CELL3d cbi0 cbj0 cbk0 cbi1 cbj1 cbk1 gcw) -> int_dims (CELL3d fbi0 fbj0 fbk0 fbi1 fbj1 fbk1 gcw) ->
    c2f_copy_by int32 ci0 ci1 cj0 cj1 ck0 ck1 fi0 fi1 fj0 fj1 fk0 fk1 axis
      cbi0 cbi1 cbj0 cbj1 cbk0 cbk1 fbi0 fbi1 fbj0 fbj1 fbk0 fbk1 gcw ratio cdata fdata m =
    c2f_copy ci0 ci1 cj0 cj1 ck0 ck1 fi0 fi1 fj0 fj1 fk0 fk1 axis
      cbi0 cbi1 cbj0 cbj1 cbk0 cbk1 fbi0 fbi1 fbj0 fbj1 fbk0 fbk1 gcw ratio cdata fdata m.
  Proof.
    intros Hi Hj Hk Hr Fi Fj Fk A0 A1 A2 Ci Cj Ck Rc Rf. k_dims. unfold c2f_copy_by, c2f_copy. cbv zeta.
    destruct (Z.eqb_spec axis 0) as [->|N0]; [|destruct (Z.eqb_spec axis 1) as [->|N1];
      [|destruct (Z.eqb_spec axis 2) as [->|N2]; [|reflexivity]]].
    1: specialize (Hr ltac:(lia)); specialize (A0 eq_refl); clear A1 A2 Ci; specialize (Cj ltac:(lia)); specialize (Ck ltac:(lia));
       pose proof (Z.div_le_mono fi0 fi1 (ratio 0) ltac:(lia) Hi).
    2: specialize (Hr ltac:(lia)); specialize (A1 eq_refl); clear A0 A2 Cj; specialize (Ci ltac:(lia)); specialize (Ck ltac:(lia));
       pose proof (Z.div_le_mono fj0 fj1 (ratio 1) ltac:(lia) Hj).
    3: specialize (Hr ltac:(lia)); specialize (A2 eq_refl); clear A1 A0 Ck; specialize (Ci ltac:(lia)); specialize (Cj ltac:(lia));
       pose proof (Z.div_le_mono fk0 fk1 (ratio 2) ltac:(lia) Hk).
    all: apply int_domain; [k_dom| |].
    all: try (split; [k_span|split; [k_perm|cbv iota beta]];
      split; [k_span|split; [apply Hr|split; [k_nodup|split; [k_perm|]]]]).
    1: exists dI, (Bnd fi0 fi1). 3: exists dJ, (Bnd fj0 fj1). 5: exists dK, (Bnd fk0 fk1).
    all: try (split; [simpl; tauto|]; split; [reflexivity|]; split; [k_perm|];
      repeat constructor; simpl; unfold b_lb, b_ub; cbn; lia).
    all: intros T; split; [k_iarr|split; [k_inside|cbv iota beta]]; cbn [int_expr].
    all: split; [k_iarr|]; split; [lia|]; split; [|split; [|split]].
    all: try (repeat first [apply Forall_nil|apply Forall_cons; [unfold int_range, b_lb, b_ub; cbn; repeat split; lia|]]).
    all: try (repeat first [apply Forall_nil|apply Forall_cons; [eexists; split; [k_in|]; unfold b_lb, b_ub; cbn; lia|]]).
    all: intros d b b' H1 H2 H3; cbn in H1, H2, H3;
      repeat match goal with X : _ \/ _ |- _ => destruct X as [X|X] | X : False |- _ => destruct X end;
      inversion H1; subst; inversion H3; subst; try (exfalso; apply H2; tauto); unfold b_lb, b_ub; cbn;
      repeat match goal with |- context [(?x + 1 - 1) / _] => replace (x + 1 - 1) with x by lia end; lia.
  Qed.

  Lemma cd_2d_set_homogenous_bc_int i0 j0 i1 j1 face bLo bHi exOrder u (m : mem S) :
    i0 <= i1 -> j0 <= j1 ->
    (face = 0 \/ face = 1 -> seg_overlaps j0 j1 (bLo 1) (bHi 1) /\ exOrder <= i1 - i0 + 2) ->
    (face = 2 \/ face = 3 -> seg_overlaps i0 i1 (bLo 0) (bHi 0) /\ exOrder <= j1 - j0 + 2) ->
    int_dims (CELL2d i0 j0 i1 j1 1) ->
    cd_2d_set_homogenous_bc_by int32 i0 j0 i1 j1 face bLo bHi exOrder u m =
    cd_2d_set_homogenous_bc i0 j0 i1 j1 face bLo bHi exOrder u m.
  Proof.
    intros Hi Hj F0 F2. intros; k_dims. unfold cd_2d_set_homogenous_bc_by, cd_2d_set_homogenous_bc. cbv beta zeta.
    unfold seg_overlaps in * .
    destruct (Z.eqb_spec face 0) as [->|]; [specialize (F0 ltac:(lia)); clear F2|
    destruct (Z.eqb_spec face 1) as [->|]; [specialize (F0 ltac:(lia)); clear F2|
    destruct (Z.eqb_spec face 2) as [->|]; [specialize (F2 ltac:(lia)); clear F0|
    destruct (Z.eqb_spec face 3) as [->|]; [specialize (F2 ltac:(lia)); clear F0|reflexivity]]]].
    all: destruct (Z.eqb_spec exOrder 1) as [->|]; [|
         destruct (Z.eqb_spec exOrder 2) as [->|]; [|
         destruct (Z.eqb_spec exOrder 3) as [->|]; [|
         destruct (Z.eqb_spec exOrder 4) as [->|]]]].
    all: unfold shift_xy; cbn [bind];
      repeat lazymatch goal with
      | |- bind ?x ?f = bind ?y ?g =>
          let E := fresh "E" in
          assert (E : x = y); [|rewrite E; clear E; let n := fresh "n" in let H := fresh in apply bind_ext; intros n H; clear H]
      end; k_int1.
  Qed.
End Int.
