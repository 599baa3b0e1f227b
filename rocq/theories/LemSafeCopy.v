(** * The coarse-to-fine copies and the homogeneous boundary values stay inside their arrays *)

From Coq Require Import Permutation.
From Verif Require Import Base ModelBounds ModelMatrix ModelIters ModelSpan ModelProxy Spec SpecIter ModelSched
  LemBase LemDomain LemExpr LemExec SpecAssign LemAssign LemProps LemProps4
  FortranBase SpecKernel SpecSafe LemKernel LemKernel2 KernelNotations KernelsCopy FortranCopy LemCopy
  KernelsBC LemBC LemStencil LemSafe.
Import ListNotations.
Open Scope Z_scope.

Section SafeCopy.
  Context {S : Scalar}.

  Lemma fset_safe sh (a b : farray) is js : live sh (faddr a is) -> live sh (faddr b js) ->
    ssafe (S:=S) sh (fset a is (fel b js)).
  Proof.
    intros Ha Hb m Hm. rewrite <- Hm in Ha, Hb. unfold fset, fel. apply live_load in Hb as [v ->]. cbn [bind].
    destruct (live_store m _ v Ha) as (m' & -> & Hs). exists m'. split; congruence.
  Qed.

  Lemma do_safe sh lo hi (body : Z -> mem S -> option (mem S)) :
    (forall x, lo <= x <= hi -> ssafe sh (body x)) -> ssafe sh (do_ lo hi body).
  Proof.
    intros H. apply ssafe_forM. intros x Hx. apply in_map_iff in Hx as (k & <- & Hk). apply in_seq in Hk.
    apply H. lia.
  Qed.

  Lemma c2f_copy_safe ci0 ci1 cj0 cj1 ck0 ck1 fi0 fi1 fj0 fj1 fk0 fk1 axis
      cbi0 cbi1 cbj0 cbj1 cbk0 cbk1 fbi0 fbi1 fbj0 fbj1 fbk0 fbk1 gcw ratio cdata fdata (m : mem S) :
    fi0 <= fi1 + 1 -> fj0 <= fj1 + 1 -> fk0 <= fk1 + 1 ->
    (0 <= axis < 3 -> 1 <= ratio axis) ->
    fbi0 - gcw <= fi0 <= fbi1 + gcw -> fbj0 - gcw <= fj0 <= fbj1 + gcw -> fbk0 - gcw <= fk0 <= fbk1 + gcw ->
    (axis = 0 -> fi1 <= fbi1 + gcw /\ cbi0 - gcw <= fi0 / ratio 0 /\ fi1 / ratio 0 <= cbi1 + gcw) ->
    (axis = 1 -> fj1 <= fbj1 + gcw /\ cbj0 - gcw <= fj0 / ratio 1 /\ fj1 / ratio 1 <= cbj1 + gcw) ->
    (axis = 2 -> fk1 <= fbk1 + gcw /\ cbk0 - gcw <= fk0 / ratio 2 /\ fk1 / ratio 2 <= cbk1 + gcw) ->
    (axis <> 0 -> cbi0 - gcw <= ci0 <= cbi1 + gcw) ->
    (axis <> 1 -> cbj0 - gcw <= cj0 <= cbj1 + gcw) ->
    (axis <> 2 -> cbk0 - gcw <= ck0 <= cbk1 + gcw) ->
    room m cdata (fcount (CELL3d cbi0 cbj0 cbk0 cbi1 cbj1 cbk1 gcw)) ->
    room m fdata (fcount (CELL3d fbi0 fbj0 fbk0 fbi1 fbj1 fbk1 gcw)) ->
    safe (c2f_copy ci0 ci1 cj0 cj1 ck0 ck1 fi0 fi1 fj0 fj1 fk0 fk1 axis
      cbi0 cbi1 cbj0 cbj1 cbk0 cbk1 fbi0 fbi1 fbj0 fbj1 fbk0 fbk1 gcw ratio cdata fdata) m.
  Proof.
    intros Hi Hj Hk Hr Fi Fj Fk A0 A1 A2 Ci Cj Ck Rc Rf. unfold safe.
    rewrite c2f_copy_eq by assumption. fold (@safe S (copycoarsetofine3d ci0 ci1 cj0 cj1 ck0 ck1 fi0 fi1 fj0 fj1 fk0 fk1 axis
      cbi0 cbi1 cbj0 cbj1 cbk0 cbk1 fbi0 fbi1 fbj0 fbj1 fbk0 fbk1 gcw ratio cdata fdata) m).
    k_rooms. clear m. intros m Hm. unfold copycoarsetofine3d. cbv zeta.
    destruct (Z.eqb_spec axis 0) as [->|N0]; [|destruct (Z.eqb_spec axis 1) as [->|N1];
      [|destruct (Z.eqb_spec axis 2) as [->|N2]; [|exists m; split; [reflexivity|exact Hm]]]].
    1: specialize (Hr ltac:(lia)); specialize (A0 eq_refl); specialize (Cj ltac:(lia)); specialize (Ck ltac:(lia)).
    2: specialize (Hr ltac:(lia)); specialize (A1 eq_refl); specialize (Ci ltac:(lia)); specialize (Ck ltac:(lia)).
    3: specialize (Hr ltac:(lia)); specialize (A2 eq_refl); specialize (Ci ltac:(lia)); specialize (Cj ltac:(lia)).
    all: cbv iota; match goal with |- exists m', do_ ?lo ?hi ?b ?mm = _ /\ _ =>
           apply (do_safe _ lo hi b); [|exact Hm]; clear dependent mm; intros x Hx end.
    all: match type of Hx with ?lo <= ?x <= ?hi =>
           match type of Hr with 1 <= ?r => pose proof (Z.div_le_mono lo x r ltac:(lia) ltac:(lia));
             pose proof (Z.div_le_mono x hi r ltac:(lia) ltac:(lia)) end end.
    all: rewrite coarse_of_floor by exact Hr; clear Hr;
           repeat match goal with H : ?P -> _ |- _ => match type of P with Prop => clear H end end;
           repeat match goal with H : context [?a / ?b] |- _ => generalize dependent (a / b); intros end;
           repeat match goal with H : _ /\ _ |- _ => destruct H end.
    all: cbv beta zeta; match goal with |- ssafe ?sh (fset ?a ?is (fel ?b ?js)) => apply (fset_safe sh a b is js) end.
    all: apply live_faddr; [match goal with H : sroom ?sh ?p _ |- sroom ?sh ?p _ => exact H end|]; unfold in_range, CELL3d;
      repeat first [apply Forall2_nil|apply Forall2_cons; [cbn [fst snd]; lia|]].
  Qed.

  Lemma c2f_copy_corner_safe ci0 ci1 cj0 cj1 ck0 ck1 fi0 fi1 fj0 fj1 fk0 fk1
      cbi0 cbi1 cbj0 cbj1 cbk0 cbk1 fbi0 fbi1 fbj0 fbj1 fbk0 fbk1 gcw cdata fdata (m : mem S) :
    fbi0 - gcw <= fi0 <= fbi1 + gcw -> fbj0 - gcw <= fj0 <= fbj1 + gcw -> fbk0 - gcw <= fk0 <= fbk1 + gcw ->
    cbi0 - gcw <= ci0 <= cbi1 + gcw -> cbj0 - gcw <= cj0 <= cbj1 + gcw -> cbk0 - gcw <= ck0 <= cbk1 + gcw ->
    room m cdata (fcount (CELL3d cbi0 cbj0 cbk0 cbi1 cbj1 cbk1 gcw)) ->
    room m fdata (fcount (CELL3d fbi0 fbj0 fbk0 fbi1 fbj1 fbk1 gcw)) ->
    safe (c2f_copy_corner ci0 ci1 cj0 cj1 ck0 ck1 fi0 fi1 fj0 fj1 fk0 fk1
      cbi0 cbi1 cbj0 cbj1 cbk0 cbk1 fbi0 fbi1 fbj0 fbj1 fbk0 fbk1 gcw cdata fdata) m.
  Proof.
    intros Fi Fj Fk Ci Cj Ck Rc Rf. unfold safe. rewrite c2f_copy_corner_eq.
    apply room_sroom in Rc, Rf.
    apply (fset_safe (shape m)); [| |reflexivity]; (apply live_faddr; [match goal with H : sroom ?sh ?p _ |- sroom ?sh ?p _ => exact H end|]); unfold in_range, CELL3d;
      repeat first [apply Forall2_nil|apply Forall2_cons; [cbn [fst snd]; lia|]].
  Qed.

  Lemma cd_2d_set_homogenous_bc_safe i0 j0 i1 j1 face bLo bHi exOrder u (m : mem S) :
    i0 <= i1 -> j0 <= j1 ->
    (face = 0 \/ face = 1 -> seg_meets j0 j1 (bLo 1) (bHi 1) /\ exOrder <= i1 - i0 + 2) ->
    (face = 2 \/ face = 3 -> seg_meets i0 i1 (bLo 0) (bHi 0) /\ exOrder <= j1 - j0 + 2) ->
    room m u (fcount (CELL2d i0 j0 i1 j1 1)) ->
    safe (cd_2d_set_homogenous_bc i0 j0 i1 j1 face bLo bHi exOrder u) m.
  Proof.
    intros Hi Hj F0 F2 R. k_rooms. unfold cd_2d_set_homogenous_bc. cbv beta zeta.
    unfold seg_meets in * .
    destruct (Z.eqb_spec face 0) as [->|]; [specialize (F0 ltac:(lia)); clear F2|
    destruct (Z.eqb_spec face 1) as [->|]; [specialize (F0 ltac:(lia)); clear F2|
    destruct (Z.eqb_spec face 2) as [->|]; [specialize (F2 ltac:(lia)); clear F0|
    destruct (Z.eqb_spec face 3) as [->|]; [specialize (F2 ltac:(lia)); clear F0|exact (ssafe_ret _)]]]].
    all: destruct (Z.eqb_spec exOrder 1) as [->|]; [|
         destruct (Z.eqb_spec exOrder 2) as [->|]; [|
         destruct (Z.eqb_spec exOrder 3) as [->|]; [|
         destruct (Z.eqb_spec exOrder 4) as [->|]]]].
    all: apply ssafe_bind; [|apply ssafe_bind]; unfold shift_xy; first [exact (ssafe_ret _)|k_safe1].
  Qed.
End SafeCopy.
