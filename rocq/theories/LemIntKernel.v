(** * Kernels with [int] index arithmetic: one library call, and the tactics *)

From Coq Require Import Permutation.
From Verif Require Import Base ModelBounds ModelMatrix ModelIters ModelSpan ModelProxy ModelInt ModelIntProxy Spec
  SpecWindow SpecInt FortranBase SpecKernel SpecSafe ModelPar LemBase LemKernel LemKernel2 LemBC LemStencil LemSafe
  LemIntExec LemIntWindow KernelNotations KernelsFlux KernelsApply KernelsBC KernelsStencil KernelsCopy KernelsBy.
Import ListNotations.
Open Scope Z_scope.

Section Calls.
  Context {S : Scalar}.

  Lemma int_domain dom (a : @assign S) (m : mem S) : wf_dom dom -> wf_assign dom a ->
    (forall T, int_assign T dom a) -> x_domain int32 dom [a] m = with_domain dom [a] m.
  Proof. intros Hd Hw Hi. apply domain_int; [exact Hd|constructor; [exact Hw|constructor]|constructor; [apply Hi|constructor]]. Qed.

  Lemma int_lhs (a : @assign S) (m : mem S) : wf_dom (sp_b (lhs_of a)) -> wf_assign (sp_b (lhs_of a)) a ->
    (forall T, int_assign T (sp_b (lhs_of a)) a) -> x_lhs int32 a m = with_lhs_domain a m.
  Proof. intros Hd Hw Hi. apply lhs_domain_int; auto. Qed.

  Lemma int_win st dom (l : list (@wassign S)) (m : mem S) : window_ok st dom l ->
    (forall T, int_window T st dom l) -> x_window int32 st dom l m = with_window st dom l m.
  Proof. intros Hw Hi. apply (window_int (ints m)); auto. Qed.
End Calls.

(** Kept out of sight of [lia]. *)
Definition few (x : Z) : Prop := x <= 2147483647.

Ltac k_dims :=
  repeat match goal with
  | H : int_dims _ |- _ =>
      let R := fresh "R" in let C := fresh "C" in destruct H as [R C];
      unfold CELL1d, CELL2d, CELL3d, FACE1d, FACE2d0, FACE2d1, FACE3d0, FACE3d1, FACE3d2 in R, C;
      cbn [map fold_right fcount fst snd] in C;
      match type of C with ?x <= _ => change (few x) in C end;
      repeat match goal with
      | X : Forall _ (_ :: _) |- _ =>
          let H' := fresh "B" in inversion X as [|? ? H' ?]; clear X; subst; cbn [fst snd] in H'
      | X : Forall _ [] |- _ => clear X
      end
  end.

Ltac k_few :=
  match goal with H : few ?p |- ?q <= _ => replace q with p by ring; exact H end.

Ltac k_cells :=
  cbv [cells_of prodZ map fold_right extent b_lb b_ub first last stride snd fst sp_b lhs_of make_md_span make_md_span_g
       expand_bounds d_expand b_expand d_minus db_minus d_unit b_unit Ib Jb Kb Wb Bnd Bnd_s Bnd_full b2z grow_dom shift_v shift_dom d_shift b_shift up down Nat.eqb Z.opp dI dJ dK dW d_plus db_plus b_pluseq b_minuseq Z.leb Z.compare].

Ltac k_iarr :=
  split; [repeat first [apply Forall_nil|apply Forall_cons; [unfold int_range, b_lb, b_ub; cbn; unfold up, down; lia|]]|k_cells; k_few].

Ltac k_in :=
  cbn; repeat first [left; reflexivity|right].

Ltac k_inside :=
  repeat first [apply Forall_nil|apply Forall_cons;
    [eexists; split; [k_in|]; split; [unfold b_lb, b_ub; cbn; unfold up, down; lia|]; split; [unfold b_lb, b_ub; cbn; unfold up, down; lia|k_cells; k_few]|]].

Ltac k_iexpr :=
  cbn [int_expr grad shift];
  repeat lazymatch goal with
  | |- _ /\ _ => split
  | |- int_array _ => k_iarr
  | |- inside _ _ => k_inside
  | |- True => exact Logic.I
  | |- Forall _ (shift_dom _ _ _) => 
      repeat first [apply Forall_nil|apply Forall_cons; [unfold int_range, b_lb, b_ub; cbn; unfold up, down; lia|]]
  | |- _ <= _ => lia
  end.

Ltac k_iassign := intros ?T; split; [k_iarr|split; [k_inside|cbv iota beta; k_iexpr]].

Ltac k_iwin :=
  intros ?T; split; [k_iarr|split; [k_inside|]];
  repeat first [apply Forall_nil|apply Forall_cons;
    [split; [cbv iota; first [exact Logic.I|split; [k_iarr|k_inside]]|
      cbn [wa_vecs pvecs PNeg app];
      repeat first [apply Forall_nil|apply Forall_cons; [k_iexpr|]]]|]].

Ltac k_int1 :=
  lazymatch goal with
  | |- ?x = ?x => reflexivity
  | |- x_domain int32 ?d [?a] ?m = _ => apply (int_domain d a m); [k_dom|k_assign|k_iassign]
  | |- x_lhs int32 ?a ?m = _ => apply (int_lhs a m); [k_dom|k_assign|k_iassign]
  | |- x_window int32 ?st ?d ?l ?m = _ => apply (int_win st d l m); [k_wok|k_iwin]
  end.

Ltac k_int :=
  cbv beta zeta; k_switch; cbn [andb orb negb]; k_zcst; cbn [Z.eqb Pos.eqb];
  repeat lazymatch goal with
  | |- bind ?x ?f = bind ?y ?g =>
      let E := fresh "E" in
      assert (E : x = y); [|rewrite E; clear E; let n := fresh "n" in let H := fresh in apply bind_ext; intros n H; clear H]
  end; cbv beta; unfold shift_xy, shift_xz, shift_yz; k_case; unfold seg_overlaps, seg_inside in * ; k_int1.
