(** * Properties C28-C33: stencil windows and strided domains *)

From Coq Require Import Permutation.
From Verif Require Import Base ModelBounds ModelMatrix ModelIters ModelSpan ModelProxy Spec SpecIter
  ModelSched SpecAssign SpecWindow Instances LemWindow LemWindow2.
Import ListNotations.
Open Scope Z_scope.

(** ** C28 *)

(** [st(i) = r]: after the statement entry [i] of every window in the domain holds
    the value of the arithmetic written ([pvalue], SpecWindow) in the memory before. *)
Theorem C28_window_expression : forall (S : Scalar) st dom i r (m m' : mem S),
  window_ok st dom [WSet1 i r] -> strides_divide dom ->
  window_disjoint_elems st dom [WSet1 i r] (ints m) ->
  with_window st dom [WSet1 i r] m = Some m' ->
  forall pt, In pt (domain_points dom origin) ->
    exists x, pvalue st r pt m = Some (VNum x) /\ load m' (entry_at st pt i) = Some x.
Proof. exact @window_expression. Qed.
Print Assumptions C28_window_expression.

(** It does complete whenever the values and entries exist. *)
Theorem C28_defined : forall (S : Scalar) st dom l (m : mem S),
  window_ok st dom l -> window_indep st l -> window_disjoint_elems st dom l (ints m) ->
  (forall pt, In pt (domain_points dom origin) -> point_spec st l pt m <> None) ->
  exists m', with_window st dom l m = Some m'.
Proof. exact @window_defined. Qed.
Print Assumptions C28_defined.

(** st(2) = 3 * (st(0) * x) - y *)
Definition ex_window (S : Scalar) : list (@wassign S) :=
  [WSet1 2 (POp OSub (POp OMul (PNum (lit 3)) (POp OMul (PSt 0) (PVec (ESpan w_x)))) (PVec (ESpan w_y)))].

Lemma ex_window_ok S : window_ok w_st w_dom (ex_window S).
Proof.
  split; [ex_dom|]. split; [ex_span|].
  split; [exists [Ib 0 4], dW, (Bnd 0 2); split; [reflexivity|apply Permutation_refl]|].
  split; [constructor; [split; [reflexivity|cbn; tauto]|constructor]|].
  split; [|right; right; repeat constructor].
  constructor; [|constructor]. repeat (constructor; [split; [ex_span|apply Permutation_refl]|]). constructor.
Qed.

Lemma ex_window_local S : window_local w_st w_dom (ex_window S).
Proof. w_local. Qed.

Example C28_example : window_ok w_st w_dom (ex_window ZS) /\ strides_divide w_dom /\
  window_disjoint_elems w_st w_dom (ex_window ZS) [] /\
  (m' <- with_window w_st w_dom (ex_window ZS) w_m ;; load m' (0%nat, 5)) = Some (3 * (4 * 30) - 5).
Proof.
  split; [apply ex_window_ok|]. split; [exact w_dom_divide|].
  split; [apply window_local_disjoint; [apply ex_window_ok|apply ex_window_local]|vm_compute; reflexivity].
Qed.

(** ** C29 *)

(** The pointwise reading of every statement the compiler accepts is refuted ... *)
Theorem C29_accepted_shapes_refuted :
  ~ forall (S : Scalar) st dom (l : list (@wassign S)) (m : mem S),
      window_accepted st dom l -> window_local st dom l -> strides_divide dom ->
      with_window st dom l m = window_spec st dom l m.
Proof. exact prefix_refuted. Qed.
Print Assumptions C29_accepted_shapes_refuted.

(** ... by st(2) = x - st(0)*y, which stores st(0)*y - x ... *)
Theorem C29_prefixed_vector_refuted :
  window_accepted w_st w_dom w_prefix /\ window_local w_st w_dom w_prefix /\ strides_divide w_dom /\
  (m' <- with_window w_st w_dom w_prefix w_m ;; load m' (entry_at w_st origin 2)) = Some (1 * 3 - 20) /\
  (m' <- window_spec w_st w_dom w_prefix w_m ;; load m' (entry_at w_st origin 2)) = Some (20 - 1 * 3).
Proof. exact prefix_wrong_value. Qed.
Print Assumptions C29_prefixed_vector_refuted.

(** ... and by st(2) = st(0)*x + st(1)*y, which reads x twice. *)
Theorem C29_merged_vectors_refuted :
  window_accepted w_st w_dom w_merge /\ window_local w_st w_dom w_merge /\ strides_divide w_dom /\
  (m' <- with_window w_st w_dom w_merge w_m ;; load m' (entry_at w_st origin 2)) = Some (1 * 20 + 2 * 20) /\
  (m' <- window_spec w_st w_dom w_merge w_m ;; load m' (entry_at w_st origin 2)) = Some (1 * 20 + 2 * 3).
Proof. exact merge_wrong_value. Qed.
Print Assumptions C29_merged_vectors_refuted.

(** ** C30 *)

(** The statement is the loop over the points running the assignments in order
    ([window_spec], SpecWindow). *)
Theorem C30_in_order : forall (S : Scalar) st dom l (m : mem S),
  window_ok st dom l -> window_indep st l -> strides_divide dom ->
  with_window st dom l m = window_spec st dom l m.
Proof. exact @with_window_spec. Qed.
Print Assumptions C30_in_order.

(** What a point's entries hold afterwards is what running the list at that point
    alone leaves there. *)
Theorem C30_effect : forall (S : Scalar) st dom l (m m' : mem S),
  window_ok st dom l -> window_indep st l -> strides_divide dom ->
  window_disjoint_elems st dom l (ints m) -> with_window st dom l m = Some m' ->
  forall pt, In pt (domain_points dom origin) ->
    exists f, point_spec st l pt m = Some f /\
      forall x, In x (flat_map (wwrites st pt) l) -> load m' x = load f x.
Proof. exact @window_effect. Qed.
Print Assumptions C30_effect.

(** Nothing else changes. *)
Theorem C30_frame : forall (S : Scalar) st dom l (m m' : mem S),
  window_ok st dom l -> window_indep st l -> with_window st dom l m = Some m' ->
  shape m' = shape m /\ ints m' = ints m /\
  forall x, (forall pt a, In pt (domain_points dom origin) -> In a l -> ~ In x (wwrites st pt a)) ->
    load m' x = load m x.
Proof. exact @window_frame. Qed.
Print Assumptions C30_frame.

(** Any interleaving of the threads of a parallel launch gives the same memory. *)
Theorem C30_schedules : forall (S : Scalar) st dom l (m : mem S),
  window_ok st dom l -> window_indep st l -> window_disjoint_elems st dom l (ints m) ->
  exists ts, window_launch st dom l (ints m) = Some ts /\
    (forall sch ts' m', run_schedule sch (ts, m) = Some (ts', m') -> all_done ts' ->
       with_window st dom l m = Some m') /\
    (forall sch, with_window st dom l m <> None -> run_schedule sch (ts, m) <> None) /\
    (forall m', with_window st dom l m = Some m' ->
       exists sch ts', run_schedule sch (ts, m) = Some (ts', m') /\ all_done ts').
Proof. exact @window_schedule. Qed.
Print Assumptions C30_schedules.

(** Windows of different points do not overlap: it is enough that vectors do not
    read the written arrays. *)
Theorem C30_local_windows : forall (S : Scalar) st dom (l : list (@wassign S)) I,
  window_ok st dom l -> window_local st dom l -> window_disjoint_elems st dom l I.
Proof. exact @window_local_disjoint. Qed.
Print Assumptions C30_local_windows.

(** st(0) = x;  st(1) = 2*st(0) + y (seeing the new st(0));  st(0,2) = stencil pair of y. *)
Definition ex_list : list (@wassign ZS) :=
  [WSet1 0 (PVec (ESpan w_x));
   WSet1 1 (POp OAdd (POp OMul (PNum (2 : ZS)) (PSt 0)) (PVec (ESpan w_y)));
   WSet2 0 2 (PVec (EStencil up w_y dI))].

Definition ex_dom4 : list dbnd := [Ib 0 3].

Example C30_example :
  window_ok w_st ex_dom4 ex_list /\ window_indep w_st ex_list /\ strides_divide ex_dom4 /\
  window_disjoint_elems w_st ex_dom4 ex_list [] /\
  (m' <- with_window w_st ex_dom4 ex_list w_m ;; load m' (0%nat, 3)) = Some 5 /\
  (m' <- with_window w_st ex_dom4 ex_list w_m ;; load m' (0%nat, 4)) = Some (2 * 30 + 5) /\
  (m' <- with_window w_st ex_dom4 ex_list w_m ;; load m' (0%nat, 5)) = Some 7.
Proof.
  assert (window_ok w_st ex_dom4 ex_list) as Hok.
  { split; [ex_dom|]. split; [ex_span|].
    split; [exists [Ib 0 4], dW, (Bnd 0 2); split; [reflexivity|apply Permutation_refl]|].
    split; [repeat (constructor; [first [exact Logic.I|split; [reflexivity|cbn; tauto]]|]); constructor|].
    split; [|right; right; repeat constructor].
    constructor; [|constructor; [|constructor; [|constructor]]].
    - repeat (constructor; [split; [ex_span|apply Permutation_refl]|]); constructor.
    - repeat (constructor; [split; [ex_span|apply Permutation_refl]|]); constructor.
    - constructor; [|constructor]. split; [ex_span|]. split; [apply Permutation_refl|]. split; [left; reflexivity|].
      exists (Bnd 0 3). split; [left; reflexivity|reflexivity]. }
  split; [exact Hok|].
  split; [split; [repeat constructor|constructor; [exact Logic.I|constructor; [exact Logic.I|constructor; [right; discriminate|constructor]]]]|].
  split; [repeat constructor; exists 4; reflexivity|].
  split; [|repeat split; vm_compute; reflexivity].
  apply window_local_disjoint; [exact Hok|].
  exists [Ib 0 4], dW, (Bnd 0 2). split; [reflexivity|]. split; [ex_within|].
  split; [intros a i Ha Hi; simpl in Ha;
          repeat match goal with H : _ \/ _ |- _ => destruct H as [H|H] | H : False |- _ => destruct H end; subst a;
          simpl in Hi;
          repeat match goal with H : _ \/ _ |- _ => destruct H as [H|H] | H : False |- _ => destruct H end; subst i;
          cbn; lia|].
  split; [intros x p Ha; simpl in Ha;
          repeat match goal with H : _ \/ _ |- _ => destruct H as [H|H] | H : False |- _ => destruct H end; discriminate|].
  intros a b Ha Hb; simpl in Ha, Hb;
  repeat match goal with H : _ \/ _ |- _ => destruct H as [H|H] | H : False |- _ => destruct H end; subst a b;
  repeat constructor; discriminate.
Qed.

(** ** C31 *)

Theorem C31_subtract : forall (S : Scalar) st dom x p (m m' : mem S), field_laws S ->
  window_ok st dom [WSub x p] -> strides_divide dom ->
  window_disjoint_elems st dom [WSub x p] (ints m) ->
  with_window st dom [WSub x p] m = Some m' ->
  (forall pt, In pt (domain_points dom origin) ->
    exists x0 y, load m (addr x pt) = Some x0 /\ pvalue st p pt m = Some (VNum y) /\
                 load m' (addr x pt) = Some (x0 - y)%T) /\
  (forall q, (forall pt, In pt (domain_points dom origin) -> q <> addr x pt) -> load m' q = load m q).
Proof. exact @window_subtract. Qed.
Print Assumptions C31_subtract.

(** x -= st(1) * y *)
Definition ex_sub (S : Scalar) : list (@wassign S) := [WSub w_x (POp OMul (PSt 1) (PVec (ESpan w_y)))].

Example C31_example : field_laws QcS /\ window_ok w_st w_dom (ex_sub QcS) /\ strides_divide w_dom /\
  window_disjoint_elems w_st w_dom (ex_sub QcS) [] /\
  (m' <- with_window w_st w_dom (ex_sub ZS) w_m ;; load m' (1%nat, 4)) = Some (70 - 14 * 13).
Proof.
  assert (window_ok w_st w_dom (ex_sub QcS)) as Hok.
  { split; [ex_dom|]. split; [ex_span|].
    split; [exists [Ib 0 4], dW, (Bnd 0 2); split; [reflexivity|apply Permutation_refl]|].
    split.
    - constructor; [|constructor]. split; [reflexivity|]. split; [reflexivity|]. split; [cbn; tauto|].
      split; [ex_span|apply Permutation_refl].
    - split; [|right; left; repeat constructor].
      constructor; [|constructor]. repeat (constructor; [split; [ex_span|apply Permutation_refl]|]). constructor. }
  split; [exact Instances.QcS_laws|]. split; [exact Hok|]. split; [exact w_dom_divide|].
  split; [|vm_compute; reflexivity]. apply window_local_disjoint; [exact Hok|].
  exists [Ib 0 4], dW, (Bnd 0 2). split; [reflexivity|]. split; [ex_within|].
  split; [intros a i [<-|[]] Hi; simpl in Hi; destruct Hi as [<-|[]]; cbn; lia|].
  split.
  - intros x p [H|[]]. injection H as <- <-. split; [ex_within|]. split; [discriminate|].
    intros y q [H|[]]. injection H as <- <-. left; reflexivity.
  - intros a b [<-|[]] [<-|[]]; repeat constructor; discriminate.
Qed.

(** ** C32 *)

(** Covering the whole domain for every stride is refuted (stride 2 over 0..4
    processes 0 and 2 but not 4) ... *)
Theorem C32_strided_window_refuted :
  ~ forall (S : Scalar) st dom (l : list (@wassign S)) (m : mem S),
      window_ok st dom l -> window_indep st l -> window_local st dom l ->
      with_window st dom l m = window_spec st dom l m.
Proof. exact strided_refuted. Qed.
Print Assumptions C32_strided_window_refuted.

(** ... what is processed is a prefix, as many points as the product of the
    extents over the strides, rounded down ... *)
Theorem C32_points_processed : forall (S : Scalar) st dom l (m : mem S),
  window_ok st dom l -> window_indep st l ->
  with_window st dom l m =
  forM (firstn (Z.to_nat (prodZ (floors dom))) (domain_points dom origin)) (point_spec st l) m.
Proof. exact @with_window_points. Qed.
Print Assumptions C32_points_processed.

(** ... which is everything when the strides divide the extents. *)
Theorem C32_strides_divide : forall dom, wf_dom dom -> strides_divide dom ->
  firstn (Z.to_nat (prodZ (floors dom))) (domain_points dom origin) = domain_points dom origin.
Proof. exact floors_all. Qed.
Print Assumptions C32_strides_divide.

Example C32_example : window_ok w_st w_strided w_number /\ window_indep w_st w_number /\
  prodZ (floors w_strided) = 2 /\ length (domain_points w_strided origin) = 3%nat /\
  wf_dom [(dI, Bnd_s 0 5 2)] /\ strides_divide [(dI, Bnd_s 0 5 2)].
Proof.
  split; [exact w_number_ok|]. split; [apply single_indep|]. split; [reflexivity|]. split; [reflexivity|].
  split; [ex_dom|]. repeat constructor. exists 3. reflexivity.
Qed.

(** ** C33 *)

(** With a stride in the differentiated direction the gradient is refuted; C11
    proves it for stride 1 in that direction. *)
Theorem C33_strided_gradient_refuted :
  ~ forall (S : Scalar) dom f u d (h : S) (m m' : mem S),
      wf_dom dom -> wf_span f -> wf_span u ->
      Permutation (map fst dom) (sp_order f) -> Permutation (map fst dom) (sp_order u) ->
      In d (map fst dom) -> fst (sp_ptr f) <> fst (sp_ptr u) ->
      dom_within dom (sp_b f) -> dom_within (shift_dom d 1 dom) (sp_b u) -> dom_within dom (sp_b u) ->
      with_domain dom [AExpr f (grad u d h up)] m = Some m' ->
      forall pt a b, In pt (domain_points dom origin) ->
        load m (addr u pt) = Some a -> load m (addr u (pmove pt d 1)) = Some b ->
        load m' (addr f pt) = Some ((b - a) / h)%T.
Proof. exact grad_strided_refuted. Qed.
Print Assumptions C33_strided_gradient_refuted.

(** With stride 1 in the differentiated direction and any stride in the others. *)
Theorem C33_other_strides : forall (S : Scalar) dom f u d (h : S) (m m' : mem S),
  wf_dom dom -> wf_span f -> wf_span u ->
  Permutation (map fst dom) (sp_order f) -> Permutation (map fst dom) (sp_order u) ->
  (exists b, In (d, b) dom /\ stride b = 1) -> fst (sp_ptr f) <> fst (sp_ptr u) ->
  dom_within dom (sp_b f) ->
  with_domain dom [AExpr f (grad u d h up)] m = Some m' ->
  forall pt a b, In pt (domain_points dom origin) ->
    load m (addr u pt) = Some a -> load m (addr u (pmove pt d 1)) = Some b ->
    load m' (addr f pt) = Some ((b - a) / h)%T.
Proof. exact @grad_other_strides. Qed.
Print Assumptions C33_other_strides.

Example C33_example : wf_dom [(dJ, Bnd_s 0 3 3); Ib 0 4; (dK, Bnd_s 0 2 2)] /\
  dom_within [(dJ, Bnd_s 0 3 3); Ib 0 4; (dK, Bnd_s 0 2 2)] (sp_b ex_f).
Proof. split; [ex_dom|ex_within]. Qed.
