(** * Concrete scalars and arrays for the examples beside the theorems *)

From Coq Require Import QArith Qcanon Field_theory Permutation.
From Verif Require Import Base ModelBounds ModelMatrix ModelIters ModelSpan Spec SpecIter.
Import ListNotations.
Open Scope Z_scope.

(** The rationals satisfy the field laws. *)
Definition QcS : Scalar :=
  mkScalar Qc Qcplus Qcminus Qcmult Qcdiv Qcopp (fun z => Q2Qc (inject_Z z)).

Lemma Q2Qc_inj a b : Q2Qc a = Q2Qc b -> Qeq a b.
Proof. intros E. apply (f_equal this) in E. simpl in E. rewrite <- (Qred_correct a), E. apply Qred_correct. Qed.

Lemma QcS_laws : field_laws QcS.
Proof.
  split; simpl; intros.
  - destruct Qcft as [R H1 Hd Hi]. split.
    + exact R.
    + exact H1.
    + intros p q. unfold Qcdiv. rewrite Qcmult_1_l. reflexivity.
    + intros p Hp. unfold Qcdiv. rewrite Qcmult_1_l. apply Hi. exact Hp.
  - unfold Qcplus. apply Q2Qc_eq_iff. cbn [this Q2Qc]. setoid_rewrite Qred_correct. rewrite inject_Z_plus. reflexivity.
  - unfold Qcminus, Qcplus, Qcopp. apply Q2Qc_eq_iff. cbn [this Q2Qc]. setoid_rewrite Qred_correct.
    setoid_rewrite Qred_correct. unfold Z.sub. rewrite inject_Z_plus, inject_Z_opp. reflexivity.
  - unfold Qcmult. apply Q2Qc_eq_iff. cbn [this Q2Qc]. setoid_rewrite Qred_correct. rewrite inject_Z_mult. reflexivity.
  - unfold Qcopp. apply Q2Qc_eq_iff. cbn [this Q2Qc]. setoid_rewrite Qred_correct. rewrite inject_Z_opp. reflexivity.
  - intros E. apply Q2Qc_inj in E. unfold Qeq in E. simpl in E. lia.
Qed.

(** Integer scalars, to compute with. *)
Definition ZS : Scalar := mkScalar Z Z.add Z.sub Z.mul Z.div Z.opp (fun z => z).

(** A three-dimensional cell array 3 x 4 x 5 with one layer of ghosts, in
    allocation 0; a face array in allocation 1 stored in another order. *)
Definition ex_u : span := make_md_span_g (0%nat, 0) 1 [Kb 0 2; Jb 0 3; Ib 0 4].
Definition ex_f : span := make_md_span (1%nat, 0) [Ib 0 4; Kb 0 2; Jb 0 4].
Definition ex_dom : list dbnd := [Kb 0 2; Jb 0 3; Ib 0 4].

(** A stencil array with 7 coefficients per cell, in allocation 2. *)
Definition ex_st : span := make_md_span (2%nat, 0) [Kb 0 2; Jb 0 3; Ib 0 4; Wb 0 6].

Ltac ex_nodup := repeat constructor; simpl; intuition discriminate.
Ltac ex_perm := apply NoDup_Permutation; [ex_nodup|ex_nodup|intros; simpl; tauto].
Ltac ex_forall := repeat constructor; cbn; lia.
Ltac ex_dom := split; [discriminate|split; [ex_nodup|ex_forall]].
Ltac ex_span := split; [ex_nodup|ex_forall].
Ltac ex_within :=
  let d := fresh in let b := fresh in let sb := fresh in let H1 := fresh in let H2 := fresh in
  intros d b sb H1 H2; simpl in H1, H2;
  repeat match goal with H : _ \/ _ |- _ => destruct H as [H|H] | H : False |- _ => destruct H end;
  congruence ||
  (inversion H1; subst; inversion H2; subst; cbn; lia).

Lemma ex_u_wf : wf_span ex_u. Proof. ex_span. Qed.
Lemma ex_f_wf : wf_span ex_f. Proof. ex_span. Qed.
Lemma ex_st_wf : wf_span ex_st. Proof. ex_span. Qed.
Lemma ex_dom_wf : wf_dom ex_dom. Proof. ex_dom. Qed.
Lemma ex_dom_u : Permutation (map fst ex_dom) (sp_order ex_u). Proof. apply Permutation_refl. Qed.
Lemma ex_dom_f : Permutation (map fst ex_dom) (sp_order ex_f). Proof. ex_perm. Qed.
Lemma ex_within_u : dom_within ex_dom (sp_b ex_u). Proof. ex_within. Qed.
Lemma ex_within_f : dom_within ex_dom (sp_b ex_f). Proof. ex_within. Qed.
