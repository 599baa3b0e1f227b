(** * Field arithmetic with integer literals

    [field] and [ring] for a scalar type satisfying [field_laws], with the
    literals as coefficients. *)

From Coq Require Import Field_theory Ring_theory Field Ring ZArith.
From Verif Require Import Base.
Open Scope Z_scope.

Section Laws.
  Context (S : Scalar) (L : field_laws S).

  Lemma lit_morph : @ring_morph S (lit 0) (lit 1) sadd smul ssub sneg eq
                      Z 0 1 Z.add Z.mul Z.sub Z.opp Z.eqb lit.
  Proof.
    split; intros; try reflexivity.
    - apply (fl_add S L).
    - apply (fl_sub S L).
    - apply (fl_mul S L).
    - apply (fl_opp S L).
    - apply Z.eqb_eq in H. subst. reflexivity.
  Qed.

  Lemma s_field : @field_theory S (lit 0) (lit 1) sadd smul ssub sneg sdiv (fun x => sdiv (lit 1) x) eq.
  Proof. exact (fl_field S L). Qed.

  Lemma lit_ne a b : a <> b -> @lit S a <> lit b.
  Proof.
    intros H E. apply (fl_char S L (a - b)); [lia|]. rewrite (fl_sub S L), E, <- (fl_sub S L).
    f_equal. lia.
  Qed.
End Laws.

(** Recognise literals. *)
Ltac lit_cst t :=
  match t with
  | lit ?z => match isZcst z with true => constr:(z) | _ => constr:(NotConstant) end
  | _ => constr:(NotConstant)
  end.

Section Laws2.
  Context (S : Scalar) (L : field_laws S).
  Add Field SF : (s_field S L) (morphism (lit_morph S L), constants [lit_cst]).
  Open Scope scalar_scope.

  (** Division is multiplication by the inverse, whatever the divisor. *)
  Lemma sdiv_def (x h : S) : x / h = x * (#1 / h).
  Proof. exact (Fdiv_def (s_field S L) x h). Qed.

  Lemma mul_div_assoc (b d h : S) : b * (d / h) = b * d / h.
  Proof. rewrite (sdiv_def d), (sdiv_def (b * d)). ring. Qed.

  Lemma sub_from (x y : S) : #(-1) * y + x = x - y.
  Proof. ring. Qed.
End Laws2.
