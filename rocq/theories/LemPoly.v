(** * Differences of polynomials *)

From Coq Require Import Field.
From Verif Require Import Base LemField SpecPoly LemEnergy.
Open Scope Z_scope.

Section Poly.
  Context {S : Scalar} (L : field_laws S).
  Add Field SF : (s_field S L) (morphism (lit_morph S L), constants [lit_cst]).

  (** The difference of [b] times the difference of [f], around [x]. *)
  Definition dv (h : S) (b f : S -> S) (x : S) : S :=
    ((b (x + h / lit 2) * ((f (x + h) - f x) / h) - b (x - h / lit 2) * ((f x - f (x - h)) / h)) / h)%T.

  Lemma two : @lit S 2 <> lit 0.
  Proof. apply (fl_char S L). discriminate. Qed.

  Lemma dv_cubic h k q x : h <> lit 0 -> dv h (fun _ => k) (cubic q) x = (k * cubic_dd q x)%T.
  Proof. intros H. unfold dv, cubic, cubic_dd. field. exact H. Qed.
  Lemma dv_quad h g0 g1 q x : h <> lit 0 ->
    dv h (fun x => g0 + g1 * x)%T (quad q) x = (g1 * quad_d q x + (g0 + g1 * x) * quad_dd q x)%T.
  Proof. intros H. pose proof two. unfold dv, quad, quad_d, quad_dd. field. auto. Qed.

  Lemma dv_over_cubic h b (G : nat -> S -> S) x y :
    dv h b (fun y => cubic (fun a => G a y) x) y = cubic (fun a => dv h b (G a) y) x.
  Proof. unfold dv, cubic. destruct (inverse L h) as (k & D). rewrite !D. ring. Qed.
  Lemma dv_over_quad h b (G : nat -> S -> S) x y :
    dv h b (fun y => quad (fun a => G a y) x) y = quad (fun a => dv h b (G a) y) x.
  Proof. unfold dv, quad. destruct (inverse L h) as (k & D). rewrite !D. ring. Qed.

  Lemma cubic_ext q q' (x : S) : (forall a, q a = q' a) -> cubic q x = cubic q' x.
  Proof. intros H. unfold cubic. now rewrite !H. Qed.
  Lemma quad_ext q q' (x : S) : (forall a, q a = q' a) -> quad q x = quad q' x.
  Proof. intros H. unfold quad. now rewrite !H. Qed.
  Lemma cubic_scale k q (x : S) : cubic (fun a => k * q a)%T x = (k * cubic q x)%T.
  Proof. unfold cubic. ring. Qed.
  Lemma quad_comb k l p q (x : S) : quad (fun a => k * p a + l * q a)%T x = (k * quad p x + l * quad q x)%T.
  Proof. unfold quad. ring. Qed.

  Lemma dv_cubic2_0 h k q x y : h <> lit 0 -> dv h (fun _ => k) (fun x => cubic2 q x y) x = (k * cubic2_xx q x y)%T.
  Proof. intros H. exact (dv_cubic h k (fun a => cubic (q a) y) x H). Qed.
  Lemma dv_cubic2_1 h k q x y : h <> lit 0 -> dv h (fun _ => k) (fun y => cubic2 q x y) y = (k * cubic2_yy q x y)%T.
  Proof.
    intros H. unfold cubic2, cubic2_yy. rewrite (dv_over_cubic h _ (fun a y => cubic (q a) y)), <- cubic_scale.
    apply cubic_ext. intros a. exact (dv_cubic h k (q a) y H).
  Qed.
  Lemma dv_cubic3_0 h k q x y z : h <> lit 0 -> dv h (fun _ => k) (fun x => cubic3 q x y z) x = (k * cubic3_xx q x y z)%T.
  Proof. intros H. exact (dv_cubic h k (fun a => cubic2 (q a) y z) x H). Qed.
  Lemma dv_cubic3_1 h k q x y z : h <> lit 0 -> dv h (fun _ => k) (fun y => cubic3 q x y z) y = (k * cubic3_yy q x y z)%T.
  Proof.
    intros H. unfold cubic3, cubic3_yy. rewrite (dv_over_cubic h _ (fun a y => cubic2 (q a) y z)), <- cubic_scale.
    apply cubic_ext. intros a. exact (dv_cubic2_0 h k (q a) y z H).
  Qed.
  Lemma dv_cubic3_2 h k q x y z : h <> lit 0 -> dv h (fun _ => k) (fun z => cubic3 q x y z) z = (k * cubic3_zz q x y z)%T.
  Proof.
    intros H. unfold cubic3, cubic3_zz. rewrite (dv_over_cubic h _ (fun a z => cubic2 (q a) y z)), <- cubic_scale.
    apply cubic_ext. intros a. exact (dv_cubic2_1 h k (q a) y z H).
  Qed.

  Lemma dv_quad2_0 h g0 g1 q x y : h <> lit 0 ->
    dv h (fun x => g0 + g1 * x)%T (fun x => quad2 q x y) x = (g1 * quad2_x q x y + (g0 + g1 * x) * quad2_xx q x y)%T.
  Proof. intros H. exact (dv_quad h g0 g1 (fun a => quad (q a) y) x H). Qed.
  Lemma dv_quad2_1 h g0 g1 q x y : h <> lit 0 ->
    dv h (fun y => g0 + g1 * y)%T (fun y => quad2 q x y) y = (g1 * quad2_y q x y + (g0 + g1 * y) * quad2_yy q x y)%T.
  Proof.
    intros H. unfold quad2, quad2_y, quad2_yy. rewrite (dv_over_quad h _ (fun a y => quad (q a) y)), <- quad_comb.
    apply quad_ext. intros a. exact (dv_quad h g0 g1 (q a) y H).
  Qed.
  Lemma dv_quad3_0 h g0 g1 q x y z : h <> lit 0 ->
    dv h (fun x => g0 + g1 * x)%T (fun x => quad3 q x y z) x = (g1 * quad3_x q x y z + (g0 + g1 * x) * quad3_xx q x y z)%T.
  Proof. intros H. exact (dv_quad h g0 g1 (fun a => quad2 (q a) y z) x H). Qed.
  Lemma dv_quad3_1 h g0 g1 q x y z : h <> lit 0 ->
    dv h (fun y => g0 + g1 * y)%T (fun y => quad3 q x y z) y = (g1 * quad3_y q x y z + (g0 + g1 * y) * quad3_yy q x y z)%T.
  Proof.
    intros H. unfold quad3, quad3_y, quad3_yy. rewrite (dv_over_quad h _ (fun a y => quad2 (q a) y z)), <- quad_comb.
    apply quad_ext. intros a. exact (dv_quad2_0 h g0 g1 (q a) y z H).
  Qed.
  Lemma dv_quad3_2 h g0 g1 q x y z : h <> lit 0 ->
    dv h (fun z => g0 + g1 * z)%T (fun z => quad3 q x y z) z = (g1 * quad3_z q x y z + (g0 + g1 * z) * quad3_zz q x y z)%T.
  Proof.
    intros H. unfold quad3, quad3_z, quad3_zz. rewrite (dv_over_quad h _ (fun a z => quad2 (q a) y z)), <- quad_comb.
    apply quad_ext. intros a. exact (dv_quad2_1 h g0 g1 (q a) y z H).
  Qed.

  (** On the grid. *)
  Lemma centre_next o (h : S) i : centre o h (i + 1) = (centre o h i + h)%T.
  Proof. unfold centre. rewrite (fl_add S L). ring. Qed.
  Lemma centre_prev o (h : S) i : centre o h (i - 1) = (centre o h i - h)%T.
  Proof. unfold centre. rewrite (fl_sub S L). ring. Qed.
  Lemma face_next o (h : S) i : faceat o h (i + 1) = (centre o h i + h / lit 2)%T.
  Proof. unfold faceat. rewrite centre_next. pose proof two. field. assumption. Qed.

  Lemma grid_dv o h i (b f : S -> S) :
    ((b (faceat o h (i + 1)) * ((f (centre o h (i + 1)) - f (centre o h i)) / h)
      - b (faceat o h i) * ((f (centre o h i) - f (centre o h (i - 1))) / h)) / h)%T = dv h b f (centre o h i).
  Proof. unfold dv. rewrite face_next, centre_next, centre_prev. reflexivity. Qed.
  Lemma grid_dv1 o h i (f : S -> S) :
    (((f (centre o h (i + 1)) - f (centre o h i)) / h - (f (centre o h i) - f (centre o h (i - 1))) / h) / h)%T =
    dv h (fun _ => lit 1) f (centre o h i).
  Proof. unfold dv. rewrite centre_next, centre_prev. destruct (inverse L h) as (k & D). rewrite !D. ring. Qed.
End Poly.
