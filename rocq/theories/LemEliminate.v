(** * Eliminating the values outside the boundary: rows of the matrix *)

From Coq Require Import Permutation Field.
From Verif Require Import Base ModelBounds ModelMatrix ModelIters ModelSpan ModelProxy Spec SpecIter ModelSched
  LemBase LemDomain LemExpr LemExec SpecAssign LemAssign LemProps LemProps4 SpecWindow LemWindow LemWindow2
  FortranBase SpecKernel SpecEliminate Instances LemField LemKernel LemKernel2 LemBC LemHomog KernelNotations
  KernelsFlux KernelsApply KernelsStencil LemStencil LemRow LemEdge.
Import ListNotations.
Open Scope Z_scope.

Section Pure.
  Context {S : Scalar} (L : field_laws S).
  Add Field SF : (s_field S L) (morphism (lit_morph S L), constants [lit_cst]).

  Lemma by_diff (l r a b : S) : l = r -> (a - b = l - r)%T -> a = b.
  Proof. intros -> H. replace a with ((a - b) + b)%T by ring. rewrite H. ring. Qed.

  (** The adjusted entries of columns [out], [in] act on the datum as the original ones on the ghost value. *)
  Lemma elim_physical btype order (d h b q f out inn inn2 g eu ev : S) :
    (btype = 0 -> d <> lit 0) -> h <> lit 0 -> (btype = 4 -> (lit 4 * b + h)%T <> lit 0) ->
    (btype = 4 -> q = (lit 2 * h / (lit 4 * b + h))%T) ->
    ghost_rule btype order d h b out inn inn2 g ->
    (fst (adj_pair btype order d q f eu ev) * (g - inn) + snd (adj_pair btype order d q f eu ev) * (inn2 - inn) =
     eu * (out - inn) + ev * (inn2 - inn))%T.
  Proof.
    intros Hd Hh H4 Hq [(-> & -> & a & s & -> & -> & ->)|[(-> & -> & a & s & c & -> & -> & -> & ->)|[(-> & ->)|(-> & -> & a & s & -> & -> & ->)]]];
      cbn [adj_pair Z.eqb Pos.eqb fst snd].
    - field. apply Hd. reflexivity.
    - field. repeat split; apply (lit_ne S L); discriminate.
    - ring.
    - rewrite Hq by reflexivity. field.
      repeat split; first [assumption|apply H4; reflexivity|apply (lit_ne S L); discriminate].
  Qed.

  Lemma elim_coarse r order (out inn inn2 g eu ev e0 : S) k :
    1 <= r -> coarse_rule order (lit r) out inn inn2 g ->
    k = (if order =? 1 then lit 1 / lit 3 else lit 2 * (lit r - lit 1) / (lit r + lit 1))%T ->
    ((e0 + eu * k) * inn + fst (cf_pair r order eu ev) * g + snd (cf_pair r order eu ev) * inn2 =
     e0 * inn + eu * out + ev * inn2)%T.
  Proof.
    intros Hr HC ->. destruct HC as [(-> & Er & a & s & -> & -> & ->)|(-> & a & s & c & -> & -> & -> & ->)];
      cbn [cf_pair Z.eqb Pos.eqb fst snd].
    - rewrite Er. field. apply (lit_ne S L); discriminate.
    - assert ((lit r + lit 1)%T <> @lit S 0) by (rewrite <- (fl_add S L); apply (lit_ne S L); lia).
      assert ((lit r + lit 3)%T <> @lit S 0) by (rewrite <- (fl_add S L); apply (lit_ne S L); lia).
      field. repeat split; assumption.
  Qed.

  Lemma cf_part_eq r order (f b e0 eu : S) : order = 1 \/ order = 2 -> eu = (- f * b)%T ->
    cf_part r order f b e0 =
    (e0 + eu * (if order =? 1 then lit 1 / lit 3 else lit 2 * (lit r - lit 1) / (lit r + lit 1)))%T.
  Proof.
    intros [->|E] ->; [|rewrite E]; cbn [cf_part Z.eqb Pos.eqb].
    - field. apply (lit_ne S L); discriminate.
    - rewrite (sdiv_def S L). ring.
  Qed.
  Lemma cf_ppart_eq r order (f e0 eu : S) : order = 1 \/ order = 2 -> eu = (- f)%T ->
    cf_ppart r order f e0 =
    (e0 + eu * (if order =? 1 then lit 1 / lit 3 else lit 2 * (lit r - lit 1) / (lit r + lit 1)))%T.
  Proof.
    intros [->|E] ->; [|rewrite E]; cbn [cf_ppart Z.eqb Pos.eqb].
    - field. apply (lit_ne S L); discriminate.
    - rewrite (sdiv_def S L). ring.
  Qed.

  Lemma neg_div (x y : S) : (- x / y = - (x / y))%T.
  Proof. rewrite (sdiv_def S L), (sdiv_def S L x). ring. Qed.
End Pure.

(** Read a value equation with the loads known. *)
Ltac k_val H :=
  unfold fop, fneg, fel, fsc in H; unfold fel in * ;
  repeat (match type of H with
  | context [load ?m ?p] => match goal with E : load m p = Some _ |- _ => rewrite E in H end
  | context [load ?m ?p] => destruct (load m p) as [?|] eqn:?
  end; cbn [bind] in H); try discriminate H; injection H as H.
