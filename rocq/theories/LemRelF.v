(** * Fortran statements respect every relation between two scalar types *)

From Verif Require Import Base FortranBase FortranLoops SpecRel LemRel.
Import ListNotations.
Open Scope Z_scope.

Section Rel.
  Context {S T : Scalar} (R : S -> T -> Prop) (HR : sim R).
  Notation mrel := (mrel R).

  Definition frel (e : fexp S) (e' : fexp T) : Prop := forall m m', mrel m m' -> orel R (e m) (e' m').
  Definition srel (s : mem S -> option (mem S)) (s' : mem T -> option (mem T)) : Prop :=
    forall m m', mrel m m' -> orel mrel (s m) (s' m').

  Lemma fel_rel a is : frel (fel a is) (fel a is).
  Proof. intros m m' Hm. apply load_rel, Hm. Qed.
  Lemma fsc_rel x y : R x y -> frel (fsc x) (fsc y).
  Proof. intros H m m' Hm. constructor. exact H. Qed.
  Lemma fop_rel o o' e1 e2 e1' e2' : (forall a b c d, R a c -> R b d -> R (o a b) (o' c d)) ->
    frel e1 e1' -> frel e2 e2' -> frel (fop o e1 e2) (fop o' e1' e2').
  Proof.
    intros Ho H1 H2 m m' Hm. unfold fop. eapply bind_rel; [apply H1, Hm|]. intros.
    eapply bind_rel; [apply H2, Hm|]. intros. constructor. apply Ho; assumption.
  Qed.
  Lemma fneg_rel e e' : frel e e' -> frel (fneg e) (fneg e').
  Proof. intros H m m' Hm. unfold fneg. eapply bind_rel; [apply H, Hm|]. intros. constructor. destruct HR; auto. Qed.
  Lemma fset_rel a is e e' : frel e e' -> srel (fset a is e) (fset a is e').
  Proof. intros H m m' Hm. unfold fset. eapply bind_rel; [apply H, Hm|]. intros. apply store_rel; assumption. Qed.
  Lemma fseq_rel s1 s2 s1' s2' : srel s1 s1' -> srel s2 s2' -> srel (fseq s1 s2) (fseq s1' s2').
  Proof. intros H1 H2 m m' Hm. unfold fseq. eapply bind_rel; [apply H1, Hm|]. intros. apply H2. assumption. Qed.
  Lemma fskip_rel : srel fskip fskip.
  Proof. intros m m' Hm. constructor. exact Hm. Qed.
  Lemma flet_rel e e' s s' : frel e e' -> (forall x y, R x y -> srel (s x) (s' y)) -> srel (flet e s) (flet e' s').
  Proof. intros H K m m' Hm. unfold flet. eapply bind_rel; [apply H, Hm|]. intros. apply K; assumption. Qed.
  Lemma do_rel lo hi b b' : (forall i, srel (b i) (b' i)) -> srel (do_ lo hi b) (do_ lo hi b').
  Proof. intros H m m' Hm. unfold do_. apply forM_same; [|exact Hm]. intros. apply H. assumption. Qed.

  Lemma do_step_rel lo hi st b b' : (forall i, srel (b i) (b' i)) -> srel (do_step lo hi st b) (do_step lo hi st b').
  Proof. intros H m m' Hm. unfold do_step. apply forM_same; [|exact Hm]. intros. apply H. assumption. Qed.
  Lemma fint_rel a is k k' : (forall z, srel (k z) (k' z)) -> srel (fint a is k) (fint a is k').
  Proof.
    intros H m m' Hm. unfold fint. rewrite (loadi_rel R _ _ _ Hm). apply bind_same. intros z. apply H, Hm.
  Qed.
  Lemma finte_rel a is k k' : (forall z, frel (k z) (k' z)) -> frel (fint a is k) (fint a is k').
  Proof.
    intros H m m' Hm. unfold fint. rewrite (loadi_rel R _ _ _ Hm). apply bind_same. intros z. apply H, Hm.
  Qed.
  Lemma facc_rel lo hi e e' st st' : frel e e' -> (forall s x y, R x y -> frel (st s x) (st' s y)) ->
    frel (facc lo hi e st) (facc lo hi e' st').
  Proof.
    intros H K m m' Hm. unfold facc. eapply bind_rel; [apply H, Hm|]. intros r r' Hr.
    unfold do_. apply forM_same; [|exact Hr]. intros s x y Hx. apply K; assumption.
  Qed.
  Lemma fif_rel c s1 s2 s1' s2' : srel s1 s1' -> srel s2 s2' -> srel (fif c s1 s2) (fif c s1' s2').
  Proof. intros H K. unfold fif. destruct c; assumption. Qed.
End Rel.
