(** * The homogeneous boundary kernel computes what the Fortran subroutine computes *)

From Coq Require Import Permutation.
From Verif Require Import Base ModelBounds ModelMatrix ModelIters ModelSpan Spec SpecIter ModelSched
  LemBase LemDomain LemExpr LemExec SpecAssign LemProps LemProps4
  FortranBase SpecKernel Instances LemField LemKernel LemKernel2 KernelNotations KernelsBC FortranHomog LemBC.
Import ListNotations.
Open Scope Z_scope.

(** ** Stores to the same element *)

Section Store.
  Context {S : Scalar}.

  Lemma store_store (m m' : mem S) p v w : store m p v = Some m' -> store m' p w = store m p w.
  Proof.
    intros H.
    assert (exists a, load m p = Some a) as Ha by (apply (store_Some m p v); eauto).
    assert (load m' p = Some v) as Hl.
    { rewrite (load_store m p v m' p H). destruct (ptr_dec p p); congruence. }
    destruct (proj1 (store_Some m p w) Ha) as [m1 H1].
    destruct (proj1 (store_Some m' p w) (ex_intro _ v Hl)) as [m2 H2].
    rewrite H1, H2. f_equal. apply mem_ext.
    - rewrite (store_shape _ _ _ _ H2), (store_shape _ _ _ _ H), (store_shape _ _ _ _ H1). reflexivity.
    - rewrite (store_ints _ _ _ _ H2), (store_ints _ _ _ _ H), (store_ints _ _ _ _ H1). reflexivity.
    - intros q. rewrite (load_store _ _ _ _ q H2), (load_store _ _ _ _ q H1).
      destruct (ptr_dec p q) as [<-|n]; [reflexivity|].
      rewrite (load_store _ _ _ _ q H). destruct (ptr_dec p q); [contradiction|reflexivity].
  Qed.

  (** [a = e; a = a + r] is [a = e + r] when [r] does not read [a]. *)
  Lemma fset_acc a is (e r : fexp S) m :
    (forall v m', store m (faddr a is) v = Some m' -> r m' = r m) ->
    (x <- fset a is e m ;; fset a is (fel a is + r)%F x) = fset a is (e + r)%F m.
  Proof.
    intros H. unfold fset, fop, fel. destruct (e m) as [v|]; cbn [bind]; [|reflexivity].
    destruct (store m (faddr a is) v) as [m'|] eqn:E; cbn [bind].
    - rewrite (load_store _ _ _ _ (faddr a is) E). destruct (ptr_dec _ _); [|contradiction]. cbn [bind].
      rewrite (H v m' E). destruct (r m) as [w|]; cbn [bind]; [|reflexivity].
      apply (store_store _ _ _ _ _ E).
    - destruct (r m) as [w|]; cbn [bind]; [|reflexivity].
      destruct (store m (faddr a is) (v + w)%T) eqn:E'; [|reflexivity].
      assert (exists a0, load m (faddr a is) = Some a0) as Ha by (apply (store_Some m _ (v + w)%T); eauto).
      apply (store_Some m _ v) in Ha as [? ?]. congruence.
  Qed.
End Store.

(** A short loop after a statement. *)
Section Short.
  Context {M : Type} (f : Z -> M -> option M) (s : option M).
  Ltac short := unfold do_;
    match goal with |- context [map ?g ?l] => let v := eval compute in (map g l) in change (map g l) with v end;
    cbn [forM]; destruct s as [m|]; cbn [bind]; [|reflexivity];
    repeat match goal with |- context [f ?k ?m] => destruct (f k m); cbn [bind]; [|reflexivity] end; reflexivity.
  Lemma do_1_1 : (x <- s ;; do_ 1 1 f x) = (x <- s ;; f 1 x).
  Proof. short. Qed.
  Lemma do_1_2 : (x <- s ;; do_ 1 2 f x) = (x <- (x <- s ;; f 1 x) ;; f 2 x).
  Proof. short. Qed.
  Lemma do_1_3 : (x <- s ;; do_ 1 3 f x) = (x <- (x <- (x <- s ;; f 1 x) ;; f 2 x) ;; f 3 x).
  Proof. short. Qed.
  Lemma do_1_4 : (x <- s ;; do_ 1 4 f x) = (x <- (x <- (x <- (x <- s ;; f 1 x) ;; f 2 x) ;; f 3 x) ;; f 4 x).
  Proof. short. Qed.
End Short.

Lemma faddr_ne p ds is is' : foffset ds is <> foffset ds is' -> faddr (mkFa p ds) is <> faddr (mkFa p ds) is'.
Proof. unfold faddr, padd. cbn. intros H E. injection E. lia. Qed.

Section Homog.
  Context {S : Scalar} (L : field_laws S).
  Add Field SF : (s_field S L) (morphism (lit_morph S L), constants [lit_cst]).

  Ltac k_acc :=
    rewrite ?do_1_1, ?do_1_2, ?do_1_3, ?do_1_4; cbn [Z.eqb Pos.eqb];
    repeat (rewrite fset_acc;
            [|let H := fresh in let E := fresh in intros ? ? H; unfold fop, fneg, fsc, fel; cbn [bind];
              rewrite (load_store _ _ _ _ _ H);
              match goal with |- context [ptr_dec ?a ?b] => destruct (ptr_dec a b) as [E|_]; [exfalso; revert E|reflexivity] end;
              apply faddr_ne; unfold CELL2d; cbn [foffset]; first [lia|nia]]).

  Ltac k_leaf :=
    rewrite with_domain_points; [|k_dom|k_assign]; k_nest; k_acc; k_elem L.

  Lemma cd_2d_set_homogenous_bc_eq i0 j0 i1 j1 face bLo bHi exOrder u (m : mem S) :
    1 <= exOrder <= 4 ->
    (face = 0 \/ face = 1 -> seg_meets j0 j1 (bLo 1) (bHi 1)) ->
    (face = 2 \/ face = 3 -> seg_meets i0 i1 (bLo 0) (bHi 0) /\ i0 <= i1 + 1) ->
    cd_2d_set_homogenous_bc i0 j0 i1 j1 face bLo bHi exOrder u m =
    cellsethomogenousbc2d i0 j0 i1 j1 face bLo bHi exOrder u m.
  Proof.
    unfold seg_meets. intros He F0 F2. unfold cd_2d_set_homogenous_bc, cellsethomogenousbc2d.
    cbv beta zeta. unfold fseq, fskip, shift_xy.
    assert (exOrder = 1 \/ exOrder = 2 \/ exOrder = 3 \/ exOrder = 4) as He' by lia.
    destruct He' as [E|[E|[E|E]]]; subst exOrder; unfold homog_coeff; cbn [Z.eqb Pos.eqb].
    all: k_switch; [| | | |reflexivity].
    all: apply bind_cong; [|intros ?; apply bind_cong; [k_leaf|intros ?; k_leaf]].
    all: k_leaf.
  Qed.
End Homog.
