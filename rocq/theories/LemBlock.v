(** * Block relaxation *)

From Coq Require Import Field.
From Verif Require Import Base FortranBase FortranLoops FortranSmooth SpecIter LemBase LemDomain LemAssign LemField LemKernel LemKernel2 LemStencil LemSafe
  SpecSmooth SpecBlock LemFortran LemSmooth LemCells LemLocal.
Import ListNotations.
Open Scope Z_scope.

Section Block.
  Context {S : Scalar} (L : field_laws S).
  Add Field BlockField : (s_field S L) (morphism (lit_morph S L), constants [lit_cst]).

  Definition block1 (st : farray) (w : S) (f u : farray) (c : list Z) : mem S -> option (mem S) :=
    fset u c (fop sadd (fel u c) (fop sdiv (fop smul (fsc w) (fel f c)) (fel st c))).

  Lemma corrected1_cells (m m' : mem S) st w f u bs :
    fst (fa_ptr u) <> fst (fa_ptr st) -> fst (fa_ptr u) <> fst (fa_ptr f) ->
    (forall c, in_box bs c -> in_box (fa_dims u) c) ->
    forM (box_cells bs) (block1 st w f u) m = Some m' -> corrected1 m m' st w f u bs.
  Proof.
    intros As Af Hu E. pose proof (box_cells_in bs) as Hc.
    apply (forM_own (box_cells bs) (faddr u) (fun c => fop sadd (fel u c) (fop sdiv (fop smul (fsc w) (fel f c)) (fel st c))) (fst (fa_ptr u))) in E.
    2: apply box_cells_nodup.
    2:{ intros x y Hx Hy. destruct u as [p ds]. apply faddr_inj; apply Hu, Hc; assumption. }
    2:{ reflexivity. }
    2:{ intros c ma mb Hin O Hl. unfold fop, fsc, fel. rewrite Hl.
        rewrite (proj1 O (faddr f c)) by (cbn; congruence). rewrite (proj1 O (faddr st c)) by (cbn; congruence). reflexivity. }
    destruct E as (O & F & V). split; [|split].
    - intros c Hin. apply Hc in Hin. destruct (V c Hin) as (v & Ev & Lv). unfold fop, fsc in Ev. cbn [bind] in Ev.
      apply bind_Some_inv in Ev as (x & Ex & Ev). apply bind_Some_inv in Ev as (t & Et & Ev).
      apply bind_Some_inv in Et as (t' & Et' & Et). apply bind_Some_inv in Et' as (g & Eg & Et').
      apply bind_Some_inv in Et as (a & Ea & Et). injection Ev as <-. injection Et as <-. injection Et' as <-.
      exists a, g, x. eexists. repeat split; try eassumption. intros N. field. exact N.
    - intros q Hq. apply F. intros c Hin. apply Hq, Hc, Hin.
    - apply (proj2 O).
  Qed.

  Definition block2 (a : farray) (w : S) (f0 f1 u0 u1 : farray) (c : list Z) : mem S -> option (mem S) :=
    flet (fop ssub (fop smul (fel a (0 :: c)) (fel a (3 :: c))) (fop smul (fel a (1 :: c)) (fel a (2 :: c)))) (fun det =>
    fseq (fset u0 c (fop sadd (fel u0 c) (fop sdiv (fop smul (fsc w) (fop ssub (fop smul (fel a (3 :: c)) (fel f0 c)) (fop smul (fel a (1 :: c)) (fel f1 c)))) (fsc det))))
         (fset u1 c (fop sadd (fel u1 c) (fop sdiv (fop smul (fsc w) (fop ssub (fop smul (fel a (0 :: c)) (fel f1 c)) (fop smul (fel a (2 :: c)) (fel f0 c)))) (fsc det))))).

  Lemma fset_inv (arr : farray) c e (m m' : mem S) : fset arr c e m = Some m' ->
    exists v, e m = Some v /\ store m (faddr arr c) v = Some m'.
  Proof. unfold fset. intros E. apply bind_Some_inv in E as (v & Ev & E). eauto. Qed.

  Ltac invert := repeat match goal with
    | H : fop _ _ _ _ = Some _ |- _ => unfold fop at 1 in H; let x := fresh "x" in let Ex := fresh "Ex" in
        apply bind_Some_inv in H as (x & Ex & H)
    | H : bind _ (fun y => Some _) = Some _ |- _ => let x := fresh "x" in let Ex := fresh "Ex" in
        apply bind_Some_inv in H as (x & Ex & H); injection H as <-
    | H : fsc _ _ = Some _ |- _ => unfold fsc in H; injection H as <-
    end.

  Lemma corrected2_cells (m m' : mem S) a w f0 f1 u0 u1 bs :
    fst (fa_ptr u0) <> fst (fa_ptr u1) ->
    (forall k, k = fst (fa_ptr u0) \/ k = fst (fa_ptr u1) -> k <> fst (fa_ptr a) /\ k <> fst (fa_ptr f0) /\ k <> fst (fa_ptr f1)) ->
    (forall c, in_box bs c -> in_box (fa_dims u0) c /\ in_box (fa_dims u1) c) ->
    forM (box_cells bs) (block2 a w f0 f1 u0 u1) m = Some m' -> corrected2 m m' a w f0 f1 u0 u1 bs.
  Proof.
    intros A01 A Hu E. pose proof (box_cells_in bs) as Hc.
    destruct (A _ (or_introl eq_refl)) as (A0a & A0f0 & A0f1). destruct (A _ (or_intror eq_refl)) as (A1a & A1f0 & A1f1).
    assert (D : forall (x y : farray) c c', fst (fa_ptr x) <> fst (fa_ptr y) -> faddr x c <> faddr y c').
    { intros x y c c' N Eq. apply N. apply (f_equal fst) in Eq. exact Eq. }
    assert (Inj : forall x c c', in_box (fa_dims x) c -> in_box (fa_dims x) c' -> faddr x c = faddr x c' -> c = c').
    { intros [p ds] x y Hx Hy. apply faddr_inj; assumption. }
    apply (forM_local (box_cells bs) (block2 a w f0 f1 u0 u1) (fun c q => q = faddr u0 c \/ q = faddr u1 c)
      (fun c q => q = faddr u0 c \/ q = faddr u1 c \/ (fst q <> fst (fa_ptr u0) /\ fst q <> fst (fa_ptr u1)))) in E.
    - destruct E as (F & I & V). split; [|split; [|exact I]].
      + intros c Hin. pose proof Hin as Hb. apply Hc in Hin. destruct (V c Hin) as (m1 & m2 & G & I1 & P1 & P2 & _).
        unfold block2, flet in G. apply bind_Some_inv in G as (det & Ed & G). unfold fseq in G. apply bind_Some_inv in G as (m1' & G0 & G1).
        apply fset_inv in G0 as (v0 & Ev0 & S0). apply fset_inv in G1 as (v1 & Ev1 & S1).
        assert (Off : forall x ic, fst (fa_ptr u0) <> fst (fa_ptr x) -> fst (fa_ptr u1) <> fst (fa_ptr x) -> fel x ic m1 = fel x ic m /\ fel x ic m1' = fel x ic m).
        { intros x ic N0 N1. assert (fel x ic m1 = fel x ic m) as H1 by (apply P1; right; right; cbn; split; congruence).
          split; [exact H1|]. rewrite <- H1. unfold fel. rewrite (load_store _ _ _ _ _ S0). destruct (ptr_dec _ _) as [Eq|_]; [|reflexivity].
          exfalso. exact (D u0 x c ic N0 Eq). }
        assert (U1 : fel u1 c m1' = fel u1 c m).
        { unfold fel. rewrite (load_store _ _ _ _ _ S0). destruct (ptr_dec _ _) as [Eq|_]; [exfalso; exact (D u0 u1 c c A01 Eq)|]. apply P1. auto. }
        assert (U0 : fel u0 c m1 = fel u0 c m) by (apply P1; auto).
        assert (Y0 : fel u0 c m' = Some v0).
        { unfold fel. rewrite P2 by auto. rewrite (load_store _ _ _ _ _ S1). destruct (ptr_dec _ _) as [Eq|_]; [exfalso; exact (D u1 u0 c c (not_eq_sym A01) Eq)|].
          apply (load_stored _ _ _ _ S0). }
        assert (Y1 : fel u1 c m' = Some v1).
        { unfold fel. rewrite P2 by auto. apply (load_stored _ _ _ _ S1). }
        invert.
        rewrite !(proj1 (Off a _ A0a A1a)), ?(proj2 (Off a _ A0a A1a)) in *.
        rewrite ?(proj1 (Off f0 _ A0f0 A1f0)), ?(proj2 (Off f0 _ A0f0 A1f0)), ?(proj1 (Off f1 _ A0f1 A1f1)), ?(proj2 (Off f1 _ A0f1 A1f1)) in *.
        rewrite U0, U1 in *.
        repeat match goal with H1 : ?t = Some ?x, H2 : ?t = Some ?y |- _ => rewrite H1 in H2; injection H2 as -> end.
        do 10 eexists. repeat (split; [eassumption|]). intros N. split; field; exact N.
      + intros q Hq. apply F. intros c Hin [->| ->]; apply Hc, Hq in Hin; destruct Hin; congruence.
    - apply box_cells_nodup.
    - intros c m1 m2 Hin _ G. unfold block2, flet in G. apply bind_Some_inv in G as (det & Ed & G). unfold fseq in G. apply bind_Some_inv in G as (m1' & G0 & G1).
      apply fset_inv in G0 as (v0 & Ev0 & S0). apply fset_inv in G1 as (v1 & Ev1 & S1). split.
      + intros q Hq. rewrite (load_store _ _ _ _ _ S1), (load_store _ _ _ _ _ S0). destruct (ptr_dec _ _) as [Eq|_]; [exfalso; apply Hq; auto|].
        destruct (ptr_dec _ _) as [Eq|_]; [exfalso; apply Hq; auto|]. reflexivity.
      + rewrite (store_ints _ _ _ _ S1), (store_ints _ _ _ _ S0). reflexivity.
    - intros c c' q Hx Hy N [->|[->|[N0 N1]]] [Eq|Eq].
      + apply N. apply Inj in Eq; [exact Eq| |]; apply Hu, Hc; assumption.
      + exact (D _ _ _ _ A01 Eq).
      + exact (D _ _ _ _ (not_eq_sym A01) Eq).
      + apply N. apply Inj in Eq; [exact Eq| |]; apply Hu, Hc; assumption.
      + subst q. apply N0. reflexivity.
      + subst q. apply N1. reflexivity.
  Qed.

  Lemma grown1 lo hi g c : 0 <= g -> in_box [(lo, hi)] c -> in_box (CELL1d lo hi g) c.
  Proof. intros Hg H. inversion_clear H. inversion_clear H1. repeat constructor; cbn in *; lia. Qed.
  Lemma grown2 lo0 hi0 lo1 hi1 g c : 0 <= g -> in_box [(lo0, hi0); (lo1, hi1)] c -> in_box (CELL2d lo0 lo1 hi0 hi1 g) c.
  Proof. intros Hg H. inversion_clear H. inversion_clear H1. inversion_clear H2. repeat constructor; cbn in *; lia. Qed.

  Lemma cellblock1x1jacobi1d_corrected : forall lo0 hi0 st fgcw f ugcw u (m m' : mem S),
    0 <= ugcw -> fst u <> fst st -> fst u <> fst f ->
    cellblock1x1jacobi1d lo0 hi0 st fgcw f ugcw u m = Some m' ->
    corrected1 m m' (mkFa st (CELL1d lo0 hi0 0)) (lit 2 / lit 3)%T (mkFa f (CELL1d lo0 hi0 fgcw)) (mkFa u (CELL1d lo0 hi0 ugcw)) [(lo0, hi0)].
  Proof.
    intros lo0 hi0 st fgcw f ugcw u m m' Hg As Af E. apply corrected1_cells; try assumption.
    - intros c. apply grown1. exact Hg.
    - rewrite <- do1_cells. exact E.
  Qed.

  Lemma cellblock1x1jacobi2d_corrected : forall lo0 hi0 lo1 hi1 st fgcw f ugcw u (w : S) (m m' : mem S),
    0 <= ugcw -> fst u <> fst st -> fst u <> fst f ->
    cellblock1x1jacobi2d lo0 hi0 lo1 hi1 st fgcw f ugcw u w m = Some m' ->
    corrected1 m m' (mkFa st (CELL2d lo0 lo1 hi0 hi1 0)) w (mkFa f (CELL2d lo0 lo1 hi0 hi1 fgcw)) (mkFa u (CELL2d lo0 lo1 hi0 hi1 ugcw)) [(lo0, hi0); (lo1, hi1)].
  Proof.
    intros lo0 hi0 lo1 hi1 st fgcw f ugcw u w m m' Hg As Af E. apply corrected1_cells; try assumption.
    - intros c. apply grown2. exact Hg.
    - rewrite <- do2_cells. exact E.
  Qed.

  Lemma cellblock2x2jacobi1d_corrected : forall lo0 hi0 a fgcw f0 f1 ugcw u0 u1 (m m' : mem S),
    0 <= ugcw -> fst u0 <> fst u1 -> (forall k, k = fst u0 \/ k = fst u1 -> k <> fst a /\ k <> fst f0 /\ k <> fst f1) ->
    cellblock2x2jacobi1d lo0 hi0 a fgcw f0 f1 ugcw u0 u1 m = Some m' ->
    corrected2 m m' (mkFa a ((0, 3) :: CELL1d lo0 hi0 0)) (lit 2 / lit 3)%T (mkFa f0 (CELL1d lo0 hi0 fgcw)) (mkFa f1 (CELL1d lo0 hi0 fgcw))
      (mkFa u0 (CELL1d lo0 hi0 ugcw)) (mkFa u1 (CELL1d lo0 hi0 ugcw)) [(lo0, hi0)].
  Proof.
    intros lo0 hi0 a fgcw f0 f1 ugcw u0 u1 m m' Hg A01 A E. apply corrected2_cells; try assumption.
    - intros c Hc. split; apply grown1; assumption.
    - rewrite <- do1_cells. exact E.
  Qed.

  Lemma cellblock2x2jacobi2d_corrected : forall lo0 hi0 lo1 hi1 a fgcw f0 f1 ugcw u0 u1 (w : S) (m m' : mem S),
    0 <= ugcw -> fst u0 <> fst u1 -> (forall k, k = fst u0 \/ k = fst u1 -> k <> fst a /\ k <> fst f0 /\ k <> fst f1) ->
    cellblock2x2jacobi2d lo0 hi0 lo1 hi1 a fgcw f0 f1 ugcw u0 u1 w m = Some m' ->
    corrected2 m m' (mkFa a ((0, 3) :: CELL2d lo0 lo1 hi0 hi1 0)) w (mkFa f0 (CELL2d lo0 lo1 hi0 hi1 fgcw)) (mkFa f1 (CELL2d lo0 lo1 hi0 hi1 fgcw))
      (mkFa u0 (CELL2d lo0 lo1 hi0 hi1 ugcw)) (mkFa u1 (CELL2d lo0 lo1 hi0 hi1 ugcw)) [(lo0, hi0); (lo1, hi1)].
  Proof.
    intros lo0 hi0 lo1 hi1 a fgcw f0 f1 ugcw u0 u1 w m m' Hg A01 A E. apply corrected2_cells; try assumption.
    - intros c Hc. split; apply grown2; assumption.
    - rewrite <- do2_cells. exact E.
  Qed.
End Block.
