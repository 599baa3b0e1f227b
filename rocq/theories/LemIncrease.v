(** * Adding a known part to a right-hand side *)

From Coq Require Import Field.
From Verif Require Import Base FortranBase FortranLoops FortranSmooth SpecIter LemBase LemDomain LemAssign LemField LemKernel LemKernel2 LemStencil LemSafe
  SpecRow SpecSmooth SpecAdjust LemFortran LemSum LemSmooth LemCells LemSmoothers LemApplySt LemLocal LemAdjust.
Import ListNotations.
Open Scope Z_scope.

Section Increase.
  Context {S : Scalar} (L : field_laws S).
  Add Field IncreaseField : (s_field S L) (morphism (lit_morph S L), constants [lit_cst]).

  Definition row_add (d : nat) (n : Z) (tab st u f : farray) (c : list Z) : mem S -> option (mem S) :=
    do_ 1 n (fun s => fcol d 1 tab s (fun o => fset f c (fop sadd (fel f c) (fop smul (fel st (s :: c)) (fel u (shift c o)))))).

  Lemma fcol_add d : forall base tab s (a : farray) is (k : list Z -> fexp S) m,
    fcol d base tab s (fun o => fset a is (fop sadd (fel a is) (k o))) m =
    fset a is (fun m => r <- fel a is m ;; fcol d base tab s (fun o => fop sadd (fsc r) (k o)) m) m.
  Proof.
    intros base tab s a is k m. unfold fset, fel. destruct (load m (faddr a is)) as [r|] eqn:E; cbn [bind].
    - revert base k. induction d as [|d IH]; intros base k; cbn [fcol].
      + unfold fop, fsc. rewrite E. reflexivity.
      + unfold fint. destruct (loadi m _) as [o|]; cbn [bind]; [|reflexivity]. rewrite <- (IH (base + 1) (fun os => k (o :: os))). reflexivity.
    - revert base k. induction d as [|d IH]; intros base k; cbn [fcol].
      + unfold fop. rewrite E. reflexivity.
      + unfold fint. destruct (loadi m _) as [o|]; cbn [bind]; [|reflexivity]. apply (IH (base + 1) (fun os => k (o :: os))).
  Qed.

  Lemma increased_cells d n tab st u f bs (m m' : mem S) :
    1 <= n -> length bs = d -> fst (fa_ptr f) <> fst (fa_ptr st) -> fst (fa_ptr f) <> fst (fa_ptr u) ->
    (forall c, in_box bs c -> in_box (fa_dims f) c) ->
    forM (box_cells bs) (row_add d n tab st u f) m = Some m' -> increased m m' tab st n u f bs.
  Proof.
    intros Hn Hd As Au Hb E. pose proof (box_cells_in bs) as Hc.
    set (e := fun c : list Z => facc 1 n (fel f c) (fun s (r : S) => fcol d 1 tab s (fun o => fop sadd (fsc r) (fop smul (fel st (s :: c)) (fel u (shift c o)))))) in *.
    assert (Bl : forall c s (r : S), blind (fst (fa_ptr f)) (fcol d 1 tab s (fun o => fop sadd (fsc r) (fop smul (fel st (s :: c)) (fel u (shift c o)))))).
    { intros c s r ma mb O. apply (blind_fcol (fst (fa_ptr f))); [|exact O]. intros os mc md O'.
      revert O'. apply (blind_fop (fst (fa_ptr f))); [apply blind_fsc|apply blind_fop; apply blind_fel; congruence]. }
    assert (R : forM (box_cells bs) (fun c m => v <- e c m ;; store m (faddr f c) v) m = Some m').
    { rewrite <- E. apply forM_ext_in. intros c m1 _. unfold row_add.
      rewrite (acc_own f c 1 n _ (fun s (r : S) => fcol d 1 tab s (fun o => fop sadd (fsc r) (fop smul (fel st (s :: c)) (fel u (shift c o)))))); [reflexivity|exact Hn| |].
      - intros s m2. apply fcol_add.
      - intros s r. apply Bl. }
    apply (forM_own (box_cells bs) (faddr f) e (fst (fa_ptr f))) in R.
    2: apply box_cells_nodup.
    2:{ intros x y Hx Hy. destruct f as [p ds]. apply faddr_inj; apply Hb, Hc; assumption. }
    2:{ reflexivity. }
    2:{ intros c ma mb Hin O Hl. unfold e, facc, fel at 1 3. rewrite Hl. apply bind_ext. intros y _. apply do_ext. intros s r _. apply Bl. exact O. }
    destruct R as (O & F & V). split; [|split].
    - intros c Hin. pose proof Hin as Hb'. apply Hc in Hin. destruct (V c Hin) as (v & Ev & Lv).
      assert (Hl : length c = d). { rewrite <- Hd. clear -Hb'. induction Hb'; cbn; congruence. }
      apply (facc_row L m tab st 1 1 n c (fun c' => fel u c' m) (lit 1)) in Ev.
      2:{ intros s r r' Hs H. apply fcol_inv in H as (os & Hos & Ho & H). unfold fop, fsc in H. cbn [bind] in H.
          apply bind_Some_inv in H as (t & Ht & H). apply bind_Some_inv in Ht as (cf & Ecf & Ht). apply bind_Some_inv in Ht as (x & Ex & Ht).
          injection Ht as <-. injection H as <-. exists cf, x. split; [|ring]. split; [exact Ecf|].
          exists (shift c os). split; [|exact Ex].
          split; [apply shift_length; congruence|]. intros j Hj. rewrite shift_nth by congruence. rewrite (Ho j) by congruence. f_equal. ring. }
      destruct Ev as (y & t & Ey & Hr & ->). exists y, t. split; [exact Ey|]. split; [exact Hr|]. unfold fel. rewrite Lv. f_equal. ring.
    - intros q Hq. apply F. intros c Hin. apply Hq, Hc, Hin.
    - apply (proj2 O).
  Qed.

  Lemma celladjustsystemrhspatch1d_increased : forall ifirst0 ilast0 n offset size st ugcw u fgcw f (m m' : mem S),
    1 <= n -> 0 <= fgcw -> fst f <> fst st -> fst f <> fst u ->
    celladjustsystemrhspatch1d ifirst0 ilast0 n offset size st ugcw u fgcw f m = Some m' ->
    increased m m' (mkFa offset [(1, 1); (1, n)]) (mkFa st ((1, size) :: CELL1d ifirst0 ilast0 0)) n
      (mkFa u (CELL1d ifirst0 ilast0 ugcw)) (mkFa f (CELL1d ifirst0 ilast0 fgcw)) [(ifirst0, ilast0)].
  Proof.
    intros ifirst0 ilast0 n offset size st ugcw u fgcw f m m' Hn Hg As Au E.
    apply (increased_cells 1); try assumption; try reflexivity.
    - intros c H. inversion_clear H. inversion_clear H1. constructor; [|constructor]. cbn in *. lia.
    - rewrite <- do1_cells. exact E.
  Qed.

  Lemma celladjustsystemrhspatch2d_increased : forall ifirst0 ifirst1 ilast0 ilast1 n offset size st ugcw u fgcw f (m m' : mem S),
    1 <= n -> 0 <= fgcw -> fst f <> fst st -> fst f <> fst u -> ifirst0 = ifirst1 -> ilast0 = ilast1 ->
    celladjustsystemrhspatch2d ifirst0 ifirst1 ilast0 ilast1 n offset size st ugcw u fgcw f m = Some m' ->
    increased m m' (mkFa offset [(1, 2); (1, n)]) (mkFa st ((1, size) :: CELL2d ifirst0 ifirst1 ilast0 ilast1 0)) n
      (mkFa u (CELL2d ifirst0 ifirst1 ilast0 ilast1 ugcw)) (mkFa f (CELL2d ifirst0 ifirst1 ilast0 ilast1 fgcw)) [(ifirst0, ilast0); (ifirst1, ilast1)].
  Proof.
    intros ifirst0 ifirst1 ilast0 ilast1 n offset size st ugcw u fgcw f m m' Hn Hg As Au <- <- E.
    apply (increased_cells 2); try assumption; try reflexivity.
    - intros c H. inversion_clear H. inversion_clear H1. inversion_clear H2. constructor; [|constructor; [|constructor]]; cbn in *; lia.
    - rewrite <- do2_cells. exact E.
  Qed.
End Increase.
