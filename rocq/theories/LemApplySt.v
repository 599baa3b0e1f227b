(** * What applying an assembled stencil computes *)

From Verif Require Import Base ModelBounds ModelMatrix ModelIters ModelSpan Spec SpecIter
  LemBase LemDomain LemExpr LemExec SpecAssign LemProps LemProps4
  FortranBase FortranLoops FortranSmooth LemField LemKernel LemKernel2 LemStencil LemSafe KernelNotations KernelsDot
  SpecRow SpecSmooth LemFortran LemSmooth LemCells LemDot.
Import ListNotations.
Open Scope Z_scope.

Section ApplySt.
  Context {S : Scalar} (L : field_laws S).
  Add Field SFa : (s_field S L) (morphism (lit_morph S L), constants [lit_cst]).

  (** Evaluating with another memory that holds the same in the element written. *)
  Lemma facc_own n p lo hi (e : fexp S) step m1 m2 :
    same_off n m1 m2 -> load m2 p = load m1 p -> e m2 = e m1 -> (forall s r, blind n (step s r)) ->
    facc lo hi e step m2 = facc lo hi e step m1.
  Proof.
    intros O E He B. unfold facc. rewrite He. destruct (e m1) as [r|]; cbn [bind]; [|reflexivity].
    apply do_ext. intros s r' _. apply B. exact O.
  Qed.

  Lemma applied_cells (cells : list (list Z)) f g m m' tab st n (a b : S) fa u r bs step
    (visit : forall m, f m = forM cells (fun c => g c) m)
    (Hg : forall c m, In c cells -> g c m = fset r c (facc 1 n (fop smul (fsc b) (fel fa c)) (step c)) m) :
    (forall c, In c cells <-> in_box bs c) -> NoDup cells -> (forall c, in_box bs c -> in_box (fa_dims r) c) ->
    (forall c s r0, blind (fst (fa_ptr r)) (step c s r0)) ->
    (forall c s r0 r1 m, In c cells -> step c s r0 m = Some r1 -> exists cf x, row_term m tab st 1 c (fun c' => fel u c' m) s cf x /\ r1 = (r0 + a * (cf * x))%T) ->
    fst (fa_ptr fa) <> fst (fa_ptr r) \/ fa = r ->
    f m = Some m' -> applied m m' tab st n a b fa u r bs.
  Proof.
    intros Hc Hn Hb B Hs Hf E. rewrite visit in E.
    rewrite (forM_ext_in _ g (fun c m => v <- facc 1 n (fop smul (fsc b) (fel fa c)) (step c) m ;; store m (faddr r c) v)) in E
      by (intros; apply Hg; assumption).
    apply (forM_own cells (faddr r) (fun c => facc 1 n (fop smul (fsc b) (fel fa c)) (step c)) (fst (fa_ptr r))) in E.
    - destruct E as (O & F & V). split; [|split].
      + intros c Hin. destruct (V c) as (v & Ev & Lv); [apply Hc; exact Hin|].
        apply (facc_row L m tab st 1 1 n c (fun c' => fel u c' m) a) in Ev.
        * destruct Ev as (y' & d & Ey & Hd & ->). unfold fop, fsc in Ey. cbn [bind] in Ey. apply bind_Some_inv in Ey as (y & Ey & Ey').
          injection Ey' as <-. exists y, d. auto.
        * intros s r0 r1 _. apply Hs. apply Hc. exact Hin.
      + intros q Hq. apply F. intros c Hin. apply Hq. apply Hc. exact Hin.
      + exact (proj2 O).
    - exact Hn.
    - intros x y Hx Hy Eq. destruct r as [p ds]. apply (faddr_inj p ds); [| |exact Eq]; apply Hb, Hc; assumption.
    - intros. reflexivity.
    - intros c m1 m2 Hin O Hl. apply (facc_own (fst (fa_ptr r)) (faddr r c)); [exact O|exact Hl| |apply B].
      unfold fop, fsc. cbn [bind]. replace (fel fa c m2) with (fel fa c m1); [reflexivity|].
      destruct Hf as [Hf| ->]; [|symmetry; exact Hl]. symmetry. apply (proj1 O). exact Hf.
  Qed.

  Ltac step_row D :=
    match goal with H : _ = Some _ |- _ => clear H end; intros ? s r0 r1 m0 Hin E; apply box_cells_in in Hin; unfold in_box in Hin;
    repeat match goal with H : Forall2 _ (_ :: _) _ |- _ => inversion H; clear H; subst | H : Forall2 _ [] _ |- _ => inversion H; clear H; subst end;
    cbn [nth] in E |- *; unfold fint, fop, fsc, fel in E;
    repeat match goal with H : bind _ _ = Some _ |- _ => apply bind_Some_inv in H as (? & ? & H) end;
    repeat match goal with H : Some _ = Some _ |- _ => injection H as ?; subst end;
    do 2 eexists; split; [split; [eassumption|eexists; split; [apply D; eassumption|eassumption]]|ring].

  Ltac own_blind := intros; f_blind.
  Ltac sub_box := intros c Hc; unfold in_box in *;
    repeat match goal with H : Forall2 _ (_ :: _) _ |- _ => inversion H; clear H; subst | H : Forall2 _ [] _ |- _ => inversion H; clear H; subst end;
    cbn [fa_dims CELL1d CELL2d CELL3d fst snd] in *; repeat constructor; cbn [fst snd]; lia.

  Lemma at_nest_1d_applied lo0 hi0 a0 b0 n offsets st (a b : S) fgcw f ugcw u rgcw r m m' :
    fst r <> fst st -> fst r <> fst u -> fst r <> fst f \/ (r = f /\ rgcw = fgcw) -> lo0 - rgcw <= a0 -> b0 <= hi0 + rgcw ->
    do_ a0 b0 (fun i => applystencilatpoint1d lo0 hi0 i n offsets st a b fgcw f ugcw u rgcw r) m = Some m' ->
    applied m m' (mkFa offsets [(1, 1); (1, n)]) (mkFa st ((1, n) :: CELL1d lo0 hi0 0)) n a b
      (mkFa f (CELL1d lo0 hi0 fgcw)) (mkFa u (CELL1d lo0 hi0 ugcw)) (mkFa r (CELL1d lo0 hi0 rgcw)) [(a0, b0)].
  Proof.
    intros Hst Hu Hf Ha0 Hb0 E.
    apply (applied_cells (box_cells [(a0, b0)]) (do_ a0 b0 (fun i => applystencilatpoint1d lo0 hi0 i n offsets st a b fgcw f ugcw u rgcw r))
      (fun c => applystencilatpoint1d lo0 hi0 (nth 0 c 0) n offsets st a b fgcw f ugcw u rgcw r) m m'
      (mkFa offsets [(1, 1); (1, n)]) (mkFa st ((1, n) :: CELL1d lo0 hi0 0)) n a b
      (mkFa f (CELL1d lo0 hi0 fgcw)) (mkFa u (CELL1d lo0 hi0 ugcw)) (mkFa r (CELL1d lo0 hi0 rgcw)) [(a0, b0)]
      (fun c s r => fint (mkFa offsets [(1, 1); (1, n)]) [1; s] (fun io =>
         fop sadd (fsc r) (fop smul (fop smul (fsc a) (fel (mkFa st ((1, n) :: CELL1d lo0 hi0 0)) [s; nth 0 c 0]))
           (fel (mkFa u (CELL1d lo0 hi0 ugcw)) [nth 0 c 0 + io]))))).
    - intros m0. rewrite <- do1_cells. reflexivity.
    - intros c m0 Hc. apply box_cells_in in Hc. inversion Hc as [|? i ? t Hi Ht]; subst. inversion Ht; subst. cbn [nth]. rewrite at1_eq by assumption. reflexivity.
    - apply box_cells_in.
    - apply box_cells_nodup.
    - sub_box.
    - own_blind.
    - step_row @displaced1.
    - cbn [fa_ptr]. destruct Hf as [Hf|[-> ->]]; [left; congruence|right; reflexivity].
    - exact E.
  Qed.

  Lemma at_nest_2d_applied lo0 hi0 lo1 hi1 a0 b0 a1 b1 n offsets st (a b : S) fgcw f ugcw u rgcw r m m' :
    fst r <> fst st -> fst r <> fst u -> fst r <> fst f \/ (r = f /\ rgcw = fgcw) -> lo0 - rgcw <= a0 -> b0 <= hi0 + rgcw -> lo1 - rgcw <= a1 -> b1 <= hi1 + rgcw ->
    do_ a1 b1 (fun j => do_ a0 b0 (fun i => applystencilatpoint2d lo0 hi0 lo1 hi1 i j n offsets st a b fgcw f ugcw u rgcw r)) m = Some m' ->
    applied m m' (mkFa offsets [(1, 2); (1, n)]) (mkFa st ((1, n) :: CELL2d lo0 lo1 hi0 hi1 0)) n a b
      (mkFa f (CELL2d lo0 lo1 hi0 hi1 fgcw)) (mkFa u (CELL2d lo0 lo1 hi0 hi1 ugcw)) (mkFa r (CELL2d lo0 lo1 hi0 hi1 rgcw)) [(a0, b0); (a1, b1)].
  Proof.
    intros Hst Hu Hf Ha0 Hb0 Ha1 Hb1 E.
    apply (applied_cells (box_cells [(a0, b0); (a1, b1)])
      (do_ a1 b1 (fun j => do_ a0 b0 (fun i => applystencilatpoint2d lo0 hi0 lo1 hi1 i j n offsets st a b fgcw f ugcw u rgcw r)))
      (fun c => applystencilatpoint2d lo0 hi0 lo1 hi1 (nth 0 c 0) (nth 1 c 0) n offsets st a b fgcw f ugcw u rgcw r) m m'
      (mkFa offsets [(1, 2); (1, n)]) (mkFa st ((1, n) :: CELL2d lo0 lo1 hi0 hi1 0)) n a b
      (mkFa f (CELL2d lo0 lo1 hi0 hi1 fgcw)) (mkFa u (CELL2d lo0 lo1 hi0 hi1 ugcw)) (mkFa r (CELL2d lo0 lo1 hi0 hi1 rgcw)) [(a0, b0); (a1, b1)]
      (fun c s r => fint (mkFa offsets [(1, 2); (1, n)]) [1; s] (fun io => fint (mkFa offsets [(1, 2); (1, n)]) [2; s] (fun jo =>
         fop sadd (fsc r) (fop smul (fop smul (fsc a) (fel (mkFa st ((1, n) :: CELL2d lo0 lo1 hi0 hi1 0)) [s; nth 0 c 0; nth 1 c 0]))
           (fel (mkFa u (CELL2d lo0 lo1 hi0 hi1 ugcw)) [nth 0 c 0 + io; nth 1 c 0 + jo])))))).
    - intros m0. rewrite <- do2_cells. reflexivity.
    - intros c m0 Hc. apply box_cells_in in Hc. inversion Hc as [|? i ? t Hi Ht]; subst. inversion Ht as [|? j ? t' Hj Ht']; subst.
      inversion Ht'; subst. cbn [nth]. rewrite at2_eq by assumption. reflexivity.
    - apply box_cells_in.
    - apply box_cells_nodup.
    - sub_box.
    - own_blind.
    - step_row @displaced2.
    - cbn [fa_ptr]. destruct Hf as [Hf|[-> ->]]; [left; congruence|right; reflexivity].
    - exact E.
  Qed.

  Lemma at_nest_3d_applied lo0 hi0 lo1 hi1 lo2 hi2 a0 b0 a1 b1 a2 b2 n offsets st (a b : S) fgcw f ugcw u rgcw r m m' :
    fst r <> fst st -> fst r <> fst u -> fst r <> fst f \/ (r = f /\ rgcw = fgcw) -> lo0 - rgcw <= a0 -> b0 <= hi0 + rgcw -> lo1 - rgcw <= a1 -> b1 <= hi1 + rgcw -> lo2 - rgcw <= a2 -> b2 <= hi2 + rgcw ->
    do_ a2 b2 (fun k => do_ a1 b1 (fun j => do_ a0 b0 (fun i =>
      applystencilatpoint3d lo0 hi0 lo1 hi1 lo2 hi2 i j k n offsets st a b fgcw f ugcw u rgcw r))) m = Some m' ->
    applied m m' (mkFa offsets [(1, 3); (1, n)]) (mkFa st ((1, n) :: CELL3d lo0 lo1 lo2 hi0 hi1 hi2 0)) n a b
      (mkFa f (CELL3d lo0 lo1 lo2 hi0 hi1 hi2 fgcw)) (mkFa u (CELL3d lo0 lo1 lo2 hi0 hi1 hi2 ugcw)) (mkFa r (CELL3d lo0 lo1 lo2 hi0 hi1 hi2 rgcw))
      [(a0, b0); (a1, b1); (a2, b2)].
  Proof.
    intros Hst Hu Hf Ha0 Hb0 Ha1 Hb1 Ha2 Hb2 E.
    apply (applied_cells (box_cells [(a0, b0); (a1, b1); (a2, b2)])
      (do_ a2 b2 (fun k => do_ a1 b1 (fun j => do_ a0 b0 (fun i =>
        applystencilatpoint3d lo0 hi0 lo1 hi1 lo2 hi2 i j k n offsets st a b fgcw f ugcw u rgcw r))))
      (fun c => applystencilatpoint3d lo0 hi0 lo1 hi1 lo2 hi2 (nth 0 c 0) (nth 1 c 0) (nth 2 c 0) n offsets st a b fgcw f ugcw u rgcw r) m m'
      (mkFa offsets [(1, 3); (1, n)]) (mkFa st ((1, n) :: CELL3d lo0 lo1 lo2 hi0 hi1 hi2 0)) n a b
      (mkFa f (CELL3d lo0 lo1 lo2 hi0 hi1 hi2 fgcw)) (mkFa u (CELL3d lo0 lo1 lo2 hi0 hi1 hi2 ugcw)) (mkFa r (CELL3d lo0 lo1 lo2 hi0 hi1 hi2 rgcw))
      [(a0, b0); (a1, b1); (a2, b2)]
      (fun c s r => fint (mkFa offsets [(1, 3); (1, n)]) [1; s] (fun io => fint (mkFa offsets [(1, 3); (1, n)]) [2; s] (fun jo =>
        fint (mkFa offsets [(1, 3); (1, n)]) [3; s] (fun ko =>
         fop sadd (fsc r) (fop smul (fop smul (fsc a) (fel (mkFa st ((1, n) :: CELL3d lo0 lo1 lo2 hi0 hi1 hi2 0)) [s; nth 0 c 0; nth 1 c 0; nth 2 c 0]))
           (fel (mkFa u (CELL3d lo0 lo1 lo2 hi0 hi1 hi2 ugcw)) [nth 0 c 0 + io; nth 1 c 0 + jo; nth 2 c 0 + ko]))))))).
    - intros m0. rewrite <- do3_cells. reflexivity.
    - intros c m0 Hc. apply box_cells_in in Hc. inversion Hc as [|? i ? t Hi Ht]; subst. inversion Ht as [|? j ? t' Hj Ht']; subst.
      inversion Ht' as [|? k ? t'' Hk Ht'']; subst. inversion Ht''; subst. cbn [nth]. rewrite at3_eq by assumption. reflexivity.
    - apply box_cells_in.
    - apply box_cells_nodup.
    - sub_box.
    - own_blind.
    - step_row @displaced3.
    - cbn [fa_ptr]. destruct Hf as [Hf|[-> ->]]; [left; congruence|right; reflexivity].
    - exact E.
  Qed.

  Lemma applied_multiplied m m' tab st n v u bs : applied m m' tab st n (lit 1) (lit 0) v u v bs -> multiplied (S := S) m m' tab st n u v bs.
  Proof.
    intros (V & F & I). split; [|split; assumption]. intros c Hc. destruct (V c Hc) as (y & d & _ & Hd & E).
    exists d. split; [exact Hd|]. rewrite E. f_equal. ring.
  Qed.

  Lemma do_unit {M} i (f : Z -> M -> option M) m : do_ i i f m = f i m.
  Proof. rewrite do_zvals. unfold zvals. replace (Z.to_nat (i - i + 1)) with 1%nat by lia. cbn [seq map]. rewrite Z.add_0_r. apply forM_unit. Qed.
End ApplySt.

Lemma dot_offset_1d_value : forall (S : Scalar) (L : field_laws S) st u ugcw v vgcw offsets lo0 hi0 w1 (m m' : mem S),
  lo0 <= hi0 + 1 -> fst v <> fst st -> fst v <> fst u -> 0 <= vgcw ->
  dot_offset_1d st 0 u ugcw v vgcw offsets lo0 hi0 w1 m = Some m' ->
  multiplied m m' (mkFa offsets [(1, 1); (1, w1)]) (mkFa st ((1, w1) :: CELL1d lo0 hi0 0)) w1
    (mkFa u (CELL1d lo0 hi0 ugcw)) (mkFa v (CELL1d lo0 hi0 vgcw)) [(lo0, hi0)].
Proof.
  intros S L. intros. match goal with H : dot_offset_1d _ _ _ _ _ _ _ _ _ _ _ = _ |- _ => rewrite (dot_offset_1d_at L) in H by assumption; apply (at_nest_1d_applied L) in H; [|assumption|assumption|right; split; reflexivity|lia..] end.
  apply applied_multiplied; assumption.
Qed.

Lemma dot_offset_2d_value : forall (S : Scalar) (L : field_laws S) st u ugcw v vgcw offsets lo0 hi0 lo1 hi1 w1 (m m' : mem S),
  lo0 <= hi0 + 1 -> lo1 <= hi1 + 1 -> fst v <> fst st -> fst v <> fst u -> 0 <= vgcw ->
  dot_offset_2d st 0 u ugcw v vgcw offsets lo0 hi0 lo1 hi1 w1 m = Some m' ->
  multiplied m m' (mkFa offsets [(1, 2); (1, w1)]) (mkFa st ((1, w1) :: CELL2d lo0 lo1 hi0 hi1 0)) w1
    (mkFa u (CELL2d lo0 lo1 hi0 hi1 ugcw)) (mkFa v (CELL2d lo0 lo1 hi0 hi1 vgcw)) [(lo0, hi0); (lo1, hi1)].
Proof.
  intros S L. intros. match goal with H : dot_offset_2d _ _ _ _ _ _ _ _ _ _ _ _ _ = _ |- _ => rewrite (dot_offset_2d_at L) in H by assumption; apply (at_nest_2d_applied L) in H; [|assumption|assumption|right; split; reflexivity|lia..] end.
  apply applied_multiplied; assumption.
Qed.

Lemma dot_offset_3d_value : forall (S : Scalar) (L : field_laws S) st u ugcw v vgcw offsets lo0 hi0 lo1 hi1 lo2 hi2 w1 (m m' : mem S),
  lo0 <= hi0 + 1 -> lo1 <= hi1 + 1 -> lo2 <= hi2 + 1 -> fst v <> fst st -> fst v <> fst u -> 0 <= vgcw ->
  dot_offset_3d st 0 u ugcw v vgcw offsets lo0 hi0 lo1 hi1 lo2 hi2 w1 m = Some m' ->
  multiplied m m' (mkFa offsets [(1, 3); (1, w1)]) (mkFa st ((1, w1) :: CELL3d lo0 lo1 lo2 hi0 hi1 hi2 0)) w1
    (mkFa u (CELL3d lo0 lo1 lo2 hi0 hi1 hi2 ugcw)) (mkFa v (CELL3d lo0 lo1 lo2 hi0 hi1 hi2 vgcw)) [(lo0, hi0); (lo1, hi1); (lo2, hi2)].
Proof.
  intros S L. intros. match goal with H : dot_offset_3d _ _ _ _ _ _ _ _ _ _ _ _ _ _ _ = _ |- _ => rewrite (dot_offset_3d_at L) in H by assumption; apply (at_nest_3d_applied L) in H; [|assumption|assumption|right; split; reflexivity|lia..] end.
  apply applied_multiplied; assumption.
Qed.

Lemma applystencilatpoint1d_value : forall (S : Scalar) (L : field_laws S) lo0 hi0 i n offsets st (a b : S) fgcw f ugcw u rgcw r (m m' : mem S),
  fst r <> fst st -> fst r <> fst u -> fst r <> fst f \/ (r = f /\ rgcw = fgcw) ->
  lo0 - rgcw <= i <= hi0 + rgcw ->
  applystencilatpoint1d lo0 hi0 i n offsets st a b fgcw f ugcw u rgcw r m = Some m' ->
  applied m m' (mkFa offsets [(1, 1); (1, n)]) (mkFa st ((1, n) :: CELL1d lo0 hi0 0)) n a b
    (mkFa f (CELL1d lo0 hi0 fgcw)) (mkFa u (CELL1d lo0 hi0 ugcw)) (mkFa r (CELL1d lo0 hi0 rgcw)) [(i, i)].
Proof.
  intros S L. intros. apply (at_nest_1d_applied L) ; [assumption|assumption|assumption|lia..|]. rewrite !do_unit. assumption.
Qed.

Lemma applystencilatpoint2d_value : forall (S : Scalar) (L : field_laws S) lo0 hi0 lo1 hi1 i j n offsets st (a b : S) fgcw f ugcw u rgcw r (m m' : mem S),
  fst r <> fst st -> fst r <> fst u -> fst r <> fst f \/ (r = f /\ rgcw = fgcw) ->
  lo0 - rgcw <= i <= hi0 + rgcw -> lo1 - rgcw <= j <= hi1 + rgcw ->
  applystencilatpoint2d lo0 hi0 lo1 hi1 i j n offsets st a b fgcw f ugcw u rgcw r m = Some m' ->
  applied m m' (mkFa offsets [(1, 2); (1, n)]) (mkFa st ((1, n) :: CELL2d lo0 lo1 hi0 hi1 0)) n a b
    (mkFa f (CELL2d lo0 lo1 hi0 hi1 fgcw)) (mkFa u (CELL2d lo0 lo1 hi0 hi1 ugcw)) (mkFa r (CELL2d lo0 lo1 hi0 hi1 rgcw)) [(i, i); (j, j)].
Proof.
  intros S L. intros. apply (at_nest_2d_applied L) ; [assumption|assumption|assumption|lia..|]. rewrite !do_unit. assumption.
Qed.

Lemma applystencilatpoint3d_value : forall (S : Scalar) (L : field_laws S) lo0 hi0 lo1 hi1 lo2 hi2 i j k n offsets st (a b : S) fgcw f ugcw u rgcw r (m m' : mem S),
  fst r <> fst st -> fst r <> fst u -> fst r <> fst f \/ (r = f /\ rgcw = fgcw) ->
  lo0 - rgcw <= i <= hi0 + rgcw -> lo1 - rgcw <= j <= hi1 + rgcw -> lo2 - rgcw <= k <= hi2 + rgcw ->
  applystencilatpoint3d lo0 hi0 lo1 hi1 lo2 hi2 i j k n offsets st a b fgcw f ugcw u rgcw r m = Some m' ->
  applied m m' (mkFa offsets [(1, 3); (1, n)]) (mkFa st ((1, n) :: CELL3d lo0 lo1 lo2 hi0 hi1 hi2 0)) n a b
    (mkFa f (CELL3d lo0 lo1 lo2 hi0 hi1 hi2 fgcw)) (mkFa u (CELL3d lo0 lo1 lo2 hi0 hi1 hi2 ugcw)) (mkFa r (CELL3d lo0 lo1 lo2 hi0 hi1 hi2 rgcw)) [(i, i); (j, j); (k, k)].
Proof.
  intros S L. intros. apply (at_nest_3d_applied L) ; [assumption|assumption|assumption|lia..|]. rewrite !do_unit. assumption.
Qed.

Lemma applystencilonpatch1d_value : forall (S : Scalar) (L : field_laws S) lo0 hi0 n offsets st (a b : S) fgcw f ugcw u rgcw r (m m' : mem S),
  fst r <> fst st -> fst r <> fst u -> fst r <> fst f \/ (r = f /\ rgcw = fgcw) -> 0 <= rgcw ->
  applystencilonpatch1d lo0 hi0 n offsets st a b fgcw f ugcw u rgcw r m = Some m' ->
  applied m m' (mkFa offsets [(1, 1); (1, n)]) (mkFa st ((1, n) :: CELL1d lo0 hi0 0)) n a b
    (mkFa f (CELL1d lo0 hi0 fgcw)) (mkFa u (CELL1d lo0 hi0 ugcw)) (mkFa r (CELL1d lo0 hi0 rgcw)) [(lo0, hi0)].
Proof.
  intros S L. intros. apply (at_nest_1d_applied L); [assumption|assumption|assumption|lia..|assumption].
Qed.

Lemma applystencilonpatch2d_square : forall (S : Scalar) (L : field_laws S) lo hi n offsets st (a b : S) fgcw f ugcw u rgcw r (m m' : mem S),
  fst r <> fst st -> fst r <> fst u -> fst r <> fst f \/ (r = f /\ rgcw = fgcw) -> 0 <= rgcw ->
  applystencilonpatch2d lo hi lo hi n offsets st a b fgcw f ugcw u rgcw r m = Some m' ->
  applied m m' (mkFa offsets [(1, 2); (1, n)]) (mkFa st ((1, n) :: CELL2d lo lo hi hi 0)) n a b
    (mkFa f (CELL2d lo lo hi hi fgcw)) (mkFa u (CELL2d lo lo hi hi ugcw)) (mkFa r (CELL2d lo lo hi hi rgcw)) [(lo, hi); (lo, hi)].
Proof.
  intros S L. intros. apply (at_nest_2d_applied L); [assumption|assumption|assumption|lia..|assumption].
Qed.

Lemma applystencilonpatch3d_value : forall (S : Scalar) (L : field_laws S) lo0 hi0 lo1 hi1 lo2 hi2 n offsets st (a b : S) fgcw f ugcw u rgcw r (m m' : mem S),
  fst r <> fst st -> fst r <> fst u -> fst r <> fst f \/ (r = f /\ rgcw = fgcw) -> 0 <= rgcw ->
  applystencilonpatch3d lo0 hi0 lo1 hi1 lo2 hi2 n offsets st a b fgcw f ugcw u rgcw r m = Some m' ->
  applied m m' (mkFa offsets [(1, 3); (1, n)]) (mkFa st ((1, n) :: CELL3d lo0 lo1 lo2 hi0 hi1 hi2 0)) n a b
    (mkFa f (CELL3d lo0 lo1 lo2 hi0 hi1 hi2 fgcw)) (mkFa u (CELL3d lo0 lo1 lo2 hi0 hi1 hi2 ugcw)) (mkFa r (CELL3d lo0 lo1 lo2 hi0 hi1 hi2 rgcw)) [(lo0, hi0); (lo1, hi1); (lo2, hi2)].
Proof.
  intros S L. intros. apply (at_nest_3d_applied L); [assumption|assumption|assumption|lia..|assumption].
Qed.

Lemma dot_offset_1d_fortran : forall (S : Scalar) (L : field_laws S) st u ugcw v vgcw offsets lo0 hi0 n (m : mem S),
  lo0 <= hi0 + 1 -> fst v <> fst st -> fst v <> fst u ->
  dot_offset_1d st 0 u ugcw v vgcw offsets lo0 hi0 n m =
  applystencilonpatch1d lo0 hi0 n offsets st (lit 1) (lit 0) vgcw v ugcw u vgcw v m.
Proof.
  intros S L. intros. rewrite (dot_offset_1d_at L) by assumption. reflexivity.
Qed.

Lemma dot_offset_2d_fortran_square : forall (S : Scalar) (L : field_laws S) st u ugcw v vgcw offsets lo hi n (m : mem S),
  lo <= hi + 1 -> fst v <> fst st -> fst v <> fst u ->
  dot_offset_2d st 0 u ugcw v vgcw offsets lo hi lo hi n m =
  applystencilonpatch2d lo hi lo hi n offsets st (lit 1) (lit 0) vgcw v ugcw u vgcw v m.
Proof.
  intros S L. intros. rewrite (dot_offset_2d_at L) by assumption. reflexivity.
Qed.

Lemma dot_offset_3d_fortran : forall (S : Scalar) (L : field_laws S) st u ugcw v vgcw offsets lo0 hi0 lo1 hi1 lo2 hi2 n (m : mem S),
  lo0 <= hi0 + 1 -> lo1 <= hi1 + 1 -> lo2 <= hi2 + 1 -> fst v <> fst st -> fst v <> fst u ->
  dot_offset_3d st 0 u ugcw v vgcw offsets lo0 hi0 lo1 hi1 lo2 hi2 n m =
  applystencilonpatch3d lo0 hi0 lo1 hi1 lo2 hi2 n offsets st (lit 1) (lit 0) vgcw v ugcw u vgcw v m.
Proof.
  intros S L. intros. rewrite (dot_offset_3d_at L) by assumption. reflexivity.
Qed.

Lemma ls_apply_st_3d_fortran : forall (S : Scalar) (L : field_laws S) i0 i1 j0 j1 k0 k1 i j k n offsets st (a b : S) fgcw f ugcw u rgcw r (m : mem S),
  fst r <> fst st -> fst r <> fst u ->
  ls_apply_st_3d_at_point i0 i1 j0 j1 k0 k1 i j k n offsets st a b fgcw f ugcw u rgcw r m =
  applystencilatpoint3d i0 i1 j0 j1 k0 k1 i j k n offsets st a b fgcw f ugcw u rgcw r m.
Proof.
  intros S L. intros. apply (ls_apply_at L); assumption.
Qed.

