(** * Linear extrapolation *)

From Coq Require Import Bool.
From Verif Require Import Base FortranBase FortranExtrap SpecIter LemBase LemDomain LemAssign LemField LemKernel LemKernel2 LemStencil LemSafe
  SpecRow LemSum SpecSmooth LemFortran LemSmooth LemCells SpecExtrap.
Import ListNotations.
Open Scope Z_scope.

Section Cells.
  Context {S : Scalar}.

  (** Assigning the elements of [l] from elements outside it. *)
  Lemma forM_fresh (L l : list (list Z)) (u : farray) (e : list Z -> fexp S) m0 m :
    (forall c c', In c L -> In c' L -> faddr u c = faddr u c' -> c = c') ->
    (forall c, In c L -> exists v, e c m0 = Some v) -> (forall c, In c L -> exists v, fel u c m0 = Some v) ->
    (forall c m1, In c L -> (forall q, (forall c', In c' L -> faddr u c' <> q) -> load m1 q = load m0 q) -> e c m1 = e c m0) ->
    NoDup l -> (forall c, In c l -> In c L) ->
    (forall q, (forall c', In c' L -> faddr u c' <> q) -> load m q = load m0 q) -> (forall c, In c L -> exists v, fel u c m = Some v) -> ints m = ints m0 ->
    exists m', forM l (fun c => fset u c (e c)) m = Some m' /\
      (forall c, In c l -> fel u c m' = e c m0) /\
      (forall c, In c L -> ~ In c l -> fel u c m' = fel u c m) /\
      (forall q, (forall c', In c' L -> faddr u c' <> q) -> load m' q = load m0 q) /\ ints m' = ints m0.
  Proof.
    intros Inj De Du Bl. revert m. induction l as [|c l IH]; intros m Nd Hl Off Room Hi.
    - exists m. cbn [forM]. repeat split; [intros ? []|exact Off|exact Hi].
    - apply NoDup_cons_iff in Nd as [Nc Nd]. assert (In c L) as Hc by (apply Hl; left; reflexivity).
      destruct (De c Hc) as (v & Ev). destruct (Room c Hc) as (w & Ew).
      destruct (proj1 (store_Some m (faddr u c) v)) as (m1 & E1); [exists w; exact Ew|].
      assert (Off1 : forall q, (forall c', In c' L -> faddr u c' <> q) -> load m1 q = load m0 q).
      { intros q Hq. rewrite (load_store _ _ _ _ _ E1). destruct (ptr_dec _ _) as [Eq|_]; [destruct (Hq c Hc Eq)|]. apply Off. exact Hq. }
      assert (Keep : forall c', In c' L -> c' <> c -> fel u c' m1 = fel u c' m).
      { intros c' Hc' N. unfold fel. rewrite (load_store _ _ _ _ _ E1). destruct (ptr_dec _ _) as [Eq|_]; [|reflexivity].
        destruct N. symmetry. apply Inj; assumption. }
      assert (Hit : fel u c m1 = Some v).
      { unfold fel. rewrite (load_store _ _ _ _ _ E1). destruct (ptr_dec _ _) as [_|N]; [reflexivity|congruence]. }
      destruct (IH m1) as (m' & E' & V & K & F & I).
      + exact Nd.
      + intros c' Hc'. apply Hl. right. exact Hc'.
      + exact Off1.
      + intros c' Hc'. destruct (list_eq_dec Z.eq_dec c' c) as [->|N]; [exists v; exact Hit|]. rewrite (Keep c' Hc' N). apply Room. exact Hc'.
      + rewrite (store_ints _ _ _ _ E1). exact Hi.
      + exists m'. split; [|split; [|split; [|split; [exact F|exact I]]]].
        * cbn [forM]. unfold fset at 1. rewrite (Bl c m Hc Off), Ev. cbn [bind]. rewrite E1. exact E'.
        * intros c' [<-|Hc'].
          -- rewrite (K c Hc Nc), Hit. symmetry. exact Ev.
          -- apply V. exact Hc'.
        * intros c' Hc' N. rewrite K; [|exact Hc'|intros H; apply N; right; exact H]. apply Keep; [exact Hc'|]. intros ->. apply N. left. reflexivity.
  Qed.

  Lemma do_single {M} x y (f : Z -> M -> option M) m : x = y -> do_ x y f m = f x m.
  Proof.
    intros <-. unfold do_. replace (x - x + 1) with 1 by lia. change (Z.to_nat 1) with 1%nat. cbn [seq map].
    rewrite forM_unit. f_equal. lia.
  Qed.
End Cells.

Section Extrap.
  Context {S : Scalar}.

  (** The same as an expression. *)
  Definition extrap_expr (u : farray) (s c : list Z) : fexp S := fun m => extrapolated (fun c => fel u c m) s c.

  Lemma sub_m1 x : x - -1 = x + 1.
  Proof. lia. Qed.

  Lemma linearextrap_cells lo0 hi0 lo1 hi1 lo2 hi2 gcw u bLo bHi face type s (m : mem S) :
    location type face = Some s -> thin s bLo bHi ->
    linearextrap lo0 hi0 lo1 hi1 lo2 hi2 gcw u bLo bHi face type m =
    forM (box_cells (segment bLo bHi))
      (fun c => fset (mkFa u (CELL3d lo0 lo1 lo2 hi0 hi1 hi2 gcw)) c (extrap_expr (mkFa u (CELL3d lo0 lo1 lo2 hi0 hi1 hi2 gcw)) s c)) m.
  Proof.
    intros Hl Ht. unfold segment. rewrite <- do3_cells. cbn [fst snd].
    assert (T0 := Ht 0%nat). assert (T1 := Ht 1%nat). assert (T2 := Ht 2%nat). clear Ht.
    cbn [Z.of_nat] in T0. change (Z.of_nat 1) with 1 in T1. change (Z.of_nat 2) with 2 in T2.
    assert (Ty : type = 1 /\ 0 <= face <= 5 \/ type = 2 /\ 0 <= face <= 11 \/ type = 3 /\ 0 <= face <= 7).
    { revert Hl. unfold location. cbv zeta.
      destruct (Z.eqb_spec type 1); [|destruct (Z.eqb_spec type 2); [|destruct (Z.eqb_spec type 3); [|discriminate]]];
        repeat match goal with |- context [?a <=? ?b] => destruct (Z.leb_spec a b) end; cbn [andb]; intros E; try discriminate E; lia. }
    assert (exists n, face = n /\ (n = 0 \/ n = 1 \/ n = 2 \/ n = 3 \/ n = 4 \/ n = 5 \/ n = 6 \/ n = 7 \/ n = 8 \/ n = 9 \/ n = 10 \/ n = 11)) as (n & -> & Hn)
      by (exists face; split; [reflexivity|lia]).
    destruct Ty as [(-> & R)|[(-> & R)|(-> & R)]];
      repeat match type of Hn with _ \/ _ => destruct Hn as [->|Hn] end; try subst n; try lia;
      clear R; vm_compute in Hl; injection Hl as <-; cbn [nth] in T0, T1, T2;
      repeat match goal with
             | H : (?a < ?b)%nat -> 0 <> 0 -> _ |- _ => clear H
             | H : (?a < ?b)%nat -> ?x <> 0 -> _ |- _ => specialize (H ltac:(lia) ltac:(discriminate))
             end;
      unfold linearextrap; cbv zeta; cbn [Z.eqb Pos.eqb orb];
      repeat match goal with H : bLo _ = bHi _ |- _ => rewrite <- ?H; clear H end;
      repeat first [rewrite (do_single _ _ _ _ eq_refl)|apply do_ext; intros];
      unfold fset, extrap_expr, extrapolated, inwards; cbn [normals filter nth Z.eqb negb firstn skipn app Nat.add Datatypes.length];
      rewrite ?sub_m1, ?Z.sub_add, ?Z.add_simpl_r; unfold fop, fneg, fsc;
      repeat match goal with |- context [fel ?a ?l ?m] => destruct (fel a l m) end; reflexivity.
  Qed.
End Extrap.

(** ** Pieces *)

Definition sign (x : Z) : Prop := x = -1 \/ x = 0 \/ x = 1.
Definition codim (s : list Z) : Z := Z.abs (nth 0 s 0) + Z.abs (nth 1 s 0) + Z.abs (nth 2 s 0).

Lemma side_sign b : sign (side b).
Proof. destruct b; unfold sign, side; auto. Qed.

Lemma side_abs b : Z.abs (side b) = 1.
Proof. destruct b; reflexivity. Qed.

Lemma location_signs type face s : location type face = Some s ->
  1 <= type <= 3 /\ exists x y z, s = [x; y; z] /\ sign x /\ sign y /\ sign z /\ codim s = type.
Proof.
  unfold location. cbv zeta.
  destruct (Z.eqb_spec type 1); [|destruct (Z.eqb_spec type 2); [|destruct (Z.eqb_spec type 3); [|discriminate]]];
    repeat match goal with |- (if ?b then _ else _) = _ -> _ => destruct b end; intros E; try discriminate E; injection E as <-;
    (split; [lia|]); do 3 eexists; (split; [reflexivity|]); unfold codim; cbn [nth]; rewrite ?side_abs; cbn [Z.abs];
    repeat split; try apply side_sign; try (unfold sign; auto); lia.
Qed.

Lemma location_onto x y z : sign x -> sign y -> sign z -> 1 <= codim [x; y; z] ->
  exists face, location (codim [x; y; z]) face = Some [x; y; z] /\
    0 <= face < (if codim [x; y; z] =? 1 then 6 else if codim [x; y; z] =? 2 then 12 else 8).
Proof.
  intros Hx Hy Hz.
  destruct Hx as [->|[->| ->]], Hy as [->|[->| ->]], Hz as [->|[->| ->]]; intros H; try (exfalso; vm_compute in H; congruence);
    first [exists 0; vm_compute; split; [reflexivity|split; congruence]|exists 1; vm_compute; split; [reflexivity|split; congruence]
          |exists 2; vm_compute; split; [reflexivity|split; congruence]|exists 3; vm_compute; split; [reflexivity|split; congruence]
          |exists 4; vm_compute; split; [reflexivity|split; congruence]|exists 5; vm_compute; split; [reflexivity|split; congruence]
          |exists 6; vm_compute; split; [reflexivity|split; congruence]|exists 7; vm_compute; split; [reflexivity|split; congruence]
          |exists 8; vm_compute; split; [reflexivity|split; congruence]|exists 9; vm_compute; split; [reflexivity|split; congruence]
          |exists 10; vm_compute; split; [reflexivity|split; congruence]|exists 11; vm_compute; split; [reflexivity|split; congruence]].
Qed.

Lemma in_box3 b0 b1 b2 c : in_box [b0; b1; b2] c <->
  exists i j k, c = [i; j; k] /\ fst b0 <= i <= snd b0 /\ fst b1 <= j <= snd b1 /\ fst b2 <= k <= snd b2.
Proof.
  unfold in_box. split.
  - intros H. inversion H as [|? i ? c0 Hi H0]; subst. inversion H0 as [|? j ? c1 Hj H1]; subst. inversion H1 as [|? k ? c2 Hk H2]; subst.
    inversion H2; subst. exists i, j, k. auto.
  - intros (i & j & k & -> & Hi & Hj & Hk). repeat constructor; assumption || (cbn; lia).
Qed.

Ltac x_signs Hx Hy Hz := destruct Hx as [->|[->| ->]], Hy as [->|[->| ->]], Hz as [->|[->| ->]].
Ltac x_cases H := repeat match type of H with _ \/ _ => destruct H as [H|H] end.
Ltac x_norm := cbn [normals filter nth Z.eqb negb firstn skipn app Nat.add inwards source extrapolated codim Z.abs] in *.

Section Pieces.
  Context {S : Scalar}.

  Lemma source_outside type face s bLo bHi c c' : location type face = Some s -> thin s bLo bHi ->
    in_box (segment bLo bHi) c -> source s c c' -> ~ in_box (segment bLo bHi) c'.
  Proof.
    intros Hl Ht Hc Hs Hc'. apply location_signs in Hl as (Hty & x & y & z & -> & Hx & Hy & Hz & Hco).
    assert (T0 := Ht 0%nat ltac:(lia)). assert (T1 := Ht 1%nat ltac:(lia)). assert (T2 := Ht 2%nat ltac:(lia)). clear Ht.
    change (Z.of_nat 0) with 0 in T0. change (Z.of_nat 1) with 1 in T1. change (Z.of_nat 2) with 2 in T2.
    apply in_box3 in Hc as (i & j & k & -> & Hi & Hj & Hk). apply in_box3 in Hc' as (i' & j' & k' & -> & Hi' & Hj' & Hk').
    cbn [fst snd nth] in *. unfold source, inwards in Hs.
    x_signs Hx Hy Hz; x_norm; try (cbn in Hco; lia); x_cases Hs; injection Hs as -> -> ->;
      repeat match goal with
             | H : 0 <> 0 -> _ |- _ => clear H
             | H : ?x <> 0 -> _ |- _ => specialize (H ltac:(discriminate))
             end; lia.
  Qed.

  Lemma extrapolated_ext type face s (val val' : list Z -> option S) c : location type face = Some s ->
    (forall c', source s c c' -> val c' = val' c') -> extrapolated val s c = extrapolated val' s c.
  Proof.
    intros Hl H. unfold extrapolated, source in *. destruct (normals s) as [|d [|d' l]]; [reflexivity| |].
    - rewrite !H by auto. reflexivity.
    - rewrite !H by auto. reflexivity.
  Qed.

  Lemma extrapolated_some type face s (val : list Z -> option S) c : location type face = Some s ->
    (forall c', source s c c' -> exists v, val c' = Some v) -> exists v, extrapolated val s c = Some v.
  Proof.
    intros Hl H. apply location_signs in Hl as (Hty & x & y & z & -> & Hx & Hy & Hz & Hco).
    assert (N : normals [x; y; z] <> []).
    { x_signs Hx Hy Hz; try discriminate. cbn in Hco. lia. }
    unfold extrapolated, source in *. destruct (normals [x; y; z]) as [|d [|d' l]]; [congruence| |].
    - destruct (H (inwards [x; y; z] d c)) as (v & Ev); [auto|].
      destruct (H (inwards [x; y; z] d (inwards [x; y; z] d c))) as (w & Ew); [auto|]. rewrite Ev, Ew. eexists. reflexivity.
    - destruct (H (inwards [x; y; z] d (inwards [x; y; z] d' c))) as (v & Ev); [auto|].
      destruct (H (inwards [x; y; z] d c)) as (w & Ew); [auto|]. destruct (H (inwards [x; y; z] d' c)) as (t & Et); [auto|].
      rewrite Ev, Ew, Et. eexists. reflexivity.
  Qed.

  Lemma linearextrap_values lo0 hi0 lo1 hi1 lo2 hi2 gcw u bLo bHi face type s (m : mem S) :
    let ua := mkFa u (CELL3d lo0 lo1 lo2 hi0 hi1 hi2 gcw) in
    location type face = Some s -> thin s bLo bHi -> allocated m ua ->
    (forall c, in_box (segment bLo bHi) c -> in_box (fa_dims ua) c /\ forall c', source s c c' -> in_box (fa_dims ua) c') ->
    exists m', linearextrap lo0 hi0 lo1 hi1 lo2 hi2 gcw u bLo bHi face type m = Some m' /\
      (forall c, in_box (segment bLo bHi) c -> fel ua c m' = extrapolated (fun c' => fel ua c' m) s c /\ exists v, fel ua c m' = Some v) /\
      (forall q, (forall c, in_box (segment bLo bHi) c -> faddr ua c <> q) -> load m' q = load m q) /\ ints m' = ints m.
  Proof.
    intros ua Hl Ht Ha Hin. rewrite (linearextrap_cells _ _ _ _ _ _ _ _ _ _ _ _ s) by assumption. fold ua.
    destruct (forM_fresh (box_cells (segment bLo bHi)) (box_cells (segment bLo bHi)) ua (extrap_expr ua s) m m) as (m' & E & V & _ & F & I).
    - intros c c' Hc Hc' Eq. apply box_cells_in, Hin in Hc as [Hc _]. apply box_cells_in, Hin in Hc' as [Hc' _].
      exact (faddr_inj u _ c c' Hc Hc' Eq).
    - intros c Hc. apply (extrapolated_some type face); [exact Hl|]. intros c' Hs. apply Ha. apply box_cells_in, Hin in Hc as [_ Hc]. apply Hc. exact Hs.
    - intros c Hc. apply Ha. apply box_cells_in, Hin in Hc as [Hc _]. exact Hc.
    - intros c m1 Hc Hm1. apply (extrapolated_ext type face); [exact Hl|]. intros c' Hs. apply Hm1. intros c2 Hc2 Eq.
      apply box_cells_in in Hc, Hc2. apply faddr_inj in Eq; [|exact (proj1 (Hin c2 Hc2))|exact (proj2 (Hin c Hc) c' Hs)]. subst c2.
      exact (source_outside _ _ _ _ _ _ _ Hl Ht Hc Hs Hc2).
    - apply box_cells_nodup.
    - auto.
    - auto.
    - intros c Hc. apply Ha. apply box_cells_in, Hin in Hc as [Hc _]. exact Hc.
    - reflexivity.
    - exists m'. split; [exact E|]. split; [|split; [|exact I]].
      + intros c Hc. assert (Hb := proj2 (box_cells_in _ _) Hc). split; [exact (V c Hb)|]. rewrite (V c Hb).
        apply (extrapolated_some type face); [exact Hl|]. intros c' Hs. apply Ha. exact (proj2 (Hin c Hc) c' Hs).
      + intros q Hq. apply F. intros c Hc. apply Hq. apply box_cells_in. exact Hc.
  Qed.
End Pieces.

Section Affine.
  Context {S : Scalar} (L : field_laws S).
  Add Field ExtrapField : (s_field S L) (morphism (lit_morph S L), constants [lit_cst]).

  Lemma extrapolated_affine type face s (g : list Z -> S) i j k : location type face = Some s -> affine g ->
    extrapolated (fun c => Some (g c)) s [i; j; k] = Some (g [i; j; k]).
  Proof.
    intros Hl (b & b0 & b1 & b2 & Hg). apply location_signs in Hl as (Hty & x & y & z & -> & Hx & Hy & Hz & Hco).
    unfold extrapolated, inwards.
    x_signs Hx Hy Hz; x_norm; try (cbn in Hco; lia); cbn [bind]; f_equal; rewrite !Hg, ?(fl_sub S L); ring.
  Qed.
End Affine.
