(** * Linear extrapolation around a patch *)

From Coq Require Import Bool.
From Verif Require Import Base FortranBase FortranExtrap SpecIter LemBase LemDomain LemAssign LemField LemKernel LemKernel2 LemStencil LemSafe
  SpecRow LemSum SpecSmooth LemFortran LemSmooth LemCells SpecExtrap LemExtrap.
Import ListNotations.
Open Scope Z_scope.

Section Around.
  Context {S : Scalar} (L : field_laws S) (lo hi : Z -> Z) (gcw : Z) (u : ptr) (g : list Z -> S).
  Context (Hg : affine g) (Hgcw : 1 <= gcw) (Hlo : forall d, 0 <= d <= 2 -> lo d < hi d).

  Local Notation ua := (mkFa u (CELL3d (lo 0) (lo 1) (lo 2) (hi 0) (hi 1) (hi 2) gcw)).

  Definition signs (s : list Z) : Prop := exists x y z, s = [x; y; z] /\ sign x /\ sign y /\ sign z.
  Definition holds (m : mem S) (s : list Z) : Prop := forall c, in_box (ghost_box lo hi s) c -> fel ua c m = Some (g c).
  Definition rim (c : list Z) : Prop := in_box (patch lo hi 1) c /\ ~ in_box (patch lo hi 0) c.
  Definition only_rim (m m' : mem S) : Prop := (forall q, (forall c, rim c -> faddr ua c <> q) -> load m' q = load m q) /\ ints m' = ints m.

  Lemma segment_ghost s :
    segment (fun d => fst (nth (Z.to_nat d) (ghost_box lo hi s) (0, 0))) (fun d => snd (nth (Z.to_nat d) (ghost_box lo hi s) (0, 0))) = ghost_box lo hi s.
  Proof. unfold segment, ghost_box. cbn [Z.to_nat nth]. change (Z.to_nat 1) with 1%nat. change (Z.to_nat 2) with 2%nat. change (Pos.to_nat 1) with 1%nat. change (Pos.to_nat 2) with 2%nat. cbn [nth]. rewrite <- !surjective_pairing. reflexivity. Qed.

  Lemma sources_known type face s c c' : location type face = Some s -> in_box (ghost_box lo hi s) c -> source s c c' ->
    exists s', signs s' /\ codim s' < type /\ in_box (ghost_box lo hi s') c'.
  Proof.
    intros Hl Hc Hs. apply location_signs in Hl as (Hty & x & y & z & -> & Hx & Hy & Hz & Hco).
    pose proof (Hlo 0 ltac:(lia)) as L0. pose proof (Hlo 1 ltac:(lia)) as L1. pose proof (Hlo 2 ltac:(lia)) as L2.
    apply in_box3 in Hc as (i & j & k & -> & Hi & Hj & Hk). unfold source, inwards in Hs.
    x_signs Hx Hy Hz; unfold layer in Hi, Hj, Hk; cbn [Z.ltb Z.compare fst snd] in Hi, Hj, Hk; x_norm; cbn [Z.ltb Z.compare fst snd] in Hi, Hj, Hk;
      try (cbn in Hco; lia); x_cases Hs; subst c';
      match goal with |- exists s', _ /\ _ /\ in_box _ [?a; ?b; ?c] =>
        let f e l h := match goal with
          | _ => let _ := constr:(ltac:(lia) : l <= e <= h) in constr:(0)
          | _ => let _ := constr:(ltac:(lia) : e = l - 1) in constr:(-1)
          | _ => constr:(1)
          end in
        let p := f a (lo 0) (hi 0) in let q := f b (lo 1) (hi 1) in let r := f c (lo 2) (hi 2) in exists [p; q; r]
      end;
      (split; [do 3 eexists; (split; [reflexivity|]); unfold sign; auto|]);
      (split; [unfold codim in *; cbn in *; lia|]);
      apply in_box3; do 3 eexists; (split; [reflexivity|]); unfold layer; cbn [nth Z.ltb Z.compare fst snd]; lia.
  Qed.

  Lemma ghost_in_patch s c : signs s -> in_box (ghost_box lo hi s) c -> in_box (patch lo hi 1) c.
  Proof.
    intros (x & y & z & -> & Hx & Hy & Hz) Hc. apply in_box3 in Hc as (i & j & k & -> & Hi & Hj & Hk).
    pose proof (Hlo 0 ltac:(lia)) as L0. pose proof (Hlo 1 ltac:(lia)) as L1. pose proof (Hlo 2 ltac:(lia)) as L2.
    apply in_box3. exists i, j, k. split; [reflexivity|]. unfold layer in *. cbn [nth] in *.
    x_signs Hx Hy Hz; cbn [Z.ltb Z.compare fst snd] in *; lia.
  Qed.

  Lemma ghost_rim type face s c : location type face = Some s -> in_box (ghost_box lo hi s) c -> rim c.
  Proof.
    intros Hl Hc. pose proof (location_signs _ _ _ Hl) as (Hty & x & y & z & -> & Hx & Hy & Hz & Hco). split.
    - apply (ghost_in_patch [x; y; z]); [do 3 eexists; auto|exact Hc].
    - intros Hp. apply in_box3 in Hc as (i & j & k & -> & Hi & Hj & Hk). apply in_box3 in Hp as (i' & j' & k' & E & Hi' & Hj' & Hk').
      injection E as <- <- <-. unfold layer in *. cbn [nth] in *.
      x_signs Hx Hy Hz; cbn [Z.ltb Z.compare fst snd] in *; try lia. cbn in Hco. lia.
  Qed.

  Lemma patch_in_array c : in_box (patch lo hi 1) c -> in_box (fa_dims ua) c.
  Proof.
    intros Hc. apply in_box3 in Hc as (i & j & k & -> & Hi & Hj & Hk). cbn [fa_dims fst snd] in *. unfold CELL3d. apply in_box3.
    exists i, j, k. cbn [fst snd]. split; [reflexivity|lia].
  Qed.

  Lemma patch_pieces c : in_box (patch lo hi 1) c -> exists s, signs s /\ in_box (ghost_box lo hi s) c.
  Proof.
    intros Hc. apply in_box3 in Hc as (i & j & k & -> & Hi & Hj & Hk). cbn [fst snd] in *.
    assert (One : forall d x, lo d - 1 <= x <= hi d + 1 -> exists s, sign s /\ fst (layer (lo d) (hi d) s) <= x <= snd (layer (lo d) (hi d) s)).
    { intros d x Hx. destruct (Z_lt_dec x (lo d)); [exists (-1)|destruct (Z_lt_dec (hi d) x); [exists 1|exists 0]];
        (split; [unfold sign; auto|cbn; lia]). }
    destruct (One 0 i Hi) as (x & Hx & Bx). destruct (One 1 j Hj) as (y & Hy & By). destruct (One 2 k Hk) as (z & Hz & Bz).
    exists [x; y; z]. split; [do 3 eexists; auto|]. apply in_box3. exists i, j, k. cbn [nth]. auto.
  Qed.

  Lemma piece type number s m : location type number = Some s -> allocated m ua ->
    (forall s', signs s' -> codim s' < type -> holds m s') ->
    exists m', extrapolate_piece lo hi gcw u type number m = Some m' /\ holds m' s /\ (forall s', signs s' -> holds m s' -> holds m' s') /\
      allocated m' ua /\ only_rim m m'.
  Proof.
    intros Hl Ha Hk. unfold extrapolate_piece. rewrite Hl.
    set (bLo := fun d => fst (nth (Z.to_nat d) (ghost_box lo hi s) (0, 0))). set (bHi := fun d => snd (nth (Z.to_nat d) (ghost_box lo hi s) (0, 0))).
    pose proof (segment_ghost s) as Hseg. fold bLo bHi in Hseg.
    assert (Hsg : signs s) by (destruct (location_signs _ _ _ Hl) as (_ & x & y & z & -> & Hx & Hy & Hz & _); do 3 eexists; auto).
    assert (Ht : thin s bLo bHi).
    { destruct Hsg as (x & y & z & -> & Hx & Hy & Hz). intros d Hd Hn. unfold bLo, bHi. rewrite Nat2Z.id.
      destruct d as [|[|[|]]]; [| | |lia]; cbn [nth ghost_box] in *; unfold layer.
      - destruct Hx as [->|[->| ->]]; [reflexivity|congruence|reflexivity].
      - destruct Hy as [->|[->| ->]]; [reflexivity|congruence|reflexivity].
      - destruct Hz as [->|[->| ->]]; [reflexivity|congruence|reflexivity]. }
    destruct (linearextrap_values (lo 0) (hi 0) (lo 1) (hi 1) (lo 2) (hi 2) gcw u bLo bHi number type s m Hl Ht Ha) as (m' & E & V & F & I).
    { rewrite Hseg. intros c Hc. split; [apply patch_in_array, (ghost_in_patch s); assumption|]. intros c' Hs.
      destruct (sources_known _ _ _ _ _ Hl Hc Hs) as (s' & Hs' & _ & Hb). apply patch_in_array, (ghost_in_patch s'); assumption. }
    rewrite Hseg in V, F. exists m'. split; [exact E|].
    assert (New : holds m' s).
    { intros c Hc. rewrite (proj1 (V c Hc)). transitivity (extrapolated (fun c' => Some (g c')) s c).
      - apply (extrapolated_ext type number); [exact Hl|]. intros c' Hs. destruct (sources_known _ _ _ _ _ Hl Hc Hs) as (s' & Hs' & Hco & Hb).
        exact (Hk s' Hs' Hco c' Hb).
      - pose proof Hc as Hc'. apply in_box3 in Hc' as (i & j & k & -> & _). apply (extrapolated_affine L type number); assumption. }
    assert (Keep : forall c, in_box (fa_dims ua) c -> ~ in_box (ghost_box lo hi s) c -> fel ua c m' = fel ua c m).
    { intros c Hc N. apply F. intros c2 Hc2 Eq. apply faddr_inj in Eq; [subst c2; exact (N Hc2)| |exact Hc].
      apply patch_in_array, (ghost_in_patch s); assumption. }
    assert (Dec : forall c, in_box (ghost_box lo hi s) c \/ ~ in_box (ghost_box lo hi s) c).
    { intros c. destruct (in_dec (list_eq_dec Z.eq_dec) c (box_cells (ghost_box lo hi s))) as [H|H]; rewrite box_cells_in in H; auto. }
    split; [exact New|]. split; [|split; [|split; [|exact I]]].
    - intros s' Hs' Ho c Hc. destruct (Dec c) as [H|H]; [exact (New c H)|]. rewrite Keep; [exact (Ho c Hc)| |exact H].
      apply patch_in_array, (ghost_in_patch s'); assumption.
    - intros c Hc. destruct (Dec c) as [H|H]; [eexists; exact (New c H)|]. rewrite Keep by assumption. exact (Ha c Hc).
    - intros q Hq. apply F. intros c Hc. apply Hq. exact (ghost_rim _ _ _ _ Hl Hc).
  Qed.

  Lemma only_rim_trans m1 m2 m3 : only_rim m1 m2 -> only_rim m2 m3 -> only_rim m1 m3.
  Proof. intros [F1 I1] [F2 I2]. split; [|congruence]. intros q Hq. rewrite F2, F1 by assumption. reflexivity. Qed.

  (** All pieces of one type. *)
  Lemma phase type l m : (forall n, In n l -> exists s, location type n = Some s) -> allocated m ua ->
    (forall s', signs s' -> codim s' < type -> holds m s') ->
    exists m', forM l (extrapolate_piece lo hi gcw u type) m = Some m' /\ (forall n s, In n l -> location type n = Some s -> holds m' s) /\
      (forall s', signs s' -> holds m s' -> holds m' s') /\ allocated m' ua /\ only_rim m m'.
  Proof.
    revert m. induction l as [|n l IH]; intros m Hn Ha Hk.
    - exists m. cbn [forM]. split; [reflexivity|]. split; [intros ? ? []|]. split; [auto|]. split; [exact Ha|]. split; reflexivity.
    - destruct (Hn n (or_introl eq_refl)) as (s & Hl).
      destruct (piece type n s m Hl Ha Hk) as (m1 & E1 & N1 & K1 & A1 & O1).
      destruct (IH m1) as (m' & E' & N' & K' & A' & O').
      + intros n' Hn'. apply Hn. right. exact Hn'.
      + exact A1.
      + intros s' Hs' Hco. apply K1; [exact Hs'|]. apply Hk; assumption.
      + exists m'. cbn [forM]. rewrite E1. cbn [bind]. split; [exact E'|]. split; [|split; [|split; [exact A'|exact (only_rim_trans _ _ _ O1 O')]]].
        * intros n' s' [<-|Hin] Hl'; [|exact (N' n' s' Hin Hl')]. rewrite Hl in Hl'. injection Hl' as <-. apply K'; [|exact N1].
          destruct (location_signs _ _ _ Hl) as (_ & x & y & z & -> & Hx & Hy & Hz & _). do 3 eexists. auto.
        * intros s' Hs' Ho. apply K'; [exact Hs'|]. apply K1; assumption.
  Qed.

  Definition count (type : Z) : Z := if type =? 1 then 6 else if type =? 2 then 12 else 8.

  Lemma located type n : 1 <= type <= 3 -> 0 <= n < count type -> exists s, location type n = Some s.
  Proof.
    unfold count, location. cbv zeta. intros Ht Hn.
    destruct (Z.eqb_spec type 1); [|destruct (Z.eqb_spec type 2); [|destruct (Z.eqb_spec type 3); [|lia]]];
      repeat match goal with |- context [?a <=? ?b] => destruct (Z.leb_spec a b) end; cbn [andb]; try lia; eexists; reflexivity.
  Qed.

  Lemma complete type l m : 1 <= type <= 3 -> (forall n, In n l <-> 0 <= n < count type) -> allocated m ua ->
    (forall s', signs s' -> codim s' < type -> holds m s') ->
    exists m', forM l (extrapolate_piece lo hi gcw u type) m = Some m' /\
      (forall s', signs s' -> codim s' < type + 1 -> holds m' s') /\ allocated m' ua /\ only_rim m m'.
  Proof.
    intros Ht Hn Ha Hk. destruct (phase type l m) as (m' & E & N & K & A & O).
    - intros n Hin. apply located; [exact Ht|]. apply Hn. exact Hin.
    - exact Ha.
    - exact Hk.
    - exists m'. split; [exact E|]. split; [|split; [exact A|exact O]]. intros s' Hs' Hco.
      destruct (Z.eq_dec (codim s') type) as [Eq|Ne].
      + destruct Hs' as (x & y & z & -> & Hx & Hy & Hz). destruct (location_onto x y z Hx Hy Hz) as (n & Hl & Hr); [lia|].
        rewrite Eq in Hl, Hr. apply (N n [x; y; z]); [|exact Hl]. apply Hn. exact Hr.
      + apply K; [exact Hs'|]. apply Hk; [exact Hs'|lia].
  Qed.

  Lemma around faces edges corners m : (forall n, In n faces <-> 0 <= n < 6) -> (forall n, In n edges <-> 0 <= n < 12) -> (forall n, In n corners <-> 0 <= n < 8) ->
    allocated m ua -> (forall c, in_box (patch lo hi 0) c -> fel ua c m = Some (g c)) ->
    exists m', extrapolate_around lo hi gcw u faces edges corners m = Some m' /\
      (forall c, in_box (patch lo hi 1) c -> fel ua c m' = Some (g c)) /\ only_rim m m'.
  Proof.
    intros H1 H2 H3 Ha Hp.
    destruct (complete 1 faces m) as (m1 & E1 & K1 & A1 & O1); [lia|exact H1|exact Ha| |].
    { intros s' (x & y & z & -> & Hx & Hy & Hz) Hco c Hc. apply Hp. apply in_box3 in Hc as (i & j & k & -> & Hi & Hj & Hk). apply in_box3.
      exists i, j, k. split; [reflexivity|]. unfold layer in *. cbn [nth fst snd] in *. unfold codim in Hco. cbn [nth] in Hco.
      assert (x = 0) by lia. assert (y = 0) by lia. assert (z = 0) by lia. subst. cbn [Z.ltb Z.compare fst snd] in *. lia. }
    destruct (complete 2 edges m1) as (m2 & E2 & K2 & A2 & O2); [lia|exact H2|exact A1|exact K1|].
    destruct (complete 3 corners m2) as (m3 & E3 & K3 & A3 & O3); [lia|exact H3|exact A2|exact K2|].
    exists m3. unfold extrapolate_around. rewrite E1. cbn [bind]. rewrite E2. cbn [bind]. split; [exact E3|].
    split; [|exact (only_rim_trans _ _ _ O1 (only_rim_trans _ _ _ O2 O3))]. intros c Hc.
    destruct (patch_pieces c Hc) as (s & Hs & Hb). apply (K3 s Hs); [|exact Hb].
    destruct Hs as (x & y & z & -> & Hx & Hy & Hz). unfold codim. cbn [nth]. destruct Hx as [->|[->| ->]], Hy as [->|[->| ->]], Hz as [->|[->| ->]]; cbn; lia.
  Qed.
End Around.

Section Other.
  Context {S : Scalar}.

  Lemma linearextrap_other lo0 hi0 lo1 hi1 lo2 hi2 gcw u bLo bHi face type (m : mem S) :
    location type face = None -> linearextrap lo0 hi0 lo1 hi1 lo2 hi2 gcw u bLo bHi face type m = Some m.
  Proof.
    unfold location, linearextrap. cbv zeta.
    destruct (Z.eqb_spec type 1); [|destruct (Z.eqb_spec type 2); [|destruct (Z.eqb_spec type 3); [|reflexivity]]];
      repeat match goal with |- context [?a <=? ?b] => destruct (Z.leb_spec a b) end; cbn [andb]; intros E; try discriminate E;
      repeat match goal with |- context [face =? ?b] => destruct (Z.eqb_spec face b); [lia|] end; reflexivity.
  Qed.

  Lemma around_patch : field_laws S -> forall (lo hi : Z -> Z) gcw u faces edges corners (g : list Z -> S) (m : mem S),
    let ua := mkFa u (CELL3d (lo 0) (lo 1) (lo 2) (hi 0) (hi 1) (hi 2) gcw) in
    affine g -> 1 <= gcw -> (forall d, 0 <= d <= 2 -> lo d < hi d) ->
    (forall n, In n faces <-> 0 <= n < 6) -> (forall n, In n edges <-> 0 <= n < 12) -> (forall n, In n corners <-> 0 <= n < 8) ->
    allocated m ua -> (forall c, in_box (patch lo hi 0) c -> fel ua c m = Some (g c)) ->
    exists m', extrapolate_around lo hi gcw u faces edges corners m = Some m' /\
      (forall c, in_box (patch lo hi 1) c -> fel ua c m' = Some (g c)) /\
      (forall q, (forall c, in_box (patch lo hi 1) c -> ~ in_box (patch lo hi 0) c -> faddr ua c <> q) -> load m' q = load m q) /\ ints m' = ints m.
  Proof.
    intros L lo hi gcw u faces edges corners g m ua Hg Hgcw Hlo H1 H2 H3 Ha Hp.
    destruct (around L lo hi gcw u g Hg Hgcw Hlo faces edges corners m H1 H2 H3 Ha Hp) as (m' & E & V & F & I).
    exists m'. split; [exact E|]. split; [exact V|]. split; [|exact I]. intros q Hq. apply F. intros c [A B]. apply Hq; assumption.
  Qed.
End Other.
