(** * The matrix of a block *)

From Verif Require Import Base FortranBase FortranLoops FortranSmooth SpecIter LemBase LemDomain LemAssign LemKernel LemKernel2 LemStencil LemSafe
  SpecSmooth SpecBlock LemFortran LemSmooth LemCells LemSmoothers LemLocal.
Import ListNotations.
Open Scope Z_scope.

Section MatrixBlock.
  Context {S : Scalar}.

  Lemma fset_inv (arr : farray) c e (m m' : mem S) : fset arr c e m = Some m' ->
    exists v, e m = Some v /\ store m (faddr arr c) v = Some m'.
  Proof. unfold fset. intros E. apply bind_Some_inv in E as (v & Ev & E). eauto. Qed.

  (** Body of the loop over the cells. *)
  Definition matrix_entry (A st tab : farray) (bx by_ bz : Z) (c : list Z) (s : Z) : mem S -> option (mem S) :=
    fint tab [0; s] (fun io => fint tab [1; s] (fun jo => fint tab [2; s] (fun ko =>
      let ix := nth 0 c 0 + io in let iy := nth 1 c 0 + jo in let iz := nth 2 c 0 + ko in
      fif ((ix >=? 0) && (ix <? bx) && (iy >=? 0) && (iy <? by_) && (iz >=? 0) && (iz <? bz))
        (fset A [number bx by_ c; number bx by_ [ix; iy; iz]] (fel st (s :: c))) fskip))).

  Definition matrix_row (A st tab : farray) (n bx by_ bz : Z) (c : list Z) : mem S -> option (mem S) :=
    fseq (fset A [number bx by_ c; number bx by_ c] (fel st (0 :: c))) (do_ 1 n (matrix_entry A st tab bx by_ bz c)).

  Definition block_box (bx by_ bz : Z) := [(0, bx - 1); (0, by_ - 1); (0, bz - 1)].

  Lemma creatematrix_rows A n st offset bx by_ bz (m : mem S) :
    creatematrix A n st offset bx by_ bz m =
    forM (box_cells (block_box bx by_ bz)) (matrix_row (mkFa A [(0, bx * by_ * bz - 1); (0, bx * by_ * bz - 1)])
      (mkFa st [(0, n - 1); (0, bx - 1); (0, by_ - 1); (0, bz - 1)]) (mkFa offset [(0, 2); (0, n - 1)]) n bx by_ bz) m.
  Proof. unfold block_box. rewrite <- do3_cells. reflexivity. Qed.

  Lemma in_block bx by_ bz i j k : in_box (block_box bx by_ bz) [i; j; k] <-> 0 <= i <= bx - 1 /\ 0 <= j <= by_ - 1 /\ 0 <= k <= bz - 1.
  Proof.
    unfold in_box, block_box. split.
    - intros H. inversion_clear H as [|? ? ? ? H1 H2]. inversion_clear H2 as [|? ? ? ? H3 H4]. inversion_clear H4 as [|? ? ? ? H5 H6]. cbn [fst snd] in *. auto.
    - intros (H1 & H2 & H3). repeat constructor; cbn [fst snd]; lia.
  Qed.

  Lemma number_inj bx by_ bz c c' : in_box (block_box bx by_ bz) c -> in_box (block_box bx by_ bz) c' ->
    number bx by_ c = number bx by_ c' -> c = c'.
  Proof.
    intros H H'. pose proof (box3 _ _ _ _ H) as E. pose proof (box3 _ _ _ _ H') as E'. revert H H'. rewrite E, E'. clear E E'.
    generalize (nth 0 c 0) (nth 1 c 0) (nth 2 c 0) (nth 0 c' 0) (nth 1 c' 0) (nth 2 c' 0). intros i j k i' j' k' H H'.
    apply in_block in H, H'. cbn [number]. intros E.
    assert (Hk : k = k').
    { assert (j * bx + i < by_ * bx) by nia. assert (j' * bx + i' < by_ * bx) by nia.
      assert (0 <= j * bx + i) by nia. assert (0 <= j' * bx + i') by nia.
      assert (by_ * bx * k + (j * bx + i) = by_ * bx * k' + (j' * bx + i')) as E2 by lia.
      apply (Z.div_mod_unique (by_ * bx) k k' (j * bx + i) (j' * bx + i')) in E2; lia. }
    subst k'. assert (bx * j + i = bx * j' + i') as E2 by lia.
    apply (Z.div_mod_unique bx j j' i i') in E2; [|lia|lia]. destruct E2; subst. reflexivity.
  Qed.

  Lemma number_range bx by_ bz c : in_box (block_box bx by_ bz) c -> 0 <= number bx by_ c <= bx * by_ * bz - 1.
  Proof.
    intros H. pose proof (box3 _ _ _ _ H) as E. revert H. rewrite E. clear E. generalize (nth 0 c 0) (nth 1 c 0) (nth 2 c 0). intros i j k H.
    apply in_block in H. cbn [number]. destruct H as (Hi & Hj & Hk).
    assert (0 <= j * bx + i <= by_ * bx - 1) by nia. assert (0 <= k * (by_ * bx)) by nia. assert (k * (by_ * bx) <= (bz - 1) * (by_ * bx)) by nia. lia.
  Qed.

  Lemma addr_inj A bx by_ bz c1 c2 c1' c2' :
    in_box (block_box bx by_ bz) c1 -> in_box (block_box bx by_ bz) c2 -> in_box (block_box bx by_ bz) c1' -> in_box (block_box bx by_ bz) c2' ->
    faddr (mkFa A [(0, bx * by_ * bz - 1); (0, bx * by_ * bz - 1)]) [number bx by_ c1; number bx by_ c2] =
    faddr (mkFa A [(0, bx * by_ * bz - 1); (0, bx * by_ * bz - 1)]) [number bx by_ c1'; number bx by_ c2'] -> c1 = c1' /\ c2 = c2'.
  Proof.
    intros H1 H2 H1' H2' E. apply faddr_inj in E.
    - injection E as E1 E2. split; eapply number_inj; eassumption.
    - constructor; [|constructor; [|constructor]]; cbn [fst snd]; apply (number_range bx by_ bz); assumption.
    - constructor; [|constructor; [|constructor]]; cbn [fst snd]; apply (number_range bx by_ bz); assumption.
  Qed.

  (** What one entry does. *)
  Lemma matrix_entry_inv A st tab bx by_ bz i j k s (m m' : mem S) :
    matrix_entry A st tab bx by_ bz [i; j; k] s m = Some m' ->
    exists c', displaced_cell m tab 0 s [i; j; k] c' /\
      ((in_box (block_box bx by_ bz) c' /\ fset A [number bx by_ [i; j; k]; number bx by_ c'] (fel st [s; i; j; k]) m = Some m') \/
       (~ in_box (block_box bx by_ bz) c' /\ m' = m)).
  Proof.
    unfold matrix_entry, fint. intros E. apply bind_Some_inv in E as (io & Ei & E). apply bind_Some_inv in E as (jo & Ej & E).
    apply bind_Some_inv in E as (ko & Ek & E). cbn [nth] in E. exists [i + io; j + jo; k + ko]. split.
    { apply displaced3; assumption. }
    unfold fif in E. destruct (_ && _) eqn:B.
    - left. split; [|exact E]. apply in_block. lia.
    - right. split; [|unfold fskip in E; congruence]. intros H. apply in_block in H. lia.
  Qed.

  Lemma displaced_unique (m m' : mem S) tab b s c c1 c2 : ints m' = ints m -> displaced_cell m tab b s c c1 -> displaced_cell m' tab b s c c2 -> c1 = c2.
  Proof.
    intros I [L1 D1] [L2 D2]. apply (nth_ext _ _ 0 0); [congruence|]. intros k Hk. rewrite L1 in Hk.
    specialize (D1 k Hk). specialize (D2 k Hk). unfold loadi in *. rewrite I in D2. rewrite D1 in D2. injection D2. lia.
  Qed.

  Lemma displaced_ints (m m' : mem S) tab b s c c1 : ints m' = ints m -> displaced_cell m tab b s c c1 -> displaced_cell m' tab b s c c1.
  Proof. intros I [L1 D1]. split; [exact L1|]. intros k Hk. unfold loadi. rewrite I. apply D1. exact Hk. Qed.

  Lemma entry_writes A st tab bx by_ bz c s (m m' : mem S) : in_box (block_box bx by_ bz) c ->
    matrix_entry A st tab bx by_ bz c s m = Some m' ->
    (forall q, (forall c', displaced_cell m tab 0 s c c' -> in_box (block_box bx by_ bz) c' -> q <> faddr A [number bx by_ c; number bx by_ c']) -> load m' q = load m q) /\
    ints m' = ints m.
  Proof.
    intros Hc E. rewrite (box3 _ _ _ _ Hc) in *. apply matrix_entry_inv in E as (c' & D & [[B E]|[B ->]]).
    - apply fset_inv in E as (v & Ev & St). split; [|exact (store_ints _ _ _ _ St)].
      intros q Hq. rewrite (load_store _ _ _ _ _ St). destruct (ptr_dec _ _) as [Eq|_]; [|reflexivity]. exfalso. apply (Hq c' D B). congruence.
    - split; reflexivity.
  Qed.

  (** One row: the diagonal, then the other entries. *)
  Lemma row_made A st tab n bx by_ bz c (m m' : mem S) :
    let AA := mkFa A [(0, bx * by_ * bz - 1); (0, bx * by_ * bz - 1)] in
    let bs := block_box bx by_ bz in
    fst A <> fst (fa_ptr st) -> 1 <= n -> in_box bs c -> columns_distinct m tab n bs -> leads_out m tab n bs ->
    matrix_row AA st tab n bx by_ bz c m = Some m' ->
    (forall c', in_box bs c' ->
       (forall s, 0 <= s <= n - 1 -> displaced_cell m tab 0 s c c' -> fel AA [number bx by_ c; number bx by_ c'] m' = fel st (s :: c) m) /\
       ((forall s, 0 <= s <= n - 1 -> ~ displaced_cell m tab 0 s c c') -> fel AA [number bx by_ c; number bx by_ c'] m' = fel AA [number bx by_ c; number bx by_ c'] m)) /\
    (forall q, (forall c', in_box bs c' -> q <> faddr AA [number bx by_ c; number bx by_ c']) -> load m' q = load m q) /\
    ints m' = ints m.
  Proof.
    cbv zeta. set (AA := mkFa A _). set (bs := block_box bx by_ bz). intros As Hn Hc CD LO E.
    unfold matrix_row, fseq in E. apply bind_Some_inv in E as (m1 & E1 & E). apply fset_inv in E1 as (v & Ev & St).
    pose proof (store_ints _ _ _ _ St) as I1. destruct (CD c Hc) as [D0 DD].
    assert (Off1 : forall q, q <> faddr AA [number bx by_ c; number bx by_ c] -> load m1 q = load m q).
    { intros q Hq. rewrite (load_store _ _ _ _ _ St). destruct (ptr_dec _ _) as [Eq|_]; [congruence|reflexivity]. }
    rewrite do_zvals in E.
    assert (Hst : forall is c1 c2, faddr st is <> faddr AA [c1; c2]).
    { intros is c1 c2 Eq. apply (f_equal fst) in Eq. apply As. symmetry. exact Eq. }
    assert (Uniq : forall s s' c1, 1 <= s <= n -> 1 <= s' <= n -> displaced_cell m tab 0 s c c1 -> displaced_cell m tab 0 s' c c1 -> in_box bs c1 -> s = s').
    { intros s s' c1 Hs Hs' H1 H2 B. destruct (Z.eq_dec s n) as [->|N]; [exfalso; exact (LO c c1 Hc H1 B)|].
      destruct (Z.eq_dec s' n) as [->|N']; [exfalso; exact (LO c c1 Hc H2 B)|]. apply (DD s s' c1); auto; lia. }
    apply (forM_local (zvals 1 n) (matrix_entry AA st tab bx by_ bz c)
      (fun s q => exists c', displaced_cell m tab 0 s c c' /\ in_box bs c' /\ q = faddr AA [number bx by_ c; number bx by_ c'])
      (fun s q => (exists c', displaced_cell m tab 0 s c c' /\ in_box bs c' /\ q = faddr AA [number bx by_ c; number bx by_ c']) \/ fst q <> fst A)) in E.
    - destruct E as (F & I & V). split; [|split].
      + intros c' Hc'. split.
        * intros s Hs D. destruct (Z.eq_dec s 0) as [->|N].
          -- assert (c' = c) by (apply (displaced_unique m m tab 0 0 c); auto). subst c'.
             unfold fel. rewrite F.
             ++ rewrite (load_stored _ _ _ _ St). symmetry. exact Ev.
             ++ intros s Hs' (c' & D' & B & Eq). apply zvals_in in Hs'. apply addr_inj in Eq; auto. destruct Eq as [_ <-].
                destruct (Z.eq_dec s n) as [->|N]; [exact (LO c c Hc D' B)|].
                assert (0 = s) by (apply (DD 0 s c); auto; lia). lia.
          -- destruct (V s) as (ma & mb & G & Ia & P1 & P2 & _); [apply zvals_in; lia|].
             rewrite (box3 _ _ _ _ Hc) in G. apply matrix_entry_inv in G as (c1 & D1 & G). rewrite <- (box3 _ _ _ _ Hc) in *.
             assert (c1 = c') by (symmetry; apply (displaced_unique m ma tab 0 s c); [congruence|exact D|exact D1]). subst c1.
             destruct G as [[_ G]|[B _]]; [|exfalso; exact (B Hc')].
             apply fset_inv in G as (w & Ew & Sw). unfold fel. rewrite P2 by (left; eauto).
             rewrite (load_stored _ _ _ _ Sw). rewrite <- Ew. unfold fel. rewrite P1.
             ++ apply Off1. apply Hst.
             ++ right. cbn. congruence.
        * intros N. unfold fel. rewrite F.
          -- apply Off1. intros Eq. apply addr_inj in Eq; auto. destruct Eq as [_ ->]. apply (N 0); [lia|exact D0].
          -- intros s Hs (c1 & D1 & B & Eq). apply zvals_in in Hs. apply addr_inj in Eq; auto. destruct Eq as [_ ->].
             destruct (Z.eq_dec s n) as [->|N']; [exact (LO c c1 Hc D1 B)|]. apply (N s); [lia|exact D1].
      + intros q Hq. rewrite F.
        * apply Off1. apply Hq. exact Hc.
        * intros s Hs (c1 & D1 & B & ->). exact (Hq c1 B eq_refl).
      + congruence.
    - apply zvals_nodup.
    - intros s ma mb Hs Ia G. destruct (entry_writes AA st tab bx by_ bz c s ma mb Hc G) as [W I]. split; [|exact I].
      intros q Hq. apply W. intros c' D B ->. apply Hq. exists c'. split; [|auto].
      apply (displaced_ints ma m tab 0 s c c'); [congruence|exact D].
    - intros s s' q Hs Hs' N [(c1 & D1 & B1 & ->)|Hf] (c2 & D2 & B2 & Eq).
      + apply addr_inj in Eq; auto. destruct Eq as [_ <-]. apply N. apply zvals_in in Hs, Hs'. apply (Uniq s s' c1); auto.
      + subst q. apply Hf. reflexivity.
  Qed.

  Lemma creatematrix_made : forall A n st offset bx by_ bz (m m' : mem S),
    fst A <> fst st -> 1 <= n ->
    columns_distinct m (mkFa offset [(0, 2); (0, n - 1)]) n [(0, bx - 1); (0, by_ - 1); (0, bz - 1)] ->
    leads_out m (mkFa offset [(0, 2); (0, n - 1)]) n [(0, bx - 1); (0, by_ - 1); (0, bz - 1)] ->
    creatematrix A n st offset bx by_ bz m = Some m' ->
    matrix_made m m' (mkFa offset [(0, 2); (0, n - 1)]) (mkFa st [(0, n - 1); (0, bx - 1); (0, by_ - 1); (0, bz - 1)]) n
      (mkFa A [(0, bx * by_ * bz - 1); (0, bx * by_ * bz - 1)]) bx by_ [(0, bx - 1); (0, by_ - 1); (0, bz - 1)].
  Proof.
    intros A n st offset bx by_ bz m m' As Hn CD LO E. rewrite creatematrix_rows in E. fold (block_box bx by_ bz) in *.
    set (bs := block_box bx by_ bz) in *. set (tab := mkFa offset _) in *. set (ST := mkFa st _) in *. set (AA := mkFa A _) in *.
    pose proof (box_cells_in bs) as Hcs.
    assert (CDi : forall m1 : mem S, ints m1 = ints m -> columns_distinct m1 tab n bs).
    { intros m1 I1 c Hc. destruct (CD c Hc) as [D0 DD]. split; [exact (displaced_ints m m1 _ _ _ _ _ I1 D0)|].
      intros s s' c' Hs Hs' H1 H2. apply (DD s s' c' Hs Hs'); eapply displaced_ints; try eassumption; congruence. }
    assert (LOi : forall m1 : mem S, ints m1 = ints m -> leads_out m1 tab n bs).
    { intros m1 I1 c c' Hc D. apply (LO c c' Hc). eapply displaced_ints; [|exact D]. congruence. }
    apply (forM_local (box_cells bs) (matrix_row AA ST tab n bx by_ bz)
      (fun c q => exists c', in_box bs c' /\ q = faddr AA [number bx by_ c; number bx by_ c'])
      (fun c q => (exists c', in_box bs c' /\ q = faddr AA [number bx by_ c; number bx by_ c']) \/ fst q <> fst A)) in E.
    - destruct E as (F & I & V). split; [|split; [|exact I]].
      + intros c c' Hc Hc'. destruct (V c) as (ma & mb & G & Ia & P1 & P2 & _); [apply Hcs; exact Hc|].
        destruct (row_made A ST tab n bx by_ bz c ma mb As Hn Hc (CDi ma Ia) (LOi ma Ia) G) as (R & _ & _).
        destruct (R c' Hc') as [R1 R2]. fold AA in R1, R2. split.
        * intros s Hs D. unfold fel at 1. rewrite P2 by (left; eauto). fold (fel AA [number bx by_ c; number bx by_ c'] mb).
          rewrite (R1 s Hs (displaced_ints m ma _ _ _ _ _ Ia D)). apply P1. right. cbn. congruence.
        * intros N. unfold fel at 1. rewrite P2 by (left; eauto). fold (fel AA [number bx by_ c; number bx by_ c'] mb).
          rewrite R2; [apply P1; left; eauto|]. intros s Hs D. apply (N s Hs). eapply displaced_ints; [|exact D]. congruence.
      + intros q Hq. apply F. intros c Hin (c' & B & ->). apply Hcs in Hin. exact (Hq c c' Hin B eq_refl).
    - apply box_cells_nodup.
    - intros c ma mb Hin Ia G. apply Hcs in Hin.
      destruct (row_made A ST tab n bx by_ bz c ma mb As Hn Hin (CDi ma Ia) (LOi ma Ia) G) as (_ & W & I). split; [|exact I].
      intros q Hq. apply W. intros c' B ->. apply Hq. eauto.
    - intros c1 c2 q H1 H2 N [(c1' & B1 & ->)|Hf] (c2' & B2 & Eq).
      + apply Hcs in H1, H2. apply addr_inj in Eq; auto. destruct Eq; auto.
      + subst q. apply Hf. reflexivity.
  Qed.

  (** ** The column after the last *)

  Lemma entry_none A st offset n bx by_ bz c (m : mem S) tab l : ints m = l ->
    nth_error l (fst offset) = Some tab -> Z.of_nat (length tab) <= snd offset + 3 * n -> 0 <= n ->
    matrix_entry A st (mkFa offset [(0, 2); (0, n - 1)]) bx by_ bz c n m = None.
  Proof.
    intros I T Hl Hn. unfold matrix_entry, fint. replace (loadi m _) with (@None Z); [reflexivity|].
    symmetry. unfold loadi. rewrite I. cbn [faddr padd fst fa_ptr]. rewrite T. cbn [bind]. unfold nthZ.
    assert (snd (faddr (mkFa offset [(0, 2); (0, n - 1)]) [0; n]) = snd offset + 3 * n) as -> by (unfold faddr, padd; cbn [fa_ptr fa_dims foffset snd]; ring).
    destruct (_ <? 0) eqn:B; [reflexivity|]. apply nth_error_None. lia.
  Qed.

  (** With no integers behind the table every call fails. *)
  Lemma creatematrix_none : forall A n st offset bx by_ bz (m : mem S) tab,
    nth_error (ints m) (fst offset) = Some tab -> Z.of_nat (length tab) = snd offset + 3 * n ->
    1 <= n -> 1 <= bx -> 1 <= by_ -> 1 <= bz ->
    creatematrix A n st offset bx by_ bz m = None.
  Proof.
    intros A n st offset bx by_ bz m tab T Hl Hn Hx Hy Hz. rewrite creatematrix_rows.
    assert (In [0; 0; 0] (box_cells (block_box bx by_ bz))) as Hin by (apply box_cells_in, in_block; lia).
    destruct (box_cells (block_box bx by_ bz)) as [|c cs]; [destruct Hin|]. clear Hin. cbn [forM]. unfold matrix_row, fseq.
    destruct (fset _ _ _ m) as [m1|] eqn:E1; [|reflexivity]. cbn [bind]. apply fset_inv in E1 as (v & _ & St).
    assert (ints m1 = ints m) as I by exact (store_ints _ _ _ _ St). clear St.
    rewrite do_zvals.
    match goal with |- bind ?x _ = None => assert (x = None) as ->; [|reflexivity] end.
    assert (In n (zvals 1 n)) as Hin by (apply zvals_in; lia). revert Hin. generalize (zvals 1 n). intros l.
    revert m1 I. induction l as [|s l IH]; intros m1 I [].
    - subst s. cbn [forM]. rewrite (entry_none _ _ _ _ _ _ _ _ _ tab (ints m)); auto; lia.
    - cbn [forM]. destruct (matrix_entry _ _ _ _ _ _ c s m1) as [m2|] eqn:E2; [|reflexivity]. cbn [bind]. apply IH; [|assumption].
      rewrite <- I. unfold matrix_entry, fint in E2. apply bind_Some_inv in E2 as (? & _ & E2). apply bind_Some_inv in E2 as (? & _ & E2).
      apply bind_Some_inv in E2 as (? & _ & E2). cbv zeta in E2. unfold fif in E2. destruct (_ && _); [|unfold fskip in E2; congruence].
      apply fset_inv in E2 as (w & _ & St). exact (store_ints _ _ _ _ St).
  Qed.
End MatrixBlock.
