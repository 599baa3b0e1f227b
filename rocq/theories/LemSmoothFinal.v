(** * Consequences for the point smoothers *)

From Coq Require Import Sorted Field.
From Verif Require Import Base FortranBase FortranLoops FortranSmooth SpecIter LemBase LemDomain LemAssign LemField LemKernel LemKernel2 LemStencil LemSafe
  SpecRow LemSum SpecSmooth LemFortran LemSmooth LemCells LemSweep LemSmoothers LemJacobi LemFixedStencil.
Import ListNotations.
Open Scope Z_scope.

Lemma in_box_len bs c : in_box bs c -> length bs = length c.
Proof. induction 1; cbn; congruence. Qed.

(** ** Colours *)

Lemma colours_split bs color c : in_box bs c ->
  (coloured bs color c /\ ~ coloured bs (color + 1) c) \/ (coloured bs (color + 1) c /\ ~ coloured bs color c).
Proof.
  intros H. unfold coloured. rewrite !even_mod. set (x := fold_right Z.add 0 c - _).
  assert ((x + color) mod 2 = 0 /\ (x + (color + 1)) mod 2 <> 0 \/ (x + (color + 1)) mod 2 = 0 /\ (x + color) mod 2 <> 0) by lia. tauto.
Qed.

Lemma other_colour {S : Scalar} (m : mem S) tab n b bs color c s c' : bipartite m tab n (coloured (b :: bs) color) -> coloured (b :: bs) color c ->
  1 <= s <= n - 1 -> displaced_cell m tab 0 s c c' -> ~ coloured (b :: bs) color c'.
Proof.
  intros B Hc Hs D Hc'. specialize (B c s c' Hc Hs D). destruct Hc as [_ Hc], Hc' as [_ Hc'].
  rewrite <- Z.negb_even in B. apply negb_true_iff in B.
  assert (Z.even (fold_right Z.add 0 c' - fold_right Z.add 0 c) = true); [|congruence].
  rewrite even_mod in *. lia.
Qed.

(** ** Tables given column by column *)
Section Tables.
  Context {S : Scalar}.

  Lemma table_displaced (m : mem S) tab cols s col c c' : table_is m tab cols -> nth_error cols (Z.to_nat s) = Some col -> 0 <= s ->
    length col = length c -> displaced_cell m tab 0 s c c' <-> (length c' = length c /\ forall k, (k < length c)%nat -> nth k c' 0 = nth k c 0 + nth k col 0).
  Proof.
    intros T Hs H0 Hl. split; intros [Hl' D]; (split; [exact Hl'|]); intros k Hk; specialize (D k Hk).
    - specialize (T _ _ Hs k (nth k col 0)). rewrite Z2Nat.id in T by lia. rewrite Z.add_0_l in D. rewrite T in D.
      + injection D as D. lia.
      + apply nth_error_nth'. lia.
    - rewrite Z.add_0_l. specialize (T _ _ Hs k (nth k col 0)). rewrite Z2Nat.id in T by lia. rewrite T.
      + f_equal. lia.
      + apply nth_error_nth'. lia.
  Qed.

  (** Offsets of at most [g] stay within [g] layers of ghost cells. *)
  Lemma table_stays (m : mem S) tab cols g bs (visited : list Z -> Prop) :
    table_is m tab cols -> Forall (fun col => length col = length bs /\ Forall (fun o => - g <= o <= g) col) cols ->
    (forall c, visited c -> in_box bs c) ->
    stays m tab 1 (Z.of_nat (length cols) - 1) (map (fun b => (fst b - g, snd b + g)) bs) visited.
  Proof.
    intros T Hc Hv c s c' Hin Hs D. apply Hv in Hin.
    destruct (nth_error cols (Z.to_nat s)) as [col|] eqn:E; [|apply nth_error_None in E; lia].
    rewrite Forall_forall in Hc. destruct (Hc col (nth_error_In _ _ E)) as [Hl Ho].
    assert (Hlb : length bs = length c) by exact (in_box_len bs c Hin).
    apply (table_displaced m tab cols s col c c' T E ltac:(lia) ltac:(lia)) in D. destruct D as [Hl' D].
    clear -Hl' D Hin Hl Hlb Ho. revert c c' col Hin Hl Hl' Hlb D Ho. induction bs as [|b bs IH]; intros [|i c] [|i' c'] [|o col] Hin Hl Hl' Hlb D Ho; try discriminate; constructor.
    - cbn [fst snd]. specialize (D 0%nat ltac:(cbn; lia)). cbn [nth] in D. inversion Hin; subst. inversion Ho; subst. lia.
    - inversion Hin; subst. inversion Ho; subst. apply (IH c c' col); auto. intros k Hk. apply (D (Datatypes.S k)). cbn. lia.
  Qed.

  (** A first column of zeros. *)
  Lemma table_diagonal (m : mem S) tab cols c : table_is m tab cols -> nth_error cols 0 = Some (repeat 0 (length c)) -> displaced_cell m tab 0 0 c c.
  Proof.
    intros T E. apply (table_displaced m tab cols 0 (repeat 0 (length c)) c c T E); [lia|apply repeat_length|].
    split; [reflexivity|]. intros k Hk. rewrite nth_repeat. ring.
  Qed.

  Lemma sum_shift c c' col : length c' = length c -> length col = length c ->
    (forall k, (k < length c)%nat -> nth k c' 0 = nth k c 0 + nth k col 0) -> fold_right Z.add 0 c' = fold_right Z.add 0 c + fold_right Z.add 0 col.
  Proof.
    revert c' col. induction c as [|i c IH]; intros [|i' c'] [|o col] Hl Hl' D; try discriminate; [reflexivity|].
    cbn [fold_right]. rewrite (IH c' col); [|cbn in *; lia|cbn in *; lia|].
    - specialize (D 0%nat ltac:(cbn; lia)). cbn [nth] in D. lia.
    - intros k Hk. apply (D (Datatypes.S k)). cbn. lia.
  Qed.

  (** Columns with odd sums. *)
  Lemma table_bipartite (m : mem S) tab cols bs (visited : list Z -> Prop) :
    table_is m tab cols -> Forall (fun col => length col = length bs /\ Z.odd (fold_right Z.add 0 col) = true) (tl cols) ->
    (forall c, visited c -> in_box bs c) -> bipartite m tab (Z.of_nat (length cols)) visited.
  Proof.
    intros T Hc Hv c s c' Hin Hs D. apply Hv in Hin. assert (Hlb : length bs = length c) by exact (in_box_len bs c Hin).
    destruct (nth_error cols (Z.to_nat s)) as [col|] eqn:E; [|apply nth_error_None in E; lia].
    assert (In col (tl cols)) as Hcol.
    { destruct cols as [|c0 cols]; [destruct (Z.to_nat s); discriminate|]. cbn [tl]. apply (nth_error_In _ (Z.to_nat s - 1)).
      replace (Z.to_nat s) with (Datatypes.S (Z.to_nat s - 1)) in E by lia. exact E. }
    rewrite Forall_forall in Hc. destruct (Hc col Hcol) as [Hl Ho].
    apply (table_displaced m tab cols s col c c' T E ltac:(lia) ltac:(lia)) in D. destruct D as [Hl' D].
    rewrite (sum_shift c c' col Hl' ltac:(lia) D). replace (fold_right Z.add 0 c + fold_right Z.add 0 col - fold_right Z.add 0 c) with (fold_right Z.add 0 col) by ring.
    exact Ho.
  Qed.
End Tables.

Section Final.
  Context {S : Scalar} (L : field_laws S).

  Lemma cellrbgs1d_solves : forall lo0 hi0 color n offset slo0 shi0 st flo0 fhi0 f ulo0 uhi0 u (m m' : mem S),
  0 <= color -> fst u <> fst st -> fst u <> fst f ->
  (forall c, coloured [(lo0, hi0)] color c -> in_box (CELL1d ulo0 uhi0 0) c) ->
  stays m (mkFa offset [(0, 0); (0, n - 1)]) 1 (n - 1) (CELL1d ulo0 uhi0 0) (coloured [(lo0, hi0)] color) ->
  1 <= n -> diagonal m (mkFa offset [(0, 0); (0, n - 1)]) (mkFa st ((0, n - 1) :: CELL1d slo0 shi0 0)) (coloured [(lo0, hi0)] color) ->
  bipartite m (mkFa offset [(0, 0); (0, n - 1)]) n (coloured [(lo0, hi0)] color) ->
  cellrbgs1d lo0 hi0 color n offset slo0 shi0 st flo0 fhi0 f ulo0 uhi0 u m = Some m' ->
  forall c, coloured [(lo0, hi0)] color c -> solves m' (mkFa offset [(0, 0); (0, n - 1)]) (mkFa st ((0, n - 1) :: CELL1d slo0 shi0 0)) n (mkFa f (CELL1d flo0 fhi0 0)) (mkFa u (CELL1d ulo0 uhi0 0)) c.
  Proof.
    intros lo0 hi0 color n offset slo0 shi0 st flo0 fhi0 f ulo0 uhi0 u m m' Hcol Hst Hf Hb Hstay Hn Hd HB E c Hc.
    apply (swept_solves L m m' (mkFa offset [(0, 0); (0, n - 1)]) (mkFa st ((0, n - 1) :: CELL1d slo0 shi0 0)) n (mkFa f (CELL1d flo0 fhi0 0)) (mkFa u (CELL1d ulo0 uhi0 0)) (coloured [(lo0, hi0)] color) c); try assumption.
    - apply (cellrbgs1d_swept L); assumption.
    - intros s c' Hs D. exact (other_colour m _ n _ _ color c s c' HB Hc Hs D).
  Qed.

  Lemma cellrbgs2d_solves : forall lo0 hi0 lo1 hi1 color n offset slo0 shi0 slo1 shi1 st flo0 fhi0 flo1 fhi1 f ulo0 uhi0 ulo1 uhi1 u (m m' : mem S),
  0 <= lo1 + color -> fst u <> fst st -> fst u <> fst f ->
  (forall c, coloured [(lo0, hi0); (lo1, hi1)] color c -> in_box (CELL2d ulo0 ulo1 uhi0 uhi1 0) c) ->
  stays m (mkFa offset [(0, 1); (0, n - 1)]) 1 (n - 1) (CELL2d ulo0 ulo1 uhi0 uhi1 0) (coloured [(lo0, hi0); (lo1, hi1)] color) ->
  1 <= n -> diagonal m (mkFa offset [(0, 1); (0, n - 1)]) (mkFa st ((0, n - 1) :: CELL2d slo0 slo1 shi0 shi1 0)) (coloured [(lo0, hi0); (lo1, hi1)] color) ->
  bipartite m (mkFa offset [(0, 1); (0, n - 1)]) n (coloured [(lo0, hi0); (lo1, hi1)] color) ->
  cellrbgs2d lo0 hi0 lo1 hi1 color n offset slo0 shi0 slo1 shi1 st flo0 fhi0 flo1 fhi1 f ulo0 uhi0 ulo1 uhi1 u m = Some m' ->
  forall c, coloured [(lo0, hi0); (lo1, hi1)] color c -> solves m' (mkFa offset [(0, 1); (0, n - 1)]) (mkFa st ((0, n - 1) :: CELL2d slo0 slo1 shi0 shi1 0)) n (mkFa f (CELL2d flo0 flo1 fhi0 fhi1 0)) (mkFa u (CELL2d ulo0 ulo1 uhi0 uhi1 0)) c.
  Proof.
    intros lo0 hi0 lo1 hi1 color n offset slo0 shi0 slo1 shi1 st flo0 fhi0 flo1 fhi1 f ulo0 uhi0 ulo1 uhi1 u m m' Hcol Hst Hf Hb Hstay Hn Hd HB E c Hc.
    apply (swept_solves L m m' (mkFa offset [(0, 1); (0, n - 1)]) (mkFa st ((0, n - 1) :: CELL2d slo0 slo1 shi0 shi1 0)) n (mkFa f (CELL2d flo0 flo1 fhi0 fhi1 0)) (mkFa u (CELL2d ulo0 ulo1 uhi0 uhi1 0)) (coloured [(lo0, hi0); (lo1, hi1)] color) c); try assumption.
    - apply (cellrbgs2d_swept L); assumption.
    - intros s c' Hs D. exact (other_colour m _ n _ _ color c s c' HB Hc Hs D).
  Qed.

  Lemma cellrbgs3d_solves : forall lo0 hi0 lo1 hi1 lo2 hi2 color n offset slo0 shi0 slo1 shi1 slo2 shi2 st flo0 fhi0 flo1 fhi1 flo2 fhi2 f ulo0 uhi0 ulo1 uhi1 ulo2 uhi2 u (m m' : mem S),
  0 <= color -> fst u <> fst st -> fst u <> fst f ->
  (forall c, coloured [(lo0, hi0); (lo1, hi1); (lo2, hi2)] color c -> in_box (CELL3d ulo0 ulo1 ulo2 uhi0 uhi1 uhi2 0) c) ->
  stays m (mkFa offset [(0, 2); (0, n - 1)]) 1 (n - 1) (CELL3d ulo0 ulo1 ulo2 uhi0 uhi1 uhi2 0) (coloured [(lo0, hi0); (lo1, hi1); (lo2, hi2)] color) ->
  1 <= n -> diagonal m (mkFa offset [(0, 2); (0, n - 1)]) (mkFa st ((0, n - 1) :: CELL3d slo0 slo1 slo2 shi0 shi1 shi2 0)) (coloured [(lo0, hi0); (lo1, hi1); (lo2, hi2)] color) ->
  bipartite m (mkFa offset [(0, 2); (0, n - 1)]) n (coloured [(lo0, hi0); (lo1, hi1); (lo2, hi2)] color) ->
  cellrbgs3d lo0 hi0 lo1 hi1 lo2 hi2 color n offset slo0 shi0 slo1 shi1 slo2 shi2 st flo0 fhi0 flo1 fhi1 flo2 fhi2 f ulo0 uhi0 ulo1 uhi1 ulo2 uhi2 u m = Some m' ->
  forall c, coloured [(lo0, hi0); (lo1, hi1); (lo2, hi2)] color c -> solves m' (mkFa offset [(0, 2); (0, n - 1)]) (mkFa st ((0, n - 1) :: CELL3d slo0 slo1 slo2 shi0 shi1 shi2 0)) n (mkFa f (CELL3d flo0 flo1 flo2 fhi0 fhi1 fhi2 0)) (mkFa u (CELL3d ulo0 ulo1 ulo2 uhi0 uhi1 uhi2 0)) c.
  Proof.
    intros lo0 hi0 lo1 hi1 lo2 hi2 color n offset slo0 shi0 slo1 shi1 slo2 shi2 st flo0 fhi0 flo1 fhi1 flo2 fhi2 f ulo0 uhi0 ulo1 uhi1 ulo2 uhi2 u m m' Hcol Hst Hf Hb Hstay Hn Hd HB E c Hc.
    apply (swept_solves L m m' (mkFa offset [(0, 2); (0, n - 1)]) (mkFa st ((0, n - 1) :: CELL3d slo0 slo1 slo2 shi0 shi1 shi2 0)) n (mkFa f (CELL3d flo0 flo1 flo2 fhi0 fhi1 fhi2 0)) (mkFa u (CELL3d ulo0 ulo1 ulo2 uhi0 uhi1 uhi2 0)) (coloured [(lo0, hi0); (lo1, hi1); (lo2, hi2)] color) c); try assumption.
    - apply (cellrbgs3d_swept L); assumption.
    - intros s c' Hs D. exact (other_colour m _ n _ _ color c s c' HB Hc Hs D).
  Qed.

  Lemma cellgs1d_fixed : forall lo0 hi0 n offset slo0 shi0 st flo0 fhi0 f ulo0 uhi0 u (m m' : mem S),
  fst u <> fst st -> fst u <> fst f ->
  (forall c, in_box [(lo0, hi0)] c -> in_box (CELL1d ulo0 uhi0 0) c) ->
  stays m (mkFa offset [(0, 0); (0, n - 1)]) 1 (n - 1) (CELL1d ulo0 uhi0 0) (in_box [(lo0, hi0)]) ->
  flo0 = ulo0 -> 1 <= n -> diagonal m (mkFa offset [(0, 0); (0, n - 1)]) (mkFa st ((0, n - 1) :: CELL1d slo0 shi0 0)) (in_box [(lo0, hi0)]) ->
  (forall c, in_box [(lo0, hi0)] c -> solves m (mkFa offset [(0, 0); (0, n - 1)]) (mkFa st ((0, n - 1) :: CELL1d slo0 shi0 0)) n (mkFa f (CELL1d flo0 fhi0 0)) (mkFa u (CELL1d ulo0 uhi0 0)) c) ->
  cellgs1d lo0 hi0 n offset slo0 shi0 st flo0 fhi0 f ulo0 uhi0 u m = Some m' ->
  forall q, load m' q = load m q.
  Proof.
    intros lo0 hi0 n offset slo0 shi0 st flo0 fhi0 f ulo0 uhi0 u m m' Hst Hf Hb Hstay Hlo Hn Hd Hs E.
    apply (swept_fixed L (box_cells [(lo0, hi0)]) m m' (mkFa offset [(0, 0); (0, n - 1)]) (mkFa st ((0, n - 1) :: CELL1d slo0 shi0 0)) n (mkFa f (CELL1d flo0 fhi0 0)) (mkFa u (CELL1d ulo0 uhi0 0)) (in_box [(lo0, hi0)])); try assumption.
    - apply (cellgs1d_swept L); assumption.
    - exact (box_cells_in [(lo0, hi0)]).
    - apply box_cells_nodup.
    - apply box_in_order.
  Qed.

  Lemma cellgs2d_fixed : forall lo0 hi0 lo1 hi1 n offset slo0 shi0 slo1 shi1 st flo0 fhi0 flo1 fhi1 f ulo0 uhi0 ulo1 uhi1 u (m m' : mem S),
  fst u <> fst st -> fst u <> fst f ->
  (forall c, in_box [(lo0, hi0); (lo1, hi1)] c -> in_box (CELL2d ulo0 ulo1 uhi0 uhi1 0) c) ->
  stays m (mkFa offset [(0, 1); (0, n - 1)]) 1 (n - 1) (CELL2d ulo0 ulo1 uhi0 uhi1 0) (in_box [(lo0, hi0); (lo1, hi1)]) ->
  1 <= n -> diagonal m (mkFa offset [(0, 1); (0, n - 1)]) (mkFa st ((0, n - 1) :: CELL2d slo0 slo1 shi0 shi1 0)) (in_box [(lo0, hi0); (lo1, hi1)]) ->
  (forall c, in_box [(lo0, hi0); (lo1, hi1)] c -> solves m (mkFa offset [(0, 1); (0, n - 1)]) (mkFa st ((0, n - 1) :: CELL2d slo0 slo1 shi0 shi1 0)) n (mkFa f (CELL2d flo0 flo1 fhi0 fhi1 0)) (mkFa u (CELL2d ulo0 ulo1 uhi0 uhi1 0)) c) ->
  cellgs2d lo0 hi0 lo1 hi1 n offset slo0 shi0 slo1 shi1 st flo0 fhi0 flo1 fhi1 f ulo0 uhi0 ulo1 uhi1 u m = Some m' ->
  forall q, load m' q = load m q.
  Proof.
    intros lo0 hi0 lo1 hi1 n offset slo0 shi0 slo1 shi1 st flo0 fhi0 flo1 fhi1 f ulo0 uhi0 ulo1 uhi1 u m m' Hst Hf Hb Hstay Hn Hd Hs E.
    apply (swept_fixed L (box_cells [(lo0, hi0); (lo1, hi1)]) m m' (mkFa offset [(0, 1); (0, n - 1)]) (mkFa st ((0, n - 1) :: CELL2d slo0 slo1 shi0 shi1 0)) n (mkFa f (CELL2d flo0 flo1 fhi0 fhi1 0)) (mkFa u (CELL2d ulo0 ulo1 uhi0 uhi1 0)) (in_box [(lo0, hi0); (lo1, hi1)])); try assumption.
    - apply (cellgs2d_swept L); assumption.
    - exact (box_cells_in [(lo0, hi0); (lo1, hi1)]).
    - apply box_cells_nodup.
    - apply box_in_order.
  Qed.

  Lemma cellgs3d_fixed : forall lo0 hi0 lo1 hi1 lo2 hi2 n offset slo0 shi0 slo1 shi1 slo2 shi2 st flo0 fhi0 flo1 fhi1 flo2 fhi2 f ulo0 uhi0 ulo1 uhi1 ulo2 uhi2 u (m m' : mem S),
  fst u <> fst st -> fst u <> fst f ->
  (forall c, in_box [(lo0, hi0); (lo1, hi1); (lo2, hi2)] c -> in_box (CELL3d ulo0 ulo1 ulo2 uhi0 uhi1 uhi2 0) c) ->
  stays m (mkFa offset [(0, 2); (0, n - 1)]) 1 (n - 1) (CELL3d ulo0 ulo1 ulo2 uhi0 uhi1 uhi2 0) (in_box [(lo0, hi0); (lo1, hi1); (lo2, hi2)]) ->
  1 <= n -> diagonal m (mkFa offset [(0, 2); (0, n - 1)]) (mkFa st ((0, n - 1) :: CELL3d slo0 slo1 slo2 shi0 shi1 shi2 0)) (in_box [(lo0, hi0); (lo1, hi1); (lo2, hi2)]) ->
  (forall c, in_box [(lo0, hi0); (lo1, hi1); (lo2, hi2)] c -> solves m (mkFa offset [(0, 2); (0, n - 1)]) (mkFa st ((0, n - 1) :: CELL3d slo0 slo1 slo2 shi0 shi1 shi2 0)) n (mkFa f (CELL3d flo0 flo1 flo2 fhi0 fhi1 fhi2 0)) (mkFa u (CELL3d ulo0 ulo1 ulo2 uhi0 uhi1 uhi2 0)) c) ->
  cellgs3d lo0 hi0 lo1 hi1 lo2 hi2 n offset slo0 shi0 slo1 shi1 slo2 shi2 st flo0 fhi0 flo1 fhi1 flo2 fhi2 f ulo0 uhi0 ulo1 uhi1 ulo2 uhi2 u m = Some m' ->
  forall q, load m' q = load m q.
  Proof.
    intros lo0 hi0 lo1 hi1 lo2 hi2 n offset slo0 shi0 slo1 shi1 slo2 shi2 st flo0 fhi0 flo1 fhi1 flo2 fhi2 f ulo0 uhi0 ulo1 uhi1 ulo2 uhi2 u m m' Hst Hf Hb Hstay Hn Hd Hs E.
    apply (swept_fixed L (box_cells [(lo0, hi0); (lo1, hi1); (lo2, hi2)]) m m' (mkFa offset [(0, 2); (0, n - 1)]) (mkFa st ((0, n - 1) :: CELL3d slo0 slo1 slo2 shi0 shi1 shi2 0)) n (mkFa f (CELL3d flo0 flo1 flo2 fhi0 fhi1 fhi2 0)) (mkFa u (CELL3d ulo0 ulo1 ulo2 uhi0 uhi1 uhi2 0)) (in_box [(lo0, hi0); (lo1, hi1); (lo2, hi2)])); try assumption.
    - apply (cellgs3d_swept L); assumption.
    - exact (box_cells_in [(lo0, hi0); (lo1, hi1); (lo2, hi2)]).
    - apply box_cells_nodup.
    - apply box_in_order.
  Qed.

  Lemma cellrbgs1d_fixed : forall lo0 hi0 color n offset slo0 shi0 st flo0 fhi0 f ulo0 uhi0 u (m m' : mem S),
  0 <= color -> fst u <> fst st -> fst u <> fst f ->
  (forall c, coloured [(lo0, hi0)] color c -> in_box (CELL1d ulo0 uhi0 0) c) ->
  stays m (mkFa offset [(0, 0); (0, n - 1)]) 1 (n - 1) (CELL1d ulo0 uhi0 0) (coloured [(lo0, hi0)] color) ->
  1 <= n -> diagonal m (mkFa offset [(0, 0); (0, n - 1)]) (mkFa st ((0, n - 1) :: CELL1d slo0 shi0 0)) (coloured [(lo0, hi0)] color) ->
  (forall c, coloured [(lo0, hi0)] color c -> solves m (mkFa offset [(0, 0); (0, n - 1)]) (mkFa st ((0, n - 1) :: CELL1d slo0 shi0 0)) n (mkFa f (CELL1d flo0 fhi0 0)) (mkFa u (CELL1d ulo0 uhi0 0)) c) ->
  cellrbgs1d lo0 hi0 color n offset slo0 shi0 st flo0 fhi0 f ulo0 uhi0 u m = Some m' ->
  forall q, load m' q = load m q.
  Proof.
    intros lo0 hi0 color n offset slo0 shi0 st flo0 fhi0 f ulo0 uhi0 u m m' Hcol Hst Hf Hb Hstay Hn Hd Hs E.
    apply (swept_fixed L (colour_cells (fun _ => color) (lo0, hi0) []) m m' (mkFa offset [(0, 0); (0, n - 1)]) (mkFa st ((0, n - 1) :: CELL1d slo0 shi0 0)) n (mkFa f (CELL1d flo0 fhi0 0)) (mkFa u (CELL1d ulo0 uhi0 0)) (coloured [(lo0, hi0)] color)); try assumption.
    - apply (cellrbgs1d_swept L); assumption.
    - intros c; apply colour_cells_in; intros t Ht; exact (start1 color t Hcol Ht).
    - apply colour_cells_nodup.
    - apply colour_cells_in_order.
  Qed.

  Lemma cellrbgs2d_fixed : forall lo0 hi0 lo1 hi1 color n offset slo0 shi0 slo1 shi1 st flo0 fhi0 flo1 fhi1 f ulo0 uhi0 ulo1 uhi1 u (m m' : mem S),
  0 <= lo1 + color -> fst u <> fst st -> fst u <> fst f ->
  (forall c, coloured [(lo0, hi0); (lo1, hi1)] color c -> in_box (CELL2d ulo0 ulo1 uhi0 uhi1 0) c) ->
  stays m (mkFa offset [(0, 1); (0, n - 1)]) 1 (n - 1) (CELL2d ulo0 ulo1 uhi0 uhi1 0) (coloured [(lo0, hi0); (lo1, hi1)] color) ->
  1 <= n -> diagonal m (mkFa offset [(0, 1); (0, n - 1)]) (mkFa st ((0, n - 1) :: CELL2d slo0 slo1 shi0 shi1 0)) (coloured [(lo0, hi0); (lo1, hi1)] color) ->
  (forall c, coloured [(lo0, hi0); (lo1, hi1)] color c -> solves m (mkFa offset [(0, 1); (0, n - 1)]) (mkFa st ((0, n - 1) :: CELL2d slo0 slo1 shi0 shi1 0)) n (mkFa f (CELL2d flo0 flo1 fhi0 fhi1 0)) (mkFa u (CELL2d ulo0 ulo1 uhi0 uhi1 0)) c) ->
  cellrbgs2d lo0 hi0 lo1 hi1 color n offset slo0 shi0 slo1 shi1 st flo0 fhi0 flo1 fhi1 f ulo0 uhi0 ulo1 uhi1 u m = Some m' ->
  forall q, load m' q = load m q.
  Proof.
    intros lo0 hi0 lo1 hi1 color n offset slo0 shi0 slo1 shi1 st flo0 fhi0 flo1 fhi1 f ulo0 uhi0 ulo1 uhi1 u m m' Hcol Hst Hf Hb Hstay Hn Hd Hs E.
    apply (swept_fixed L (colour_cells (fun t => nth 0 t 0 + color) (lo0, hi0) [(lo1, hi1)]) m m' (mkFa offset [(0, 1); (0, n - 1)]) (mkFa st ((0, n - 1) :: CELL2d slo0 slo1 shi0 shi1 0)) n (mkFa f (CELL2d flo0 flo1 fhi0 fhi1 0)) (mkFa u (CELL2d ulo0 ulo1 uhi0 uhi1 0)) (coloured [(lo0, hi0); (lo1, hi1)] color)); try assumption.
    - apply (cellrbgs2d_swept L); assumption.
    - intros c; apply colour_cells_in; intros t Ht; exact (start2 lo1 hi1 color t Hcol Ht).
    - apply colour_cells_nodup.
    - apply colour_cells_in_order.
  Qed.

  Lemma cellrbgs3d_fixed : forall lo0 hi0 lo1 hi1 lo2 hi2 color n offset slo0 shi0 slo1 shi1 slo2 shi2 st flo0 fhi0 flo1 fhi1 flo2 fhi2 f ulo0 uhi0 ulo1 uhi1 ulo2 uhi2 u (m m' : mem S),
  0 <= color -> fst u <> fst st -> fst u <> fst f ->
  (forall c, coloured [(lo0, hi0); (lo1, hi1); (lo2, hi2)] color c -> in_box (CELL3d ulo0 ulo1 ulo2 uhi0 uhi1 uhi2 0) c) ->
  stays m (mkFa offset [(0, 2); (0, n - 1)]) 1 (n - 1) (CELL3d ulo0 ulo1 ulo2 uhi0 uhi1 uhi2 0) (coloured [(lo0, hi0); (lo1, hi1); (lo2, hi2)] color) ->
  1 <= n -> diagonal m (mkFa offset [(0, 2); (0, n - 1)]) (mkFa st ((0, n - 1) :: CELL3d slo0 slo1 slo2 shi0 shi1 shi2 0)) (coloured [(lo0, hi0); (lo1, hi1); (lo2, hi2)] color) ->
  (forall c, coloured [(lo0, hi0); (lo1, hi1); (lo2, hi2)] color c -> solves m (mkFa offset [(0, 2); (0, n - 1)]) (mkFa st ((0, n - 1) :: CELL3d slo0 slo1 slo2 shi0 shi1 shi2 0)) n (mkFa f (CELL3d flo0 flo1 flo2 fhi0 fhi1 fhi2 0)) (mkFa u (CELL3d ulo0 ulo1 ulo2 uhi0 uhi1 uhi2 0)) c) ->
  cellrbgs3d lo0 hi0 lo1 hi1 lo2 hi2 color n offset slo0 shi0 slo1 shi1 slo2 shi2 st flo0 fhi0 flo1 fhi1 flo2 fhi2 f ulo0 uhi0 ulo1 uhi1 ulo2 uhi2 u m = Some m' ->
  forall q, load m' q = load m q.
  Proof.
    intros lo0 hi0 lo1 hi1 lo2 hi2 color n offset slo0 shi0 slo1 shi1 slo2 shi2 st flo0 fhi0 flo1 fhi1 flo2 fhi2 f ulo0 uhi0 ulo1 uhi1 ulo2 uhi2 u m m' Hcol Hst Hf Hb Hstay Hn Hd Hs E.
    apply (swept_fixed L (colour_cells (fun t => Z.abs (nth 0 t 0 + nth 1 t 0) + color) (lo0, hi0) [(lo1, hi1); (lo2, hi2)]) m m' (mkFa offset [(0, 2); (0, n - 1)]) (mkFa st ((0, n - 1) :: CELL3d slo0 slo1 slo2 shi0 shi1 shi2 0)) n (mkFa f (CELL3d flo0 flo1 flo2 fhi0 fhi1 fhi2 0)) (mkFa u (CELL3d ulo0 ulo1 ulo2 uhi0 uhi1 uhi2 0)) (coloured [(lo0, hi0); (lo1, hi1); (lo2, hi2)] color)); try assumption.
    - apply (cellrbgs3d_swept L); assumption.
    - intros c; apply colour_cells_in; intros t Ht; exact (start3 lo1 hi1 lo2 hi2 color t Hcol Ht).
    - apply colour_cells_nodup.
    - apply colour_cells_in_order.
  Qed.

  Lemma celljacobi1d_fixed : forall lo0 hi0 n offset slo0 shi0 st flo0 fhi0 f ulo0 uhi0 u r (m m' : mem S),
  fst u <> fst r -> fst r <> fst st -> fst r <> fst f ->
  (forall c, in_box [(lo0, hi0)] c -> in_box (CELL1d ulo0 uhi0 0) c) ->
  celljacobi1d lo0 hi0 n offset slo0 shi0 st flo0 fhi0 f ulo0 uhi0 u r m = Some m' ->
  forall c, in_box [(lo0, hi0)] c -> solves m (mkFa offset [(0, 0); (0, n - 1)]) (mkFa st ((0, n - 1) :: CELL1d slo0 shi0 0)) n (mkFa f (CELL1d flo0 fhi0 0)) (mkFa u (CELL1d ulo0 uhi0 0)) c ->
  fel (mkFa st ((0, n - 1) :: CELL1d slo0 shi0 0)) (0 :: c) m <> Some (lit 0) -> fel (mkFa u (CELL1d ulo0 uhi0 0)) c m' = fel (mkFa u (CELL1d ulo0 uhi0 0)) c m.
  Proof.
    intros lo0 hi0 n offset slo0 shi0 st flo0 fhi0 f ulo0 uhi0 u r m m' Aur Ars Arf Hb E c Hc Hs HN.
    apply (relaxed_fixed L m m' (mkFa offset [(0, 0); (0, n - 1)]) (mkFa st ((0, n - 1) :: CELL1d slo0 shi0 0)) n (lit 2 / lit 3)%T (mkFa f (CELL1d flo0 fhi0 0)) (mkFa u (CELL1d ulo0 uhi0 0)) (mkFa r (CELL1d lo0 hi0 0)) [(lo0, hi0)] c); try assumption.
    apply (celljacobi1d_relaxed L); assumption.
  Qed.

  Lemma celljacobi2d_fixed : forall lo0 hi0 lo1 hi1 n offset slo0 shi0 slo1 shi1 st flo0 fhi0 flo1 fhi1 f ulo0 uhi0 ulo1 uhi1 u r (w : S) (m m' : mem S),
  fst u <> fst r -> fst r <> fst st -> fst r <> fst f ->
  (forall c, in_box [(lo0, hi0); (lo1, hi1)] c -> in_box (CELL2d ulo0 ulo1 uhi0 uhi1 0) c) ->
  celljacobi2d lo0 hi0 lo1 hi1 n offset slo0 shi0 slo1 shi1 st flo0 fhi0 flo1 fhi1 f ulo0 uhi0 ulo1 uhi1 u r w m = Some m' ->
  forall c, in_box [(lo0, hi0); (lo1, hi1)] c -> solves m (mkFa offset [(0, 1); (0, n - 1)]) (mkFa st ((0, n - 1) :: CELL2d slo0 slo1 shi0 shi1 0)) n (mkFa f (CELL2d flo0 flo1 fhi0 fhi1 0)) (mkFa u (CELL2d ulo0 ulo1 uhi0 uhi1 0)) c ->
  fel (mkFa st ((0, n - 1) :: CELL2d slo0 slo1 shi0 shi1 0)) (0 :: c) m <> Some (lit 0) -> fel (mkFa u (CELL2d ulo0 ulo1 uhi0 uhi1 0)) c m' = fel (mkFa u (CELL2d ulo0 ulo1 uhi0 uhi1 0)) c m.
  Proof.
    intros lo0 hi0 lo1 hi1 n offset slo0 shi0 slo1 shi1 st flo0 fhi0 flo1 fhi1 f ulo0 uhi0 ulo1 uhi1 u r w m m' Aur Ars Arf Hb E c Hc Hs HN.
    apply (relaxed_fixed L m m' (mkFa offset [(0, 1); (0, n - 1)]) (mkFa st ((0, n - 1) :: CELL2d slo0 slo1 shi0 shi1 0)) n w (mkFa f (CELL2d flo0 flo1 fhi0 fhi1 0)) (mkFa u (CELL2d ulo0 ulo1 uhi0 uhi1 0)) (mkFa r (CELL2d lo0 lo1 hi0 hi1 0)) [(lo0, hi0); (lo1, hi1)] c); try assumption.
    apply (celljacobi2d_relaxed L); assumption.
  Qed.

  Lemma celljacobi3d_fixed : forall lo0 hi0 lo1 hi1 lo2 hi2 n offset slo0 shi0 slo1 shi1 slo2 shi2 st flo0 fhi0 flo1 fhi1 flo2 fhi2 f ulo0 uhi0 ulo1 uhi1 ulo2 uhi2 u r (w : S) (m m' : mem S),
  fst u <> fst r -> fst r <> fst st -> fst r <> fst f ->
  (forall c, in_box [(lo0, hi0); (lo1, hi1); (lo2, hi2)] c -> in_box (CELL3d ulo0 ulo1 ulo2 uhi0 uhi1 uhi2 0) c) ->
  celljacobi3d lo0 hi0 lo1 hi1 lo2 hi2 n offset slo0 shi0 slo1 shi1 slo2 shi2 st flo0 fhi0 flo1 fhi1 flo2 fhi2 f ulo0 uhi0 ulo1 uhi1 ulo2 uhi2 u r w m = Some m' ->
  forall c, in_box [(lo0, hi0); (lo1, hi1); (lo2, hi2)] c -> solves m (mkFa offset [(0, 2); (0, n - 1)]) (mkFa st ((0, n - 1) :: CELL3d slo0 slo1 slo2 shi0 shi1 shi2 0)) n (mkFa f (CELL3d flo0 flo1 flo2 fhi0 fhi1 fhi2 0)) (mkFa u (CELL3d ulo0 ulo1 ulo2 uhi0 uhi1 uhi2 0)) c ->
  fel (mkFa st ((0, n - 1) :: CELL3d slo0 slo1 slo2 shi0 shi1 shi2 0)) (0 :: c) m <> Some (lit 0) -> fel (mkFa u (CELL3d ulo0 ulo1 ulo2 uhi0 uhi1 uhi2 0)) c m' = fel (mkFa u (CELL3d ulo0 ulo1 ulo2 uhi0 uhi1 uhi2 0)) c m.
  Proof.
    intros lo0 hi0 lo1 hi1 lo2 hi2 n offset slo0 shi0 slo1 shi1 slo2 shi2 st flo0 fhi0 flo1 fhi1 flo2 fhi2 f ulo0 uhi0 ulo1 uhi1 ulo2 uhi2 u r w m m' Aur Ars Arf Hb E c Hc Hs HN.
    apply (relaxed_fixed L m m' (mkFa offset [(0, 2); (0, n - 1)]) (mkFa st ((0, n - 1) :: CELL3d slo0 slo1 slo2 shi0 shi1 shi2 0)) n w (mkFa f (CELL3d flo0 flo1 flo2 fhi0 fhi1 fhi2 0)) (mkFa u (CELL3d ulo0 ulo1 ulo2 uhi0 uhi1 uhi2 0)) (mkFa r (CELL3d lo0 lo1 lo2 hi0 hi1 hi2 0)) [(lo0, hi0); (lo1, hi1); (lo2, hi2)] c); try assumption.
    apply (celljacobi3d_relaxed L); assumption.
  Qed.

End Final.
