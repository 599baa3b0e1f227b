(** * Sweeps of the point smoothers *)

From Coq Require Import Sorted Field.
From Verif Require Import Base FortranBase FortranLoops FortranSmooth SpecIter LemBase LemDomain LemAssign LemField LemKernel LemKernel2 LemStencil LemSafe
  SpecRow LemSum SpecSmooth LemFortran LemSmooth LemCells.
Import ListNotations.
Open Scope Z_scope.

Lemma even_mod x : Z.even x = true <-> x mod 2 = 0.
Proof. rewrite Zeven_mod. symmetry. apply Zeq_is_eq_bool. Qed.

Ltac Zify.zify_post_hook ::= Z.to_euclidean_division_equations.

(** ** The values of a strided loop *)

Definition svals (lo hi st : Z) : list Z := map (fun k => lo + st * Z.of_nat k) (seq 0 (Z.to_nat (Z.quot (hi - lo + st) st))).

Lemma svals_in lo hi x : In x (svals lo hi 2) <-> lo <= x <= hi /\ Z.even (x - lo) = true.
Proof.
  unfold svals. rewrite in_map_iff, even_mod. split.
  - intros (k & <- & H). apply in_seq in H. lia.
  - intros H. exists (Z.to_nat ((x - lo) / 2)). split; [lia|]. apply in_seq. lia.
Qed.

Lemma svals_sorted lo hi : StronglySorted Z.lt (svals lo hi 2).
Proof. apply zseq_sorted. intros. lia. Qed.

Lemma sorted_nodup l : StronglySorted Z.lt l -> NoDup l.
Proof.
  induction 1 as [|x l H IH Hx]; constructor; [|exact IH]. intros Hin. rewrite Forall_forall in Hx. specialize (Hx x Hin). lia.
Qed.

(** Cells of one colour in execution order. *)
Definition colour_cells (start : list Z -> Z) (b0 : Z * Z) (bs : list (Z * Z)) : list (list Z) :=
  rows_of (fun t => svals (fst b0 + fmod (start t) 2) (snd b0) 2) (box_cells bs).

Lemma colour_cells_in start b0 bs color c :
  (forall t, in_box bs t -> 0 <= start t /\ Z.even (start t - fold_right Z.add 0 t - color) = true) ->
  In c (colour_cells start b0 bs) <-> coloured (b0 :: bs) color c.
Proof.
  intros H. unfold colour_cells, coloured. rewrite rows_of_in. split.
  - intros (i & t & -> & Ht & Hi). apply box_cells_in in Ht. apply svals_in in Hi. specialize (H t Ht).
    destruct H as [H0 H]. destruct Hi as [Hi He]. rewrite even_mod in *. unfold fmod in *. cbn [fold_right].
    split; [constructor; [|exact Ht]|]; lia.
  - intros [Hc He]. inversion Hc as [|? i ? t Hi Ht]; subst. specialize (H t Ht). destruct H as [H0 H].
    exists i, t. split; [reflexivity|]. split; [apply box_cells_in; exact Ht|]. apply svals_in.
    rewrite even_mod in *. unfold fmod. cbn [fold_right] in He. lia.
Qed.

Lemma colour_cells_nodup start b0 bs : NoDup (colour_cells start b0 bs).
Proof. apply rows_of_nodup; [apply box_cells_nodup|]. intros. apply sorted_nodup, svals_sorted. Qed.

Lemma colour_cells_in_order start b0 bs : in_order (colour_cells start b0 bs).
Proof. apply rows_in_order; [apply box_in_order|]. intros. apply svals_sorted. Qed.

Section Sweeps.
  Context {S : Scalar} (L : field_laws S).
  Add Field SFs : (s_field S L) (morphism (lit_morph S L), constants [lit_cst]).

  Lemma before_visited (cells : list (list Z)) l1 x l2 y : in_order cells -> NoDup cells -> cells = l1 ++ x :: l2 ->
    In y cells -> before y x = true <-> In y l1.
  Proof.
    intros Ho Hn E Hy. split.
    - intros Hb. rewrite E in Hy. apply in_app_or in Hy as [Hy|[->|Hy]]; [exact Hy| |].
      + rewrite before_irrefl in Hb. discriminate Hb.
      + apply before_asym in Hb. rewrite (Ho _ _ _ E y Hy) in Hb. discriminate Hb.
    - intros Hl. apply in_split in Hl as (l3 & l4 & ->). apply (Ho l3 y (l4 ++ x :: l2)).
      + rewrite E, <- app_assoc. reflexivity.
      + apply in_or_app. right. left. reflexivity.
  Qed.

  Lemma swept_cells (cells : list (list Z)) f g (m m' : mem S) tab st n fa u (visited : list Z -> Prop) step
    (visit : forall m, f m = forM cells (fun c => g c) m)
    (Hg : forall c m, In c cells -> g c m = fset u c (fun m => r <- facc 1 (n - 1) (fel fa c) (step c) m ;; fop sdiv (fsc r) (fel st (0 :: c)) m) m) :
    (forall c, In c cells <-> visited c) -> NoDup cells -> in_order cells -> (forall c, visited c -> in_box (fa_dims u) c) ->
    fst (fa_ptr u) <> fst (fa_ptr st) -> fst (fa_ptr u) <> fst (fa_ptr fa) ->
    (forall c s r0 r1 m, In c cells -> step c s r0 m = Some r1 ->
       exists cf x, row_term m tab st 0 c (fun c' => fel u c' m) s cf x /\ r1 = (r0 + lit (-1) * (cf * x))%T) ->
    stays m tab 1 (n - 1) (fa_dims u) visited ->
    f m = Some m' -> swept m m' tab st n fa u visited.
  Proof.
    intros Hc Hn Ho Hb Hst Hf Hs Hstay E. rewrite visit in E.
    rewrite (forM_ext_in _ g (fun c m => v <- (r <- facc 1 (n - 1) (fel fa c) (step c) m ;; fop sdiv (fsc r) (fel st (0 :: c)) m) ;; store m (faddr u c) v)) in E
      by (intros; apply Hg; assumption).
    assert (Inj : forall x y, in_box (fa_dims u) x -> in_box (fa_dims u) y -> faddr u x = faddr u y -> x = y).
    { destruct u as [p ds]. intros x y Hx Hy. apply faddr_inj; assumption. }
    apply (forM_sweep cells (faddr u) (fun c m => r <- facc 1 (n - 1) (fel fa c) (step c) m ;; fop sdiv (fsc r) (fel st (0 :: c)) m) (fst (fa_ptr u))) in E.
    - destruct E as (O & F & V). split; [|split].
      + intros c Hin. apply Hc in Hin as Hin'. apply in_split in Hin' as (l1 & l2 & El).
        destruct (V l1 c l2 El) as (mc & v & Oc & V1 & F1 & Ev & Lv).
        apply bind_Some_inv in Ev as (r & Er & Ev). unfold fop, fsc in Ev. cbn [bind] in Ev. apply bind_Some_inv in Ev as (a0 & Ea & Ev).
        injection Ev as <-.
        apply (facc_row L mc tab st 0 1 (n - 1) c (fun c' => fel u c' mc) (lit (-1))) in Er.
        2:{ intros s r0 r1 _. apply Hs. apply Hc. exact Hin. }
        destruct Er as (b & d & Eb & Hd & ->).
        assert (Off : forall a is, fst (fa_ptr a) <> fst (fa_ptr u) -> fel a is mc = fel a is m).
        { intros a is Ha. apply (proj1 Oc). exact Ha. }
        exists b, a0, d. split; [rewrite <- Off by congruence; exact Eb|]. split; [rewrite <- Off by congruence; exact Ea|]. split.
        * revert Hd. apply row_sum_ext.
          -- symmetry. exact (proj2 Oc).
          -- intros s _. symmetry. apply Off. congruence.
          -- intros s c' Hs' Hd'.
             assert (Hin' : in_box (fa_dims u) c').
             { apply (Hstay c s c' Hin Hs'). destruct Hd' as [Hl Hd']. split; [exact Hl|]. intros k Hk. specialize (Hd' k Hk).
               unfold loadi in *. rewrite (proj2 Oc) in Hd'. exact Hd'. }
             assert (A1 : forall y, In y l1 -> In y cells) by (intros y Hy; rewrite El; apply in_or_app; left; exact Hy).
             destruct (in_dec (list_eq_dec Z.eq_dec) c' l1) as [Hl|Hl].
             ++ rewrite (proj2 (before_visited cells l1 c l2 c' Ho Hn El (A1 c' Hl)) Hl). symmetry. exact (V1 c' Hl).
             ++ replace (fel u c' mc) with (fel u c' m).
                2:{ symmetry. apply F1. intros y Hy Eq. apply Inj in Eq; [congruence| |exact Hin']. apply Hb, Hc, A1, Hy. }
                destruct (before c' c) eqn:Eb'; [|reflexivity]. apply F. intros y Hy Eq. apply Inj in Eq; [subst y| |exact Hin'].
                ** apply Hl. apply (before_visited cells l1 c l2 c' Ho Hn El Hy). exact Eb'.
                ** apply Hb, Hc, Hy.
        * unfold fel at 1. rewrite Lv. do 2 f_equal. ring.
      + intros q Hq. apply F. intros c Hin. apply Hq. apply Hc. exact Hin.
      + exact (proj2 O).
    - exact Hn.
    - intros x y Hx Hy. apply Inj; apply Hb, Hc; assumption.
    - intros. reflexivity.
  Qed.

  (** ** Consequences *)

  (** Where no entry leads to a cell visited in the same sweep the equations hold afterwards. *)
  Lemma swept_solves (m m' : mem S) tab st n f u visited c :
    swept m m' tab st n f u visited -> 1 <= n -> diagonal m tab st visited ->
    fst (fa_ptr u) <> fst (fa_ptr st) -> fst (fa_ptr u) <> fst (fa_ptr f) ->
    (forall c, visited c -> in_box (fa_dims u) c) -> stays m tab 1 (n - 1) (fa_dims u) visited ->
    (forall s c', 1 <= s <= n - 1 -> displaced_cell m tab 0 s c c' -> ~ visited c') ->
    visited c -> solves m' tab st n f u c.
  Proof.
    intros (V & F & I) Hn Hd Hst Hf Hb Hstay Hv Hc.
    destruct (V c Hc) as (b & a0 & d & Eb & Ea & Er & Ey). destruct (Hd c Hc) as [D0 N0].
    assert (Inj : forall x y, in_box (fa_dims u) x -> in_box (fa_dims u) y -> faddr u x = faddr u y -> x = y).
    { destruct u as [p ds]. intros x y Hx Hy. apply faddr_inj; assumption. }
    assert (Off : forall a is, fst (fa_ptr a) <> fst (fa_ptr u) -> fel a is m' = fel a is m).
    { intros a is Ha. apply F. intros c' _ Eq. apply Ha. unfold faddr, padd in Eq. apply (f_equal fst) in Eq. cbn in Eq. congruence. }
    exists b. split; [rewrite Off by congruence; exact Eb|].
    apply row_sum_first; [lia|]. exists a0, ((b - d) / a0)%T, d. split; [|split].
    - split; [rewrite Off by congruence; exact Ea|]. exists c. split; [|exact Ey].
      destruct D0 as [Dl D0]. split; [exact Dl|]. intros k Hk. unfold loadi. rewrite I. exact (D0 k Hk).
    - revert Er. apply row_sum_ext; [exact I| |].
      + intros s _. apply Off. congruence.
      + intros s c' Hs D. destruct (before c' c); [reflexivity|]. apply F. intros y Hy Eq.
        apply Inj in Eq; [subst y; exact (Hv s c' Hs D Hy)|exact (Hb y Hy)|exact (Hstay c s c' Hc Hs D)].
    - assert (a0 <> lit 0) by congruence. field. assumption.
  Qed.

  (** A solution is not changed by a sweep. *)
  Lemma swept_fixed cells (m m' : mem S) tab st n f u visited :
    swept m m' tab st n f u visited -> 1 <= n -> diagonal m tab st visited ->
    (forall c, In c cells <-> visited c) -> NoDup cells -> in_order cells ->
    (forall c, visited c -> in_box (fa_dims u) c) -> stays m tab 1 (n - 1) (fa_dims u) visited ->
    (forall c, visited c -> solves m tab st n f u c) ->
    forall q, load m' q = load m q.
  Proof.
    intros (V & F & I) Hn Hd Hc Hnd Ho Hb Hstay Hs.
    assert (Inj : forall x y, in_box (fa_dims u) x -> in_box (fa_dims u) y -> faddr u x = faddr u y -> x = y).
    { destruct u as [p ds]. intros x y Hx Hy. apply faddr_inj; assumption. }
    assert (G : forall k l1 x l2, cells = l1 ++ x :: l2 -> length l1 = k -> fel u x m' = fel u x m).
    { intros k. induction k as [k IH] using (well_founded_induction lt_wf). intros l1 x l2 El Hk.
      assert (Hx : visited x) by (apply Hc; rewrite El; apply in_or_app; right; left; reflexivity).
      destruct (V x Hx) as (b & a0 & d & Eb & Ea & Er & Ey). destruct (Hd x Hx) as [D0 N0].
      destruct (Hs x Hx) as (b' & Eb' & Er').
      assert (b' = b) by congruence. subst b'.
      apply row_sum_first in Er'; [|lia]. destruct Er' as (a0' & y & d' & (Ea' & c' & D' & Ey') & Er' & Eb2).
      assert (a0' = a0) by congruence. subst a0'.
      rewrite (displaced_cell_fun _ _ _ _ _ _ _ D' D0) in Ey'.
      assert (d' = d).
      { apply (row_sum_fun m tab st 0 1 (n - 1) x (fun c' => fel u c' (if before c' x then m' else m))); [|exact Er].
        revert Er'. apply row_sum_ext; [reflexivity|reflexivity|]. intros s c1 Hs1 D1. destruct (before c1 x) eqn:Eb1; [|reflexivity].
        destruct (in_dec (list_eq_dec Z.eq_dec) c1 cells) as [Hin|Hin].
        - apply (before_visited cells l1 x l2 c1 Ho Hnd El Hin) in Eb1. apply in_split in Eb1 as (l3 & l4 & E1).
          apply (IH (length l3)) with (l1 := l3) (l2 := l4 ++ x :: l2).
          + subst k l1. rewrite app_length. cbn. lia.
          + rewrite El, E1, <- app_assoc. reflexivity.
          + reflexivity.
        - apply F. intros y1 Hy1 Eq. apply Inj in Eq; [|exact (Hb y1 Hy1)|exact (Hstay x s c1 Hx Hs1 D1)].
          subst y1. apply Hin, Hc, Hy1. }
      subst d'. rewrite Ey, Ey'. f_equal. rewrite Eb2. assert (a0 <> lit 0) by congruence. field. assumption. }
    intros q. destruct (in_dec ptr_dec q (map (faddr u) cells)) as [Hq|Hq].
    - apply in_map_iff in Hq as (x & <- & Hx). apply in_split in Hx as (l1 & l2 & El). exact (G _ l1 x l2 El eq_refl).
    - apply F. intros c Hv Eq. apply Hq. apply in_map_iff. exists c. split; [exact Eq|]. apply Hc. exact Hv.
  Qed.
End Sweeps.
