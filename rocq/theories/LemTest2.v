(** * Lemmas behind the tests of the submatrix, transpose and offset iterators *)

From Coq Require Import ZifyBool ZifyNat Permutation.
From Verif Require Import Base ModelBounds ModelMatrix ModelIters ModelSpan Spec SpecIter
  KernelsTest SpecTest LemBase LemMatrix LemProps LemProps2.
Import ListNotations.
Open Scope Z_scope.

Lemma t_prod_prodZ n : n <> [] -> t_prod n = prodZ n.
Proof.
  intros Hne. destruct n as [|x n]; [congruence|]. unfold t_prod. cbn [length aget nth].
  replace (Datatypes.S (length n) - 1)%nat with (length n) by lia.
  change (aget (x :: n) 0) with x. rewrite prodZ_cons.
  rewrite <- seq_shift, fold_left_map.
  assert (forall t, fold_left (fun z i => z * aget (x :: n) (Datatypes.S i)) (seq 0 (length n)) t = t * prodZ n) as H; [|apply H].
  clear Hne. intros t. rewrite (fold_left_ext_in _ (fun z i => z * aget n i)) by reflexivity.
  revert t. induction n as [|y n IH]; intros t; [cbn [length seq fold_left]; change (prodZ []) with 1; lia|].
  cbn [length seq fold_left]. rewrite <- seq_shift, fold_left_map.
  rewrite (fold_left_ext_in _ (fun z i => z * aget n i)) by reflexivity.
  rewrite IH, prodZ_cons. change (aget (y :: n) 0) with y. ring.
Qed.

(** ** Stores at numbered places *)

Section Marks.
  Context {S : Scalar}.
  Context (P : Z -> ptr) (size : Z) (V : Z -> S).
  Context (Pinj : forall a b, 0 <= a < size -> 0 <= b < size -> P a = P b -> a = b).

  Definition marked (m m' : mem S) (L : list (Z * S)) : Prop :=
    ints m' = ints m /\ shape m' = shape m /\
    (forall k, 0 <= k < size -> load m' (P k) = Some (written L k (V k))) /\
    (forall q, (forall k, 0 <= k < size -> q <> P k) -> load m' q = load m q).

  Lemma marked_nil m : (forall k, 0 <= k < size -> load m (P k) = Some (V k)) -> marked m m [].
  Proof. intros H. repeat split; auto. Qed.

  Lemma marked_store m m1 L k v : marked m m1 L -> 0 <= k < size ->
    exists m2, store m1 (P k) v = Some m2 /\ marked m m2 (L ++ [(k, v)]).
  Proof.
    intros (Hi & Hs & Hl & Hf) Hk.
    destruct (proj1 (store_Some m1 (P k) v)) as [m2 E]; [eauto|].
    exists m2. split; [exact E|]. split; [rewrite (store_ints _ _ _ _ E); exact Hi|].
    split; [rewrite (store_shape _ _ _ _ E); exact Hs|]. split.
    - intros j Hj. rewrite (load_store _ _ _ _ _ E). unfold written. rewrite fold_left_app. cbn [fold_left fst snd].
      destruct (ptr_dec (P k) (P j)) as [e|e].
      + apply Pinj in e; [|assumption..]. subst j. rewrite Z.eqb_refl. reflexivity.
      + destruct (Z.eqb_spec k j) as [->|]; [congruence|]. apply Hl; exact Hj.
    - intros q Hq. rewrite (load_store _ _ _ _ _ E). destruct (ptr_dec (P k) q) as [e|e].
      + exfalso. apply (Hq k Hk). auto.
      + apply Hf; exact Hq.
  Qed.

  Lemma marked_load m m1 L k : marked m m1 L -> 0 <= k < size -> load m1 (P k) = Some (written L k (V k)).
  Proof. intros (_ & _ & H & _). apply H. Qed.
End Marks.

(** ** Submatrix *)

Lemma extents_counts lb ub : length lb = length ub -> extents lb ub = t_counts lb ub.
Proof.
  intros HL. unfold extents, t_counts. revert ub HL.
  induction lb as [|x lb IH]; intros [|y ub] HL; try discriminate; [reflexivity|].
  cbn [combine map length seq fst snd]. f_equal. rewrite <- seq_shift, map_map. apply IH. cbn in HL. lia.
Qed.

Lemma in_box_aget sz c : in_box sz c <->
  length c = length sz /\ forall i, (i < length sz)%nat -> 0 <= aget c i < aget sz i.
Proof.
  split.
  - induction 1 as [|x y l l' H _ [IL IH]]; cbn [length]; [split; [reflexivity|intros; lia]|].
    split; [congruence|]. intros [|i] Hi; [exact H|]. apply IH. lia.
  - revert c. induction sz as [|x sz IH]; intros [|y c] [HL H]; try discriminate; constructor.
    + apply (H 0%nat). cbn; lia.
    + apply IH. split; [cbn in HL; lia|]. intros i Hi. apply (H (Datatypes.S i)). cbn; lia.
Qed.

Lemma Forall2_le_aget lb ub : Forall2 Z.le lb ub ->
  length lb = length ub /\ forall i, (i < length lb)%nat -> aget lb i <= aget ub i.
Proof.
  induction 1 as [|x y l l' H _ [IL IH]]; cbn [length]; [split; [reflexivity|intros; lia]|].
  split; [congruence|]. intros [|i] Hi; [exact H|]. apply IH. lia.
Qed.

Lemma relative_aget lb c : length lb = length c ->
  length (relative lb c) = length c /\ forall i, (i < length c)%nat -> aget (relative lb c) i = aget c i - aget lb i.
Proof.
  unfold relative. revert c. induction lb as [|x lb IH]; intros [|y c] HL; try discriminate; cbn [length combine map].
  - split; [reflexivity|]. intros; lia.
  - destruct (IH c) as [H1 H2]; [cbn in HL; lia|]. split; [congruence|]. intros [|i] Hi; [reflexivity|].
    apply H2. lia.
Qed.

Lemma between_aget lb ub c : length lb = length ub -> length c = length lb ->
  between lb ub c = true <-> forall i, (i < length c)%nat -> aget lb i <= aget c i <= aget ub i.
Proof.
  unfold between. revert ub c. induction lb as [|x lb IH]; intros [|y ub] [|z c] H1 H2; try discriminate; cbn [length combine forallb fst snd].
  - split; [intros; lia|reflexivity].
  - rewrite andb_true_iff, IH by (cbn in *; lia). split.
    + intros [A B] [|i] Hi; [cbn; lia|]. apply B. lia.
    + intros H. split; [specialize (H 0%nat); cbn in H; lia|]. intros i Hi. apply (H (Datatypes.S i)). lia.
Qed.

Lemma rav_add n c d e : length c = length n -> length d = length n -> length e = length n ->
  (forall i, (i < length n)%nat -> aget e i = aget c i + aget d i) -> rav n e = rav n c + rav n d.
Proof.
  revert c d e. induction n as [|x n IH]; intros [|a c] [|b d] [|f e] Hc Hd He H; try discriminate; [reflexivity|].
  cbn [rav]. rewrite (IH c d e); try (cbn in *; lia).
  - specialize (H 0%nat). cbn in H. rewrite H by lia. ring.
  - intros i Hi. apply (H (Datatypes.S i)). cbn; lia.
Qed.

Section Sub.
  Context (x : ptr) (sz lb ub : list Z).
  Context (Hbox : box sz) (Hin : inside sz lb ub).

  Let N := length sz.
  Let n := t_counts lb ub.
  Let sts := map (fun i => stride_dim_stm i sz (repeat 1 N)) (seq 0 N).
  Let F := mt_at (padd x (ravel sz lb)) sts n false.

  Lemma sub_lengths : length lb = N /\ length ub = N /\ length n = N.
  Proof.
    destruct Hin as (H1 & H2 & _). apply in_box_aget in H1 as [H1 _]. apply in_box_aget in H2 as [H2 _].
    unfold n, t_counts. rewrite map_length, seq_length. auto.
  Qed.

  Lemma sub_aget i : (i < N)%nat -> aget n i = aget ub i - aget lb i + 1.
  Proof.
    intros Hi. unfold n, t_counts. rewrite aget_map_seq; [reflexivity|].
    destruct sub_lengths as (-> & _ & _). exact Hi.
  Qed.

  Lemma sub_box : box n.
  Proof.
    destruct sub_lengths as (L1 & L2 & L3). split.
    - intros E. rewrite E in L3. destruct Hbox as [Hne _]. unfold N in L3. destruct sz; [congruence|discriminate].
    - apply Forall_forall. intros y Hy. apply (In_nth _ _ 0) in Hy as (i & Hi & <-). change (nth i n 0) with (aget n i).
      rewrite sub_aget by lia. destruct Hin as (_ & _ & H). apply Forall2_le_aget in H as [_ H]. specialize (H i ltac:(lia)). lia.
  Qed.

  Lemma sub_make : make_submatrix x sz lb ub (repeat 1 (length sz)) = Some (F 0).
  Proof.
    destruct sub_lengths as (L1 & L2 & L3).
    unfold make_submatrix, make_submatrix_helper.
    assert (forall i, (i < N)%nat -> aget (repeat 1 (length sz)) i = 1) as R.
    { intros i Hi. unfold aget. fold N. clear - Hi. revert i Hi; induction N as [|k IH]; intros [|i] Hi; cbn; try lia; try reflexivity.
      apply IH. lia. }
    rewrite (mapM_map _ (fun i => aget n i)).
    - cbn [bind]. unfold F, mt_at. rewrite coordZ_0 by apply sub_box. rewrite seq_length.
      rewrite Nat.ltb_irrefl. cbn [orb]. unfold sts, N. do 2 f_equal.
      + apply aget_ext; rewrite !map_length, ?seq_length; [fold N; congruence|].
        intros i Hi. rewrite aget_map_seq by lia. rewrite (aget_map _ _ _ 0) by (fold N in Hi; lia). reflexivity.
      + fold N. rewrite <- L3. apply map_aget_seq.
    - intros i Hi. apply in_seq in Hi. unfold cdiv. rewrite R by (unfold N; lia). cbn [Z.eqb].
      rewrite Z.quot_1_r, sub_aget by (unfold N; lia). reflexivity.
  Qed.

  Lemma sub_rel c : in_box sz c -> between lb ub c = true -> in_box n (relative lb c).
  Proof.
    intros Hc Hb. apply in_box_aget in Hc as [Lc Hc]. destruct sub_lengths as (L1 & L2 & L3).
    rewrite between_aget in Hb by (unfold N in * ; lia). destruct (relative_aget lb c) as [Lr Hr]; [unfold N in * ; lia|].
    apply in_box_aget. split; [unfold N in * ; lia|]. intros i Hi.
    rewrite Hr by (unfold N in * ; lia). rewrite sub_aget by lia. specialize (Hb i). lia.
  Qed.

  Lemma sub_addr c : in_box sz c -> between lb ub c = true ->
    mti_addr (F (ravel n (relative lb c))) = padd x (ravel sz c).
  Proof.
    intros Hc Hb. pose proof (sub_rel c Hc Hb) as Hd. pose proof sub_box as [Hne Hn].
    destruct sub_lengths as (L1 & L2 & L3).
    pose proof (in_range_length _ _ Hd) as Ld. pose proof (in_range_length _ _ Hc) as Lc. fold N in Lc.
    pose proof (rav_bound _ _ Hd) as Hr.
    rewrite ravel_rav by (auto; apply in_range_length; exact Hd).
    unfold F. rewrite mti_addr_dotZ; cbn [mt_at m_stride m_cur m_n m_base].
    2:{ unfold sts. rewrite map_length, seq_length. congruence. }
    2:{ apply coordZ_length. }
    unfold coordZ. destruct (Z.ltb_spec (rav n (relative lb c)) (prodZ n)); [|lia].
    rewrite unrav_rav by assumption. rewrite padd_padd. f_equal.
    rewrite !ravel_rav; try apply Hbox; try (unfold N in * ; lia).
    rewrite (rav_add sz lb (relative lb c) c); try (unfold N in * ; lia).
    2:{ intros i Hi. destruct (relative_aget lb c) as [_ E]; [unfold N in * ; lia|]. rewrite E by (unfold N in * ; lia). lia. }
    f_equal. rewrite rav_sum by (unfold N in * ; lia).
    rewrite <- (map_aget_seq (relative lb c)) at 1. rewrite Ld, L3. unfold sts. rewrite dotZ_map. fold N. f_equal.
    apply map_ext_in. intros i Hi. apply in_seq in Hi. f_equal. unfold stride_dim_stm.
    rewrite stride_dim_skipn by lia. replace (Z.to_nat (Z.of_nat i + 1)) with (Datatypes.S i) by lia.
    assert (aget (repeat 1 N) i = 1) as ->; [|lia]. assert (i < N)%nat as Hi' by lia. clear - Hi'.
    unfold aget. revert i Hi'; induction N as [|k IH]; intros [|i] Hi; cbn; try lia; try reflexivity. apply IH. lia.
  Qed.

  (** Every position is that of a cell. *)
  Lemma sub_cell k : 0 <= k < prodZ n -> exists c, in_box sz c /\ between lb ub c = true /\ ravel n (relative lb c) = k.
  Proof.
    intros Hk. pose proof sub_box as [Hne Hn]. destruct sub_lengths as (L1 & L2 & L3).
    pose proof (unrav_in_range n k Hn Hk) as Hu. apply in_box_aget in Hu as [Lu Hu].
    set (d := unrav n k) in * . set (c := map (fun i => aget lb i + aget d i) (seq 0 N)).
    assert (length c = N) as Lc by (unfold c; rewrite map_length, seq_length; reflexivity).
    assert (forall i, (i < N)%nat -> aget c i = aget lb i + aget d i) as Ec.
    { intros i Hi. unfold c. rewrite aget_map_seq by lia. reflexivity. }
    destruct Hin as (Hl & Hub & _). apply in_box_aget in Hl as [_ Hl]. apply in_box_aget in Hub as [_ Hub].
    exists c. split; [|split].
    - apply in_box_aget. split; [exact Lc|]. intros i Hi. specialize (Hl i Hi). specialize (Hub i Hi).
      specialize (Hu i ltac:(unfold N in * ; lia)). rewrite sub_aget in Hu by (unfold N; lia).
      rewrite Ec by (unfold N; lia). lia.
    - apply between_aget; [lia|lia|]. intros i Hi. specialize (Hu i ltac:(lia)).
      rewrite sub_aget in Hu by lia. rewrite Ec by lia. lia.
    - destruct (relative_aget lb c) as [Lr Hr]; [lia|].
      assert (relative lb c = d) as ->.
      { apply aget_ext; [lia|]. intros i Hi. rewrite Hr by lia. rewrite Ec by lia. lia. }
      rewrite ravel_rav by (auto; lia). unfold d. apply rav_unrav; assumption.
  Qed.

  Lemma sub_addr_inj a b : 0 <= a < prodZ n -> 0 <= b < prodZ n -> mti_addr (F a) = mti_addr (F b) -> a = b.
  Proof.
    intros Ha Hb. destruct (sub_cell a Ha) as (c & C1 & C2 & <-). destruct (sub_cell b Hb) as (d & D1 & D2 & <-).
    rewrite !sub_addr by assumption. intros E. injection E as E.
    assert (ravel sz c = ravel sz d) as E' by lia.
    destruct Hbox as [Hne Hn].
    rewrite !ravel_rav in E' by (auto; apply in_range_length; assumption).
    apply rav_inj in E'; [congruence|assumption..].
  Qed.

  Context {S : Scalar} (V : Z -> S).

  Lemma sub_marked_spec m m' L : holds m x (prodZ sz) V ->
    marked (fun k => mti_addr (F k)) (prodZ n)
       (fun k => match load m (mti_addr (F k)) with Some v => v | None => V 0 end) m m' L ->
    only x (prodZ sz) m m' /\
    forall c, in_box sz c ->
      load m' (padd x (ravel sz c)) =
      Some (if between lb ub c then written L (ravel n (relative lb c)) (V (ravel sz c)) else V (ravel sz c)).
  Proof.
    intros HV (Hi & Hs & Hl & Hf). destruct Hbox as [Hne Hn].
    assert (forall c, in_box sz c -> 0 <= ravel sz c < prodZ sz) as HR.
    { intros c Hc. rewrite ravel_rav by (auto; apply in_range_length; exact Hc). apply rav_bound. exact Hc. }
    split.
    - split; [exact Hi|]. split; [exact Hs|]. intros q Hq. apply Hf. intros k Hk.
      destruct (sub_cell k Hk) as (c & C1 & C2 & <-). rewrite sub_addr by assumption. apply Hq. apply HR. exact C1.
    - intros c Hc. destruct (between lb ub c) eqn:B.
      + pose proof (sub_rel c Hc B) as Hd. rewrite <- sub_addr by assumption. rewrite Hl.
        * rewrite sub_addr by assumption. rewrite HV by (apply HR; exact Hc). reflexivity.
        * pose proof sub_box as [Hne' _]. rewrite ravel_rav by (auto; apply in_range_length; exact Hd). apply rav_bound. exact Hd.
      + rewrite Hf; [apply HV, HR; exact Hc|]. intros k Hk E.
        destruct (sub_cell k Hk) as (d & D1 & D2 & <-). rewrite sub_addr in E by assumption. injection E as E.
        assert (ravel sz c = ravel sz d) as E' by lia.
        rewrite !ravel_rav in E' by (auto; apply in_range_length; assumption).
        apply rav_inj in E'; [congruence|assumption..].
  Qed.

  Lemma sub_marked_nil m : holds m x (prodZ sz) V ->
    marked (fun k => mti_addr (F k)) (prodZ n)
       (fun k => match load m (mti_addr (F k)) with Some v => v | None => V 0 end) m m [].
  Proof.
    intros HV. destruct Hbox as [Hne Hn]. apply marked_nil. intros k Hk.
    destruct (sub_cell k Hk) as (c & C1 & C2 & <-). rewrite sub_addr by assumption.
    rewrite HV; [reflexivity|]. rewrite ravel_rav by (auto; apply in_range_length; exact C1). apply rav_bound. exact C1.
  Qed.

  Lemma tabulate_lem m : holds m x (prodZ sz) V ->
    exists m', submatrix_tabulate x sz lb ub m = Some m' /\ only x (prodZ sz) m m' /\
      forall c, in_box sz c ->
        load m' (padd x (ravel sz c)) =
        Some (if between lb ub c then (- lit (ravel (t_counts lb ub) (relative lb c)))%T else V (ravel sz c)).
  Proof.
    intros HV. pose proof sub_box as HB.
    set (W := map (fun k => (Z.of_nat k, (- lit (Z.of_nat k))%T : S)) (seq 0 (Z.to_nat (prodZ n)))).
    assert (exists m', submatrix_tabulate x sz lb ub m = Some m' /\
      marked (fun k => mti_addr (F k)) (prodZ n)
       (fun k => match load m (mti_addr (F k)) with Some v => v | None => V 0 end) m m' W) as (m' & E & M).
    { unfold submatrix_tabulate. rewrite sub_make. cbn [bind]. fold n. rewrite t_prod_prodZ by apply HB. unfold W.
      assert (forall j, Z.of_nat j <= prodZ n -> exists m',
        forM (seq 0 j) (fun k m => d <- mti_adv (F 0) (Z.of_nat k) ;; t_put d (- lit (Z.of_nat k))%T m) m = Some m' /\
        marked (fun k => mti_addr (F k)) (prodZ n)
          (fun k => match load m (mti_addr (F k)) with Some v => v | None => V 0 end) m m'
          (map (fun k => (Z.of_nat k, (- lit (Z.of_nat k))%T : S)) (seq 0 j))) as H.
      2:{ apply H. destruct HB as [_ HB]. pose proof (prodZ_pos n HB). lia. }
      induction j as [|j IH]; intros Hj.
      - exists m. split; [reflexivity|]. apply sub_marked_nil. exact HV.
      - destruct IH as (m1 & E1 & M1); [lia|]. rewrite seq_S, forM_app, E1, map_app. cbn [bind forM map].
        destruct HB as [HB1 HB2]. unfold F at 1. rewrite Nat.add_0_l. rewrite mti_adv_at by (auto; lia). cbn [bind].
        rewrite Z.add_0_l. unfold t_put, write_val. cbn [m_ptr mt_at].
        destruct (marked_store _ _ _ sub_addr_inj _ _ _ (Z.of_nat j) (- lit (Z.of_nat j))%T M1) as (m2 & E2 & M2); [lia|].
        exists m2. fold (mt_at (padd x (ravel sz lb)) sts n false (Z.of_nat j)). fold F. rewrite E2. split; [reflexivity|exact M2]. }
    exists m'. split; [exact E|]. destruct (sub_marked_spec _ _ _ HV M) as [HO HW]. split; [exact HO|].
    intros c Hc. rewrite HW by exact Hc. destruct (between lb ub c) eqn:B; [|reflexivity]. f_equal.
    pose proof (sub_rel c Hc B) as Hd. pose proof (rav_bound _ _ Hd) as Hr.
    fold n. rewrite ravel_rav by (try apply HB; apply in_range_length; exact Hd).
    set (k := rav n (relative lb c)) in * . unfold W, written. rewrite fold_left_map. cbn [fst snd].
    assert (forall j old, fold_left (fun (r : S) i => if Z.of_nat i =? k then (- lit (Z.of_nat i))%T else r) (seq 0 j) old
       = if k <? Z.of_nat j then (- lit k)%T else old) as H.
    { induction j as [|j IH]; intros old; [cbn; destruct (Z.ltb_spec k 0); [lia|reflexivity]|].
      rewrite seq_S, fold_left_app. cbn [fold_left Nat.add]. rewrite IH.
      destruct (Z.eqb_spec (Z.of_nat j) k) as [e|]; [rewrite e; destruct (Z.ltb_spec k (Z.of_nat (Datatypes.S j))); [reflexivity|lia]|].
      destruct (Z.ltb_spec k (Z.of_nat j)), (Z.ltb_spec k (Z.of_nat (Datatypes.S j))); try reflexivity; lia. }
    rewrite H. destruct (Z.ltb_spec k (Z.of_nat (Z.to_nat (prodZ n)))); [reflexivity|lia].
  Qed.

  Lemma submatrix_init_lem eqb m : (forall v : S, eqb v v = true) -> holds m x (prodZ sz) V ->
    (aget n (N - 1) < prodZ n) -> (N = 3%nat -> aget n 1 * aget n 2 < prodZ n) ->
    exists m', submatrix_init eqb x sz lb ub m = Some m' /\ only x (prodZ sz) m m' /\
      forall c, in_box sz c ->
        load m' (padd x (ravel sz c)) =
        Some (if between lb ub c then written (submatrix_marks n) (ravel n (relative lb c)) (V (ravel sz c)) else V (ravel sz c)).
  Proof.
    intros Heq HV Hl H3. pose proof sub_box as [HB1 HB2].
    assert (exists m', submatrix_init eqb x sz lb ub m = Some m' /\
      marked (fun k => mti_addr (F k)) (prodZ n)
       (fun k => match load m (mti_addr (F k)) with Some v => v | None => V 0 end) m m' (submatrix_marks n)) as (m' & E & M).
    2:{ exists m'. split; [exact E|]. apply sub_marked_spec; assumption. }
    set (O := fun k => match load m (mti_addr (F k)) with Some v => v | None => V 0 end).
    set (nl := aget n (N - 1)) in * .
    destruct sub_lengths as (L1 & L2 & L3).
    assert (1 <= nl) as Hnl.
    { unfold nl. rewrite Forall_forall in HB2. apply HB2. unfold aget. apply nth_In. assert (length n <> 0%nat) by (intros Z0; apply length_zero_iff_nil in Z0; contradiction). lia. }
    assert (PUT : forall mm L k v, marked (fun k => mti_addr (F k)) (prodZ n) O m mm L -> 0 <= k < prodZ n ->
       exists m2, t_put (F k) v mm = Some m2 /\ marked (fun k => mti_addr (F k)) (prodZ n) O m m2 (L ++ [(k, v)])).
    { intros mm L k v HM Hk. unfold t_put, write_val. cbn [m_ptr mt_at F]. exact (marked_store _ _ _ sub_addr_inj _ _ _ k v HM Hk). }
    assert (GET : forall mm L k, marked (fun k => mti_addr (F k)) (prodZ n) O m mm L -> 0 <= k < prodZ n ->
       t_get (F k) mm = Some (written L k (O k))).
    { intros mm L k HM Hk. unfold t_get, mti_deref.
      pose proof (marked_load _ _ _ _ _ _ k HM Hk) as E. cbv beta in E. rewrite E. reflexivity. }
    assert (ADV : forall p d, 0 <= p <= prodZ n -> 0 <= p + d <= prodZ n -> mti_adv (F p) d = Some (F (p + d))).
    { intros. apply mti_adv_at; assumption. }
    assert (INC : forall p, 0 <= p < prodZ n -> mti_inc (F p) = F (p + 1)) by (intros; apply mti_inc_at; assumption).
    assert (DEC : forall p q, q + 1 = p -> 0 <= q < prodZ n -> mti_dec (F p) = F q)
      by (intros p q <- ?; apply mti_dec_at; assumption).
    assert (DIST : forall p q d, d = q - p -> 0 <= p <= prodZ n -> 0 <= q <= prodZ n -> (mti_dist (F p) (F q) =? d) = true).
    { intros p q d -> Hp Hq. unfold F. rewrite mti_dist_at by assumption. apply Z.eqb_refl. }
    assert (RQ : forall L k v old, require (eqb (written (L ++ [(k, v)]) k old) v) = Some tt).
    { intros. unfold written. rewrite fold_left_app. cbn [fold_left fst snd]. rewrite Z.eqb_refl, Heq. reflexivity. }
    assert (RQ2 : forall L k v k' v' old, k' <> k -> require (eqb (written ((L ++ [(k, v)]) ++ [(k', v')]) k old) v) = Some tt).
    { intros. unfold written. rewrite !fold_left_app. cbn [fold_left fst snd]. rewrite Z.eqb_refl.
      destruct (Z.eqb_spec k' k); [congruence|]. rewrite Heq. reflexivity. }
    pose proof (sub_marked_nil m HV) as M0. fold O in M0.
    unfold submatrix_init. rewrite sub_make. cbn [bind]. fold n. fold N. fold nl. rewrite t_prod_prodZ by assumption.
    destruct (PUT _ _ 0 (lit (-1)) M0) as (m1 & E1 & M1); [lia|]. rewrite E1. cbn [bind].
    rewrite ADV by lia. cbn [bind]. rewrite (GET _ _ _ M1) by lia. cbn [bind]. rewrite RQ. cbn [bind].
    rewrite ADV by lia. cbn [bind]. rewrite DIST by lia. cbn [require bind].
    rewrite (INC 0) by lia. rewrite (DEC (0 + 1) 0) by lia.
    rewrite (GET _ _ _ M1) by lia. cbn [bind]. rewrite RQ. cbn [bind].
    rewrite ADV by lia. cbn [bind].
    destruct (PUT _ _ (0 + 1) (lit (-2)) M1) as (m2 & E2 & M2); [lia|]. rewrite E2. cbn [bind].
    rewrite ADV by lia. cbn [bind]. rewrite ADV by lia. cbn [bind].
    destruct (PUT _ _ (0 + nl + -1) (lit (-3)) M2) as (m3 & E3 & M3); [lia|]. rewrite E3. cbn [bind].
    rewrite DIST by lia. cbn [require bind].
    rewrite (INC (0 + nl + -1)) by lia.
    destruct (PUT _ _ (0 + nl + -1 + 1) (lit (-4)) M3) as (m4 & E4 & M4); [lia|]. rewrite E4. cbn [bind].
    rewrite DIST by lia. cbn [require bind].
    rewrite (DEC (0 + nl + -1 + 1) (0 + nl + -1)) by lia.
    rewrite (GET _ _ _ M4) by lia. cbn [bind]. rewrite RQ2 by lia. cbn [bind].
    rewrite DIST by lia. cbn [require bind]. 
    replace (0 + nl + -1 + 1) with (0 + nl) in M4 by lia.
    rewrite (GET _ _ (0 + nl) M4) by lia. cbn [bind]. rewrite RQ. cbn [bind].
    rewrite DIST by lia. cbn [require bind].
    rewrite ADV by lia. cbn [bind]. rewrite DIST by lia. cbn [require bind].
    destruct (PUT _ _ (0 + (prodZ n - 1)) (lit (-5)) M4) as (m5 & E5 & M5); [lia|]. rewrite E5. cbn [bind].
    rewrite (INC (0 + (prodZ n - 1))) by lia. rewrite DIST by lia. cbn [require bind].
    rewrite ADV by lia. cbn [bind]. rewrite DIST by lia. cbn [require bind].
    replace (0 + (prodZ n - 1)) with (prodZ n - 1) in M5 by lia. replace (0 + nl + -1) with (nl - 1) in M5 by lia.
    replace (0 + nl) with nl in M5 by lia. change (0 + 1) with 1 in M5. cbn [app] in M5.
    unfold submatrix_marks. rewrite L3. fold nl. destruct (Nat.eqb_spec N 3) as [E|E].
    2:{ exists m5. split; [reflexivity|exact M5]. }
    specialize (H3 E). rewrite E. change (3 - 2)%nat with 1%nat.
    assert (nl = aget n 2) as Enl by (unfold nl; rewrite E; reflexivity).
    assert (1 <= aget n 1 /\ 1 <= aget n 2) as [P1 P2].
    { rewrite Forall_forall in HB2. split; apply HB2; unfold aget; apply nth_In; lia. }
    set (p := aget n 1 * aget n 2) in * . replace (aget n 1 * nl) with p by (rewrite Enl; reflexivity). assert (1 <= p) by (unfold p; nia).
    rewrite ADV by lia. cbn [bind]. rewrite ADV by lia. cbn [bind]. rewrite DIST by lia. cbn [require bind].
    destruct (PUT _ _ (0 + p + -1) (lit (-6)) M5) as (m6 & E6 & M6); [lia|]. rewrite E6. cbn [bind].
    rewrite (INC (0 + p + -1)) by lia. rewrite DIST by lia. cbn [require bind].
    destruct (PUT _ _ (0 + p + -1 + 1) (lit (-7)) M6) as (m7 & E7 & M7); [lia|]. rewrite E7. cbn [bind].
    rewrite (DEC (0 + p + -1 + 1) (0 + p + -1)) by lia.
    rewrite (GET _ _ _ M7) by lia. cbn [bind]. rewrite RQ2 by lia. cbn [bind].
    exists m7. split; [reflexivity|].
    replace (0 + p + -1 + 1) with p in M7 by lia. replace (0 + p + -1) with (p - 1) in M7 by lia. exact M7.
  Qed.
End Sub.

(** ** Transpose *)

Section Transpose.
  Context {S : Scalar}.

  Lemma copy_n_lem (base : ptr) st n (V : Z -> S) (x u : ptr) (W : Z -> S) : box n -> fst base <> fst u ->
    forall cnt p (m : mem S), 0 <= p -> p + Z.of_nat cnt <= prodZ n ->
    (forall k, p <= k < p + Z.of_nat cnt -> load m (mti_addr (mt_at base st n false k)) = Some (V k)) ->
    (forall k, 0 <= k < Z.of_nat cnt -> load m (padd u k) = Some (W k)) ->
    exists m', t_copy_n cnt (mt_at base st n false p) u m = Some m' /\
      only u (Z.of_nat cnt) m m' /\
      forall k, 0 <= k < Z.of_nat cnt -> load m' (padd u k) = Some (V (p + k)).
  Proof.
    intros HB Hne. revert u Hne W. intros u Hne W cnt. revert u Hne W.
    induction cnt as [|cnt IH]; intros u Hne W p m Hp Hc HV HU.
    - exists m. split; [reflexivity|]. split; [repeat split; auto|]. intros k Hk; lia.
    - cbn [t_copy_n]. unfold t_get, mti_deref.
      change (m_ptr (mt_at base st n false p)) with false.
      rewrite (HV p) by lia. cbn [bind].
      destruct (proj1 (store_Some m u (V p))) as [m1 E1].
      { exists (W 0). rewrite <- (HU 0) by lia. f_equal. destruct u; unfold padd; cbn; f_equal; lia. }
      rewrite E1. cbn [bind].
      destruct HB as [HB1 HB2]. rewrite mti_inc_at by (auto; lia).
      assert (FA : forall k, fst (mti_addr (mt_at base st n false k)) = fst base) by reflexivity.
      destruct (IH (padd u 1) Hne (fun k => W (k + 1)) (p + 1) m1) as (m' & E2 & (O1 & O2 & O3) & R); [lia|lia|..].
      + intros k Hk. rewrite (load_store _ _ _ _ _ E1). destruct (ptr_dec _ _) as [e|e].
        * exfalso. apply Hne. rewrite e. reflexivity.
        * apply HV. lia.
      + intros k Hk. rewrite (load_store _ _ _ _ _ E1). destruct (ptr_dec _ _) as [e|e].
        * exfalso. apply (f_equal snd) in e. cbn in e. lia.
        * rewrite padd_padd. replace (1 + k) with (k + 1) by lia. apply HU. lia.
      + exists m'. split; [exact E2|]. split; [split; [|split]|].
        * rewrite O1. apply (store_ints _ _ _ _ E1).
        * rewrite O2. apply (store_shape _ _ _ _ E1).
        * intros q Hq. rewrite O3; [|intros k Hk; rewrite padd_padd; apply Hq; lia].
          rewrite (load_store _ _ _ _ _ E1). destruct (ptr_dec u q) as [e|e]; [|reflexivity].
          exfalso. apply (Hq 0); [lia|]. rewrite <- e. destruct u; unfold padd; cbn; f_equal; lia.
        * intros k Hk. destruct (Z.eq_dec k 0) as [->|Hk0].
          -- rewrite O3.
             ++ rewrite (load_store _ _ _ _ _ E1). destruct (ptr_dec _ _) as [e|e]; [f_equal; f_equal; lia|].
                exfalso. apply e. destruct u; unfold padd; cbn; f_equal; lia.
             ++ intros j Hj C. apply (f_equal snd) in C. cbn in C. lia.
          -- specialize (R (k - 1) ltac:(lia)). rewrite padd_padd in R. replace (1 + (k - 1)) with k in R by lia.
             rewrite R. f_equal. f_equal. lia.
  Qed.

  Lemma transpose_init_lem I (x u : ptr) sz (m : mem S) V U :
    box sz -> Permutation I (seq 0 (length sz)) -> fst x <> fst u ->
    holds m x (prodZ sz) V -> holds m u (prodZ sz) U ->
    exists m', transpose_init I x sz u m = Some m' /\ only u (prodZ sz) m m' /\
      forall c, in_box sz c ->
        load m' (padd u (ravel (map (aget sz) I) (map (aget c) I))) = Some (V (ravel sz c)).
  Proof.
    intros Hbox HP Hne HV HU. pose proof Hbox as [Hz1 Hz2].
    set (n := map (aget sz) I).
    assert (forall i, In i I -> (i < length sz)%nat) as HI.
    { intros i Hi. rewrite HP in Hi. apply in_seq in Hi. lia. }
    assert (Forall (fun x => 1 <= x) n) as Hn'.
    { apply Forall_map, Forall_forall. intros i Hi. unfold aget.
      rewrite Forall_forall in Hz2. apply Hz2. apply nth_In. apply HI; exact Hi. }
    assert (n <> []) as Hne'.
    { intros E. apply map_eq_nil in E. subst I. apply Permutation_nil in HP.
      destruct sz; [congruence|discriminate]. }
    assert (box n) as Hb by (split; assumption).
    assert (prodZ n = prodZ sz) as Ep.
    { unfold n. rewrite (prodZ_perm _ (map (aget sz) (seq 0 (length sz)))) by (apply Permutation_map; exact HP).
      rewrite map_aget_seq. reflexivity. }
    pose proof (prodZ_pos sz Hz2) as Hpos.
    set (st := map (fun i => stride_dim (Z.of_nat i) sz) I).
    assert (make_transpose I x sz = mt_at x st n false 0) as EM.
    { unfold make_transpose, mt_at. rewrite coordZ_0 by exact Hn'. unfold n, st. rewrite map_map. reflexivity. }
    assert (AD : forall c, in_box sz c ->
              mti_addr (mt_at x st n false (ravel n (map (aget c) I))) = padd x (ravel sz c) /\
              0 <= ravel n (map (aget c) I) < prodZ sz).
    { intros c Hc. pose proof (in_box_map sz c I Hc HI) as Hc'. fold n in Hc'.
      pose proof (rav_bound _ _ Hc') as Hr. rewrite <- Ep.
      assert (ravel n (map (aget c) I) = rav n (map (aget c) I)) as Er.
      { apply ravel_rav; [auto|]. apply in_range_length; exact Hc'. }
      split; [|rewrite Er; exact Hr].
      rewrite <- (transpose_elem I x sz (Z.to_nat (ravel n (map (aget c) I))) c Hbox HP Hc) by (fold n; lia).
      rewrite EM, mti_iter_at by (auto; lia). f_equal. f_equal. lia. }
    assert (exists VV, forall k, 0 <= k < prodZ sz -> load m (mti_addr (mt_at x st n false k)) = Some (VV k)) as [VV HVV].
    { exists (fun k => match load m (mti_addr (mt_at x st n false k)) with Some v => v | None => V 0 end).
      intros k Hk.
      set (c := map (fun i => aget (unrav n k) (match find (fun j => Nat.eqb (nth j I 0%nat) i) (seq 0 (length I)) with Some j => j | None => 0%nat end)) (seq 0 (length sz))).
      assert (HN : length I = length sz) by (rewrite HP, seq_length; reflexivity).
      assert (ND : NoDup I) by (rewrite HP; apply seq_NoDup).
      pose proof (unrav_in_range n k Hn' ltac:(lia)) as Hu. apply in_box_aget in Hu as [Lu Hu].
      assert (Ec : map (aget c) I = unrav n k).
      { apply aget_ext; rewrite map_length; [rewrite Lu; unfold n; rewrite map_length; reflexivity|].
        intros j Hj. rewrite (aget_map _ _ _ 0%nat) by lia. unfold c. rewrite aget_map_seq.
        2:{ apply HI. apply nth_In. lia. }
        rewrite Nat.add_0_l. f_equal. destruct (find _ _) as [j'|] eqn:Ef.
        - apply find_some in Ef as [F1 F2]. apply in_seq in F1. apply Nat.eqb_eq in F2.
          rewrite NoDup_nth in ND. apply (ND j' j); lia || exact F2.
        - exfalso. pose proof (find_none _ _ Ef j) as C. cbv beta in C. rewrite Nat.eqb_refl in C.
          discriminate C. apply in_seq. lia. }
      assert (Hc : in_box sz c).
      { apply in_box_aget. unfold c at 1. rewrite map_length, seq_length. split; [reflexivity|]. intros i Hi.
        assert (In i I) as Hi' by (rewrite HP; apply in_seq; lia).
        apply (In_nth _ _ 0%nat) in Hi' as (j & Hj & Ej).
        assert (aget c i = aget (unrav n k) j) as ->.
        { rewrite <- Ec. rewrite (aget_map _ _ _ 0%nat) by lia. rewrite Ej. reflexivity. }
        specialize (Hu j ltac:(unfold n; rewrite map_length; lia)). unfold n in Hu at 3.
        rewrite (aget_map _ _ _ 0%nat) in Hu by lia. rewrite Ej in Hu. exact Hu. }
      destruct (AD c Hc) as [A _]. rewrite Ec in A. rewrite ravel_rav in A by (auto; lia).
      rewrite rav_unrav in A by (auto; lia). rewrite A.
      rewrite HV; [reflexivity|]. rewrite ravel_rav by (auto; apply in_range_length; exact Hc). apply rav_bound. exact Hc. }
    destruct (copy_n_lem x st n VV x u U Hb Hne (Z.to_nat (prodZ sz)) 0 m) as (m' & E & HO & HR); [lia|lia|..].
    { intros k Hk. apply HVV. lia. }
    { intros k Hk. apply HU. lia. }
    rewrite Z2Nat.id in HO, HR by lia.
    exists m'. split; [|split; [exact HO|]].
    - unfold transpose_init. rewrite t_prod_prodZ by assumption. rewrite EM.
      rewrite mti_adv_at by (auto; lia). cbn [bind]. rewrite mti_dist_at by (auto; lia).
      replace (0 + prodZ sz - 0) with (prodZ sz) by lia. rewrite Z.eqb_refl. cbn [require bind]. exact E.
    - intros c Hc. destruct (AD c Hc) as [A B]. fold n. rewrite HR by exact B.
      rewrite <- HVV by exact B. rewrite Z.add_0_l. rewrite A. apply HV.
      rewrite ravel_rav by (auto; apply in_range_length; exact Hc). apply rav_bound. exact Hc.
  Qed.
End Transpose.

(** ** Offsets *)

Lemma stride_fold size k : forall st, length st = length size -> (k < length size)%nat ->
  (forall j, (k <= j < length size)%nat -> aget st j = prodZ (skipn (Datatypes.S j) size)) ->
  let r := fold_left (fun st i => aset st i (aget st (i + 1) * aget size (i + 1))) (rev (seq 0 k)) st in
  length r = length size /\ forall j, (j < length size)%nat -> aget r j = prodZ (skipn (Datatypes.S j) size).
Proof.
  induction k as [|k IH]; intros st HL Hk H.
  - cbn. split; [exact HL|]. intros j Hj. apply H. lia.
  - rewrite seq_S, rev_app_distr. cbn [rev app fold_left Nat.add]. apply IH.
    + rewrite aset_length. exact HL.
    + lia.
    + intros j Hj. rewrite aget_aset. destruct (Nat.eqb_spec k j) as [<-|Hne].
      * destruct (Nat.ltb_spec k (length st)); [|lia]. cbn [andb].
        rewrite H by lia. replace (k + 1)%nat with (Datatypes.S k) by lia.
        assert (E : skipn (Datatypes.S k) size = aget size (Datatypes.S k) :: skipn (Datatypes.S (Datatypes.S k)) size).
        { assert (Datatypes.S k < length size)%nat as Hlt by lia. clear - Hlt. revert Hlt. generalize (Datatypes.S k) as i. clear k.
          induction size as [|x size IHs]; intros i Hi; [cbn in Hi; lia|]. destruct i; [reflexivity|].
          change (aget (x :: size) (Datatypes.S i)) with (aget size i). cbn [skipn]. apply IHs. cbn in Hi. lia. }
        rewrite E, prodZ_cons. ring.
      * cbn [andb]. apply H. lia.
Qed.

Lemma stride_from_size_spec size : size <> [] ->
  length (stride_from_size size) = length size /\
  forall j, (j < length size)%nat -> aget (stride_from_size size) j = prodZ (skipn (Datatypes.S j) size).
Proof.
  intros Hne. assert (length size <> 0%nat) as HN by (intros Z0; apply length_zero_iff_nil in Z0; contradiction).
  unfold stride_from_size. apply stride_fold.
  - rewrite aset_length, repeat_length. reflexivity.
  - lia.
  - intros j Hj. assert (j = length size - 1)%nat as -> by lia. rewrite aget_aset, Nat.eqb_refl, repeat_length.
    destruct (Nat.ltb_spec (length size - 1) (length size)); [|lia]. cbn [andb].
    rewrite skipn_all2 by lia. reflexivity.
Qed.

Lemma rav_strides size c : size <> [] -> length c = length size ->
  dotZ (stride_from_size size) c = rav size c.
Proof.
  intros Hne HL. destruct (stride_from_size_spec size Hne) as [L H].
  rewrite rav_sum by exact HL. rewrite <- (map_aget_seq c) at 1. rewrite <- (map_aget_seq (stride_from_size size)).
  rewrite L, HL, dotZ_map. f_equal. apply map_ext_in. intros j Hj. apply in_seq in Hj. rewrite H by lia. reflexivity.
Qed.

Section Offset.
  Context {S : Scalar}.

  Lemma row_loop (m : mem S) (st : list Z) (o : ptr) i (row : list Z) :
    length row = length st ->
    (forall j, (j < length st)%nat -> loadi m (padd o (i * Z.of_nat (length st) + Z.of_nat j)) = Some (aget row j)) ->
    forM (seq 0 (length st))
      (fun j a => oj <- loadi m (padd o (i * Z.of_nat (length st) + Z.of_nat j)) ;;
                  Some (a + aget st j * oj)) 0 = Some (dotZ st row).
  Proof.
    intros HL H.
    rewrite (forM_ext_in _ _ (fun j a => Some (a + aget st j * aget row j))).
    2:{ intros j a Hj. apply in_seq in Hj. rewrite H by lia. reflexivity. }
    assert (forall l a, forM l (fun j a => Some (a + aget st j * aget row j)) a
            = Some (fold_left (fun o j => o + aget st j * aget row j) l a)) as E.
    { induction l as [|x l IH]; intros a; [reflexivity|]. cbn. apply IH. }
    rewrite E. rewrite <- HL at 1. rewrite fold_dotZ by lia. reflexivity.
  Qed.

  Lemma offset_init_lem (v o : ptr) n_off dims (rows : Z -> list Z) size (m : mem S) V :
    dims <> [] -> holds m v size V ->
    (forall i, 0 <= i < n_off -> length (rows i) = length dims /\ 0 <= ravel dims (rows i) < size) ->
    (forall i j, 0 <= i < n_off -> 0 <= j < Z.of_nat (length dims) ->
       loadi m (padd o (i * Z.of_nat (length dims) + j)) = Some (aget (rows i) (Z.to_nat j))) ->
    exists m', offset_init v n_off o dims m = Some m' /\ only v size m m' /\
      holds m' v size (fun k =>
        written (map (fun i => (ravel dims (rows (Z.of_nat i)), lit (-1 - Z.of_nat i))) (seq 0 (Z.to_nat n_off)))
          k (V k)).
  Proof.
    intros Hd HV Hr Ho. destruct (stride_from_size_spec dims Hd) as [Ls _].
    set (W := fun cnt => map (fun i => (ravel dims (rows (Z.of_nat i)), lit (-1 - Z.of_nat i) : S)) (seq 0 cnt)).
    assert (Pinj : forall a b, 0 <= a < size -> 0 <= b < size -> padd v a = padd v b -> a = b).
    { intros a b _ _ E. injection E as E. lia. }
    set (it := make_offset_iterator v (stride_from_size dims) o).
    assert (forall cnt, Z.of_nat cnt <= Z.max 0 n_off ->
      exists m', forM (seq 0 cnt) (fun i => offi_put (offi_move it (Z.of_nat i)) (lit (-1 - Z.of_nat i))) m = Some m' /\
        marked (fun k => padd v k) size V m m' (W cnt)) as H.
    { induction cnt as [|cnt IH]; intros Hc.
      - exists m. split; [reflexivity|]. apply marked_nil. exact HV.
      - destruct IH as (m1 & E1 & M1); [lia|]. unfold W. rewrite seq_S, forM_app, E1, map_app. cbn [bind forM map Nat.add].
        destruct (Hr (Z.of_nat cnt)) as [HL HR]; [lia|].
        destruct (marked_store _ _ _ Pinj _ _ _ (ravel dims (rows (Z.of_nat cnt))) (lit (-1 - Z.of_nat cnt)) M1 HR)
          as (m2 & E2 & M2).
        exists m2. split; [|exact M2].
        unfold offi_put, offi_move, it, make_offset_iterator; cbn [o_first o_stride o_ptr o_idx]. rewrite Z.add_0_l.
        rewrite (row_loop m1 _ _ _ (rows (Z.of_nat cnt))).
        + cbn [bind]. rewrite rav_strides by assumption. rewrite <- ravel_rav by assumption. rewrite E2. reflexivity.
        + lia.
        + intros j Hj. rewrite Ls in * . destruct M1 as (Hi & _). unfold loadi. rewrite Hi. fold (loadi m).
          specialize (Ho (Z.of_nat cnt) (Z.of_nat j)). rewrite Nat2Z.id in Ho. apply Ho; lia. }
    destruct (H (Z.to_nat n_off)) as (m' & E & (M1 & M2 & M3 & M4)); [lia|].
    exists m'. split; [|split].
    - unfold offset_init. fold it. unfold offi_dist, offi_equal, offi_inc, offi_dec, offi_move. cbn [o_idx].
      replace (o_idx it + 1 - o_idx it =? 1) with true by lia. cbn [require bind].
      replace (o_idx it =? o_idx it + 1 + -1) with true by lia. cbn [require bind].
      replace (o_idx it - (o_idx it + 1 + -1) =? 0) with true by lia. cbn [require bind]. exact E.
    - split; [exact M1|]. split; [exact M2|]. exact M4.
    - intros k Hk. exact (M3 k Hk).
  Qed.
End Offset.

(** ** The submatrix programs, with the extents of the specification *)

Lemma inside_lengths sz lb ub : inside sz lb ub -> length lb = length ub.
Proof. intros (_ & _ & H). induction H; cbn; congruence. Qed.

Lemma tabulate_ext (S : Scalar) x sz lb ub (m : mem S) V : box sz -> inside sz lb ub -> holds m x (prodZ sz) V ->
  exists m', submatrix_tabulate x sz lb ub m = Some m' /\ only x (prodZ sz) m m' /\
    forall c, in_box sz c ->
      load m' (padd x (ravel sz c)) =
      Some (if between lb ub c then (- lit (ravel (extents lb ub) (relative lb c)))%T else V (ravel sz c)).
Proof.
  intros Hb Hi HV. rewrite (extents_counts lb ub (inside_lengths sz lb ub Hi)).
  exact (tabulate_lem x sz lb ub Hb Hi V m HV).
Qed.

Lemma submatrix_ext (S : Scalar) eqb x sz lb ub (m : mem S) V : box sz -> inside sz lb ub ->
  (forall v : S, eqb v v = true) -> holds m x (prodZ sz) V ->
  aget (extents lb ub) (length sz - 1) < prodZ (extents lb ub) ->
  (length sz = 3%nat -> aget (extents lb ub) 1 * aget (extents lb ub) 2 < prodZ (extents lb ub)) ->
  exists m', submatrix_init eqb x sz lb ub m = Some m' /\ only x (prodZ sz) m m' /\
    forall c, in_box sz c ->
      load m' (padd x (ravel sz c)) =
      Some (if between lb ub c
            then written (submatrix_marks (extents lb ub)) (ravel (extents lb ub) (relative lb c)) (V (ravel sz c))
            else V (ravel sz c)).
Proof.
  intros Hb Hi. rewrite (extents_counts lb ub (inside_lengths sz lb ub Hi)).
  intros. apply (submatrix_init_lem x sz lb ub Hb Hi); assumption.
Qed.

(** ** Transposing back *)

Lemma aget_map_nat sz (I : list nat) j : (j < length I)%nat -> aget (map (aget sz) I) j = aget sz (nth j I 0%nat).
Proof.
  intros Hj. unfold aget at 1. rewrite (nth_indep _ 0 (aget sz 0%nat)) by (rewrite map_length; exact Hj).
  apply map_nth.
Qed.

Lemma map_aget_back sz (I J : list nat) : length I = length sz -> (forall j, In j J -> (j < length sz)%nat) ->
  map (fun j => nth j I 0%nat) J = seq 0 (length sz) -> map (aget (map (aget sz) I)) J = sz.
Proof.
  intros LI HJ E. rewrite <- (map_aget_seq sz) at 2. rewrite <- E, map_map. apply map_ext_in.
  intros j Hj. apply aget_map_nat. rewrite LI. apply HJ. exact Hj.
Qed.

Lemma shape_some {S : Scalar} (m m' : mem S) p : shape m' = shape m -> load m p <> None -> load m' p <> None.
Proof.
  intros Es Hn. destruct (load m p) as [v|] eqn:E; [|congruence].
  assert (valid m p) as Hv by (apply valid_load; eauto). unfold valid in Hv. rewrite <- Es in Hv.
  apply valid_load in Hv as [v' ->]. discriminate.
Qed.

Lemma transpose_back (S : Scalar) I J (x u w : ptr) sz (m : mem S) V U W : box sz ->
  Permutation I (seq 0 (length sz)) -> Permutation J (seq 0 (length sz)) ->
  map (fun j => nth j I 0%nat) J = seq 0 (length sz) ->
  fst x <> fst u -> fst u <> fst w -> fst x <> fst w ->
  holds m x (prodZ sz) V -> holds m u (prodZ sz) U -> holds m w (prodZ sz) W ->
  exists m', (m1 <- transpose_init I x sz u m ;; transpose_init J u (map (aget sz) I) w m1) = Some m' /\
    holds m' w (prodZ sz) V.
Proof.
  intros Hb PI PJ E N1 N2 N3 HV HU HW.
  destruct (transpose_init_lem I x u sz m V U Hb PI N1 HV HU) as (m1 & E1 & (_ & S1 & O1) & R1).
  rewrite E1. cbn [bind]. set (sz' := map (aget sz) I).
  assert (LI : length I = length sz) by (rewrite (Permutation_length PI); apply seq_length).
  assert (P : Permutation sz' sz).
  { unfold sz'. etransitivity; [apply Permutation_map; exact PI|]. rewrite map_aget_seq. reflexivity. }
  assert (Hb' : box sz').
  { destruct Hb as [Hne Hf]. split.
    - intros C. apply Hne. apply Permutation_nil. rewrite C in P. exact P.
    - rewrite Forall_forall in *. intros z Hz. apply Hf. eapply Permutation_in; eassumption. }
  assert (Hp : prodZ sz' = prodZ sz) by (apply prodZ_perm; exact P).
  assert (HI : forall j, In j I -> (j < length sz)%nat).
  { intros j Hj. eapply Permutation_in in Hj; [|exact PI]. apply in_seq in Hj. lia. }
  assert (HJ : forall j, In j J -> (j < length sz)%nat).
  { intros j Hj. eapply Permutation_in in Hj; [|exact PJ]. apply in_seq in Hj. lia. }
  assert (L' : length sz' = length sz) by (unfold sz'; rewrite map_length; exact LI).
  set (V1 := fun k => match load m1 (padd u k) with Some v => v | None => U k end).
  assert (H1 : holds m1 u (prodZ sz') V1).
  { rewrite Hp. intros k Hk. unfold V1.
    assert (load m1 (padd u k) <> None) as Hn.
    { apply (shape_some m); [exact S1|]. rewrite (HU k Hk). discriminate. }
    destruct (load m1 (padd u k)); [reflexivity|congruence]. }
  assert (H2 : holds m1 w (prodZ sz') W).
  { rewrite Hp. intros k Hk. rewrite O1; [exact (HW k Hk)|]. intros a _ C. apply N2. exact (eq_sym (f_equal fst C)). }
  destruct (transpose_init_lem J u w sz' m1 V1 W Hb' ltac:(rewrite L'; exact PJ) N2 H1 H2) as (m2 & E2 & _ & R2).
  exists m2. split; [exact E2|]. intros k Hk.
  destruct (ravel_bijective sz Hb) as (_ & _ & HS). destruct (HS k Hk) as (c & Hc & <-).
  specialize (R2 (map (aget c) I) (in_box_map sz c I Hc HI)).
  assert (Lc : length c = length sz) by (apply in_box_aget in Hc; tauto).
  unfold sz' in R2. rewrite (map_aget_back sz I J LI HJ E) in R2.
  rewrite (map_aget_back c I J) in R2; [|lia|rewrite Lc; exact HJ|rewrite Lc; exact E].
  rewrite R2. unfold V1. rewrite (R1 c Hc). reflexivity.
Qed.
