(** * Lemmas about the forward stencil iterator *)

From Coq Require Import ZifyBool ZifyNat.
From Verif Require Import Base ModelBounds ModelMatrix ModelIters LemBase LemMatrix.
Import ListNotations.
Open Scope Z_scope.

(** Position, in the underlying range, of the [k]-th pair: blocks of [mx]
    positions separated by gaps of [s]; the end stops before the last gap. *)
Definition gpos (s mx nb k : Z) : Z :=
  if k <? nb * mx then k + (k / mx) * s else nb * mx + (nb - 1) * s.

(** Distance into the current block. *)
Definition hcur (mx nb k : Z) : Z := if k <? nb * mx then k mod mx else mx.

Section Family.
  Context {A : Type} (O : IterOps A) (B : Z -> A) (s mx nb : Z).
  Context (Hs : 1 <= s) (Hmx : 1 <= mx) (Hnb : 1 <= nb).
  Let M := nb * (mx + s).
  Let sz := nb * mx.
  Context (Binc : forall p, 0 <= p < M -> o_inc O (B p) = Some (B (p + 1))).
  Context (Bdec : forall p, 0 <= p < M -> o_dec O (B (p + 1)) = Some (B p)).
  Context (Badv : forall p d, 0 <= p <= M -> 0 <= p + d <= M -> o_adv O (B p) d = Some (B (p + d))).

  Definition fs_at (k : Z) : fsi A :=
    mkFsi (B (gpos s mx nb k)) s mx (nb * mx - k) (hcur mx nb k).

  Let F := fs_at.

  (** Block number: [k = q * mx + hcur k] and [gpos k = k + q * s]. *)
  Lemma block k : 0 <= k <= sz ->
    exists q, 0 <= q < nb /\ k = q * mx + hcur mx nb k /\ gpos s mx nb k = k + q * s /\
      0 <= hcur mx nb k <= mx /\ (k < sz -> hcur mx nb k < mx) /\ (k = sz -> q = nb - 1).
  Proof using Hs Hmx Hnb. clear F Binc Bdec Badv O B A.
    intros Hk. unfold hcur, gpos, sz in *. destruct (Z.ltb_spec k (nb * mx)).
    - exists (k / mx). pose proof (Z.div_mod k mx ltac:(lia)).
      pose proof (Z.mod_pos_bound k mx ltac:(lia)).
      assert (0 <= k / mx) by (apply Z.div_pos; lia).
      assert (k / mx < nb) by (apply Z.div_lt_upper_bound; lia).
      repeat split; try lia.
    - exists (nb - 1). repeat split; try lia.
  Qed.

  Lemma gpos_range k : 0 <= k <= sz -> 0 <= gpos s mx nb k /\ gpos s mx nb k + s <= M.
  Proof using Hs Hmx Hnb. clear F Binc Bdec Badv O B A.
    intros Hk. destruct (block k Hk) as (q & Hq & Ek & Eg & Hc & _ & _).
    rewrite Eg. unfold M. rewrite Ek. split; nia.
  Qed.

  Lemma block_unique q c : 0 <= q < nb -> 0 <= c < mx ->
    gpos s mx nb (q * mx + c) = q * mx + c + q * s /\ hcur mx nb (q * mx + c) = c.
  Proof using Hs Hmx Hnb. clear F Binc Bdec Badv O B A.
    intros Hq Hc. unfold gpos, hcur.
    assert (q * mx + c < nb * mx) by nia.
    destruct (Z.ltb_spec (q * mx + c) (nb * mx)); [|lia].
    assert ((q * mx + c) / mx = q) as ->.
    { symmetry; apply Z.div_unique with (r := c); lia. }
    split; [reflexivity|]. symmetry; apply Z.mod_unique with (q := q); lia.
  Qed.

  Lemma fs_inc_at k : 0 <= k < sz -> fsi_inc O (F k) = Some (F (k + 1)).
  Proof.
    intros Hk. destruct (block k ltac:(lia)) as (q & Hq & Ek & Eg & Hc & Hc' & _).
    destruct (gpos_range k ltac:(lia)) as [Hg1 Hg2].
    specialize (Hc' ltac:(lia)).
    unfold fsi_inc, F, fs_at. cbn [f_first f_stride f_max f_dtl f_cur].
    rewrite Binc by lia. cbn [bind].
    set (c := hcur mx nb k) in *. set (g := gpos s mx nb k) in *.
    destruct (Z.eq_dec (k + 1) sz) as [El|El].
    - (* last *)
      replace (nb * mx - k - 1) with 0 by (unfold sz in *; lia).
      change (cnot (cnot 0)) with 0. rewrite !Z.mul_0_l.
      rewrite Badv by lia. cbn [bind]. f_equal. unfold gpos, hcur.
      destruct (Z.ltb_spec (k + 1) (nb * mx)); [unfold sz in *; lia|].
      assert (q = nb - 1 /\ c + 1 = mx) as [-> Ec].
      { unfold sz in *. assert (k + 1 = q * mx + (c + 1)) by lia.
        assert ((nb - q) * mx = c + 1) by lia.
        assert (c + 1 <= mx) by lia. assert (nb - q <= 1) by nia. nia. }
      f_equal; try lia. f_equal. unfold sz in *. lia.
    - (* not last *)
      assert (nb * mx - k - 1 <> 0) by (unfold sz in *; lia).
      rewrite (cnot_nz (nb * mx - k - 1)) by assumption. change (cnot 0) with 1.
      rewrite Z.mul_1_l.
      destruct (Z.eq_dec (c + 1) mx) as [Ec|Ec].
      + replace (mx - (c + 1)) with 0 by lia. change (cnot 0) with 1. rewrite !Z.mul_1_l.
        assert (q + 1 < nb) by (unfold sz in *; nia).
        destruct (block_unique (q + 1) 0 ltac:(lia) ltac:(lia)) as [E1 E2].
        destruct (gpos_range (k + 1) ltac:(lia)) as [Hg3 Hg4].
        assert (k + 1 = (q + 1) * mx + 0) as Ek1 by lia. rewrite Ek1 in Hg3, Hg4 |- *.
        rewrite E1 in Hg3, Hg4 |- *. rewrite E2.
        rewrite Badv by lia. cbn [bind]. f_equal. f_equal; try lia. f_equal. lia.
      + rewrite (cnot_nz (mx - (c + 1))) by lia. rewrite !Z.mul_0_l.
        rewrite Badv by lia. cbn [bind]. f_equal.
        destruct (block_unique q (c + 1) ltac:(lia) ltac:(lia)) as [E1 E2].
        replace (k + 1) with (q * mx + (c + 1)) by lia.
        rewrite E1, E2. f_equal; try lia. f_equal. lia.
  Qed.

  Lemma fs_dec_at k : 0 <= k < sz -> fsi_dec O (F (k + 1)) = Some (F k).
  Proof.
    intros Hk. destruct (block k ltac:(lia)) as (q & Hq & Ek & Eg & Hc & Hc' & _).
    destruct (block (k + 1) ltac:(lia)) as (q1 & Hq1 & Ek1 & Eg1 & Hc1 & Hc1' & _).
    destruct (gpos_range k ltac:(lia)) as [Hg1 Hg2].
    destruct (gpos_range (k + 1) ltac:(lia)) as [Hg3 Hg4].
    specialize (Hc' ltac:(lia)).
    unfold fsi_dec, F, fs_at. cbn [f_first f_stride f_max f_dtl f_cur].
    set (c := hcur mx nb k) in *. set (g := gpos s mx nb k) in *.
    set (c1 := hcur mx nb (k + 1)) in *. set (g1 := gpos s mx nb (k + 1)) in *.
    assert (g1 - 1 >= 0) by nia.
    replace g1 with (g1 - 1 + 1) by lia. rewrite Bdec by lia. cbn [bind].
    destruct (Z.eq_dec c1 0) as [E0|E0].
    - rewrite E0. change (cnot (1 + (0 - 1))) with 1. rewrite !Z.mul_1_l.
      assert (q1 = q + 1 /\ c = mx - 1) as [-> ->].
      { assert ((q1 - q) * mx = c + 1) as E by lia. assert (q1 - q <= 1) by nia.
        assert (1 <= q1 - q) by nia. assert (q1 - q = 1) as E' by lia. rewrite E' in E. lia. }
      rewrite Badv by lia. cbn [bind]. f_equal. f_equal; try lia. f_equal. lia.
    - rewrite cnot_nz by lia. rewrite !Z.mul_0_l.
      assert (q1 = q /\ c = c1 - 1) as [-> ->].
      { assert ((q1 - q) * mx = c - (c1 - 1)) as E by lia. assert (q1 - q <= 0) by nia.
        assert (0 <= q1 - q) by nia. assert (q1 - q = 0) as E' by lia. rewrite E' in E. lia. }
      rewrite Badv by lia. cbn [bind]. f_equal. f_equal; try lia. f_equal. lia.
  Qed.

  (** Jumps within the range, forward or backward, except backward jumps that
      leave the current block by an exact multiple of the block length. *)
  Lemma fs_adv_at k d :
    0 <= k <= sz -> 0 <= k + d < sz ->
    (0 <= d + hcur mx nb k \/ (d + hcur mx nb k) mod mx <> 0) ->
    fsi_adv O (F k) d = Some (F (k + d)).
  Proof.
    intros Hk Hd Hcond. destruct (block k ltac:(lia)) as (q & Hq & Ek & Eg & Hc & Hc' & _).
    destruct (gpos_range k ltac:(lia)) as [Hg1 Hg2].
    destruct (gpos_range (k + d) ltac:(lia)) as [Hg3 Hg4].
    unfold fsi_adv, F, fs_at. cbn [f_first f_stride f_max f_dtl f_cur].
    set (c := hcur mx nb k) in *. set (g := gpos s mx nb k) in *.
    unfold sz in *.
    rewrite (cnot_nz (nb * mx - k - d)) by lia. rewrite !Z.mul_0_l.
    unfold cdiv, cmod. destruct (Z.eqb_spec mx 0); [lia|]. cbn [bind].
    set (qq := (d + c) / mx). set (rr := (d + c) mod mx).
    assert (d + c = mx * qq + rr) as Edm by (apply Z.div_mod; lia).
    assert (0 <= rr < mx) as Hrr by (apply Z.mod_pos_bound; lia).
    assert (k + d = (q + qq) * mx + rr) as Ekd by lia.
    assert (0 <= q + qq < nb) as Hqq by nia.
    destruct (block_unique (q + qq) rr Hqq Hrr) as [E1 E2]. rewrite <- Ekd in E1, E2.
    assert (Z.quot (d + c) mx * s - b2z (d + c <? 0) * s = qq * s /\
            b2z (d + c <? 0) * mx + Z.rem (d + c) mx = rr) as [Ed Er].
    { unfold b2z. destruct (Z.ltb_spec (d + c) 0).
      - assert (rr <> 0) by (unfold rr; destruct Hcond; [lia|assumption]).
        assert (Z.quot (d + c) mx = qq + 1) as ->.
        { replace (d + c) with (- (- (d + c))) by lia. rewrite Z.quot_opp_l by lia.
          rewrite Z.quot_div_nonneg by lia.
          assert (- (d + c) / mx = - qq - 1) as ->; [|lia].
          symmetry. apply Z.div_unique with (r := mx - rr); lia. }
        assert (Z.rem (d + c) mx = rr - mx) as ->.
        { replace (d + c) with (- (- (d + c))) by lia. rewrite Z.rem_opp_l by lia.
          rewrite Z.rem_mod_nonneg by lia.
          assert (- (d + c) mod mx = mx - rr) as ->; [|lia].
          symmetry. apply Z.mod_unique with (q := - qq - 1); lia. }
        lia.
      - rewrite Z.quot_div_nonneg, Z.rem_mod_nonneg by lia. fold qq rr. lia. }
    rewrite E1 in *.
    rewrite Badv; [|lia|lia]. cbn [bind]. f_equal. rewrite E2. f_equal; try lia. f_equal. lia.
  Qed.

  (** Jumping exactly to the end lands one element too far. *)
  Lemma fs_adv_end k :
    0 <= k < sz ->
    fsi_adv O (F k) (sz - k) =
    Some (mkFsi (B (gpos s mx nb sz + 1)) s mx 0 (hcur mx nb sz)).
  Proof.
    intros Hk. destruct (block k ltac:(lia)) as (q & Hq & Ek & Eg & Hc & Hc' & _).
    destruct (gpos_range k ltac:(lia)) as [Hg1 Hg2].
    destruct (gpos_range sz ltac:(lia)) as [Hg3 Hg4].
    destruct (block sz ltac:(lia)) as (qe & Hqe & Eke & Ege & Hce & _ & Hqe').
    rewrite (Hqe' eq_refl) in *.
    unfold fsi_adv, F, fs_at. cbn [f_first f_stride f_max f_dtl f_cur].
    set (c := hcur mx nb k) in *. set (g := gpos s mx nb k) in *.
    replace (nb * mx - k - (sz - k)) with 0 by (unfold sz; lia).
    change (cnot 0) with 1.
    assert (sz - k + c = (nb - q) * mx) as Eb by (unfold sz; lia). rewrite Eb.
    unfold cdiv, cmod. destruct (Z.eqb_spec mx 0); [lia|]. cbn [bind].
    rewrite Z.quot_mul, Z.rem_mul by lia.
    destruct (Z.ltb_spec ((nb - q) * mx) 0); [nia|]. cbn [b2z].
    assert (hcur mx nb sz = mx) as Eh by (unfold sz in *; lia).
    rewrite Badv; [|lia|lia]. cbn [bind]. f_equal. f_equal; try lia. f_equal. lia.
  Qed.

  Lemma fs_pair_at k : 0 <= k <= sz ->
    fsi_pair O (F k) = Some (B (gpos s mx nb k), B (gpos s mx nb k + s)).
  Proof.
    intros Hk. destruct (gpos_range k Hk). unfold fsi_pair, F, fs_at.
    cbn [f_first f_stride]. rewrite Badv by lia. reflexivity.
  Qed.

  Lemma fs_dist_at k l : fsi_dist (F k) (F l) = l - k.
  Proof using Type. clear Binc Bdec Badv O. unfold fsi_dist, F, fs_at; simpl. lia. Qed.

  Lemma gpos_lt k l : 0 <= k < l -> l <= sz -> gpos s mx nb k < gpos s mx nb l.
  Proof using Hs Hmx Hnb. clear F Binc Bdec Badv O B A.
    intros Hk Hl. destruct (block k ltac:(lia)) as (q & Hq & Ek & Eg & Hc & Hc' & _).
    destruct (block l ltac:(lia)) as (r & Hr & El & Eg' & Hd & _).
    rewrite Eg, Eg'. assert (q <= r) by nia. nia.
  Qed.
End Family.

(** ** The pairs of a traversal along dimension [length pre] *)

Lemma rav_app n1 n2 c1 c2 :
  length c1 = length n1 -> rav (n1 ++ n2) (c1 ++ c2) = rav n1 c1 * prodZ n2 + rav n2 c2.
Proof.
  revert c1; induction n1 as [|x n1 IH]; intros [|y c1] HL; try discriminate; [reflexivity|].
  cbn [app rav]. rewrite IH by (simpl in HL; lia). rewrite prodZ_app. ring.
Qed.

Lemma in_range_app_inv n1 n2 c :
  in_range (n1 ++ n2) c -> exists c1 c2, c = c1 ++ c2 /\ in_range n1 c1 /\ in_range n2 c2.
Proof. intros H. apply Forall2_app_inv_l in H as (c1 & c2 & H1 & H2 & ->). eauto. Qed.

Lemma in_range_app n1 n2 c1 c2 :
  in_range n1 c1 -> in_range n2 c2 -> in_range (n1 ++ n2) (c1 ++ c2).
Proof. apply Forall2_app. Qed.

Section Pairs.
  Context (pre post : list Z) (x : Z).
  Context (Hpre : Forall (fun x => 1 <= x) pre) (Hpost : Forall (fun x => 1 <= x) post)
          (Hx : 2 <= x).
  Let n' := pre ++ x :: post.          (* the traversal *)
  Let n := pre ++ (x - 1) :: post.     (* the pairs *)
  Let s := prodZ post.
  Let mx := (x - 1) * s.
  Let nb := prodZ pre.

  Lemma pairs_pos : 1 <= s /\ 1 <= mx /\ 1 <= nb.
  Proof.
    pose proof (prodZ_pos _ Hpre). pose proof (prodZ_pos _ Hpost).
    unfold s, mx, nb in *. repeat split; try lia; nia.
  Qed.

  Lemma pairs_n_pos : Forall (fun x => 1 <= x) n /\ Forall (fun x => 1 <= x) n'.
  Proof.
    unfold n, n'. split; apply Forall_app; split; auto; constructor; auto; lia.
  Qed.

  Lemma pairs_size : prodZ n = nb * mx /\ prodZ n' = nb * (mx + s).
  Proof. unfold n, n', nb, mx, s. rewrite !prodZ_app, !prodZ_cons. split; ring. Qed.

  (** Coordinates of the two elements of the [k]-th pair. *)
  Lemma pairs_coord k : 0 <= k < prodZ n ->
    exists cp y cq, unrav n k = cp ++ y :: cq /\ length cp = length pre /\
      unrav n' (gpos s mx nb k) = cp ++ y :: cq /\
      unrav n' (gpos s mx nb k + s) = cp ++ (y + 1) :: cq.
  Proof.
    intros Hk. destruct pairs_pos as (Hs & Hm & Hn). destruct pairs_n_pos as [Hn1 Hn2].
    destruct pairs_size as [Es1 Es2].
    pose proof (unrav_in_range n k Hn1 Hk) as HR.
    pose proof (rav_unrav n k) as HE.
    assert (n <> []) as Hne by (unfold n; destruct pre; discriminate).
    specialize (HE Hne Hn1).
    destruct (in_range_app_inv _ _ _ HR) as (cp & c2 & Ec & Hcp & Hc2).
    inversion Hc2 as [|? y ? cq Hy Hcq]; subst.
    exists cp, y, cq. pose proof (in_range_length _ _ Hcp) as HLp.
    split; [exact Ec|]. split; [exact HLp|].
    rewrite Ec in HE. unfold n in HE. rewrite rav_app in HE by exact HLp.
    cbn [rav] in HE. rewrite prodZ_cons in HE. fold s mx in HE.
    pose proof (rav_bound _ _ Hcq) as Hb. fold s in Hb.
    pose proof (rav_bound _ _ Hcp) as Hbp. fold nb in Hbp.
    assert (gpos s mx nb k = k + rav pre cp * s) as Eg.
    { unfold gpos. rewrite Es1 in Hk. destruct (Z.ltb_spec k (nb * mx)); [|lia].
      f_equal. f_equal. symmetry. apply Z.div_unique with (r := y * s + rav post cq); [|lia].
      left. unfold mx in *. nia. }
    assert (in_range n' (cp ++ y :: cq)) as R1.
    { unfold n'. apply in_range_app; [assumption|]. constructor; [lia|assumption]. }
    assert (in_range n' (cp ++ (y + 1) :: cq)) as R2.
    { unfold n'. apply in_range_app; [assumption|]. constructor; [lia|assumption]. }
    split.
    - rewrite <- (unrav_rav n' (cp ++ y :: cq)) by assumption. f_equal.
      unfold n'. rewrite rav_app by exact HLp. cbn [rav]. rewrite prodZ_cons. fold s.
      rewrite Eg. unfold mx in *. lia.
    - rewrite <- (unrav_rav n' (cp ++ (y + 1) :: cq)) by assumption. f_equal.
      unfold n'. rewrite rav_app by exact HLp. cbn [rav]. rewrite prodZ_cons. fold s.
      rewrite Eg. unfold mx in *. lia.
  Qed.

  (** The iterator built by [stencil<I>()] is the begin of the family. *)
  Lemma mti_stencil_at base st flag :
    mti_stencil (mt_at base st n' flag 0) (length pre) =
    fs_at (mt_at base st n' flag) s mx nb 0.
  Proof.
    destruct pairs_pos as (Hs & Hm & Hn). destruct pairs_n_pos as [Hn1 Hn2].
    unfold mti_stencil, mt_at, make_forward_stencil, fs_at. cbn [m_n].
    assert (map (fun i => if Nat.eqb i (length pre) then aget n' i - 1 else aget n' i)
                (seq 0 (length n')) = n) as ->.
    { apply aget_ext; rewrite map_length, seq_length; unfold n, n'.
      - rewrite !app_length. reflexivity.
      - intros i Hi. rewrite aget_map_seq by exact Hi. simpl Nat.add.
        unfold aget. destruct (Nat.eqb_spec i (length pre)) as [->|Hne].
        + rewrite !app_nth2 by lia. rewrite Nat.sub_diag. reflexivity.
        + destruct (Nat.lt_ge_cases i (length pre)).
          * rewrite !app_nth1 by lia. reflexivity.
          * rewrite !app_nth2 by lia. destruct (i - length pre)%nat eqn:E; [lia|]. reflexivity. }
    rewrite !stride_dim_skipn by lia.
    replace (Z.to_nat (Z.of_nat (length pre) + 1)) with (length pre + 1)%nat by lia.
    replace (Z.to_nat (Z.of_nat (length pre) - 1 + 1)) with (length pre) by lia.
    change (Z.to_nat (-1 + 1)) with 0%nat. cbn [skipn].
    assert (skipn (length pre + 1) n' = post) as ->.
    { unfold n'. rewrite skipn_app. rewrite skipn_all2 by lia.
      replace (length pre + 1 - length pre)%nat with 1%nat by lia. reflexivity. }
    assert (skipn (length pre) n = (x - 1) :: post) as ->.
    { unfold n. rewrite skipn_app, skipn_all, Nat.sub_diag. reflexivity. }
    destruct pairs_size as [Es1 _]. rewrite Es1, prodZ_cons. fold s. fold mx.
    unfold gpos, hcur. destruct (Z.ltb_spec 0 (nb * mx)); [|nia].
    rewrite Z.div_0_l, Z.mod_0_l by lia. rewrite Z.sub_0_r. reflexivity.
  Qed.
End Pairs.
