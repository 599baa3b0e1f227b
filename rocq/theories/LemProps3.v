(** * Lemmas behind the forward stencil properties *)

From Coq Require Import ZifyBool ZifyNat Permutation.
From Verif Require Import Base ModelBounds ModelMatrix ModelIters ModelSpan Spec SpecIter
  LemBase LemMatrix LemFsi LemDomain LemProps LemProps2.
Import ListNotations.
Open Scope Z_scope.

Lemma aset_app {A} (l1 : list A) x l2 v : aset (l1 ++ x :: l2) (length l1) v = l1 ++ v :: l2.
Proof. induction l1; simpl; congruence. Qed.

Lemma aget_app_mid l1 x l2 : aget (l1 ++ x :: l2) (length l1) = x.
Proof. unfold aget. rewrite app_nth2 by lia. rewrite Nat.sub_diag. reflexivity. Qed.

Lemma split_at (n : list Z) I : (I < length n)%nat ->
  exists pre post, n = pre ++ aget n I :: post /\ length pre = I.
Proof.
  intros H. exists (firstn I n), (skipn (I + 1) n). split.
  - rewrite <- (firstn_skipn I n) at 1. f_equal. unfold aget.
    revert I H; induction n as [|x n IH]; intros [|I] H; simpl in *; try lia; [reflexivity|].
    apply IH. lia.
  - rewrite firstn_length. lia.
Qed.

Lemma mti_ra_range base st n flag : box n -> ra_range mti_ops (mt_at base st n flag) (prodZ n).
Proof.
  intros [Hne Hn]. split; intros; cbn [mti_ops o_inc o_dec o_adv o_eqb].
  - rewrite mti_inc_at by auto. reflexivity.
  - rewrite mti_dec_at by auto. reflexivity.
  - apply mti_adv_at; auto.
  - apply mti_equal_at; auto.
Qed.

Lemma ptr_ra_range base M : ra_range ptr_ops (padd base) M.
Proof.
  split; intros; cbn [ptr_ops o_inc o_dec o_adv o_eqb]; rewrite ?padd_padd; try reflexivity.
  - do 2 f_equal. lia.
  - unfold padd; simpl. destruct (Z.eqb_spec p q); destruct (Z.eqb_spec (snd base + p) (snd base + q)); lia.
Qed.

(** The stencil method of a traversal is [stencil_begin]. *)
Lemma mti_stencil_begin it I : (I < length (m_n it))%nat -> mti_stencil it I = stencil_begin it (m_n it) I.
Proof.
  intros HI. unfold mti_stencil, stencil_begin.
  assert (map (fun i => if Nat.eqb i I then aget (m_n it) i - 1 else aget (m_n it) i)
              (seq 0 (length (m_n it))) = reduced (m_n it) I) as ->.
  { unfold reduced. apply aget_ext; rewrite map_length, seq_length; [symmetry; apply aset_length|].
    intros i Hi. rewrite aget_map_seq by exact Hi. rewrite aget_aset. simpl Nat.add.
    rewrite (Nat.eqb_sym I i). destruct (Nat.eqb_spec i I) as [->|Hne]; [|reflexivity].
    destruct (Nat.ltb_spec I (length (m_n it))); [reflexivity|lia]. }
  rewrite !stride_dim_skipn by lia.
  replace (Z.to_nat (Z.of_nat I + 1)) with (I + 1)%nat by lia.
  replace (Z.to_nat (Z.of_nat I - 1 + 1)) with I by lia. reflexivity.
Qed.

Section Fwd.
  Context {A : Type} (O : IterOps A) (B : Z -> A) (n : list Z) (I : nat).
  Context (Hbox : box n) (HI : (I < length n)%nat) (Hx : 2 <= aget n I).
  Context (HB : ra_range O B (prodZ n)).

  Let s := prodZ (skipn (I + 1) n).
  Let mx := prodZ (skipn I (reduced n I)).
  Let nb := prodZ (firstn I n).

  Lemma fwd_shape : exists pre post x,
    n = pre ++ x :: post /\ length pre = I /\ reduced n I = pre ++ (x - 1) :: post /\
    s = prodZ post /\ mx = (x - 1) * prodZ post /\ nb = prodZ pre /\
    Forall (fun x => 1 <= x) pre /\ Forall (fun x => 1 <= x) post /\ 2 <= x.
  Proof using Hbox HI Hx. clear HB B O A. destruct (split_at n I HI) as (pre & post & En & EI). exists pre, post, (aget n I).
    remember (aget n I) as x eqn:Ex.
    assert (reduced n I = pre ++ (x - 1) :: post) as Er.
    { unfold reduced. rewrite <- Ex. rewrite En, <- EI. apply aset_app. }
    destruct Hbox as [_ Hn]. rewrite En in Hn. apply Forall_app in Hn as [H1 H2].
    inversion H2 as [|? ? H3 H4]; subst x0 l.
    split; [exact En|]. split; [exact EI|]. split; [exact Er|].
    split; [|split; [|split; [|split; [exact H1|split; [exact H4|exact Hx]]]]].
    - unfold s. rewrite En, <- EI. rewrite skipn_app, skipn_all2 by lia.
      replace (length pre + 1 - length pre)%nat with 1%nat by lia. reflexivity.
    - unfold mx. rewrite Er, <- EI, skipn_app, skipn_all, Nat.sub_diag. simpl. apply prodZ_cons.
    - unfold nb. rewrite En, <- EI. rewrite firstn_app, firstn_all, Nat.sub_diag, firstn_O, app_nil_r. reflexivity.
  Qed.

  Lemma fwd_facts :
    1 <= s /\ 1 <= mx /\ 1 <= nb /\ prodZ n = nb * (mx + s) /\ prodZ (reduced n I) = nb * mx /\
    box (reduced n I).
  Proof using Hbox HI Hx. clear HB B O A. destruct fwd_shape as (pre & post & x & En & EI & Er & Es & Em & Eb & H1 & H2 & Hx2).
    destruct (pairs_pos pre post x H1 H2 Hx2) as (P1 & P2 & P3).
    destruct (pairs_size pre post x) as [S1 S2].
    rewrite Es, Em, Eb. rewrite <- En in S2. rewrite <- Er in S1. repeat split; auto.
    - rewrite Er. destruct pre; discriminate.
    - rewrite Er. apply (pairs_n_pos pre post x H1 H2 Hx2).
  Qed.

  Lemma stencil_begin_at : stencil_begin (B 0) n I = fs_at B s mx nb 0.
  Proof using Hbox HI Hx. clear HB O. destruct fwd_facts as (Hs & Hm & Hn & E1 & E2 & _).
    unfold stencil_begin, make_forward_stencil, fs_at. fold s mx. rewrite E2.
    unfold gpos, hcur. destruct (Z.ltb_spec 0 (nb * mx)); [|nia].
    rewrite Z.div_0_l, Z.mod_0_l by lia. rewrite Z.sub_0_r. reflexivity.
  Qed.

  Let Binc : forall p, 0 <= p < nb * (mx + s) -> o_inc O (B p) = Some (B (p + 1)).
  Proof. destruct fwd_facts as (_ & _ & _ & E1 & _). rewrite <- E1. apply (ra_inc _ _ _ HB). Qed.
  Let Bdec : forall p, 0 <= p < nb * (mx + s) -> o_dec O (B (p + 1)) = Some (B p).
  Proof. destruct fwd_facts as (_ & _ & _ & E1 & _). rewrite <- E1. apply (ra_dec _ _ _ HB). Qed.
  Let Badv : forall p d, 0 <= p <= nb * (mx + s) -> 0 <= p + d <= nb * (mx + s) -> o_adv O (B p) d = Some (B (p + d)).
  Proof. destruct fwd_facts as (_ & _ & _ & E1 & _). rewrite <- E1. apply (ra_adv _ _ _ HB). Qed.

  Lemma fsteps_at k p : 0 <= p -> p + Z.of_nat k <= prodZ (reduced n I) ->
    fsteps O k (fs_at B s mx nb p) = Some (fs_at B s mx nb (p + Z.of_nat k)).
  Proof.
    destruct fwd_facts as (Hs & Hm & Hn & E1 & E2 & _). rewrite E2.
    revert p; induction k as [|k IH]; intros p Hp Hk; [simpl; rewrite Z.add_0_r; reflexivity|].
    cbn [fsteps]. rewrite (fs_inc_at O B s mx nb Hs Hm Hn Binc Bdec Badv) by lia. cbn [bind].
    rewrite IH by lia. do 2 f_equal. lia.
  Qed.

  (** Stepping forward: the k-th pair. *)
  Lemma fwd_pair k c : in_box (reduced n I) c -> ravel (reduced n I) c = Z.of_nat k ->
    exists f, fsteps O k (stencil_begin (B 0) n I) = Some f /\
      fsi_pair O f = Some (B (ravel n c), B (ravel n (bump c I))).
  Proof.
    intros Hc Hk. destruct fwd_facts as (Hs & Hm & Hn & E1 & E2 & [Hne Hr]).
    pose proof (in_range_length _ _ Hc) as HLc.
    rewrite ravel_rav in Hk by auto. pose proof (rav_bound _ _ Hc) as Hb.
    rewrite stencil_begin_at, fsteps_at by lia. rewrite Z.add_0_l. eexists; split; [reflexivity|].
    rewrite (fs_pair_at O B s mx nb Hs Hm Hn Binc Bdec Badv) by lia.
    destruct fwd_shape as (pre & post & x & En & EI & Er & Es & Em & Eb & H1 & H2 & Hx2).
    destruct (pairs_coord pre post x H1 H2 Hx2 (Z.of_nat k)) as (cp & y & cq & U1 & U2 & U3 & U4).
    { rewrite <- Er. lia. }
    rewrite <- Er in U1. rewrite <- Hk, unrav_rav in U1 by assumption.
    rewrite <- En in U3, U4. rewrite <- Em, <- Es, <- Eb in U3, U4.
    destruct (gpos_range s mx nb Hs Hm Hn (Z.of_nat k)) as [G1 G2]; [lia|].
    destruct Hbox as [Hne' Hn'].
    assert (bump c I = cp ++ (y + 1) :: cq) as Ebump.
    { unfold bump. rewrite U1, <- EI, <- U2, aget_app_mid. apply aset_app. }
    assert (length c = length n) as HLn by (rewrite HLc; unfold reduced; apply aset_length).
    assert (length (bump c I) = length n) as HLb by (unfold bump; rewrite aset_length; exact HLn).
    rewrite !ravel_rav by auto. rewrite U1 at 1. rewrite <- U3.
    rewrite Ebump, <- U4. rewrite !rav_unrav by auto. reflexivity.
  Qed.

  Lemma fwd_inc_dec k : (Z.of_nat k < prodZ (reduced n I)) ->
    exists f f', fsteps O k (stencil_begin (B 0) n I) = Some f /\ fsi_inc O f = Some f' /\
      fsi_dec O f' = Some f /\ fsteps O (S k) (stencil_begin (B 0) n I) = Some f'.
  Proof.
    destruct fwd_facts as (Hs & Hm & Hn & E1 & E2 & _). intros Hk.
    rewrite stencil_begin_at, !fsteps_at by lia. do 2 eexists; split; [reflexivity|].
    rewrite (fs_inc_at O B s mx nb Hs Hm Hn Binc Bdec Badv) by lia. split; [reflexivity|].
    rewrite (fs_dec_at O B s mx nb Hs Hm Hn Binc Bdec Badv) by lia. split; [reflexivity|].
    do 2 f_equal. lia.
  Qed.

  (** Jumping. *)
  Lemma fwd_jump k d f :
    Z.of_nat k <= prodZ (reduced n I) -> 0 <= Z.of_nat k + d < prodZ (reduced n I) ->
    fsteps O k (stencil_begin (B 0) n I) = Some f ->
    0 <= d + f_cur f \/ (Z.of_nat k + d) mod prodZ (skipn I (reduced n I)) <> 0 ->
    fsi_adv O f d = fsteps O (Z.to_nat (Z.of_nat k + d)) (stencil_begin (B 0) n I).
  Proof.
    destruct fwd_facts as (Hs & Hm & Hn & E1 & E2 & _). intros Hk Hd Hf Hc.
    rewrite stencil_begin_at, fsteps_at in * by lia. rewrite Z.add_0_l in *. apply some_inj in Hf. subst f.
    cbn [fs_at f_cur] in Hc. fold mx in Hc.
    assert (0 <= d + hcur mx nb (Z.of_nat k) \/ (d + hcur mx nb (Z.of_nat k)) mod mx <> 0) as Hc2.
    { destruct Hc as [Hc|Hc]; [left; exact Hc|right]. intros E. apply Hc.
      destruct (block s mx nb Hs Hm Hn (Z.of_nat k)) as (q & _ & Ek & _); [lia|].
      rewrite Ek. replace (q * mx + hcur mx nb (Z.of_nat k) + d) with (d + hcur mx nb (Z.of_nat k) + q * mx) by lia.
      rewrite Z_mod_plus_full. exact E. }
    rewrite (fs_adv_at O B s mx nb Hs Hm Hn Binc Bdec Badv) by (try exact Hc2; lia).
    do 2 f_equal. lia.
  Qed.

  Lemma fwd_cur k f :
    Z.of_nat k <= prodZ (reduced n I) -> fsteps O k (stencil_begin (B 0) n I) = Some f ->
    f_cur f = (if Z.of_nat k =? prodZ (reduced n I) then prodZ (skipn I (reduced n I))
               else Z.of_nat k mod prodZ (skipn I (reduced n I))) /\
    fsi_size f = prodZ (reduced n I) - Z.of_nat k.
  Proof.
    destruct fwd_facts as (Hs & Hm & Hn & E1 & E2 & _). intros Hk Hf.
    rewrite stencil_begin_at, fsteps_at in Hf by lia. rewrite Z.add_0_l in *. apply some_inj in Hf. subst f.
    cbn [fs_at f_cur f_dtl fsi_size]. fold mx. rewrite E2 in *. unfold hcur. split; [|reflexivity].
    destruct (Z.ltb_spec (Z.of_nat k) (nb * mx)), (Z.eqb_spec (Z.of_nat k) (nb * mx)); try lia; reflexivity.
  Qed.

  Lemma fwd_jump_forward k d f :
    Z.of_nat (k + d) < prodZ (reduced n I) ->
    fsteps O k (stencil_begin (B 0) n I) = Some f ->
    fsi_adv O f (Z.of_nat d) = fsteps O (k + d) (stencil_begin (B 0) n I).
  Proof.
    intros Hk Hf. replace (k + d)%nat with (Z.to_nat (Z.of_nat k + Z.of_nat d)) by lia.
    apply fwd_jump; [lia|lia|exact Hf|]. left.
    destruct (fwd_cur k f ltac:(lia) Hf) as [-> _].
    pose proof (fwd_facts) as (_ & H1 & _). fold mx.
    destruct (Z.of_nat k =? prodZ (reduced n I)); [lia|]. pose proof (Z.mod_pos_bound (Z.of_nat k) mx). lia.
  Qed.

  Lemma fwd_dist k l f g :
    Z.of_nat k <= prodZ (reduced n I) -> Z.of_nat l <= prodZ (reduced n I) ->
    fsteps O k (stencil_begin (B 0) n I) = Some f -> fsteps O l (stencil_begin (B 0) n I) = Some g ->
    fsi_dist f g = Z.of_nat l - Z.of_nat k /\ (fsi_equal O f g = true <-> k = l).
  Proof.
    destruct fwd_facts as (Hs & Hm & Hn & E1 & E2 & _). intros Hk Hl Hf Hg.
    rewrite stencil_begin_at, fsteps_at in Hf, Hg by lia. rewrite Z.add_0_l in *.
    apply some_inj in Hf. apply some_inj in Hg. subst f g. split; [apply fs_dist_at|].
    unfold fsi_equal. cbn [fs_at f_first].
    destruct (gpos_range s mx nb Hs Hm Hn (Z.of_nat k)) as [G1 G2]; [lia|].
    destruct (gpos_range s mx nb Hs Hm Hn (Z.of_nat l)) as [G3 G4]; [lia|].
    rewrite (ra_eqb _ _ _ HB) by lia. rewrite Z.eqb_eq. split; [|intros ->; reflexivity].
    intros E. destruct (Nat.lt_trichotomy k l) as [H|[H|H]]; [|exact H|].
    - pose proof (gpos_lt s mx nb Hs Hm Hn (Z.of_nat k) (Z.of_nat l)). lia.
    - pose proof (gpos_lt s mx nb Hs Hm Hn (Z.of_nat l) (Z.of_nat k)). lia.
  Qed.

  (** Jumping to the end. *)
  Lemma fwd_jump_end k f e :
    Z.of_nat k < prodZ (reduced n I) ->
    fsteps O k (stencil_begin (B 0) n I) = Some f ->
    fsteps O (Z.to_nat (prodZ (reduced n I))) (stencil_begin (B 0) n I) = Some e ->
    exists g, fsi_adv O f (prodZ (reduced n I) - Z.of_nat k) = Some g /\
      o_inc O (f_first e) = Some (f_first g) /\ fsi_equal O e g = false.
  Proof.
    destruct fwd_facts as (Hs & Hm & Hn & E1 & E2 & _). intros Hk Hf He.
    rewrite stencil_begin_at, fsteps_at in Hf, He by lia. rewrite Z.add_0_l in *.
    apply some_inj in Hf. apply some_inj in He. subst f e. rewrite E2 in *.
    rewrite Z2Nat.id by nia.
    rewrite (fs_adv_end O B s mx nb Hs Hm Hn Binc Bdec Badv) by lia. eexists; split; [reflexivity|].
    cbn [fs_at f_first]. destruct (gpos_range s mx nb Hs Hm Hn (nb * mx)) as [G1 G2]; [nia|].
    rewrite Binc by lia. split; [reflexivity|]. unfold fsi_equal. cbn [fs_at f_first].
    rewrite (ra_eqb _ _ _ HB) by lia. apply Z.eqb_neq. lia.
  Qed.
End Fwd.

(** A backward jump onto an exact block multiple, over plain pointers. *)
Lemma fwd_back_too_far base n I k d f g :
  box n -> (I < length n)%nat -> 2 <= aget n I ->
  Z.of_nat k < prodZ (reduced n I) -> 0 <= Z.of_nat k + d ->
  d + Z.of_nat k mod prodZ (skipn I (reduced n I)) < 0 ->
  (Z.of_nat k + d) mod prodZ (skipn I (reduced n I)) = 0 ->
  fsteps ptr_ops k (stencil_begin base n I) = Some f ->
  fsteps ptr_ops (Z.to_nat (Z.of_nat k + d)) (stencil_begin base n I) = Some g ->
  exists h, fsi_adv ptr_ops f d = Some h /\ f_first h = padd (f_first g) (- f_stride f) /\
    fsi_equal ptr_ops h g = false.
Proof.
  intros Hbox HI Hx Hk Hkd Hneg Hmod Hf Hg.
  pose proof (fwd_facts n I Hbox HI Hx) as (Hs & Hm & Hn & E1 & E2 & _).
  assert (Eb : base = padd base 0) by (destruct base; unfold padd; simpl; f_equal; lia).
  rewrite Eb in Hf, Hg.
  rewrite (stencil_begin_at (padd base) n I Hbox HI Hx) in Hf, Hg.
  rewrite (fsteps_at ptr_ops (padd base) n I Hbox HI Hx (ptr_ra_range base _)) in Hf by lia.
  rewrite (fsteps_at ptr_ops (padd base) n I Hbox HI Hx (ptr_ra_range base _)) in Hg by lia.
  apply some_inj in Hf. apply some_inj in Hg. rewrite Z.add_0_l in *. subst f g.
  rewrite Z2Nat.id by lia. set (mx := prodZ (skipn I (reduced n I))) in *.
  set (s := prodZ (skipn (I + 1) n)) in *. set (nb := prodZ (firstn I n)) in *.
  unfold fsi_adv. cbn [fs_at f_first f_stride f_max f_dtl f_cur].
  rewrite (cnot_nz (nb * mx - Z.of_nat k - d)) by lia. rewrite !Z.mul_0_l.
  assert (hcur mx nb (Z.of_nat k) = Z.of_nat k mod mx) as Ec.
  { unfold hcur. destruct (Z.ltb_spec (Z.of_nat k) (nb * mx)); [reflexivity|lia]. }
  rewrite Ec. unfold cdiv, cmod. destruct (Z.eqb_spec mx 0); [lia|]. cbn [bind o_adv ptr_ops].
  eexists; split; [reflexivity|]. cbn [f_first].
  pose proof (Z.div_mod (Z.of_nat k) mx ltac:(lia)) as D1.
  pose proof (Z.div_mod (Z.of_nat k + d) mx ltac:(lia)) as D2. rewrite Hmod in D2.
  set (c := Z.of_nat k mod mx) in *. set (q := Z.of_nat k / mx) in *. set (q' := (Z.of_nat k + d) / mx) in *.
  assert (d + c = (q' - q) * mx) as Edc by lia.
  assert (Z.quot (d + c) mx = q' - q) as Eq.
  { rewrite Edc. apply Z.quot_mul. lia. }
  rewrite Eq. unfold b2z. destruct (Z.ltb_spec (d + c) 0); [|lia].
  assert (gpos s mx nb (Z.of_nat k) = Z.of_nat k + q * s) as G1.
  { unfold gpos. destruct (Z.ltb_spec (Z.of_nat k) (nb * mx)); [reflexivity|lia]. }
  assert (gpos s mx nb (Z.of_nat k + d) = Z.of_nat k + d + q' * s) as G2.
  { unfold gpos. destruct (Z.ltb_spec (Z.of_nat k + d) (nb * mx)); [reflexivity|lia]. }
  assert (padd (padd base (gpos s mx nb (Z.of_nat k))) (d + (q' - q) * s - 1 * s - 0) =
          padd (padd base (gpos s mx nb (Z.of_nat k + d))) (- s)) as Ep.
  { rewrite !padd_padd, G1, G2. f_equal. lia. }
  rewrite Ep. split; [reflexivity|].
  unfold fsi_equal. cbn [f_first o_eqb ptr_ops]. unfold padd; simpl. apply Z.eqb_neq. lia.
Qed.
