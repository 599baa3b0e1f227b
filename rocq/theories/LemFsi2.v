(** * Forward stencils: exact jumps, jumps over traversals *)

From Coq Require Import ZifyBool ZifyNat Permutation.
From Verif Require Import Base ModelBounds ModelMatrix ModelIters ModelSpan Spec SpecIter
  LemBase LemMatrix LemFsi LemDomain LemProps LemProps2 LemProps3.
Import ListNotations.
Open Scope Z_scope.

(** Every jump to a position before the end, over plain pointers: right unless the
    target is the first of a block the jump enters from behind. *)
Lemma fwd_jump_exact base n I k d f g :
  box n -> (I < length n)%nat -> 2 <= aget n I ->
  Z.of_nat k <= prodZ (reduced n I) -> 0 <= Z.of_nat k + d < prodZ (reduced n I) ->
  fsteps ptr_ops k (stencil_begin base n I) = Some f ->
  fsteps ptr_ops (Z.to_nat (Z.of_nat k + d)) (stencil_begin base n I) = Some g ->
  fsi_adv ptr_ops f d = Some
    (if (d + f_cur f <? 0) && ((Z.of_nat k + d) mod f_max f =? 0)
     then mkFsi (padd (f_first g) (- f_stride f)) (f_stride f) (f_max f) (f_dtl g) (f_max f)
     else g).
Proof.
  intros Hbox HI Hx Hk Hkd Hf Hg.
  pose proof (fwd_facts n I Hbox HI Hx) as (Hs & Hm & Hn & E1 & E2 & _).
  assert (Eb : base = padd base 0) by (destruct base; unfold padd; simpl; f_equal; lia).
  destruct ((d + f_cur f <? 0) && ((Z.of_nat k + d) mod f_max f =? 0)) eqn:C.
  - apply andb_prop in C as [C1 C2]. apply Z.ltb_lt in C1. apply Z.eqb_eq in C2.
    rewrite Eb in Hf, Hg.
    rewrite (stencil_begin_at (padd base) n I Hbox HI Hx) in Hf, Hg.
    rewrite (fsteps_at ptr_ops (padd base) n I Hbox HI Hx (ptr_ra_range base _)) in Hf by lia.
    rewrite (fsteps_at ptr_ops (padd base) n I Hbox HI Hx (ptr_ra_range base _)) in Hg by lia.
    apply some_inj in Hf. apply some_inj in Hg. rewrite Z.add_0_l in *. subst f g.
    rewrite Z2Nat.id by lia. set (mx := prodZ (skipn I (reduced n I))) in *.
    set (s := prodZ (skipn (I + 1) n)) in *. set (nb := prodZ (firstn I n)) in *.
    cbn [fs_at f_first f_stride f_max f_dtl f_cur] in *.
    unfold fsi_adv. cbn [fs_at f_first f_stride f_max f_dtl f_cur].
    rewrite (cnot_nz (nb * mx - Z.of_nat k - d)) by lia. rewrite !Z.mul_0_l.
    unfold cdiv, cmod. destruct (Z.eqb_spec mx 0); [lia|]. cbn [bind o_adv ptr_ops].
    pose proof (Z.div_mod (Z.of_nat k + d) mx ltac:(lia)) as D2. rewrite C2 in D2.
    set (q' := (Z.of_nat k + d) / mx) in *.
    destruct (block s mx nb Hs Hm Hn (Z.of_nat k)) as (q & Hq & Ek & Eg & _); [lia|].
    set (c := hcur mx nb (Z.of_nat k)) in *.
    assert (d + c = (q' - q) * mx) as Edc by lia.
    rewrite Edc, Z.quot_mul, Z.rem_mul by lia. rewrite <- Edc.
    unfold b2z. destruct (Z.ltb_spec (d + c) 0); [|lia].
    assert (gpos s mx nb (Z.of_nat k + d) = Z.of_nat k + d + q' * s) as G2.
    { unfold gpos. destruct (Z.ltb_spec (Z.of_nat k + d) (nb * mx)); [reflexivity|lia]. }
    f_equal. f_equal; [|lia|lia]. rewrite !padd_padd, G2. f_equal. lia.
  - rewrite <- Hg. rewrite Eb. apply (fwd_jump ptr_ops (padd base) n I Hbox HI Hx (ptr_ra_range base _)).
    + exact Hk.
    + exact Hkd.
    + rewrite <- Eb. exact Hf.
    + rewrite Eb in Hf. rewrite (stencil_begin_at (padd base) n I Hbox HI Hx) in Hf.
      rewrite (fsteps_at ptr_ops (padd base) n I Hbox HI Hx (ptr_ra_range base _)) in Hf by lia.
      apply some_inj in Hf. subst f. cbn [fs_at f_max f_cur] in *.
      apply andb_false_iff in C as [C|C]; [left; apply Z.ltb_ge in C; exact C|right; apply Z.eqb_neq in C; exact C].
Qed.

(** ** Traversals *)

Lemma coordZ_ravel n c : box n -> in_box n c -> coordZ n (ravel n c) = c.
Proof.
  intros Hb Hc. pose proof Hb as [Hne Hn]. destruct (ravel_bijective n Hb) as (R1 & _ & _).
  specialize (R1 c Hc). unfold coordZ. destruct (Z.ltb_spec (ravel n c) (prodZ n)); [|lia].
  rewrite ravel_rav by (auto; eapply in_range_length; exact Hc). apply unrav_rav; auto.
Qed.

Lemma reduced_in_box n I c : (I < length n)%nat -> in_box (reduced n I) c -> in_box n c /\ in_box n (bump c I).
Proof.
  intros HI Hc. destruct (split_at n I HI) as (pre & post & En & EI).
  assert (Er : reduced n I = pre ++ (aget n I - 1) :: post).
  { unfold reduced. rewrite En at 1. rewrite <- EI. apply aset_app. }
  unfold in_box in *. rewrite Er in Hc. apply Forall2_app_inv_l in Hc as (c1 & c2 & H1 & H2 & ->).
  inversion H2 as [|? y ? cq Hy Hq]; subst. pose proof (in_range_length _ _ H1) as HL.
  split.
  - rewrite En at 1. apply Forall2_app; [exact H1|]. constructor; [lia|exact Hq].
  - unfold bump. rewrite <- HL, aget_app_mid, aset_app. rewrite En at 1. apply Forall2_app; [exact H1|].
    constructor; [lia|exact Hq].
Qed.

Lemma traversal_jump base st n flag I k d c :
  box n -> (I < length n)%nat -> 2 <= aget n I ->
  in_box (reduced n I) c -> ravel (reduced n I) c = Z.of_nat (k + d) ->
  exists f g, fsteps mti_ops k (mti_stencil (mti_begin base st n flag) I) = Some f /\
    fsi_adv mti_ops f (Z.of_nat d) = Some g /\
    fsteps mti_ops (k + d) (mti_stencil (mti_begin base st n flag) I) = Some g /\
    fsi_pair mti_ops g = Some (mkMti base st c n flag, mkMti base st (bump c I) n flag).
Proof.
  intros Hb HI Hx Hc Hk. rewrite mti_stencil_begin by exact HI. cbn [m_n mti_begin].
  rewrite mti_begin_at by exact Hb. pose proof (mti_ra_range base st n flag Hb) as HB.
  pose proof (fwd_facts n I Hb HI Hx) as (_ & _ & _ & _ & _ & Hbr).
  destruct (ravel_bijective _ Hbr) as (R1 & _ & _). specialize (R1 c Hc).
  destruct (fwd_pair mti_ops _ n I Hb HI Hx HB (k + d) c Hc Hk) as (g & Hg & Hp).
  destruct (reduced_in_box n I c HI Hc) as [B1 B2].
  unfold mt_at in Hp. rewrite !coordZ_ravel in Hp by assumption.
  assert (exists f, fsteps mti_ops k (stencil_begin (mt_at base st n flag 0) n I) = Some f) as (f & Hf).
  { rewrite (stencil_begin_at _ n I Hb HI Hx).
    rewrite (fsteps_at mti_ops _ n I Hb HI Hx HB) by lia. eexists; reflexivity. }
  exists f, g. split; [exact Hf|]. split; [|split; [exact Hg|exact Hp]].
  rewrite <- Hg. apply (fwd_jump_forward mti_ops _ n I Hb HI Hx HB); [lia|exact Hf].
Qed.
