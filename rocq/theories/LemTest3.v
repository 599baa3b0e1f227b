(** * Lemmas behind the tests of the forward stencil iterator *)

From Coq Require Import ZifyBool ZifyNat.
From Verif Require Import Base ModelBounds ModelMatrix ModelIters ModelSpan Spec SpecIter
  KernelsTest SpecTest LemBase LemMatrix LemFsi LemProps LemProps2 LemProps3 LemFsi2.
Import ListNotations.
Open Scope Z_scope.

Lemma reduced_map n I : (I < length n)%nat ->
  map (fun i => if Nat.eqb i I then aget n i - 1 else aget n i) (seq 0 (length n)) = reduced n I.
Proof.
  intros HI. unfold reduced. apply aget_ext; rewrite map_length, seq_length; [symmetry; apply aset_length|].
  intros i Hi. rewrite aget_map_seq by exact Hi. rewrite aget_aset. cbn [Nat.add].
  rewrite (Nat.eqb_sym I i). destruct (Nat.eqb_spec i I) as [->|Hne]; [|reflexivity].
  destruct (Nat.ltb_spec I (length n)); [reflexivity|lia].
Qed.

Lemma reduced_fold n I : (I < length n)%nat ->
  fold_left (fun z i => z * (if Nat.eqb i I then aget n i - 1 else aget n i)) (seq 0 (length n)) 1
  = prodZ (reduced n I).
Proof.
  intros HI. rewrite <- (reduced_map n I HI). set (f := fun i => if Nat.eqb i I then aget n i - 1 else aget n i).
  change (fold_left (fun z i => z * f i) (seq 0 (length n)) 1 = prodZ (map f (seq 0 (length n)))). clearbody f.
  assert (forall l t, fold_left (fun z i => z * f i) l t = t * prodZ (map f l)) as H.
  { induction l as [|x l IH]; intros t; cbn [fold_left map]; [change (prodZ []) with 1; ring|].
    rewrite IH, prodZ_cons. ring. }
  rewrite H. ring.
Qed.

(** Adjacent layers of the rows. *)
Lemma forward_begin u n I : (I < length n)%nat ->
  make_forward_stencil u (stride_dim (Z.of_nat I) n) (stride_dim (Z.of_nat I - 1) (reduced n I))
    (stride_dim (-1) (reduced n I)) = stencil_begin (u : ptr) n I.
Proof.
  intros HI. unfold stencil_begin. rewrite stride_dim_m1, !stride_dim_skipn by lia.
  replace (Z.to_nat (Z.of_nat I + 1)) with (I + 1)%nat by lia.
  replace (Z.to_nat (Z.of_nat I - 1 + 1)) with I by lia. reflexivity.
Qed.

Section Forward.
  Context {S : Scalar}.

  Lemma transform_lem (v : ptr) n I (Hb : box n) (HI : (I < length n)%nat) (Hx : 2 <= aget n I) (V : Z -> S) :
    forall cnt p s (y : ptr) (m : mem S) W, fst v <> fst y ->
    fsteps ptr_ops p (stencil_begin v n I) = Some s ->
    Z.of_nat p + Z.of_nat cnt <= prodZ (reduced n I) ->
    holds m v (prodZ n) V -> holds m y (Z.of_nat cnt) W ->
    exists m', t_transform cnt s y m = Some m' /\ only y (Z.of_nat cnt) m m' /\
      holds m' y (Z.of_nat cnt) (fun k =>
        let c := unrav (reduced n I) (Z.of_nat p + k) in
        (V (ravel n (bump c I)) - V (ravel n c))%T).
  Proof.
    assert (HB := ptr_ra_range v (prodZ n)).
    assert (Hv0 : v = padd v 0) by (destruct v; unfold padd; cbn; f_equal; lia).
    induction cnt as [|cnt IH]; intros p s y m W Hne Hs Hc HV HW.
    - exists m. split; [reflexivity|]. split; [repeat split; auto|]. intros k Hk; lia.
    - destruct (fwd_facts n I Hb HI Hx) as (_ & _ & _ & _ & _ & Hbr). pose proof Hbr as [Hr1 Hr2].
      set (c := unrav (reduced n I) (Z.of_nat p)).
      assert (in_box (reduced n I) c) as Hc0 by (apply unrav_in_range; auto; lia).
      assert (ravel (reduced n I) c = Z.of_nat p) as Ec.
      { rewrite ravel_rav by (auto; apply in_range_length; exact Hc0). apply rav_unrav; auto; lia. }
      destruct (fwd_pair ptr_ops (fun k => padd v k) n I Hb HI Hx HB p c Hc0 Ec) as (s0 & Es & Ep).
      rewrite <- Hv0 in Es. rewrite Hs in Es. injection Es as <-.
      destruct (fwd_inc_dec ptr_ops (fun k => padd v k) n I Hb HI Hx HB p) as (f & f' & F1 & F2 & _ & F3); [lia|].
      rewrite <- Hv0 in F1, F3. rewrite Hs in F1. injection F1 as <-.
      destruct (reduced_in_box n I c HI Hc0) as [B1 B2].
      destruct (ravel_bijective n Hb) as (R1 & _ & _).
      cbn [t_transform]. rewrite Ep. cbn [bind fst snd]. rewrite !HV by (apply R1; assumption). cbn [bind].
      destruct (proj1 (store_Some m y (V (ravel n (bump c I)) - V (ravel n c))%T)) as [m1 E1].
      { exists (W 0). rewrite <- HW by lia. f_equal. destruct y; unfold padd; cbn; f_equal; lia. }
      rewrite E1. cbn [bind]. rewrite F2. cbn [bind].
      destruct (IH (Datatypes.S p) f' (padd y 1) m1 (fun k => W (k + 1))) as (m' & E2 & (O1 & O2 & O3) & R).
      + exact Hne.
      + exact F3.
      + lia.
      + intros k Hk. rewrite (load_store _ _ _ _ _ E1). destruct (ptr_dec _ _) as [e|e].
        * exfalso. apply Hne. rewrite e. reflexivity.
        * apply HV. lia.
      + intros k Hk. rewrite (load_store _ _ _ _ _ E1). destruct (ptr_dec _ _) as [e|e].
        * exfalso. apply (f_equal snd) in e. cbn in e. lia.
        * rewrite padd_padd. replace (1 + k) with (k + 1) by lia. apply HW. lia.
      + exists m'. split; [exact E2|]. split; [split; [|split]|].
        * rewrite O1. apply (store_ints _ _ _ _ E1).
        * rewrite O2. apply (store_shape _ _ _ _ E1).
        * intros q Hq. rewrite O3; [|intros k Hk; rewrite padd_padd; apply Hq; lia].
          rewrite (load_store _ _ _ _ _ E1). destruct (ptr_dec y q) as [e|e]; [|reflexivity].
          exfalso. apply (Hq 0); [lia|]. rewrite <- e. destruct y; unfold padd; cbn; f_equal; lia.
        * intros k Hk. destruct (Z.eq_dec k 0) as [->|Hk0].
          -- rewrite O3.
             ++ rewrite (load_store _ _ _ _ _ E1). destruct (ptr_dec _ _) as [e|e]; [rewrite Z.add_0_r; reflexivity|].
                exfalso. apply e. destruct y; unfold padd; cbn; f_equal; lia.
             ++ intros j Hj C. apply (f_equal snd) in C. cbn in C. lia.
          -- specialize (R (k - 1) ltac:(lia)). rewrite padd_padd in R. replace (1 + (k - 1)) with k in R by lia.
             rewrite R. cbv beta zeta. replace (Z.of_nat (Datatypes.S p) + (k - 1)) with (Z.of_nat p + k) by lia. reflexivity.
  Qed.

  Lemma forward_transform_lem I (v u : ptr) n (m : mem S) V U :
    box n -> (I < length n)%nat -> 2 <= aget n I -> fst v <> fst u ->
    holds m v (prodZ n) V -> holds m u (prodZ (reduced n I)) U ->
    exists m', forward_transform I v n u m = Some m' /\ only u (prodZ (reduced n I)) m m' /\
      forall c, in_box (reduced n I) c ->
        load m' (padd u (ravel (reduced n I) c)) = Some (V (ravel n (bump c I)) - V (ravel n c))%T.
  Proof.
    intros Hb HI Hx Hne HV HU. destruct (fwd_facts n I Hb HI Hx) as (Hs & Hm & Hn & E1 & E2 & Hbr).
    pose proof Hbr as [Hr1 Hr2]. pose proof (prodZ_pos _ Hr2) as Hp.
    assert (Hv0 : v = padd v 0) by (destruct v; unfold padd; cbn; f_equal; lia).
    destruct (transform_lem v n I Hb HI Hx V (Z.to_nat (prodZ (reduced n I))) 0 (stencil_begin v n I) u m U)
      as (m' & E & HO & HR); [exact Hne|reflexivity|lia|exact HV|rewrite Z2Nat.id by lia; exact HU|].
    rewrite Z2Nat.id in HO, HR by lia.
    exists m'. split; [|split; [exact HO|]].
    - unfold forward_transform. rewrite reduced_map, forward_begin by exact HI. rewrite stride_dim_m1.
      set (s := stencil_begin v n I) in * .
      assert (exists l, fsi_adv ptr_ops s (prodZ (reduced n I)) = Some l /\ fsi_dist s l = prodZ (reduced n I)) as (l & El & Ed).
      { unfold fsi_adv, s, stencil_begin, make_forward_stencil, cdiv, cmod. cbn [f_max f_dtl f_cur f_first f_stride].
        destruct (Z.eqb_spec (prodZ (skipn I (reduced n I))) 0); [lia|]. cbn [bind ptr_ops o_adv].
        eexists. split; [reflexivity|]. unfold fsi_dist. cbn [f_dtl]. lia. }
      rewrite El. cbn [bind]. rewrite Ed, Z.eqb_refl. cbn [require bind]. rewrite E. cbn [bind].
      assert (HB := ptr_ra_range v (prodZ n)).
      set (c := unrav (reduced n I) 0).
      assert (in_box (reduced n I) c) as Hc0 by (apply unrav_in_range; auto; lia).
      assert (ravel (reduced n I) c = Z.of_nat 0) as Ec.
      { rewrite ravel_rav by (auto; apply in_range_length; exact Hc0). apply rav_unrav; auto; lia. }
      destruct (fwd_pair ptr_ops (fun k => padd v k) n I Hb HI Hx HB 0 c Hc0 Ec) as (s0 & Es & Ep).
      rewrite <- Hv0 in Es. injection Es as Es. fold s in Es. subst s0. rewrite Ep. cbn [bind fst snd].
      destruct (reduced_in_box n I c HI Hc0) as [B1 B2].
      destruct (ravel_bijective n Hb) as (R1 & _ & _). destruct HO as (_ & _ & HO).
      rewrite !HO by (intros k _ C; apply Hne; exact (f_equal fst C)).
      rewrite !HV by (apply R1; assumption). reflexivity.
    - intros c Hc. destruct (ravel_bijective _ Hbr) as (R1 & _ & _). rewrite HR by (apply R1; exact Hc).
      cbv zeta. rewrite Z.add_0_l. rewrite (ravel_rav (reduced n I) c) by (auto; apply in_range_length; exact Hc).
      rewrite unrav_rav by assumption. reflexivity.
  Qed.
End Forward.

(** The moves of the init test. *)
Lemma forward_init_gen I (u : ptr) n : (I < length n)%nat ->
  let limit := stride_dim (Z.of_nat I - 1) n - 1 in
  let sz := prodZ (reduced n I) in
  2 <= limit -> 2 <= sz -> (I = 0%nat \/ limit < sz) ->
  forward_init I u n = Some tt.
Proof.
  intros HI limit sz Hl Hs Hc. unfold forward_init. fold limit.
  rewrite (reduced_fold n I HI). fold sz.
  set (st := stride_dim (Z.of_nat I) n).
  set (s := make_forward_stencil u st limit sz).
  assert (ADV : forall p dtl cur d, fsi_adv ptr_ops (mkFsi p st limit dtl cur) d =
     Some (mkFsi (padd p (d + Z.quot (d + cur) limit * st - b2z (d + cur <? 0) * st - cnot (dtl - d) * (st - 1)))
             st limit (dtl - d) (b2z (d + cur <? 0) * limit + Z.rem (d + cur) limit + cnot (dtl - d) * limit))).
  { intros. unfold fsi_adv, cdiv, cmod. cbn [f_max f_dtl f_cur f_first f_stride].
    destruct (Z.eqb_spec limit 0); [lia|]. reflexivity. }
  assert (INC : forall p dtl cur, fsi_inc ptr_ops (mkFsi p st limit dtl cur) =
     let r := cnot (cnot (dtl - 1)) * cnot (limit - (cur + 1)) in
     Some (mkFsi (padd p (1 + r * st)) st limit (dtl - 1) (cur + 1 - r * limit))).
  { intros. unfold fsi_inc. cbn [f_max f_dtl f_cur f_first f_stride ptr_ops o_inc o_adv bind]. rewrite padd_padd. reflexivity. }
  assert (DEC : forall p dtl cur, fsi_dec ptr_ops (mkFsi p st limit dtl cur) =
     let r := cnot (1 + (cur - 1)) in
     Some (mkFsi (padd p (-1 + - (r * st))) st limit (dtl + 1) (cur - 1 + r * limit))).
  { intros. unfold fsi_dec. cbn [f_max f_dtl f_cur f_first f_stride ptr_ops o_dec o_adv bind]. rewrite padd_padd. reflexivity. }
  assert (EQ : forall p q a b c d, p = q -> require (fsi_equal ptr_ops (mkFsi p st limit a b) (mkFsi q st limit c d)) = Some tt).
  { intros p q a b c d ->. unfold fsi_equal. cbn. unfold require. destruct q as [x y]. rewrite ?Nat.eqb_refl, ?Z.eqb_refl. reflexivity. }
  assert (DIST : forall p q a b c d z, a - c = z -> require (fsi_dist (mkFsi (p : ptr) st limit a b) (mkFsi q st limit c d) =? z) = Some tt).
  { intros. unfold fsi_dist. cbn [f_dtl]. unfold require. destruct (Z.eqb_spec (a - c) z); [reflexivity|lia]. }
  assert (P0 : forall p : ptr, padd p 0 = p) by (intros [x y]; unfold padd; cbn; f_equal; lia).
  assert (CN0 : cnot 0 = 1) by reflexivity.
  assert (CN : forall x, x <> 0 -> cnot x = 0) by apply cnot_nz.
  unfold s, make_forward_stencil in * . clear s.
  (* first group *)
  rewrite ADV. cbn [bind]. rewrite DIST by lia. cbn [bind].
  replace (1 + 0 <? 0) with false by lia. rewrite (CN (sz - 1)) by lia.
  rewrite (Z.quot_small (1 + 0)), (Z.rem_small (1 + 0)) by lia. cbn [b2z].
  rewrite DEC. cbv zeta. rewrite CN by lia. cbn [bind]. rewrite EQ by (rewrite padd_padd; rewrite <- (P0 u) at 2; f_equal; lia). cbn [bind].
  rewrite INC. cbv zeta. cbn [bind]. 
  rewrite (CN (limit - _)) by lia. rewrite Z.mul_0_r.
  rewrite DEC. cbv zeta. rewrite CN by lia. cbn [bind].
  rewrite EQ by (rewrite !padd_padd; rewrite <- (P0 u) at 2; f_equal; lia). cbn [bind].
  rewrite DIST by lia. cbn [bind].
  (* the loop *)
  match goal with |- context [forM ?l ?f tt] => assert (forM l f tt = Some tt) as -> end.
  { assert (forall l, forM l (fun (i : nat) (_ : unit) => b <- fsi_adv ptr_ops (mkFsi u st limit sz 0) (Z.of_nat i) ;;
              require (fsi_dist (mkFsi u st limit sz 0) b =? Z.of_nat i)) tt = Some tt) as H; [|apply H].
    induction l as [|x l IH]; [reflexivity|]. cbn [forM]. rewrite ADV. cbn [bind]. rewrite DIST by lia. cbn [bind]. exact IH. }
  cbn [bind]. rewrite ADV. cbn [bind]. rewrite DIST by lia. cbn [bind].
  rewrite INC. cbv zeta. cbn [bind]. rewrite DIST by lia. cbn [bind].
  rewrite ADV. cbn [bind]. rewrite DIST by lia. cbn [bind].
  destruct (Nat.eqb_spec I 0) as [E0|E0]; [reflexivity|]. destruct Hc as [Hc|Hc]; [contradiction|].
  rewrite (ADV u sz 0 limit). cbn [bind].
  replace (limit + 0 <? 0) with false by lia. rewrite (CN (sz - limit)) by lia.
  rewrite Z.add_0_r, Z.quot_same, Z.rem_same by lia. cbn [b2z].
  rewrite (ADV _ (sz - limit) _ (-1)). cbn [bind].
  replace (-1 + (0 * limit + 0 + 0 * limit)) with (-1) by lia. change (-1 <? 0) with true. cbn [b2z].
  rewrite (CN (sz - limit - -1)) by lia.
  assert (Z.quot (-1) limit = 0) as ->.
  { change (-1) with (- (1)). rewrite Z.quot_opp_l by lia. rewrite Z.quot_small by lia. reflexivity. }
  assert (Z.rem (-1) limit = -1) as ->.
  { change (-1) with (- (1)) at 1. rewrite Z.rem_opp_l by lia. rewrite Z.rem_small by lia. reflexivity. }
  rewrite padd_padd. replace (limit + 1 * st - 0 * st - 0 * (st - 1) + (-1 + 0 * st - 1 * st - 0 * (st - 1))) with (limit - 1) by ring.
  replace (1 * limit + -1 + 0 * limit) with (limit - 1) by lia.
  rewrite DIST by lia. cbn [bind].
  rewrite INC. cbv zeta. cbn [bind]. replace (limit - 1 + 1) with limit by lia. rewrite Z.sub_diag, CN0.
  rewrite (CN (sz - limit - -1 - 1)) by lia. rewrite CN0.
  rewrite DEC. cbv zeta. cbn [bind]. replace (1 + (limit - 1 * 1 * limit - 1)) with 0 by lia. rewrite CN0.
  rewrite DIST by lia. cbn [bind].
  rewrite ADV. cbn [bind].
  replace (1 + (limit - 1 * 1 * limit - 1 + 1 * limit)) with limit by lia.
  replace (limit <? 0) with false by lia. rewrite Z.quot_same, Z.rem_same by lia. cbn [b2z].
  rewrite (CN (sz - limit - -1 - 1 + 1 - 1)) by lia.
  rewrite DEC. cbv zeta. cbn [bind]. replace (1 + (0 * limit + 0 + 0 * limit - 1)) with 0 by lia. rewrite CN0.
  rewrite EQ by (rewrite !padd_padd; f_equal; ring). cbn [bind].
  rewrite DIST by lia. cbn [bind]. rewrite DIST by lia. cbn [bind].
  repeat (first [rewrite DIST by lia | rewrite INC; cbv zeta]; cbn [bind]). reflexivity.
Qed.

Lemma forward_init_lem I (u : ptr) n :
  box n -> (I < length n)%nat -> 2 <= aget n I ->
  (I = 0%nat -> 2 <= prodZ (reduced n I)) ->
  (I <> 0%nat -> 2 <= prodZ (firstn I n) /\ 3 <= prodZ (skipn I n)) ->
  forward_init I u n = Some tt.
Proof.
  intros Hb HI Hx H0 H1. destruct (fwd_facts n I Hb HI Hx) as (Hs & Hm & Hn & E1 & E2 & Hbr).
  destruct (fwd_shape n I Hb HI Hx) as (pre & post & x & En & EI & Er & Es & Em & Eb & P1 & P2 & P3).
  assert (Ek : prodZ (skipn I n) = x * prodZ post).
  { rewrite En, <- EI, skipn_app, skipn_all, Nat.sub_diag. cbn [app skipn]. apply prodZ_cons. }
  pose proof (prodZ_pos _ P2) as Pp.
  assert (EL : stride_dim (Z.of_nat I - 1) n = x * prodZ post).
  { rewrite stride_dim_skipn by lia. replace (Z.to_nat (Z.of_nat I - 1 + 1)) with I by lia. exact Ek. }
  set (mm := prodZ (skipn I (reduced n I))) in * . set (ss := prodZ (skipn (I + 1) n)) in * .
  set (nb := prodZ (firstn I n)) in * . set (q := prodZ post) in * .
  apply forward_init_gen; [exact HI|..].
  - rewrite EL. destruct (Nat.eq_dec I 0) as [e|e].
    + specialize (H0 e). rewrite E2 in H0. assert (nb = 1) as Hn1 by (unfold nb; rewrite e; reflexivity). nia.
    + destruct (H1 e). lia.
  - destruct (Nat.eq_dec I 0) as [e|e]; [auto|]. destruct (H1 e). rewrite E2. nia.
  - destruct (Nat.eq_dec I 0) as [e|e]; [left; exact e|right]. destruct (H1 e) as [A B]. rewrite EL, E2. nia.
Qed.
