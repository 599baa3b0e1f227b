(** * The order of boundary calls *)

From Coq Require Import Bool Permutation.
From Verif Require Import Base ModelBounds ModelMatrix ModelIters ModelSpan Spec SpecIter ModelSched
  LemBase LemDomain LemExpr LemExec LemSched SpecAssign LemAssign LemProps LemProps4
  FortranBase SpecKernel SpecBoundary SpecBCOrder LemKernel LemKernel2 LemBC LemBoundary.
Import ListNotations.
Open Scope Z_scope.

(** ** Steps that read and write known places *)

Section Confined.
  Context {S : Scalar}.

  Record confined (R W : ptr -> Prop) (P : mem S -> option (mem S)) : Prop := {
    cf_frame : forall m m', P m = Some m' ->
      shape m' = shape m /\ ints m' = ints m /\ forall p, W p \/ load m' p = load m p;
    cf_same : forall m1 m2, shape m1 = shape m2 -> ints m1 = ints m2 ->
      (forall p, R p -> load m1 p = load m2 p) ->
      orel (fun n1 n2 => forall p, W p -> load n1 p = load n2 p \/ load n1 p = load m1 p /\ load n2 p = load m2 p) (P m1) (P m2);
    cf_off : forall p, W p -> ~ R p }.

  Lemma confined_none (R W : ptr -> Prop) : (forall p, W p -> ~ R p) -> confined R W Some.
  Proof.
    intros Ho. split; auto.
    - intros m m' E; injection E as <-. auto.
    - intros m1 m2 _ _ _. cbn. intros p Hp. right; auto.
  Qed.

  Lemma confined_assign dom (a : @assign S) (R W : ptr -> Prop) :
    wf_dom dom -> wf_assign dom a ->
    (forall p, W p -> ~ R p) ->
    (forall pt, In pt (domain_points dom origin) -> W (addr (lhs_of a) pt)) ->
    (forall pt I p, In pt (domain_points dom origin) -> In p (assign_reads a pt I) -> R p) ->
    confined R W (with_domain dom [a]).
  Proof.
    intros Hd Ha Hoff HW HR.
    assert (forall pts m1 m2, incl pts (domain_points dom origin) ->
      shape m1 = shape m2 -> ints m1 = ints m2 -> (forall p, R p -> load m1 p = load m2 p) ->
      orel (fun n1 n2 => forall p, (exists pt, In pt pts /\ p = addr (lhs_of a) pt) \/ load m1 p = load m2 p -> load n1 p = load n2 p)
        (forM pts (assign_point a) m1) (forM pts (assign_point a) m2)) as Hsame.
    { induction pts as [|pt pts IH]; intros m1 m2 Hi Hs HI Hr; cbn [forM].
      - cbn. intros p [(pt & [] & _)|H]; exact H.
      - assert (In pt (domain_points dom origin)) as Hpt by (apply Hi; left; reflexivity).
        rewrite !assign_point_rhs.
        assert (rhs_at a pt m1 = rhs_at a pt m2) as Ev.
        { specialize (HR pt). destruct a as [x e|x t]; cbn [rhs_at assign_reads] in *; [|reflexivity]. rewrite (reads_sound e pt m1 m2 HI); [reflexivity|]. intros p Hp. apply Hr. eapply HR; eassumption. }
        rewrite Ev. destruct (rhs_at a pt m2) as [v|]; cbn [bind]; [|exact I].
        pose proof (store_agree (fun p => R p \/ load m1 p = load m2 p) m1 m2 (addr (lhs_of a) pt) v) as Hst.
        cbn [lhs_of] in Hst |- *.
        assert (agree (fun p => R p \/ load m1 p = load m2 p) m1 m2) as Hag.
        { split; [exact Hs|]. intros p [Hp|Hp]; auto. }
        specialize (Hst Hag).
        destruct (store m1 (addr (lhs_of a) pt) v) as [n1|] eqn:E1, (store m2 (addr (lhs_of a) pt) v) as [n2|] eqn:E2; cbn in Hst; try tauto; cbn [bind].
        destruct Hst as [Hs' Hl'].
        specialize (IH n1 n2 ltac:(intros y Hy; apply Hi; right; exact Hy) Hs').
        assert (ints n1 = ints n2) as HI'.
        { rewrite (store_ints _ _ _ _ E1), (store_ints _ _ _ _ E2). exact HI. }
        assert (forall p, R p -> load n1 p = load n2 p) as Hr' by (intros p Hp; apply Hl'; left; left; exact Hp).
        specialize (IH HI' Hr').
        destruct (forM pts _ n1) as [k1|], (forM pts _ n2) as [k2|]; cbn in IH |- *; try tauto.
        intros p Hp. apply IH. destruct Hp as [(q & [<-|Hq] & ->)|Hp].
        + right. apply Hl'. right; reflexivity.
        + left. exists q. auto.
        + right. apply Hl'. left; right; exact Hp. }
    assert (forall pts m m', incl pts (domain_points dom origin) -> forM pts (assign_point a) m = Some m' ->
      shape m' = shape m /\ ints m' = ints m /\
      forall p, (exists pt, In pt pts /\ p = addr (lhs_of a) pt) \/ load m' p = load m p) as Hframe.
    { induction pts as [|pt pts IH]; intros m m' Hi E; cbn [forM] in E; [injection E as <-; auto|].
      destruct (assign_point a pt m) as [m1|] eqn:E1; [|discriminate]. cbn [bind] in E.
      destruct (IH m1 m' ltac:(intros y Hy; apply Hi; right; exact Hy) E) as (A & B & C).
      rewrite assign_point_rhs in E1. apply bind_Some_inv in E1 as (v & _ & E1). cbn [lhs_of] in E1.
      split; [rewrite A; exact (store_shape _ _ _ _ E1)|]. split; [rewrite B; exact (store_ints _ _ _ _ E1)|].
      intros p. destruct (C p) as [(q & Hq & ->)|Hp]; [left; exists q; split; [right; exact Hq|reflexivity]|].
      rewrite Hp, (load_store _ _ _ _ p E1).
      destruct (ptr_dec (addr (lhs_of a) pt) p) as [<-|]; [|right; reflexivity]. left. exists pt. split; [left; reflexivity|reflexivity]. }
    split; [| |exact Hoff].
    - intros m m' E. rewrite with_domain_points in E by assumption.
      destruct (Hframe _ m m' (incl_refl _) E) as (A & B & C). split; [exact A|]. split; [exact B|].
      intros p. destruct (C p) as [(q & Hq & ->)|Hp]; [left; apply HW; exact Hq|right; exact Hp].
    - intros m1 m2 Hs HI Hr. rewrite !with_domain_points by assumption.
      pose proof (Hsame _ m1 m2 (incl_refl _) Hs HI Hr) as H.
      destruct (forM _ _ m1) as [n1|] eqn:E1, (forM _ _ m2) as [n2|] eqn:E2; cbn in H |- *; try tauto.
      intros p _.
      destruct (Hframe _ m1 n1 (incl_refl _) E1) as (_ & _ & C1).
      destruct (Hframe _ m2 n2 (incl_refl _) E2) as (_ & _ & C2).
      destruct (C1 p) as [Hp|H1]; [left; apply H; left; exact Hp|].
      destruct (C2 p) as [Hp|H2]; [left; apply H; left; exact Hp|]. right; auto.
  Qed.

  Section Two.
    Context {R1 W1 R2 W2 : ptr -> Prop} {P1 P2 : mem S -> option (mem S)}.
    Context (C1 : confined R1 W1 P1) (C2 : confined R2 W2 P2).

    Lemma confined_commute m :
      (forall p, W1 p -> ~ W2 p) -> (forall p, W1 p -> ~ R2 p) -> (forall p, W2 p -> ~ R1 p) ->
      (x <- P1 m ;; P2 x) = (x <- P2 m ;; P1 x).
    Proof.
      intros HW H12 H21.
      destruct (P1 m) as [m1|] eqn:E1; cbn [bind].
      - destruct (cf_frame _ _ _ C1 _ _ E1) as (S1 & I1 & F1).
        pose proof (cf_same _ _ _ C2 m1 m S1 I1 ltac:(intros p Hp; destruct (F1 p) as [Hw|Hw]; [destruct (H12 p Hw Hp)|exact Hw])) as K2.
        destruct (P2 m) as [m2|] eqn:E2, (P2 m1) as [m12|] eqn:E12; cbn in K2; try tauto; cbn [bind].
        destruct (cf_frame _ _ _ C2 _ _ E2) as (S2 & I2 & F2).
        destruct (cf_frame _ _ _ C2 _ _ E12) as (S12 & I12 & F12).
        pose proof (cf_same _ _ _ C1 m2 m S2 I2 ltac:(intros p Hp; destruct (F2 p) as [Hw|Hw]; [destruct (H21 p Hw Hp)|exact Hw])) as K1.
        rewrite E1 in K1. destruct (P1 m2) as [m21|] eqn:E21; cbn in K1; [|tauto].
        destruct (cf_frame _ _ _ C1 _ _ E21) as (S21 & I21 & F21).
        f_equal. apply mem_ext; [congruence|congruence|]. intros p.
        specialize (F1 p). specialize (F2 p). specialize (F12 p). specialize (F21 p).
        specialize (K1 p). specialize (K2 p). specialize (HW p).
        destruct F21 as [A|A].
        + destruct F12 as [B|B]; [destruct (HW A B)|]. destruct F2 as [D|D]; [destruct (HW A D)|].
          destruct (K1 A) as [X|[X Y]]; congruence.
        + destruct F12 as [B|B].
          * destruct F1 as [D|D]; [destruct (HW D B)|]. destruct (K2 B) as [X|[X Y]]; congruence.
          * destruct F1 as [D|D].
            -- destruct F2 as [D'|D']; [destruct (HW D D')|]. destruct (K1 D) as [X|[X Y]]; congruence.
            -- destruct F2 as [D'|D']; [|congruence]. destruct (K2 D') as [X|[X Y]]; congruence.
      - destruct (P2 m) as [m2|] eqn:E2; cbn [bind]; [|reflexivity].
        destruct (cf_frame _ _ _ C2 _ _ E2) as (S2 & I2 & F2).
        pose proof (cf_same _ _ _ C1 m2 m S2 I2 ltac:(intros p Hp; destruct (F2 p) as [Hw|Hw]; [destruct (H21 p Hw Hp)|exact Hw])) as K1.
        rewrite E1 in K1. destruct (P1 m2); cbn in K1; tauto.
    Qed.
  End Two.

  (** A step finds its own values in place as long as nobody has changed what it
      reads or what it has written. *)
  Lemma confined_again R W (P : mem S -> option (mem S)) m m1 m2 : confined R W P -> P m = Some m1 ->
    shape m2 = shape m1 -> ints m2 = ints m1 -> (forall p, R p \/ W p -> load m2 p = load m1 p) -> P m2 = Some m2.
  Proof.
    intros C E Hs HI Hl. destruct (cf_frame _ _ _ C _ _ E) as (S1 & I1 & F1).
    pose proof (cf_same _ _ _ C m2 m ltac:(congruence) ltac:(congruence)) as K.
    rewrite E in K.
    assert (forall p, R p -> load m2 p = load m p) as Hr.
    { intros p Hp. rewrite (Hl p (or_introl Hp)). destruct (F1 p) as [Hw|Hw]; [destruct (cf_off _ _ _ C p Hw Hp)|exact Hw]. }
    specialize (K Hr). destruct (P m2) as [m3|] eqn:E3; cbn in K; [|tauto]. f_equal.
    destruct (cf_frame _ _ _ C _ _ E3) as (S3 & I3 & F3).
    apply mem_ext; [exact S3|exact I3|]. intros p. destruct (F3 p) as [Hp|Hp]; [|exact Hp].
    destruct (K p Hp) as [X|[X _]]; [|exact X]. rewrite X. symmetry. apply Hl. right; exact Hp.
  Qed.

  (** ** Lists of steps *)

  Section Lists.
    Context {C : Type} (K : C -> mem S -> option (mem S)) (R W : C -> ptr -> Prop).

    Lemma permuted l l' : Permutation l l' -> (forall c, In c l -> confined (R c) (W c) (K c)) ->
      (forall c c' p, In c l -> In c' l -> W c p -> ~ R c' p) ->
      ForallOrdPairs (fun c c' => forall p, W c p -> ~ W c' p) l ->
      forall m, forM l K m = forM l' K m.
    Proof.
      intros HP HC HR HW.
      assert (forall l l', Permutation l l' -> incl l l' -> ForallOrdPairs (fun c c' => forall p, W c p -> ~ W c' p) l ->
        ForallOrdPairs (fun c c' => forall p, W c p -> ~ W c' p) l') as Hpair.
      { clear. intros l l' HP _. induction HP as [|x l l' HP IH|x y l|l1 l2 l3 _ IH1 _ IH2]; intros H.
        - constructor.
        - inversion H; subst. constructor; [|auto]. rewrite <- HP. assumption.
        - inversion H as [|? ? A B]; subst. inversion B as [|? ? A' B']; subst. inversion A; subst. constructor; [constructor|constructor]; auto.
          intros p Hx Hy. exact (H2 p Hy Hx).
        - auto. }
      induction HP as [|x l l' HP IH|x y l|l1 l2 l3 HP1 IH1 HP2 IH2]; intros m.
      - reflexivity.
      - cbn [forM]. apply bind_ext. intros m1 _. apply IH.
        + intros c Hc. apply HC. right; exact Hc.
        + intros c c' p Hc Hc'. apply HR; right; assumption.
        + inversion HW; assumption.
      - cbn [forM].
        assert ((a <- K y m ;; K x a) = (a <- K x m ;; K y a)) as Hs.
        { eapply confined_commute.
          - apply HC. left; reflexivity.
          - apply HC. right; left; reflexivity.
          - inversion HW as [|? ? A _]; subst. inversion A; subst. assumption.
          - intros p Hp. apply (HR y x p); [left; reflexivity|right; left; reflexivity|exact Hp].
          - intros p Hp. apply (HR x y p); [right; left; reflexivity|left; reflexivity|exact Hp]. }
        transitivity (b <- (a <- K y m ;; K x a) ;; forM l K b).
        + destruct (K y m); cbn [bind]; reflexivity.
        + rewrite Hs. destruct (K x m); cbn [bind]; reflexivity.
      - rewrite (IH1 HC HR HW). apply IH2.
        + intros c Hc. apply HC. eapply Permutation_in; [symmetry; exact HP1|exact Hc].
        + intros c c' p Hc Hc'. apply HR; (eapply Permutation_in; [symmetry; exact HP1|assumption]).
        + apply (Hpair l1 l2 HP1); [|exact HW]. intros c Hc. eapply Permutation_in; [exact HP1|exact Hc].
    Qed.

    Lemma settled l : (forall c, In c l -> confined (R c) (W c) (K c)) ->
      ForallOrdPairs (fun c c' => forall p, W c' p -> ~ W c p /\ ~ R c p) l ->
      forall m m', forM l K m = Some m' -> forM l K m' = Some m'.
    Proof.
      intros HC HO m m' E.
      assert (forall c, In c l -> K c m' = Some m') as H.
      { revert m E HC HO. induction l as [|x l' IH]; intros m E HC HO c Hc; [destruct Hc|].
        cbn [forM] in E. destruct (K x m) as [m1|] eqn:E1; [|discriminate]. cbn [bind] in E.
        inversion HO as [|? ? HO1 HO2]; subst.
        assert (forall c, In c l' -> confined (R c) (W c) (K c)) as HC' by (intros; apply HC; right; assumption).
        destruct Hc as [<-|Hc]; [|exact (IH m1 E HC' HO2 c Hc)].
        assert (forall l'' m1, (forall c, In c l'' -> In c l') -> forM l'' K m1 = Some m' ->
          shape m' = shape m1 /\ ints m' = ints m1 /\ forall p, R x p \/ W x p -> load m' p = load m1 p) as Hk.
        { clear E1 E m1. induction l'' as [|y l'' IHl]; intros m1 Hin E; cbn [forM] in E; [injection E as <-; auto|].
          destruct (K y m1) as [m2|] eqn:E2; [|discriminate]. cbn [bind] in E.
          destruct (IHl m2 ltac:(intros; apply Hin; right; assumption) E) as (A & B & D).
          assert (In y l') as Hy by (apply Hin; left; reflexivity).
          destruct (cf_frame _ _ _ (HC' y Hy) _ _ E2) as (A2 & B2 & D2).
          split; [congruence|]. split; [congruence|]. intros p Hp. rewrite (D p Hp). destruct (D2 p) as [Hw|Hw]; [|exact Hw]. exfalso.
          rewrite Forall_forall in HO1. destruct (HO1 y Hy p Hw) as [N1 N2]. destruct Hp; contradiction. }
        destruct (Hk l' m1 ltac:(auto) E) as (A & B & D).
        eapply confined_again; [apply HC; left; reflexivity|exact E1|exact A|exact B|exact D]. }
      clear HC HO E m. induction l as [|x l' IH]; cbn [forM]; [reflexivity|].
      rewrite (H x (or_introl eq_refl)). cbn [bind]. apply IH. intros c Hc. apply H. right; exact Hc.
    Qed.
  End Lists.
End Confined.

(** ** Where the calls read and write *)

Definition axis (d : Z) : dim := if d =? 0 then dI else if d =? 1 then dJ else dK.
Definition zc (pt : point) : Z -> Z := fun d => pt (axis d).

Definition beyond (lo hi q : Z -> Z) (d : Z) : Z := if ((lo d <=? q d) && (q d <=? hi d))%bool then 0 else 1.
(** In how many directions the cell lies beyond the patch. *)
Definition outside (n : Z) (lo hi q : Z -> Z) : Z :=
  beyond lo hi q 0 + (if 1 <? n then beyond lo hi q 1 else 0) + (if 2 <? n then beyond lo hi q 2 else 0).

Ltac enum f k :=
  let rec go i :=
    first [ exfalso; lia
          | let H := fresh in destruct (Z.eq_dec f i) as [->|H]; [|let j := eval compute in (i + 1) in go j] ] in
  go 0.

Section Geometry.
  Context {S : Scalar} (n : Z) (lo hi : Z -> Z).
  Context (Hn : 1 <= n <= 3).

  Lemma covers_outside (c : bcall S) q : placed n lo hi c -> covers n lo hi c q -> outside n lo hi q = c_type c.
  Proof.
    intros [Hf Hp] Hc. destruct c as [type face bl bh bt eo al be]; cbn [c_type c_face c_lo c_hi] in *.
    assert (forall d, 0 <= d < n -> beyond lo hi q d = if side n type face d =? 0 then 0 else 1) as HB.
    { intros d Hd. specialize (Hp d Hd). specialize (Hc d Hd). cbn [c_type c_face c_lo c_hi] in *. cbv zeta in Hp. destruct Hc as [Hc H0].
      unfold beyond. destruct (Z.eqb_spec (side n type face d) 0) as [E|E].
      - specialize (H0 E). destruct (Z.leb_spec (lo d) (q d)), (Z.leb_spec (q d) (hi d)); cbn; lia.
      - destruct (Z.eqb_spec (side n type face d) (-1)); [destruct (Z.leb_spec (lo d) (q d)), (Z.leb_spec (q d) (hi d)); cbn; lia|].
        destruct (Z.eqb_spec (side n type face d) 1); [destruct (Z.leb_spec (lo d) (q d)), (Z.leb_spec (q d) (hi d)); cbn; lia|].
        exfalso. revert E n0 n1. clear. unfold side, sd.
        repeat match goal with |- context [if ?b then _ else _] => destruct b end; lia. }
    clear Hp Hc. unfold outside. rewrite (HB 0) by lia. unfold regions in Hf.
    destruct (Z.eqb_spec type 1) as [->|]; [|destruct (Z.eqb_spec type 2) as [->|]; [|destruct (Z.eqb_spec type 3) as [->|]; [|lia]]].
    - assert (n = 1 \/ n = 2 \/ n = 3) as [->|[->| ->]] by lia; cbn [Z.mul Pos.mul Z.ltb Z.compare Pos.compare Pos.compare_cont] in *;
        try rewrite (HB 1) by lia; try rewrite (HB 2) by lia; clear HB; enum face 6; reflexivity.
    - assert (n = 2 \/ n = 3) as [->| ->] by (destruct (Z.eqb_spec n 2), (Z.eqb_spec n 3); lia);
        cbn [Z.eqb Pos.eqb Z.ltb Z.compare Pos.compare Pos.compare_cont] in *;
        try rewrite (HB 1) by lia; try rewrite (HB 2) by lia; clear HB; enum face 12; reflexivity.
    - assert (n = 3) as -> by (destruct (Z.eqb_spec n 3); lia);
        cbn [Z.eqb Pos.eqb Z.ltb Z.compare Pos.compare Pos.compare_cont] in *;
        try rewrite (HB 1) by lia; try rewrite (HB 2) by lia; clear HB; enum face 8; reflexivity.
  Qed.

  Lemma outside_ext q q' : (forall d, 0 <= d < n -> q d = q' d) -> outside n lo hi q = outside n lo hi q'.
  Proof.
    intros H. unfold outside, beyond. rewrite (H 0) by lia.
    destruct (Z.ltb_spec 1 n); [rewrite (H 1) by lia|]; destruct (Z.ltb_spec 2 n); try rewrite (H 2) by lia; reflexivity.
  Qed.

  Lemma covers_ext (c : bcall S) q q' : (forall d, 0 <= d < n -> q d = q' d) -> covers n lo hi c q -> covers n lo hi c q'.
  Proof. intros H Hc d Hd. rewrite <- (H d Hd). exact (Hc d Hd). Qed.

  Lemma placed_type (c : bcall S) : placed n lo hi c -> 1 <= c_type c <= 3.
  Proof.
    intros [H _]. unfold regions in H.
    destruct (Z.eqb_spec (c_type c) 1); [lia|]. destruct (Z.eqb_spec (c_type c) 2); [lia|]. destruct (Z.eqb_spec (c_type c) 3); lia.
  Qed.

  Context (u : span) (Hu : forall d, 0 <= d < n -> In (axis d) (sp_order u)).

  Definition Wset (c : bcall S) (p : ptr) : Prop :=
    exists pt, in_bounds (sp_b u) pt /\ p = addr u pt /\ covers n lo hi c (zc pt).
  Definition Rset (c : bcall S) (p : ptr) : Prop :=
    fst p <> fst (sp_ptr u) \/
    exists pt, in_bounds (sp_b u) pt /\ p = addr u pt /\ outside n lo hi (zc pt) < c_type c.

  Lemma addr_coords p q : in_bounds (sp_b u) p -> in_bounds (sp_b u) q -> addr u p = addr u q ->
    forall d, 0 <= d < n -> zc p d = zc q d.
  Proof. intros Hp Hq E d Hd. unfold zc. apply (addr_inj u p q Hp Hq E). apply Hu. exact Hd. Qed.

  Lemma writes_reads (c c' : bcall S) p : placed n lo hi c -> c_type c' <= c_type c -> Wset c p -> ~ Rset c' p.
  Proof.
    intros Hp Ht (pt & Hb & -> & Hc) [Hr|(q & Hb' & E & Ho)]; [apply Hr; reflexivity|].
    pose proof (covers_outside c _ Hp Hc) as Ec.
    rewrite (outside_ext _ (zc q)) in Ec by (apply addr_coords; assumption). lia.
  Qed.

  Lemma writes_writes (c c' : bcall S) p : separate n lo hi c c' -> Wset c p -> ~ Wset c' p.
  Proof.
    intros Hs (pt & Hb & -> & Hc) (q & Hb' & E & Hc').
    apply (Hs (zc pt) Hc). eapply covers_ext; [|exact Hc']. intros d Hd. symmetry. apply addr_coords; assumption.
  Qed.

  (** ** Lists of calls *)

  Context (K : bcall S -> mem S -> option (mem S)).
  Context (HK : forall c, placed n lo hi c -> thick lo hi c -> confined (Rset c) (Wset c) (K c)).

  Lemma pairs_in {A} (P : A -> A -> Prop) l : (forall x y, In x l -> In y l -> P x y) -> ForallOrdPairs P l.
  Proof.
    induction l as [|a l IH]; intros H; constructor.
    - apply Forall_forall. intros y Hy. apply H; [left; reflexivity|right; exact Hy].
    - apply IH. intros x y Hx Hy. apply H; right; assumption.
  Qed.

  Lemma pairs_impl {A} (P Q : A -> A -> Prop) l : (forall x y, In x l -> In y l -> P x y -> Q x y) ->
    ForallOrdPairs P l -> ForallOrdPairs Q l.
  Proof.
    intros H HP. induction HP as [|a l Ha HP IH]; constructor.
    - rewrite Forall_forall in *. intros y Hy. apply H; [left; reflexivity|right; exact Hy|auto].
    - apply IH. intros x y Hx Hy. apply H; right; assumption.
  Qed.

  Lemma pairs_and {A} (P Q : A -> A -> Prop) l : ForallOrdPairs P l -> ForallOrdPairs Q l -> ForallOrdPairs (fun x y => P x y /\ Q x y) l.
  Proof.
    intros HP. induction HP as [|a l Ha HP IH]; intros HQ; constructor; inversion HQ; subst; [|auto].
    rewrite Forall_forall in *. auto.
  Qed.

  Lemma pairs_filter {A} (P : A -> A -> Prop) f l : ForallOrdPairs P l -> ForallOrdPairs P (filter f l).
  Proof.
    induction 1 as [|a l Ha HP IH]; cbn [filter]; [constructor|]. destruct (f a); [|exact IH]. constructor; [|exact IH].
    rewrite Forall_forall in *. intros y Hy. apply filter_In in Hy as [Hy _]. auto.
  Qed.

  Definition kind (t : Z) (c : bcall S) : bool := c_type c =? t.

  Lemma none_of t l : (forall c : bcall S, In c l -> c_type c <> t) -> filter (kind t) l = [].
  Proof.
    induction l as [|c l IH]; intros H; [reflexivity|]. cbn [filter]. unfold kind at 1.
    destruct (Z.eqb_spec (c_type c) t) as [E|]; [destruct (H c (or_introl eq_refl) E)|].
    apply IH. intros x Hx. apply H. right; exact Hx.
  Qed.

  Lemma split_kinds l : by_kind l -> (forall c : bcall S, In c l -> 1 <= c_type c <= 3) ->
    l = filter (kind 1) l ++ filter (kind 2) l ++ filter (kind 3) l.
  Proof.
    intros HS. induction HS as [|c l Hc HS IH]; intros HT; [reflexivity|].
    specialize (IH ltac:(intros x Hx; apply HT; right; exact Hx)).
    assert (1 <= c_type c <= 3) as Ht by (apply HT; left; reflexivity).
    rewrite Forall_forall in Hc.
    assert (forall t, t < c_type c -> filter (kind t) l = []) as Hlt.
    { intros t Hlt. apply none_of. intros x Hx. specialize (Hc x Hx). lia. }
    cbn [filter]. change (kind 1 c) with (c_type c =? 1). change (kind 2 c) with (c_type c =? 2). change (kind 3 c) with (c_type c =? 3).
    assert (c_type c = 1 \/ c_type c = 2 \/ c_type c = 3) as [E|[E|E]] by lia; rewrite E; cbn [Z.eqb Pos.eqb].
    - cbn [app]. f_equal. exact IH.
    - rewrite (Hlt 1) in * by lia. cbn [app] in *. f_equal. exact IH.
    - rewrite (Hlt 1), (Hlt 2) in * by lia. cbn [app] in *. f_equal. exact IH.
  Qed.

  Lemma perm_filter {A} (f : A -> bool) l l' : Permutation l l' -> Permutation (filter f l) (filter f l').
  Proof.
    induction 1 as [|x l l' _ IH|x y l|l1 l2 l3 _ IH1 _ IH2]; cbn [filter].
    - constructor.
    - destruct (f x); [constructor|]; exact IH.
    - destruct (f x), (f y); try reflexivity. constructor.
    - etransitivity; eassumption.
  Qed.

  (** The order within the faces, within the edges and within the corners does not matter. *)
  Lemma calls_order cs cs' m : Permutation cs cs' -> by_kind cs -> by_kind cs' ->
    Forall (placed n lo hi) cs -> Forall (thick lo hi) cs -> ForallOrdPairs (separate n lo hi) cs ->
    forM cs K m = forM cs' K m.
  Proof.
    intros HP HS HS' Hpl Hth Hsep. rewrite Forall_forall in Hpl, Hth.
    assert (forall c, In c cs' -> In c cs) as Hin by (intros c Hc; eapply Permutation_in; [symmetry; exact HP|exact Hc]).
    rewrite (split_kinds cs HS) by (intros c Hc; apply placed_type; auto).
    rewrite (split_kinds cs' HS') by (intros c Hc; apply placed_type; auto).
    assert (forall t m, forM (filter (kind t) cs) K m = forM (filter (kind t) cs') K m) as H.
    { intros t m0. apply (permuted K Rset Wset).
      - apply perm_filter. exact HP.
      - intros c Hc. apply filter_In in Hc as [Hc _]. apply HK; auto.
      - intros c c' p Hc Hc'. apply filter_In in Hc as [Hc Ht]. apply filter_In in Hc' as [_ Ht'].
        unfold kind in Ht, Ht'. apply writes_reads; [auto|lia].
      - apply pairs_filter. eapply pairs_impl; [|exact Hsep]. intros c c' _ _ Hs p. apply writes_writes. exact Hs. }
    rewrite !forM_app. rewrite H. apply bind_ext. intros m1 _. rewrite !forM_app. rewrite H. apply bind_ext. intros m2 _. apply H.
  Qed.

  (** Once they are all done, doing them again changes nothing. *)
  Lemma calls_again cs m m' : by_kind cs ->
    Forall (placed n lo hi) cs -> Forall (thick lo hi) cs -> ForallOrdPairs (separate n lo hi) cs ->
    forM cs K m = Some m' -> forM cs K m' = Some m'.
  Proof.
    intros HS Hpl Hth Hsep. rewrite Forall_forall in Hpl, Hth. apply (settled K Rset Wset).
    - intros c Hc. apply HK; auto.
    - eapply pairs_impl; [|exact (pairs_and _ _ _ HS Hsep)]. intros c c' Hc Hc' [Ht Hs] p Hp. split.
      + intros Hq. exact (writes_writes c c' p Hs Hq Hp).
      + apply (writes_reads c' c p); auto.
  Qed.
End Geometry.
