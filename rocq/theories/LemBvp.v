(** * Ghost cells filled by one call for each face *)

From Coq Require Import Field QArith Qcanon.
From Verif Require Import Base ModelBounds ModelMatrix ModelIters ModelSpan Spec LemBase FortranBase SpecKernel
  SpecBoundary SpecBCOrder SpecBCCalls LemBCOrder SpecSolve LemSolve LemEnergy Instances SpecBvp.
Import ListNotations.
Open Scope Z_scope.

(** ** The calls *)

Lemma face_placed {S : Scalar} n lo hi (bc : Z -> bcond S) f : (1 <= n <= 3)%nat -> 0 <= f < 2 * Z.of_nat n ->
  (forall d, 0 <= d < Z.of_nat n -> lo d <= hi d) -> placed (Z.of_nat n) lo hi (face_call lo hi bc f).
Proof.
  intros Hn Hf Hl. split; [cbn [c_face c_type face_call]; unfold regions; cbn [Z.eqb Pos.eqb]; lia|].
  intros d Hd. cbv zeta. cbn [c_face c_type c_lo c_hi face_call]. unfold side. cbn [Z.eqb Pos.eqb].
  destruct (Z.eqb_spec d (f / 2)) as [E|E].
  - unfold sd. destruct (Z.eqb_spec (f mod 2) 0); cbn; lia.
  - cbn. unfold seg_meets. specialize (Hl d Hd). lia.
Qed.

Lemma face_separate {S : Scalar} n lo hi (bc : Z -> bcond S) f f' : (1 <= n <= 3)%nat -> 0 <= f < 2 * Z.of_nat n -> 0 <= f' < 2 * Z.of_nat n -> f <> f' ->
  (forall d, 0 <= d < Z.of_nat n -> lo d <= hi d) -> separate (Z.of_nat n) lo hi (face_call lo hi bc f) (face_call lo hi bc f').
Proof.
  intros Hn Hf Hf' Ne Hl q C C'.
  assert (0 <= f / 2 < Z.of_nat n) as Hd by (split; [apply Z.div_pos; lia|apply Z.div_lt_upper_bound; lia]).
  specialize (C (f / 2) Hd) as [C _]. specialize (C' (f / 2) Hd) as [C' I']. specialize (Hl _ Hd).
  cbn [c_face c_type c_lo c_hi face_call] in *. rewrite Z.eqb_refl in C.
  unfold side in I'. cbn [Z.eqb Pos.eqb] in I'.
  pose proof (Z.div_mod f 2 ltac:(lia)) as E. pose proof (Z.div_mod f' 2 ltac:(lia)) as E'.
  pose proof (Z.mod_pos_bound f 2 ltac:(lia)). pose proof (Z.mod_pos_bound f' 2 ltac:(lia)).
  destruct (Z.eqb_spec (f / 2) (f' / 2)) as [Eq|N].
  - rewrite <- Eq in *. destruct (Z.eqb_spec (f mod 2) 0), (Z.eqb_spec (f' mod 2) 0); lia.
  - specialize (I' eq_refl). destruct (Z.eqb_spec (f mod 2) 0); lia.
Qed.

Lemma roomy_le n lo hi bc : roomy n lo hi bc -> forall d, 0 <= d < Z.of_nat n -> lo d <= hi d.
Proof.
  intros H d Hd. specialize (H (2 * d) ltac:(lia)). rewrite (Z.mul_comm 2 d), Z.div_mul in H by lia.
  unfold depth in H. destruct (_ && _)%bool; lia.
Qed.
Lemma roomy_thick n lo hi bc f : roomy n lo hi bc -> 0 <= f < 2 * Z.of_nat n -> thick lo hi (face_call lo hi bc f).
Proof. intros H Hf _. exact (H f Hf). Qed.

Section Fill.
  Context (n : nat) (lo hi : Z -> Z) (Hn : (1 <= n <= 3)%nat) (u : span).
  Context (Hu : forall d, 0 <= d < Z.of_nat n -> In (axis d) (sp_order u)).
  Notation N := (Z.of_nat n).
  Context (K : bcall QcS -> mem QcS -> option (mem QcS)).
  Context (HK : forall c, placed N lo hi c -> thick lo hi c -> confined (Rset N lo hi u c) (Wset N lo hi u c) (K c)).
  Context (bc : Z -> bcond QcS) (Ro : roomy n lo hi bc).

  Definition inside (q : Z -> Z) : Prop := forall d, 0 <= d < N -> lo d <= q d <= hi d.
  (** The ghost cells of a face. *)
  Definition facing (f : Z) (q : Z -> Z) : Prop := forall d, 0 <= d < N ->
    if d =? f / 2 then q d = (if f mod 2 =? 0 then lo d - 1 else hi d + 1) else lo d <= q d <= hi d.

  Lemma facing_covers f q : facing f q -> covers N lo hi (face_call lo hi bc f) q.
  Proof.
    intros H d Hd. specialize (H d Hd). cbn [c_face c_type c_lo c_hi face_call]. unfold side. cbn [Z.eqb Pos.eqb].
    destruct (Z.eqb_spec d (f / 2)); [|lia]. split; [lia|]. unfold sd. destruct (Z.eqb_spec (f mod 2) 0); lia.
  Qed.

  Lemma not_inside (c : bcall QcS) q : placed N lo hi c -> covers N lo hi c q -> ~ inside q.
  Proof.
    intros Hp Hc Hi. pose proof (placed_type _ _ _ c Hp) as Ht.
    assert (outside N lo hi q = c_type c) as E by (apply covers_outside; [lia|assumption|assumption]).
    assert (forall d, 0 <= d < N -> beyond lo hi q d = 0) as B.
    { intros d Hd. specialize (Hi d Hd). unfold beyond. destruct (Z.leb_spec (lo d) (q d)), (Z.leb_spec (q d) (hi d)); cbn; lia. }
    unfold outside in E. rewrite (B 0) in E by lia.
    destruct (Z.ltb_spec 1 N); [rewrite (B 1) in E by lia|]; destruct (Z.ltb_spec 2 N); try rewrite (B 2) in E by lia; lia.
  Qed.

  (** What a list of calls leaves alone. *)
  Definition kept (fs : list Z) (m m' : mem QcS) : Prop :=
    shape m' = shape m /\ ints m' = ints m /\ forall p, (exists f, In f fs /\ Wset N lo hi u (face_call lo hi bc f) p) \/ load m' p = load m p.

  Lemma calls_kept fs m m' : (forall f, In f fs -> 0 <= f < 2 * N) -> forM fs (fun f => K (face_call lo hi bc f)) m = Some m' -> kept fs m m'.
  Proof.
    revert m. induction fs as [|f fs IH]; intros m Hf E; cbn [forM] in E.
    - injection E as <-. repeat split; auto.
    - apply bind_Some_inv in E as (m1 & E1 & E2).
      assert (0 <= f < 2 * N) as H by (apply Hf; now left).
      destruct (cf_frame _ _ _ (HK _ (face_placed n lo hi bc f Hn H (roomy_le _ _ _ _ Ro)) (roomy_thick _ _ _ _ _ Ro H)) _ _ E1) as (S1 & I1 & F1).
      destruct (IH m1 ltac:(intros; apply Hf; now right) E2) as (S2 & I2 & F2).
      split; [congruence|]. split; [congruence|]. intros p. destruct (F2 p) as [(g & Hg & W)|F]; [left; exists g; split; [now right|exact W]|].
      destruct (F1 p) as [W|F']; [left; exists f; split; [now left|exact W]|right; congruence].
  Qed.

  Lemma kept_inside fs m m' pt : (forall f, In f fs -> 0 <= f < 2 * N) -> kept fs m m' -> in_bounds (sp_b u) pt -> inside (zc pt) ->
    load m' (addr u pt) = load m (addr u pt).
  Proof.
    intros Hf (_ & _ & F) Hb Hi. destruct (F (addr u pt)) as [(f & Hin & q & Hq & E & C)|E]; [exfalso|exact E].
    apply (not_inside (face_call lo hi bc f) (zc q)); [apply face_placed; auto; exact (roomy_le _ _ _ _ Ro)|exact C|].
    intros d Hd. rewrite <- (addr_coords N u Hu pt q Hb Hq E d Hd). apply Hi, Hd.
  Qed.
  Lemma kept_other fs m m' p : kept fs m m' -> fst p <> fst (sp_ptr u) -> load m' p = load m p.
  Proof.
    intros (_ & _ & F) Hp. destruct (F p) as [(f & _ & q & _ & -> & _)|E]; [exfalso; apply Hp; reflexivity|exact E].
  Qed.
  Lemma kept_face fs m m' f pt : (forall f, In f fs -> 0 <= f < 2 * N) -> kept fs m m' -> in_bounds (sp_b u) pt -> facing f (zc pt) ->
    0 <= f < 2 * N -> ~ In f fs -> load m' (addr u pt) = load m (addr u pt).
  Proof.
    intros Hf (_ & _ & F) Hb Hi Hr Ni. destruct (F (addr u pt)) as [(g & Hin & W)|E]; [exfalso|exact E].
    assert (f <> g) as Ne by congruence.
    apply (writes_writes N lo hi u Hu _ _ (addr u pt) (face_separate n lo hi bc f g Hn Hr (Hf _ Hin) Ne (roomy_le _ _ _ _ Ro))); [|exact W].
    exists pt. split; [exact Hb|]. split; [reflexivity|]. now apply facing_covers.
  Qed.

  Lemma fill_all m m' : forM (face_calls n lo hi bc) K m = Some m' -> exists fs, NoDup fs /\ (forall f, In f fs <-> 0 <= f < 2 * N) /\
    forM fs (fun f => K (face_call lo hi bc f)) m = Some m'.
  Proof.
    intros E. exists (map Z.of_nat (seq 0 (2 * n))). split; [apply FinFun.Injective_map_NoDup; [intros x y; lia|apply seq_NoDup]|]. split.
    - intros f. rewrite in_map_iff. split; [intros (x & <- & Hx); apply in_seq in Hx; lia|].
      intros Hf. exists (Z.to_nat f). split; [lia|]. apply in_seq. lia.
    - unfold face_calls in E. rewrite <- E. clear E. generalize (seq 0 (2 * n)). intros l. revert m. induction l as [|x l IH]; intros m; cbn [forM map]; [reflexivity|].
      destruct (K _ m); cbn [bind]; [apply IH|reflexivity].
  Qed.

  Lemma fill_kept m m' : forM (face_calls n lo hi bc) K m = Some m' ->
    shape m' = shape m /\ ints m' = ints m /\
    (forall pt, in_bounds (sp_b u) pt -> inside (zc pt) -> load m' (addr u pt) = load m (addr u pt)) /\
    (forall p, fst p <> fst (sp_ptr u) -> load m' p = load m p).
  Proof.
    intros E. apply fill_all in E as (fs & _ & Hf & E). apply calls_kept in E; [|intros f; apply Hf].
    split; [apply E|]. split; [apply E|]. split.
    - intros pt. apply (kept_inside fs); [intros f; apply Hf|exact E].
    - intros p. now apply (kept_other fs).
  Qed.

  (** A ghost cell holds what the call of its face left there. *)
  Lemma fill_face f m m' : 0 <= f < 2 * N -> forM (face_calls n lo hi bc) K m = Some m' ->
    exists ma mb, K (face_call lo hi bc f) ma = Some mb /\
      (forall pt, in_bounds (sp_b u) pt -> inside (zc pt) -> load ma (addr u pt) = load m (addr u pt)) /\
      (forall p, fst p <> fst (sp_ptr u) -> load ma p = load m p) /\
      (forall pt, in_bounds (sp_b u) pt -> facing f (zc pt) -> load m' (addr u pt) = load mb (addr u pt)).
  Proof.
    intros Hr E. apply fill_all in E as (fs & ND & Hf & E).
    destruct (in_split f fs ltac:(now apply Hf)) as (l1 & l2 & ->).
    rewrite forM_app in E. apply bind_Some_inv in E as (ma & E1 & E). cbn [forM] in E. apply bind_Some_inv in E as (mb & E2 & E3).
    apply calls_kept in E1; [|intros g Hg; apply Hf; apply in_or_app; now left].
    apply calls_kept in E3; [|intros g Hg; apply Hf; apply in_or_app; right; now right].
    exists ma, mb. split; [exact E2|]. split; [|split].
    - intros pt. apply (kept_inside l1); [intros g Hg; apply Hf; apply in_or_app; now left|exact E1].
    - intros p. now apply (kept_other l1).
    - intros pt Hb Hi. apply (kept_face l2 mb m' f pt); auto.
      + intros g Hg; apply Hf; apply in_or_app; right; now right.
      + apply NoDup_remove_2 in ND. intros C. apply ND. apply in_or_app. now right.
  Qed.
End Fill.

(** ** The formulas at a face *)

Open Scope Qc_scope.
(** The ghost value is [kk * first + ll * second]. *)
Definition kk (b : bcond QcS) (h v : Qc) : Qc :=
  if (b_kind b =? 1)%Z then 1 else if (b_kind b =? 0)%Z then (if (b_order b =? 1)%Z then - (1) else - (1 + 1))
  else ((1 + 1) * b_alpha b * v - h * b_beta b) / ((1 + 1) * b_alpha b * v + h * b_beta b).
Definition ll (b : bcond QcS) : Qc := if ((b_kind b =? 0)%Z && (b_order b =? 2)%Z)%bool then / (1 + 1 + 1) else 0.

Lemma Qc_ne_0 (x : Qc) : 0 < x -> x <> 0.
Proof. intros H ->. exact (Qclt_not_eq _ _ H eq_refl). Qed.
Lemma Qc_pos_add (x y : Qc) : 0 <= x -> 0 < y -> 0 < x + y.
Proof. intros Hx Hy. apply Qclt_le_trans with (0 + y); [now rewrite Qcplus_0_l|]. apply Qcplus_le_compat; [exact Hx|apply Qcle_refl]. Qed.

Lemma Qc_lt_sub (x y : Qc) : 0 < y - x -> x < y.
Proof.
  intros H. apply Qcnot_le_lt. intros C. apply (Qclt_not_le _ _ H). apply Qcopp_le_compat in C.
  apply (Qcplus_le_compat y y _ _ (Qcle_refl y)) in C. rewrite Qcplus_opp_r in C. exact C.
Qed.
Lemma Qc_inv_pos (x : Qc) : 0 < x -> 0 < / x.
Proof.
  intros H. pose proof (Qc_ne_0 _ H) as Ne. replace (/ x) with (x * (/ x * / x)) by (field; exact Ne).
  apply Qc_pos_mul; [exact H|]. apply Qc_sq_pos. intros C. apply Ne. replace x with (x * (x * / x)) by (field; exact Ne). rewrite C. ring.
Qed.

Lemma ll_pos b : 0 <= ll b.
Proof. unfold ll. destruct (_ && _)%bool; [|apply Qcle_refl]. now apply Qclt_le_weak. Qed.

Lemma robin_den (b : bcond QcS) (h v : Qc) : (0 <= b_alpha b)%Qc -> (0 < b_beta b)%Qc -> 0 < h -> 0 <= v -> 0 < (1 + 1) * b_alpha b * v + h * b_beta b.
Proof. intros. apply Qc_pos_add; [apply Qc_mul; [apply Qc_mul; [now apply Qclt_le_weak|assumption]|assumption]|now apply Qc_pos_mul]. Qed.

Lemma kl_strict robin b h v : sound robin b -> 0 < h -> 0 <= v -> b_kind b <> 1%Z -> kk b h v + ll b < 1.
Proof.
  intros Hs Hh Hv Nk. unfold kk, ll. destruct Hs as [[E [O|O]]|[E|(_ & E & O & Ha & Hb)]]; rewrite E; try contradiction; rewrite ?O; cbn [Z.eqb Pos.eqb andb]; try reflexivity.
  pose proof (robin_den b h v Ha Hb Hh Hv) as P. pose proof (Qc_ne_0 _ P) as Ne.
  apply Qc_lt_sub.
  replace (1 - _) with ((1 + 1) * (h * b_beta b) * / ((1 + 1) * b_alpha b * v + h * b_beta b)) by (field; exact Ne).
  apply Qc_pos_mul; [apply Qc_pos_mul; [reflexivity|now apply Qc_pos_mul]|]. now apply Qc_inv_pos.
Qed.
Lemma kl_le robin b h v : sound robin b -> 0 < h -> 0 <= v -> kk b h v + ll b <= 1.
Proof.
  intros Hs Hh Hv. destruct (Z.eq_dec (b_kind b) 1) as [E|E]; [|apply Qclt_le_weak; exact (kl_strict robin b h v Hs Hh Hv E)].
  unfold kk, ll. rewrite E. cbn. apply Qcle_refl.
Qed.

(** The polynomials through the first values, and their values at the ghost cell. *)
Lemma lit_2 : (lit (s := QcS) 2 : Qc) = 1 + 1. Proof. apply Qc_is_canon. reflexivity. Qed.
Lemma lit_0 : (lit (s := QcS) 0 : Qc) = 0. Proof. apply Qc_is_canon. reflexivity. Qed.
Lemma lit_c1 : (lit (s := QcS) (2 * 1 - 1) : Qc) = 1. Proof. apply Qc_is_canon. reflexivity. Qed.
Lemma lit_c2 : (lit (s := QcS) (2 * 2 - 1) : Qc) = 1 + 1 + 1. Proof. apply Qc_is_canon. reflexivity. Qed.

Ltac g_ring := cbn [peval]; cbn [sadd smul sdiv sneg ssub car QcS]; rewrite ?lit_2, ?lit_0, ?lit_c1, ?lit_c2.

Lemma ghost_poly robin b (h v w1 w2 : Qc) : sound robin b -> 0 < h -> 0 <= v ->
  exists cs : list QcS, satisfies_bc (b_kind b) (b_alpha b) (b_beta b) (v : QcS) cs /\ order_covers (b_kind b) (b_order b) cs /\
    robin_solvable (b_kind b) (b_order b) (b_alpha b) (b_beta b) (v : QcS) (h : QcS) /\
    peval cs (centre_x 1 (h : QcS)) = w1 /\ (depth (b_kind b) (b_order b) = 2%Z -> peval cs (centre_x 2 (h : QcS)) = w2) /\
    peval cs (ghost_x (h : QcS)) = kk b h v * w1 + ll b * w2.
Proof.
  intros Hs Hh Hv. pose proof (Qc_ne_0 _ Hh) as Nh.
  assert (N2 : (1 + 1 : Qc) <> 0) by discriminate. assert (N3 : (1 + 1 + 1 : Qc) <> 0) by discriminate.
  unfold satisfies_bc, order_covers, robin_solvable, depth, kk, ll, degree_le, value_at_face, slope_at_face, centre_x, ghost_x.
  destruct Hs as [[E [O|O]]|[E|(_ & E & O & Ha & Hb)]]; rewrite E, ?O; cbn [Z.eqb Pos.eqb andb negb].
  - exists [lit (s := QcS) 0; (1 + 1) * w1 / h].
    split; [left; split; reflexivity|]. split; [split; [left; reflexivity|cbn; lia]|]. split; [discriminate|].
    split; [g_ring; field; repeat split; assumption|]. split; [discriminate|]. g_ring; field; repeat split; assumption.
  - exists [lit (s := QcS) 0; ((1 + 1 + 1) * w1 - w2 / (1 + 1 + 1)) / h; ((1 + 1) * (w2 / (1 + 1 + 1) - w1)) / (h * h)].
    split; [left; split; reflexivity|]. split; [split; [right; reflexivity|cbn; lia]|]. split; [discriminate|].
    split; [g_ring; field; repeat split; assumption|]. split; [intros _; g_ring; field; repeat split; assumption|]. g_ring; field; repeat split; assumption.
  - exists [w1].
    split; [right; left; split; reflexivity|]. split; [cbn; lia|]. split; [discriminate|].
    split; [g_ring; ring|]. split; [discriminate|]. g_ring; ring.
  - pose proof (robin_den b h v Ha Hb Hh Hv) as P. pose proof (Qc_ne_0 _ P) as Ne.
    exists [(1 + 1) * b_alpha b * v * w1 / ((1 + 1) * b_alpha b * v + h * b_beta b); (1 + 1) * b_beta b * w1 / ((1 + 1) * b_alpha b * v + h * b_beta b)].
    split; [right; right; split; [reflexivity|cbn [nth]; g_ring; field; exact Ne]|]. split; [split; [left; reflexivity|cbn; lia]|].
    split; [intros _; split; [intros _; g_ring; exact Ne|discriminate]|].
    split; [g_ring; field; repeat split; assumption|]. split; [discriminate|]. g_ring; field; repeat split; assumption.
Qed.
