(** * Lemmas behind the transpose, window, expression and stencil properties *)

From Coq Require Import ZifyBool ZifyNat Permutation.
From Verif Require Import Base ModelBounds ModelMatrix ModelIters ModelSpan Spec SpecIter ModelSched
  LemBase LemMatrix LemFsi LemDomain LemExpr LemExec LemSched LemAssign LemProps.
Import ListNotations.
Open Scope Z_scope.

(** ** Transpose *)

Lemma aget_in_box n c j : in_box n c -> (j < length n)%nat -> 0 <= aget c j < aget n j.
Proof.
  intros H; revert j; induction H as [|x y n c Hx H IH]; intros j Hj; simpl in *; [lia|].
  destruct j as [|j]; [exact Hx|]. rewrite !aget_cons_S. apply IH. lia.
Qed.

Lemma in_box_map n c I : in_box n c -> (forall i, In i I -> (i < length n)%nat) ->
  in_box (map (aget n) I) (map (aget c) I).
Proof.
  intros H HI. induction I as [|i I IH]; simpl; constructor.
  - apply aget_in_box; auto. apply HI; left; reflexivity.
  - apply IH. intros; apply HI; right; assumption.
Qed.

Definition sumZ (l : list Z) : Z := fold_right Z.add 0 l.

Lemma sumZ_perm l l' : Permutation l l' -> sumZ l = sumZ l'.
Proof. induction 1; simpl; lia. Qed.

Lemma dotZ_map (f g : nat -> Z) I : dotZ (map f I) (map g I) = sumZ (map (fun i => f i * g i) I).
Proof. induction I; simpl; congruence. Qed.

Lemma rav_sum n c : length c = length n ->
  rav n c = sumZ (map (fun i => prodZ (skipn (S i) n) * aget c i) (seq 0 (length n))).
Proof.
  revert c; induction n as [|x n IH]; intros [|y c] HL; try discriminate; [reflexivity|].
  cbn [rav length seq map sumZ fold_right]. rewrite <- seq_shift, map_map.
  change (fold_right Z.add 0) with sumZ. rewrite IH by (simpl in HL; lia).
  change (skipn 1 (x :: n)) with n. change (aget (y :: c) 0) with y. rewrite Z.mul_comm. reflexivity.
Qed.

Lemma transpose_elem I it sz k c :
  box sz -> Permutation I (seq 0 (length sz)) -> in_box sz c ->
  ravel (map (aget sz) I) (map (aget c) I) = Z.of_nat k ->
  mti_addr (Nat.iter k mti_inc (make_transpose I it sz)) = padd it (ravel sz c).
Proof.
  intros [Hne Hn] HP Hc Hk.
  assert (forall i, In i I -> (i < length sz)%nat) as HI.
  { intros i Hi. rewrite HP in Hi. apply in_seq in Hi. lia. }
  assert (Forall (fun x => 1 <= x) (map (aget sz) I)) as Hn'.
  { apply Forall_map, Forall_forall. intros i Hi. unfold aget.
    rewrite Forall_forall in Hn. apply Hn. apply nth_In. apply HI; exact Hi. }
  assert (map (aget sz) I <> []) as Hne'.
  { intros E. apply map_eq_nil in E. subst I. apply Permutation_nil in HP.
    destruct sz; [congruence|discriminate]. }
  assert (box (map (aget sz) I)) as Hbox by (split; assumption).
  pose proof (in_box_map sz c I Hc HI) as Hc'.
  rewrite ravel_rav in Hk by (auto; apply in_range_length; exact Hc').
  pose proof (rav_bound _ _ Hc') as Hr.
  assert (make_transpose I it sz =
          mt_at it (map (fun i => stride_dim (Z.of_nat i) sz) I) (map (aget sz) I) false 0) as ->.
  { unfold make_transpose, mt_at. rewrite coordZ_0 by exact Hn'. rewrite map_map. reflexivity. }
  rewrite mti_iter_at by (auto; lia). rewrite Z.add_0_l.
  rewrite mti_addr_dotZ; cbn [mt_at m_stride m_cur m_n m_base].
  2:{ rewrite !map_length. reflexivity. }
  2:{ apply coordZ_length. }
  unfold coordZ. destruct (Z.ltb_spec (Z.of_nat k) (prodZ (map (aget sz) I))); [|lia].
  rewrite <- Hk, unrav_rav by assumption. f_equal.
  rewrite dotZ_map. rewrite ravel_rav by (auto; apply in_range_length; exact Hc).
  rewrite rav_sum by (apply in_range_length; exact Hc). apply sumZ_perm.
  rewrite <- HP. erewrite map_ext; [reflexivity|]. intros i. simpl. rewrite stride_dim_skipn by lia.
  replace (Z.to_nat (Z.of_nat i + 1)) with (S i) by lia. reflexivity.
Qed.

Lemma prodZ_perm l l' : Permutation l l' -> prodZ l = prodZ l'.
Proof. induction 1; rewrite ?prodZ_cons; lia. Qed.

Lemma transpose_size I it sz : Permutation I (seq 0 (length sz)) ->
  mti_size (make_transpose I it sz) = prodZ sz.
Proof.
  intros HP. unfold mti_size, make_transpose; cbn [m_n]. rewrite stride_dim_m1.
  rewrite (prodZ_perm _ (map (aget sz) (seq 0 (length sz)))) by (apply Permutation_map; exact HP).
  rewrite map_aget_seq. reflexivity.
Qed.

(** ** Windows *)

Lemma addr_pset s pt d x : NoDup (sp_order s) ->
  addr s (pset pt d x) = padd (addr s pt) ((x - pt d) * sstride (sp_b s) d).
Proof.
  intros H. unfold addr, padd; cbn [fst snd]. rewrite offset_of_pset by exact H.
  apply f_equal2; [reflexivity|lia].
Qed.

Lemma padd_padd p a b : padd (padd p a) b = padd p (a + b).
Proof. unfold padd; simpl. f_equal. lia. Qed.

Lemma window_points s hd w wb dom :
  wf_span s -> sp_b s = hd ++ [(w, wb)] -> wf_dom dom -> Permutation (map fst dom) (map fst hd) ->
  exists it, call_helper false s dom = Some it /\ m_ptr it = true /\
    mti_size it = Z.of_nat (length (domain_points dom origin)) /\
    forall k pt, nth_error (domain_points dom origin) k = Some pt ->
      m_ptr (Nat.iter k mti_inc it) = true /\
      forall i, padd (mti_addr (Nat.iter k mti_inc it)) i = addr s (pset pt w (b_lb wb + i)).
Proof.
  intros Hs Hb Hd HP.
  destruct (call_enumerates false s hd [(w, wb)] dom origin Hs Hb Hd HP) as (it & E & Hsz & Hp & HA).
  exists it. split; [exact E|]. split; [exact Hp|]. split; [exact Hsz|].
  intros k pt Hk. destruct (HA k pt Hk) as (Ha & Hp' & _). split; [rewrite Hp'; exact Hp|].
  intros i. rewrite Ha. cbn [lbs].
  rewrite (addr_peq s (pset pt w (b_lb wb + i)) (pset (pset pt w (b_lb wb)) w (b_lb wb + i))).
  2:{ intros d. symmetry. apply pset_pset. }
  rewrite (addr_pset s (pset pt w (b_lb wb))) by apply Hs. rewrite pset_same.
  assert (sstride (sp_b s) w = 1) as ->; [|f_equal; lia].
  rewrite Hb. apply sstride_last.
  pose proof Hs as [Hnd _]. unfold sp_order in Hnd. rewrite Hb, map_app in Hnd. simpl in Hnd.
  intros Hin. apply (nodup_app_notin _ _ w Hnd); [left; reflexivity|exact Hin].
Qed.

(** ** Expressions *)

Section Expr.
  Context {S : Scalar}.

  Lemma steps_family (F : Z -> @iter S) M k p :
    iter_family F M -> 0 <= p -> p + Z.of_nat k <= M -> steps k (F p) = Some (F (p + Z.of_nat k)).
  Proof.
    intros HF. revert p; induction k as [|k IH]; intros p Hp Hk; [simpl; rewrite Z.add_0_r; reflexivity|].
    cbn [steps]. rewrite (fam_inc _ _ HF) by lia. cbn [bind]. rewrite IH by lia. do 2 f_equal. lia.
  Qed.

  Lemma eval_evaluates (e : @expr S) dom : wf_dom dom -> wf_expr e dom -> evaluates e dom (denote e).
  Proof.
    intros Hd Hw. pose proof (wf_counts _ Hd) as Hc0.
    destruct (Z.le_gt_cases (prodZ (counts dom)) 0) as [H0|H0].
    - destruct (eval_total e dom Hd Hw) as [it E]. exists it. split; [exact E|].
      rewrite empty_points by assumption. intros k pt Hk. destruct k; discriminate.
    - destruct (eval_family e dom Hd (wf_counts_pos _ Hd H0) Hw) as (F & E & HF & HD).
      exists (F 0). split; [exact E|]. intros k pt Hk.
      destruct (nth_domain_points _ _ _ _ Hc0 Hk) as [-> Hlt].
      exists (F (Z.of_nat k)). split.
      + rewrite (steps_family F (prodZ (counts dom))) by (auto; lia). rewrite Z.add_0_l. reflexivity.
      + intros m. apply HD with (pt0 := origin). lia.
  Qed.

  Lemma evaluates_ext (e : @expr S) dom f g :
    (forall pt m, f pt m = g pt m) -> evaluates e dom f -> evaluates e dom g.
  Proof.
    intros H (it & E & HA). exists it. split; [exact E|]. intros k pt Hk.
    destruct (HA k pt Hk) as (it' & Es & Hd). exists it'. split; [exact Es|]. intros m. rewrite Hd. apply H.
  Qed.

  (** Jumping forward reaches the iterator reached by stepping. *)
  Lemma eval_jumps (e : @expr S) dom it :
    wf_dom dom -> wf_expr e dom -> eval e dom = Some it ->
    forall n k, (n + k < length (domain_points dom origin))%nat ->
      exists it1 it2, steps n it = Some it1 /\ steps (n + k) it = Some it2 /\
        it_adv it1 (Z.of_nat k) = Some it2.
  Proof.
    intros Hd Hw E n k Hnk. pose proof (wf_counts _ Hd) as Hc0.
    pose proof (domain_points_length dom origin Hc0) as HL.
    destruct (eval_family e dom Hd (wf_counts_pos _ Hd ltac:(lia)) Hw) as (F & E' & HF & _).
    rewrite E in E'. apply some_inj in E'. subst it.
    rewrite !(steps_family F (prodZ (counts dom))) by (auto; lia).
    do 2 eexists. split; [reflexivity|]. split; [reflexivity|].
    rewrite (fam_adv _ _ HF) by lia. do 2 f_equal. lia.
  Qed.

  Lemma eval_distance (e : @expr S) dom it :
    wf_dom dom -> wf_expr e dom -> eval e dom = Some it ->
    forall n k, (n <= length (domain_points dom origin))%nat -> (k <= length (domain_points dom origin))%nat ->
      (0 < length (domain_points dom origin))%nat ->
      exists it1 it2, steps n it = Some it1 /\ steps k it = Some it2 /\
        it_dist it1 it2 = Some (Z.of_nat k - Z.of_nat n).
  Proof.
    intros Hd Hw E n k Hn Hk Hp. pose proof (wf_counts _ Hd) as Hc0.
    pose proof (domain_points_length dom origin Hc0) as HL.
    destruct (eval_family e dom Hd (wf_counts_pos _ Hd ltac:(lia)) Hw) as (F & E' & HF & _).
    rewrite E in E'. apply some_inj in E'. subst it.
    rewrite !(steps_family F (prodZ (counts dom))) by (auto; lia).
    do 2 eexists. split; [reflexivity|]. split; [reflexivity|].
    rewrite (fam_dist _ _ HF) by lia. do 2 f_equal; lia.
  Qed.

  Lemma eval_dec (e : @expr S) dom it :
    wf_dom dom -> wf_expr e dom -> eval e dom = Some it ->
    forall n, (n < length (domain_points dom origin))%nat ->
      exists it1 it2, steps n it = Some it1 /\ it_inc it1 = Some it2 /\ it_dec it2 = Some it1.
  Proof.
    intros Hd Hw E n Hn. pose proof (wf_counts _ Hd) as Hc0.
    pose proof (domain_points_length dom origin Hc0) as HL.
    destruct (eval_family e dom Hd (wf_counts_pos _ Hd ltac:(lia)) Hw) as (F & E' & HF & _).
    rewrite E in E'. apply some_inj in E'. subst it.
    rewrite !(steps_family F (prodZ (counts dom))) by (auto; lia).
    do 2 eexists. split; [reflexivity|].
    rewrite (fam_inc _ _ HF) by lia. split; [reflexivity|]. apply (fam_dec _ _ HF). lia.
  Qed.
End Expr.
