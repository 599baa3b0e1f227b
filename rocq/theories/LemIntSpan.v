(** * The [int] call operators of a span agree with the exact ones *)

From Coq Require Import ZifyBool ZifyNat Permutation.
From Verif Require Import Base ModelBounds ModelMatrix ModelIters ModelSpan ModelInt Spec SpecWindow SpecInt
  LemBase LemMatrix LemFsi LemDomain LemExpr LemAssign LemInt.
Import ListNotations.
Open Scope Z_scope.

Lemma mapM_some {A B} (f : A -> option B) l : (forall a, In a l -> exists b, f a = Some b) -> exists r, mapM f l = Some r.
Proof.
  induction l as [|a l IH]; intros H; [exists []; reflexivity|].
  destruct (H a (or_introl eq_refl)) as [b Hb]. destruct IH as [r Hr]; [intros; apply H; right; assumption|].
  exists (b :: r). cbn [mapM]. rewrite Hb, Hr. reflexivity.
Qed.

Lemma mapM_ext_in {A B} (f g : A -> option B) l : (forall a, In a l -> f a = g a) -> mapM f l = mapM g l.
Proof.
  induction l as [|a l IH]; intros H; [reflexivity|]. cbn [mapM]. rewrite (H a (or_introl eq_refl)).
  apply bind_ext; intros. rewrite IH; [reflexivity|]. intros; apply H; right; assumption.
Qed.

Lemma forM_fold {A M} (l : list A) (f : A -> M -> option M) (g : M -> A -> M) m :
  (forall a m, In a l -> f a m = Some (g m a)) -> forM l f m = Some (fold_left g l m).
Proof.
  revert m; induction l as [|a l IH]; intros m H; [reflexivity|]. cbn [forM fold_left].
  rewrite (H a m (or_introl eq_refl)). cbn [bind]. apply IH. intros; apply H; right; assumption.
Qed.

Lemma b_rep_ok b : int_range b -> b_lb b <= b_ub b + 1 -> int_min <= stride b <= int_max -> b_rep b = Some b.
Proof.
  unfold int_range, b_lb, b_ub, b_rep. intros H1 H2 H3. rewrite !ck_ok by ilia. reflexivity.
Qed.

Section Array.
  Context (s : span) (Hw : wf_span s) (Hi : int_array s).

  Notation bnd i := (snd (nth i (sp_b s) (0%nat, mkBounds 0 0 1))).

  Lemma array_ext : Forall (fun x => 1 <= x) (map (fun b => extent (snd b)) (sp_b s)).
  Proof.
    destruct Hi as [H _]. apply Forall_map. eapply Forall_impl; [|exact H]. intros b [_ Hb]. unfold extent. lia.
  Qed.

  Lemma array_cells : 1 <= cells_of (sp_b s) <= int_max.
  Proof. split; [apply prodZ_pos, array_ext|apply Hi]. Qed.

  Lemma array_bnd i : (i < length (sp_b s))%nat ->
    int_range (bnd i) /\ b_lb (bnd i) <= b_ub (bnd i) /\ stride (bnd i) = 1 /\ extent (bnd i) <= int_max.
  Proof.
    intros H. pose proof (nth_In (sp_b s) (0%nat, mkBounds 0 0 1) H) as Hin.
    destruct Hi as [Ha Hc]. destruct Hw as [_ Hs]. rewrite Forall_forall in Ha, Hs.
    destruct (Ha _ Hin) as [H1 H2]. split; [exact H1|]. split; [exact H2|]. split; [apply Hs; exact Hin|].
    pose proof (prodZ_ge _ _ array_ext (in_map (fun b => extent (snd b)) _ _ Hin)). cbv beta in *.
    unfold cells_of in Hc. ilia.
  Qed.

  Lemma array_rep : exists r, mapM (fun b => b_rep (snd b)) (sp_b s) = Some r.
  Proof.
    apply mapM_some. intros b Hb. exists (snd b). destruct Hi as [Ha _]. destruct Hw as [_ Hs].
    rewrite Forall_forall in Ha, Hs. specialize (Ha _ Hb). specialize (Hs _ Hb). cbv beta in *.
    apply b_rep_ok; [tauto|lia|rewrite Hs; ilia].
  Qed.

  Lemma span_sizes32_ok : span_sizes32 s = span_sizes s.
  Proof.
    unfold span_sizes32, span_sizes. apply mapM_ext_in. intros b Hb.
    destruct (In_nth _ _ (0%nat, mkBounds 0 0 1) Hb) as (i & Hi' & E).
    pose proof (array_bnd i Hi') as (A1 & A2 & A3 & A4). rewrite E in *.
    unfold b_size32, b_size. unfold extent, b_lb, b_ub in *.
    rewrite isub_ok by ilia. cbn [bind]. unfold idiv, cdiv. rewrite A3. cbn [Z.eqb bind].
    change (1 =? 0) with false. cbn iota. cbn [bind]. rewrite Z.quot_1_r. apply ck_ok. ilia.
  Qed.

  Lemma sub_lb32_ok c : length c = length (sp_b s) ->
    (forall i, (i < length (sp_b s))%nat -> int_min <= aget c i - b_lb (bnd i) <= int_max) ->
    sub_lb32 s c = Some (fold_left (fun a i => aset a i (aget a i - b_lb (bnd i))) (seq 0 (length (sp_b s))) c).
  Proof.
    intros HL H. unfold sub_lb32.
    rewrite (forM_aset_range (fun i x => isub x (b_lb (bnd i))) (fun i x => x - b_lb (bnd i))); [reflexivity|lia|].
    intros i Hi'. apply isub_ok. apply H. lia.
  Qed.
End Array.

Lemma count_range b : 1 <= stride b -> b_lb b <= b_ub b ->
  1 <= count b /\ stride b * (count b - 1) <= b_ub b - b_lb b /\ count b <= b_ub b - b_lb b + 1.
Proof.
  intros H1 H2. unfold count.
  pose proof (Z.div_mod (b_ub b - b_lb b + stride b) (stride b) ltac:(lia)) as E.
  pose proof (Z.mod_pos_bound (b_ub b - b_lb b + stride b) (stride b) ltac:(lia)).
  set (q := _ / _) in *. set (r := _ mod _) in *. clearbody q r. repeat split; nia.
Qed.

Lemma prodZ_le {A} (f g : A -> Z) l : (forall a, In a l -> 1 <= f a <= g a) -> 1 <= prodZ (map f l) <= prodZ (map g l).
Proof.
  induction l as [|a l IH]; intros H; [unfold prodZ; simpl; lia|]. cbn [map]. rewrite !prodZ_cons.
  pose proof (H a (or_introl eq_refl)). destruct IH; [intros; apply H; right; assumption|]. nia.
Qed.

Lemma prodZ_perm l l' : Permutation l l' -> prodZ l = prodZ l'.
Proof. induction 1; rewrite ?prodZ_cons; try lia; try (rewrite !prodZ_cons in *; lia). Qed.

Lemma NoDup_fst_inj {B} (l : list (nat * B)) d b b' : NoDup (map fst l) -> In (d, b) l -> In (d, b') l -> b = b'.
Proof.
  induction l as [|[d0 b0] l IH]; intros Hn H1 H2; [destruct H1|]. inversion Hn; subst. cbn [fst] in *.
  destruct H1 as [H1|H1], H2 as [H2|H2]; try congruence; auto.
  - injection H1 as -> ->. exfalso. apply H3. apply (in_map fst) in H2. exact H2.
  - injection H2 as -> ->. exfalso. apply H3. apply (in_map fst) in H1. exact H1.
Qed.

Lemma Forall2_aget n c : length c = length n -> (forall i, (i < length n)%nat -> 0 <= aget c i < aget n i) -> in_range n c.
Proof.
  revert c; induction n as [|x n IH]; intros [|y c] HL H; try discriminate HL; constructor.
  - apply (H 0%nat). simpl; lia.
  - apply IH; [injection HL as ->; reflexivity|]. intros i Hi. specialize (H (S i)). rewrite !aget_cons_S in H. apply H. simpl; lia.
Qed.

Lemma sstride_nonneg bs d : Forall (fun x => 1 <= x) (map (fun b : dbnd => extent (snd b)) bs) -> 0 <= sstride bs d <= cells_of bs.
Proof.
  induction bs as [|[d' b] bs IH]; intros H; [unfold cells_of, prodZ; simpl; lia|]. inversion H; subst. specialize (IH H3). cbn [snd] in *.
  unfold cells_of in *. cbn [sstride map]. rewrite prodZ_cons. pose proof (prodZ_pos _ H3). cbn [snd].
  unfold cells_of. destruct (Nat.eqb d' d); nia.
Qed.

Section Call.
  Context (s : span) (hd tl dom : list dbnd).
  Context (Hw : wf_span s) (Es : sp_b s = hd ++ tl) (Hd : wf_dom dom).
  Context (HP : Permutation (map fst dom) (map fst hd)).
  Context (Hi : int_array s) (Hin : inside dom s).

  Notation bnd i := (snd (nth i (sp_b s) (0%nat, mkBounds 0 0 1))).

  (** The array bounds of a domain direction. *)
  Lemma dom_in d b : In (d, b) dom -> exists b', In (d, b') (sp_b s) /\
      b_lb b' <= b_lb b <= b_ub b /\ b_ub b <= b_ub b' /\ 1 <= stride b /\
      stride b * cells_of (sp_b s) <= int_max /\ int_range b' /\ extent b' <= cells_of (sp_b s).
  Proof.
    intros H. unfold inside in Hin. rewrite Forall_forall in Hin. destruct (Hin _ H) as (b' & H1 & H2 & H3 & H4). cbn [fst snd] in *.
    exists b'. destruct Hd as (_ & _ & Hwf). rewrite Forall_forall in Hwf. destruct (Hwf _ H) as [H5 _]. cbn [snd] in H5.
    destruct Hi as [Ha _]. rewrite Forall_forall in Ha. destruct (Ha _ H1) as [H6 _].
    repeat split; auto; try lia; try apply H6.
    apply (prodZ_ge _ _ (array_ext s Hi) (in_map (fun b => extent (snd b)) _ _ H1)).
  Qed.

  Lemma dom_int d b : In (d, b) dom -> int_range b /\ 1 <= stride b <= int_max.
  Proof.
    intros H. destruct (dom_in d b H) as (b' & H1 & H2 & H3 & H4 & H5 & H6 & H7). unfold int_range in *.
    pose proof (array_cells s Hi). repeat split; try lia. nia.
  Qed.

  Lemma counts_int : Forall (fun x => 1 <= x) (counts dom) /\ prodZ (counts dom) <= cells_of (sp_b s).
  Proof.
    split.
    - apply Forall_map, Forall_forall. intros [d b] H. destruct (dom_in d b H) as (b' & H1 & H2 & H3 & H4 & _). cbn [snd].
      apply count_range; lia.
    - set (ext := fun d => match find (fun b => Nat.eqb (fst b) d) (sp_b s) with Some b => extent (snd b) | None => 1 end).
      assert (forall d b, In (d, b) (sp_b s) -> ext d = extent b) as HE.
      { intros d b H. unfold ext. rewrite find_map_index. destruct Hw as [Hn _].
        destruct (In_nth_error _ _ H) as [j Hj]. rewrite (map_index_nth _ d j); [rewrite Hj; reflexivity|exact Hn|].
        rewrite nth_error_map, Hj. reflexivity. }
      assert (prodZ (counts dom) <= prodZ (map (fun b => ext (fst b)) dom)) as H1.
      { unfold counts. apply (prodZ_le (fun b => count (snd b))). intros [d b] H. cbn [fst snd].
        destruct (dom_in d b H) as (b' & H1 & H2 & H3 & H4 & _). rewrite (HE d b' H1). unfold extent.
        destruct (count_range b H4 ltac:(lia)) as (C1 & _ & C2). lia. }
      rewrite <- (map_map fst ext) in H1.
      rewrite (prodZ_perm _ _ (Permutation_map ext HP)) in H1. rewrite map_map in H1.
      assert (map (fun b => ext (fst b)) hd = map (fun b => extent (snd b)) hd) as E.
      { apply map_ext_in. intros [d b] H. cbn [fst snd]. apply HE. rewrite Es. apply in_or_app; left; exact H. }
      rewrite E in H1. pose proof (array_ext s Hi) as HA. unfold cells_of. rewrite Es in *. rewrite map_app, prodZ_app in *.
      apply Forall_app in HA as [HA1 HA2]. pose proof (prodZ_pos _ HA1). pose proof (prodZ_pos _ HA2). nia.
  Qed.

  Lemma dom_point_in c pt : in_range (counts dom) c -> in_bounds (sp_b s) (pt_at dom c (lbs tl pt)).
  Proof.
    intros Hc. pose proof (in_range_length _ _ Hc) as HL. rewrite counts_length in HL.
    apply Forall_forall. intros [d b'] Hb'. cbn [fst snd].
    destruct Hi as [Ha _]. rewrite Forall_forall in Ha. destruct (Ha _ Hb') as [_ H6]. cbn [snd] in H6.
    pose proof Hd as (_ & Hnd & _). pose proof Hw as [Hnds _]. unfold sp_order in Hnds.
    destruct (in_dec Nat.eq_dec d (map fst dom)) as [Hx|Hx].
    - destruct (nth_error_In_fst _ _ Hx) as [b Hb]. rewrite (pt_at_in dom c _ _ d b Hnd ltac:(lia) Hb).
      assert (map_index (map fst dom) d < length (counts dom))%nat as Hlt.
      { rewrite counts_length. apply nth_error_Some. congruence. }
      pose proof (in_range_aget _ _ _ Hc Hlt) as HR. set (j := map_index _ d) in *.
      assert (aget (counts dom) j = count b) as EC.
      { unfold counts. rewrite aget_map with (d := (0%nat, mkBounds 0 0 1)) by (rewrite counts_length in Hlt; exact Hlt).
        rewrite (nth_error_nth _ _ _ Hb). reflexivity. }
      rewrite EC in HR. destruct (dom_in d b (nth_error_In _ _ Hb)) as (b1 & H1 & H2 & H3 & H4 & _).
      assert (b1 = b') as ->.
      { eapply NoDup_fst_inj; eassumption. }
      destruct (count_range b H4 ltac:(lia)) as (_ & C & _). nia.
    - rewrite pt_at_notin by exact Hx. rewrite Es in Hb', Hnds. rewrite map_app in Hnds. apply in_app_or in Hb' as [Hb'|Hb'].
      + exfalso. apply Hx. eapply Permutation_in; [symmetry; exact HP|]. apply (in_map fst) in Hb'. exact Hb'.
      + rewrite (lbs_in tl pt d b'); [lia| |exact Hb'].
        clear - Hnds. induction (map fst hd) as [|x l IH]; simpl in *; [assumption|]. inversion Hnds; auto.
  Qed.

  Lemma call_helper32_ok flag : call_helper32 flag s dom = call_helper flag s dom.
  Proof.
    pose proof Hw as [Hnds Hus]. pose proof Hd as (Hne & Hnd & Hwf).
    unfold call_helper32, call_helper. set (N := length (sp_b s)).
    assert (length dom = length hd) as HLd.
    { apply Permutation_length in HP. rewrite !map_length in HP. exact HP. }
    assert (N = length hd + length tl)%nat as HN by (unfold N; rewrite Es, app_length; reflexivity).
    destruct (array_rep s Hw Hi) as [r1 ->]. cbn [bind].
    destruct (mapM_some (fun b : dbnd => b_rep (snd b)) dom) as [r2 ->].
    { intros [d b] H. exists b. destruct (dom_int d b H) as [H1 H2]. destruct (dom_in d b H) as (b' & _ & H3 & _). cbn [snd].
      apply b_rep_ok; [exact H1|lia|ilia]. }
    cbn [bind]. destruct (Nat.ltb_spec N (length dom)); [lia|].
    rewrite (mapM_map (fun b : dbnd => b_ub32 (snd b)) (fun b => b_ub (snd b))).
    2:{ intros [d b] H0. destruct (dom_int d b H0) as [H1 H2]. destruct (dom_in d b H0) as (b' & _ & H3 & _).
        cbn [snd]. unfold b_ub32, int_range, b_lb, b_ub in *. apply isub_ok. ilia. }
    cbn [bind].
    assert (forall d, In d (sp_order s) -> In d (map fst dom) \/ (length dom < N)%nat) as Hcov.
    { intros d H0. unfold sp_order in H0. rewrite Es, map_app, in_app_iff in H0.
      destruct H0 as [H0|H0].
      - left. eapply Permutation_in; [symmetry; exact HP | exact H0].
      - right. assert (length tl <> 0)%nat by (destruct tl; [simpl in H0; tauto|discriminate]). lia. }
    assert (length (sp_order s) = N) as HLo by (unfold sp_order; rewrite map_length; reflexivity).
    rewrite (dlook_stage b_lb), (dlook_stage b_ub), (dlook_stage stride) by (auto; lia).
    cbn [bind].
    set (win := seq (length dom) (N - length dom)).
    rewrite (forM_fold win _ (fun a i => aset a i (b_ub (bnd i)))).
    2:{ intros i a H0. apply in_seq in H0. destruct (array_bnd s Hw Hi i ltac:(fold N; lia)) as (A1 & A2 & A3 & A4).
        unfold b_ub32. unfold int_range, b_lb, b_ub in *. rewrite isub_ok by ilia. reflexivity. }
    cbn [bind].
    assert (forall f, let a1 := fold_left (fun a i => aset a i (f (bnd i))) win (map (dlook f dom) (sp_order s)) in
       length a1 = N /\
       forall i, (i < N)%nat -> aget a1 i =
         if Nat.ltb i (length dom) then dlook f dom (fst (nth i (sp_b s) (0%nat, mkBounds 0 0 1)))
         else f (bnd i)) as H1.
    { intros f a1.
      assert (length (map (dlook f dom) (sp_order s)) = N) as L0 by (rewrite map_length; exact HLo).
      assert (forall i, (i < N)%nat -> aget (map (dlook f dom) (sp_order s)) i = dlook f dom (fst (nth i (sp_b s) (0%nat, mkBounds 0 0 1)))) as G0.
      { intros i H0. rewrite aget_map with (d := 0%nat) by lia. f_equal. unfold sp_order.
        change 0%nat with (fst (0%nat, mkBounds 0 0 1)) at 1. rewrite map_nth. reflexivity. }
      destruct (fold_aset_range (fun i _ => f (bnd i)) (length dom) (N - length dom)
                                (map (dlook f dom) (sp_order s))) as [L1 G1].
      fold win in L1, G1. unfold a1. split; [rewrite L1; exact L0|].
      intros i H0. rewrite G1 by lia. rewrite G0 by lia.
      destruct (Nat.leb_spec (length dom) i), (Nat.ltb_spec i (length dom + (N - length dom))),
        (Nat.ltb_spec i (length dom)); simpl; try reflexivity; lia. }
    set (lb1 := fold_left (fun a i => aset a i (b_lb (bnd i))) win (map (dlook b_lb dom) (sp_order s))).
    set (ub1 := fold_left (fun a i => aset a i (b_ub (bnd i))) win (map (dlook b_ub dom) (sp_order s))).
    set (stm1 := fold_left (fun a i => aset a i (stride (bnd i))) win (map (dlook stride dom) (sp_order s))).
    destruct (H1 b_lb) as [Llb Glb]. destruct (H1 b_ub) as [Lub Gub]. destruct (H1 stride) as [Lst Gst].
    fold lb1 in Llb, Glb. fold ub1 in Lub, Gub. fold stm1 in Lst, Gst. clear H1.
    (* every entry, whether of the domain or of the window *)
    pose proof (array_cells s Hi) as HC.
    assert (forall i, (i < N)%nat -> b_lb (bnd i) <= aget lb1 i <= aget ub1 i /\ aget ub1 i <= b_ub (bnd i) /\
              1 <= aget stm1 i /\ aget stm1 i * cells_of (sp_b s) <= int_max /\ extent (bnd i) <= cells_of (sp_b s)) as HF.
    { intros i H0. rewrite Glb, Gub, Gst by exact H0.
      pose proof (nth_In (sp_b s) (0%nat, mkBounds 0 0 1) H0) as Hbi.
      pose proof (prodZ_ge _ _ (array_ext s Hi) (in_map (fun b => extent (snd b)) _ _ Hbi)) as Hext. cbv beta in Hext.
      fold (cells_of (sp_b s)) in Hext.
      destruct (Nat.ltb_spec i (length dom)) as [Hlt|Hge].
      - set (d := fst (nth i (sp_b s) (0%nat, mkBounds 0 0 1))).
        assert (In d (map fst dom)) as Hx.
        { eapply Permutation_in; [symmetry; exact HP|]. unfold d. rewrite Es, app_nth1 by lia.
          apply in_map. apply nth_In. lia. }
        destruct (nth_error_In_fst _ _ Hx) as [b Hb].
        assert (forall f, dlook f dom d = f b) as Hdl by (intros f; unfold dlook; rewrite find_map_index, Hb; reflexivity).
        rewrite !Hdl. destruct (dom_in d b (nth_error_In _ _ Hb)) as (b1 & G1 & G2 & G3 & G4 & G5 & _).
        assert (b1 = bnd i) as Eb1.
        { apply (NoDup_fst_inj (sp_b s) d); [exact Hnds|exact G1|]. unfold d. rewrite <- surjective_pairing. exact Hbi. }
        rewrite Eb1 in *. repeat split; try lia; assumption.
      - destruct (array_bnd s Hw Hi i H0) as (A1 & A2 & A3 & A4). rewrite A3. repeat split; try lia; ilia. }
    assert (forall i, (i < N)%nat -> 0 <= aget lb1 i - b_lb (bnd i) < extent (bnd i) /\
              0 <= aget ub1 i - b_lb (bnd i) < extent (bnd i) /\ extent (bnd i) <= int_max) as HF2.
    { intros i H0. destruct (HF i H0) as (F1 & F2 & F3 & F4 & F5). unfold extent in *. lia. }
    rewrite (sub_lb32_ok s lb1) by (auto; intros i H0; specialize (HF2 i H0); ilia).
    rewrite (sub_lb32_ok s ub1) by (auto; intros i H0; specialize (HF2 i H0); ilia).
    cbn [bind]. rewrite (span_sizes32_ok s Hw Hi). rewrite (span_sizes_wf s Hw). cbn [bind]. fold N.
    destruct (fold_aset_range (fun i x => x - b_lb (bnd i)) 0 N lb1) as [Llb2 Glb2].
    destruct (fold_aset_range (fun i x => x - b_lb (bnd i)) 0 N ub1) as [Lub2 Gub2].
    set (lb2 := fold_left (fun a i => aset a i (aget a i - b_lb (bnd i))) (seq 0 N) lb1) in *.
    set (ub2 := fold_left (fun a i => aset a i (aget a i - b_lb (bnd i))) (seq 0 N) ub1) in *.
    assert (forall i, (i < N)%nat -> aget lb2 i = aget lb1 i - b_lb (bnd i) /\ aget ub2 i = aget ub1 i - b_lb (bnd i)) as G2.
    { intros i H0. rewrite Glb2, Gub2 by lia. destruct (Nat.ltb_spec i (0 + N)); [|lia]. split; reflexivity. }
    destruct (forallb _ _) eqn:EF; [|reflexivity].
    assert (forall i, In i (transpose_sequence (sp_order s) (map fst dom)) -> (i < N)%nat) as Hsq.
    { intros i H0. rewrite forallb_forall in EF. apply Nat.ltb_lt. apply EF. exact H0. }
    unfold make_submatrix_helper32, make_submatrix_helper.
    rewrite (mapM_ext_in _ (fun i => cdiv (aget ub2 i - aget lb2 i + aget stm1 i) (aget stm1 i))).
    2:{ intros i H0. specialize (Hsq i H0). destruct (HF i Hsq) as (F1 & F2 & F3 & F4 & F5). destruct (G2 i Hsq) as [-> ->].
        unfold extent in *. assert (b_ub (bnd i) - b_lb (bnd i) + aget stm1 i <= int_max) by nia.
        rewrite isub_ok by ilia. cbn [bind]. rewrite iadd_ok by ilia. cbn [bind].
        rewrite idiv_pos, cdiv_pos by lia. reflexivity. }
    apply bind_ext. intros n En.
    rewrite (mapM_map _ (fun i => stride_dim_stm i (map (fun b => extent (snd b)) (sp_b s)) stm1)).
    2:{ intros i H0. specialize (Hsq i H0). destruct (HF i Hsq) as (F1 & F2 & F3 & F4 & F5).
        unfold stride_dim_stm32, stride_dim_stm. rewrite stride_dim32_ok by (apply array_ext || apply HC; assumption).
        cbn [bind]. apply imul_ok. rewrite stride_dim_skipn by lia.
        pose proof (prodZ_skipn_le (Z.to_nat (Z.of_nat i + 1)) _ (array_ext s Hi)) as [P1 P2]. fold (cells_of (sp_b s)) in P2.
        assert (0 <= aget stm1 i * prodZ (skipn (Z.to_nat (Z.of_nat i + 1)) (map (fun b => extent (snd b)) (sp_b s))) <= int_max); [|ilia].
        nia. }
    cbn [bind].
    rewrite ravel32_ok; [reflexivity| | |apply array_ext; assumption| |].
    - intros E. apply map_eq_nil in E. destruct dom as [|[d b] dom'] eqn:Edom; [congruence|].
      destruct (Forall_inv Hin) as (b' & Hb' & _). rewrite E in Hb'. destruct Hb'.
    - rewrite map_length. fold N. lia.
    - apply Forall_forall. intros x Hx. destruct (In_nth _ _ 0 Hx) as (i & H0 & <-). fold (aget lb2 i).
      rewrite Llb2, Llb in H0. destruct (G2 i H0) as [-> _]. apply HF2. exact H0.
    - assert (in_range (map (fun b => extent (snd b)) (sp_b s)) lb2) as HR.
      { apply Forall2_aget; [rewrite map_length; fold N; lia|]. rewrite map_length. fold N. intros i H0.
        rewrite aget_map with (d := (0%nat, mkBounds 0 0 1)) by exact H0. destruct (G2 i H0) as [-> _]. apply HF2. exact H0. }
      pose proof (rav_bound _ _ HR). fold (cells_of (sp_b s)) in *. lia.
  Qed.

  (** The positions of the traversal. *)
  Lemma call_helper_int flag :
    let fl := (negb (Nat.eqb (length tl) 0) || flag)%bool in
    let F := fun base => mt_at base (strides_of (sp_b s) dom) (counts dom) fl in
    exists base,
    call_helper flag s dom = Some (F base 0) /\ call_helper32 flag s dom = Some (F base 0) /\
    forall p, 0 <= p < prodZ (counts dom) ->
      mti_addr32 (F base p) = Some (mti_addr (F base p)).
  Proof.
    intros fl F. destruct counts_int as [Hc HM]. pose proof (array_cells s Hi) as HC.
    destruct (call_helper_family flag s hd tl dom Hw Es Hd HP Hc) as (base & E & HA). fold fl in E, HA.
    exists base. split; [exact E|]. split; [rewrite call_helper32_ok; exact E|].
    intros p Hp. apply mti_addr32_at; auto; try lia.
    - unfold strides_of, counts. rewrite !map_length. reflexivity.
    - apply Forall_map, Forall_forall. intros [d b] H. cbn [fst snd]. destruct (dom_in d b H) as (b' & _ & _ & _ & H4 & _).
      pose proof (sstride_nonneg (sp_b s) d (array_ext s Hi)). nia.
    - pose proof (HA p origin Hp) as E1. pose proof (HA 0 origin ltac:(lia)) as E0.
      rewrite mti_addr_dotZ in E1, E0; cbn [mt_at m_n m_stride m_cur m_base] in *;
        try (unfold strides_of, counts; rewrite !map_length; reflexivity); try apply coordZ_length.
      assert (dotZ (strides_of (sp_b s) dom) (coordZ (counts dom) 0) = 0) as E2.
      { rewrite coordZ_0 by exact Hc. generalize (strides_of (sp_b s) dom). intros l. generalize (counts dom). intros c.
        revert l; induction c; intros [|x l]; cbn; try reflexivity. rewrite IHc. lia. }
      rewrite E2 in E0. unfold addr, padd in E0, E1. injection E0 as _ E0. injection E1 as _ E1.
      pose proof (offset_of_range _ _ (dom_point_in (unrav (counts dom) p) origin (unrav_in_range _ _ Hc Hp))).
      pose proof (offset_of_range _ _ (dom_point_in (unrav (counts dom) 0) origin (unrav_in_range (counts dom) 0 Hc ltac:(lia)))).
      ilia.
  Qed.
End Call.
