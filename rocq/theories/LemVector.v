(** * The host/device container *)

From Coq Require Import ZifyBool ZifyNat.
From Verif Require Import Base ModelBounds ModelMatrix ModelVector SpecVector LemBase LemMatrix.
Import ListNotations.
Open Scope Z_scope.

Section Vec.
  Context {A : Type}.

  Lemma aset_firstn (l : list A) i x : (i < length l)%nat ->
    aset l i x = firstn i l ++ x :: skipn (S i) l.
  Proof. revert i; induction l as [|y l IH]; intros [|i] H; simpl in *; try lia; [reflexivity|]. f_equal. apply IH. lia. Qed.

  Lemma skipn_skipn' i j (l : list A) : skipn i (skipn j l) = skipn (j + i) l.
  Proof. revert l; induction j as [|j IH]; intros [|x l]; simpl; auto. destruct i; reflexivity. Qed.

  (** Writing a list element by element. *)
  Lemma fold_aset_block (idx : list A) k s h : (k + s + length idx <= length h)%nat ->
    fold_left (fun h p => aset h (k + fst p) (snd p)) (combine (seq s (length idx)) idx) h =
    firstn (k + s) h ++ idx ++ skipn (k + s + length idx) h.
  Proof.
    revert s h; induction idx as [|x idx IH]; intros s h H; simpl in *.
    - rewrite Nat.add_0_r. rewrite firstn_skipn. reflexivity.
    - rewrite IH by (rewrite aset_length; lia).
      replace (k + S s)%nat with (S (k + s)) by lia.
      rewrite aset_firstn by lia.
      assert (length (firstn (k + s) h) = (k + s)%nat) as HL by (rewrite firstn_length; lia).
      replace (firstn (k + s) h ++ x :: skipn (S (k + s)) h)
        with ((firstn (k + s) h ++ [x]) ++ skipn (S (k + s)) h) by (rewrite <- app_assoc; reflexivity).
      rewrite firstn_app, skipn_app.
      assert (length (firstn (k + s) h ++ [x]) = S (k + s)) as HL2 by (rewrite app_length; simpl; lia).
      rewrite HL2. replace (S (k + s) - S (k + s))%nat with 0%nat by lia.
      rewrite firstn_all2 by lia. simpl firstn. rewrite app_nil_r.
      rewrite (skipn_all2 (firstn (k + s) h ++ [x])) by lia. simpl app.
      change (match h with [] => [] | _ :: l => skipn (k + s) l end) with (skipn (S (k + s)) h).
      rewrite skipn_skipn', <- app_assoc. cbn [app]. do 4 f_equal. lia.
  Qed.

  Lemma vec_refines (l : list (vop A)) v a n opened dirty :
    supported n l opened dirty -> length (v_h v) = n -> v_d v = a -> length a = n ->
    (dirty = false -> v_h v = v_d v) -> (dirty = true -> opened = true) ->
    (v_sync v = negb opened) ->
    v_d (fst (vec_run l v)) = fst (arr_run l a) /\ snd (vec_run l v) = snd (arr_run l a).
  Proof.
    revert v a opened dirty; induction l as [|o l IH]; intros v a opened dirty Hs Hl Hd Ha Hq Ho Hy; simpl; [auto|].
    assert (forall v' a' r op di,
      supported n l op di -> length (v_h v') = n -> v_d v' = a' -> length a' = n ->
      (di = false -> v_h v' = v_d v') -> (di = true -> op = true) -> v_sync v' = negb op ->
      v_d (fst (vec_run l v')) = fst (arr_run l a') /\
      r :: snd (vec_run l v') = r :: snd (arr_run l a')) as HN.
    { intros v' a' r op di H1 H2 H3 H4 H5 H6 H7. destruct (IH v' a' op di H1 H2 H3 H4 H5 H6 H7) as [-> ->]. auto. }
    assert (v_h (vec_sync v) = a /\ v_d (vec_sync v) = a /\ v_sync (vec_sync v) = true) as (S1 & S2 & S3).
    { unfold vec_sync. destruct (v_sync v) eqn:E; cbn [v_h v_d v_sync]; [|auto].
      destruct opened; [discriminate|]. destruct dirty; [destruct (Ho eq_refl); discriminate|].
      rewrite (Hq eq_refl). auto. }
    destruct o as [|i x| | |x|k idx]; cbn [vec_op arr_op fst snd supported] in *.
    - apply HN with (op := true) (di := dirty); auto.
    - destruct Hs as [-> Hs]. apply HN with (op := true) (di := true); auto.
      + cbn [dev_write v_d]. rewrite Hd. reflexivity.
      + rewrite aset_length. exact Ha.
      + discriminate.
    - cbn [vec_host fst snd]. rewrite S1. apply HN with (op := false) (di := false); auto; congruence.
    - cbn [vec_conv fst snd]. rewrite S1. apply HN with (op := false) (di := false); auto; congruence.
    - destruct Hs as [Hx Hs]. apply HN with (op := false) (di := false); auto.
    - destruct Hs as (-> & Hk & Hs). specialize (Hq eq_refl).
      assert (v_h (vec_set_offset k idx v) =
              firstn (k * length idx) a ++ idx ++ skipn (k * length idx + length idx) a) as E.
      { unfold vec_set_offset. cbn [v_h].
        pose proof (fold_aset_block idx (k * length idx) 0 (v_h v) ltac:(lia)) as E.
        rewrite Nat.add_0_r in E. rewrite E, Hq, Hd. reflexivity. }
      apply HN with (op := opened) (di := false); auto.
      + rewrite E. rewrite !app_length, firstn_length, skipn_length. lia.
      + rewrite !app_length, firstn_length, skipn_length. lia.
  Qed.

  Lemma vec_make_refines (l : list (vop A)) a0 bnds v :
    mdvec_make a0 bnds = Some v -> supported (length (v_d v)) l false false ->
    v_d (fst (vec_run l v)) = fst (arr_run l (v_d v)) /\ snd (vec_run l v) = snd (arr_run l (v_d v)).
  Proof.
    intros E Hs. unfold mdvec_make in E. apply bind_Some_inv in E as (n & _ & E). injection E as <-.
    cbn [v_d] in *. eapply vec_refines; try eassumption; auto.
  Qed.
End Vec.
