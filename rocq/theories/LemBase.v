(** * Lemmas about arrays, loops and memory *)

From Coq Require Import ZifyBool ZifyNat.
From Verif Require Import Base.
Import ListNotations.
Open Scope Z_scope.


(** ** bind, mapM, forM *)

Lemma bind_Some_inv {A B} (x : option A) (f : A -> option B) b :
  bind x f = Some b -> exists a, x = Some a /\ f a = Some b.
Proof. destruct x; simpl; [eauto | discriminate]. Qed.

Lemma bind_assoc {A B C} (x : option A) (f : A -> option B) (g : B -> option C) :
  bind (bind x f) g = bind x (fun a => bind (f a) g).
Proof. destruct x; reflexivity. Qed.

Lemma bind_ext {A B} (x : option A) (f g : A -> option B) :
  (forall a, x = Some a -> f a = g a) -> bind x f = bind x g.
Proof. destruct x; simpl; intros H; [apply H; reflexivity | reflexivity]. Qed.

Lemma mapM_length {A B} (f : A -> option B) l r : mapM f l = Some r -> length r = length l.
Proof.
  revert r; induction l as [|a l IH]; simpl; intros r H.
  - injection H as <-; reflexivity.
  - apply bind_Some_inv in H as (b & _ & H). apply bind_Some_inv in H as (bs & H1 & H2).
    injection H2 as <-. simpl. rewrite (IH _ H1). reflexivity.
Qed.

Lemma mapM_map {A B} (f : A -> option B) (g : A -> B) l :
  (forall a, In a l -> f a = Some (g a)) -> mapM f l = Some (map g l).
Proof.
  induction l as [|a l IH]; simpl; intros H; [reflexivity|].
  rewrite (H a) by auto. simpl. rewrite IH by auto. reflexivity.
Qed.

Lemma forM_app {A M} (l1 l2 : list A) (f : A -> M -> option M) m :
  forM (l1 ++ l2) f m = bind (forM l1 f m) (forM l2 f).
Proof.
  revert m; induction l1 as [|a l IH]; simpl; intros m; [reflexivity|].
  rewrite bind_assoc. apply bind_ext. intros; apply IH.
Qed.

Lemma forM_map {A B M} (g : A -> B) (l : list A) (f : B -> M -> option M) m :
  forM (map g l) f m = forM l (fun a => f (g a)) m.
Proof.
  revert m; induction l as [|a l IH]; simpl; intros m; [reflexivity|].
  apply bind_ext; intros; apply IH.
Qed.

Lemma forM_ext_in {A M} (l : list A) (f g : A -> M -> option M) m :
  (forall a m, In a l -> f a m = g a m) -> forM l f m = forM l g m.
Proof.
  revert m; induction l as [|a l IH]; simpl; intros m H; [reflexivity|].
  rewrite H by auto. apply bind_ext; intros; apply IH; auto.
Qed.

Lemma forM_flat_map {A B M} (g : A -> list B) (l : list A) (f : B -> M -> option M) m :
  forM (flat_map g l) f m = forM l (fun a => forM (g a) f) m.
Proof.
  revert m; induction l as [|a l IH]; simpl; intros m; [reflexivity|].
  rewrite forM_app. apply bind_ext; intros; apply IH.
Qed.

Lemma forM_inv {A M} (P : M -> Prop) (l : list A) (f : A -> M -> option M) m m' :
  (forall a m m', In a l -> P m -> f a m = Some m' -> P m') ->
  P m -> forM l f m = Some m' -> P m'.
Proof.
  revert m; induction l as [|a l IH]; simpl; intros m H Hm E.
  - injection E as <-; assumption.
  - apply bind_Some_inv in E as (m1 & E1 & E2).
    apply (IH m1); [intros; eapply H; eauto | eapply H; eauto | exact E2].
Qed.

Lemma forM_Some {A M} (P : M -> Prop) (l : list A) (f : A -> M -> option M) m :
  (forall a m, In a l -> P m -> exists m', f a m = Some m' /\ P m') ->
  P m -> exists m', forM l f m = Some m' /\ P m'.
Proof.
  revert m; induction l as [|a l IH]; simpl; intros m H Hm; [eauto|].
  destruct (H a m) as (m1 & E1 & H1); auto. rewrite E1. simpl. apply IH; auto.
Qed.

(** ** Arrays *)

Lemma aset_length {A} (l : list A) i v : length (aset l i v) = length l.
Proof. revert i; induction l; destruct i; simpl; auto. Qed.

Lemma nth_error_aset {A} (l : list A) i j v :
  nth_error (aset l i v) j =
  if Nat.eqb i j then (if Nat.ltb i (length l) then Some v else None) else nth_error l j.
Proof.
  revert i j; induction l as [|x l IH]; intros i j; simpl.
  - destruct i, j; simpl; try reflexivity. destruct (Nat.eqb i j); reflexivity.
  - destruct i, j; simpl; try reflexivity. rewrite IH. reflexivity.
Qed.

Lemma aset_same {A} (l : list A) i v : nth_error l i = Some v -> aset l i v = l.
Proof.
  revert i; induction l as [|x l IH]; intros [|i]; simpl; intros H; try discriminate; try reflexivity.
  - injection H as ->. reflexivity.
  - rewrite IH by assumption. reflexivity.
Qed.

Lemma aset_aset {A} (l : list A) i v w : aset (aset l i v) i w = aset l i w.
Proof. revert i; induction l as [|x l IH]; intros [|i]; simpl; try reflexivity. rewrite IH; reflexivity. Qed.

Lemma aset_comm {A} (l : list A) i j v w :
  i <> j -> aset (aset l i v) j w = aset (aset l j w) i v.
Proof.
  revert i j; induction l as [|x l IH]; intros [|i] [|j] H; simpl; try reflexivity; try congruence.
  rewrite IH by congruence. reflexivity.
Qed.

Lemma aget_aset l i j v :
  aget (aset l i v) j = if Nat.eqb i j && Nat.ltb i (length l) then v else aget l j.
Proof.
  unfold aget. revert i j; induction l as [|x l IH]; intros i j; simpl.
  - destruct i, j; simpl; rewrite ?andb_false_r; reflexivity.
  - destruct i, j; simpl; try reflexivity. rewrite IH. reflexivity.
Qed.

Lemma aget_cons_S x l i : aget (x :: l) (S i) = aget l i.
Proof. reflexivity. Qed.

Lemma aget_ext (l1 l2 : list Z) :
  length l1 = length l2 -> (forall i, (i < length l1)%nat -> aget l1 i = aget l2 i) -> l1 = l2.
Proof.
  intros H1 H2. apply nth_ext with (d := 0) (d' := 0); auto.
Qed.

Lemma aget_map_seq (f : nat -> Z) a n i :
  (i < n)%nat -> aget (map f (seq a n)) i = f (a + i)%nat.
Proof.
  intros H. unfold aget. rewrite (nth_indep _ 0 (f 0%nat)) by (rewrite map_length, seq_length; lia).
  rewrite map_nth, seq_nth by lia. reflexivity.
Qed.

Lemma aget_map {A} (f : A -> Z) (l : list A) i d :
  (i < length l)%nat -> aget (map f l) i = f (nth i l d).
Proof.
  intros H. unfold aget. rewrite (nth_indep _ 0 (f d)) by (rewrite map_length; lia).
  apply map_nth.
Qed.

Lemma map_aget_seq (l : list Z) : map (aget l) (seq 0 (length l)) = l.
Proof.
  apply aget_ext; rewrite map_length, seq_length; [reflexivity|].
  intros i H. rewrite aget_map_seq by lia. reflexivity.
Qed.

(** A loop that rewrites entry [i] from entry [i] only, over a range. *)
Lemma fold_aset_range (F : nat -> Z -> Z) a k (c : list Z) :
  let r := fold_left (fun c i => aset c i (F i (aget c i))) (seq a k) c in
  length r = length c /\
  forall j, (j < length c)%nat ->
    aget r j = if Nat.leb a j && Nat.ltb j (a + k) then F j (aget c j) else aget c j.
Proof.
  revert a c; induction k as [|k IH]; intros a c; simpl.
  - split; [reflexivity|]. intros j Hj.
    destruct (Nat.leb_spec a j), (Nat.ltb_spec j (a + 0)); simpl; try reflexivity; lia.
  - destruct (IH (S a) (aset c a (F a (aget c a)))) as [H1 H2].
    rewrite aset_length in H1. split; [exact H1|].
    intros j Hj. rewrite H2 by (rewrite aset_length; lia). rewrite aget_aset.
    destruct (Nat.leb_spec (S a) j), (Nat.ltb_spec j (S a + k)), (Nat.leb_spec a j),
      (Nat.ltb_spec j (a + S k)), (Nat.eqb_spec a j), (Nat.ltb_spec a (length c));
      simpl; try reflexivity; try lia; subst; reflexivity.
Qed.

Lemma fold_left_map {A B C} (f : A -> B -> A) (g : C -> B) l a :
  fold_left f (map g l) a = fold_left (fun a c => f a (g c)) l a.
Proof. revert a; induction l; simpl; auto. Qed.

Lemma fold_left_ext_in {A B} (f g : A -> B -> A) l a :
  (forall a b, In b l -> f a b = g a b) -> fold_left f l a = fold_left g l a.
Proof.
  revert a; induction l as [|b l IH]; simpl; intros a H; [reflexivity|].
  rewrite H by auto. apply IH; auto.
Qed.

(** ** Products *)

Lemma prodZ_cons x l : prodZ (x :: l) = x * prodZ l.
Proof. reflexivity. Qed.

Lemma prodZ_app l1 l2 : prodZ (l1 ++ l2) = prodZ l1 * prodZ l2.
Proof. induction l1; cbn [app]; [change (prodZ []) with 1; ring | rewrite !prodZ_cons, IHl1; ring]. Qed.

Lemma prodZ_pos l : Forall (fun x => 1 <= x) l -> 1 <= prodZ l.
Proof. induction 1; [unfold prodZ; simpl; lia | rewrite prodZ_cons; nia]. Qed.

Lemma prodZ_nonneg l : Forall (fun x => 0 <= x) l -> 0 <= prodZ l.
Proof. induction 1; [unfold prodZ; simpl; lia | rewrite prodZ_cons; nia]. Qed.

Lemma prodZ_pos_inv l : Forall (fun x => 0 <= x) l -> 0 < prodZ l -> Forall (fun x => 1 <= x) l.
Proof.
  induction 1 as [|x l Hx Hl IH]; intros H; constructor.
  - rewrite prodZ_cons in H. pose proof (prodZ_nonneg l Hl). nia.
  - apply IH. rewrite prodZ_cons in H. pose proof (prodZ_nonneg l Hl). nia.
Qed.

Lemma fold_mul_seq l k t :
  fold_left (fun t i => t * aget l i) (seq k (length l - k)) t = t * prodZ (skipn k l).
Proof.
  revert k t; induction l as [|x l IH]; intros k t; simpl.
  - destruct k; simpl; unfold prodZ; simpl; lia.
  - destruct k as [|k].
    + simpl. replace (length l) with (length l - 0)%nat by lia.
      rewrite <- seq_shift, fold_left_map.
      specialize (IH 0%nat (t * aget (x :: l) 0)). rewrite Nat.sub_0_r in *.
      erewrite fold_left_ext_in; [rewrite IH|].
      * unfold aget; simpl. rewrite prodZ_cons. ring.
      * intros; reflexivity.
    + simpl. rewrite <- seq_shift, fold_left_map.
      erewrite fold_left_ext_in; [apply IH|]. intros; reflexivity.
Qed.

(** ** Memory *)

Lemma nthZ_aset {A} (l : list A) i j v :
  0 <= i -> nthZ (aset l (Z.to_nat i) v) j =
  if i =? j then (if i <? Z.of_nat (length l) then Some v else None) else nthZ l j.
Proof.
  intros Hi. unfold nthZ. destruct (Z.ltb_spec j 0).
  - destruct (Z.eqb_spec i j); [lia|reflexivity].
  - rewrite nth_error_aset.
    destruct (Z.eqb_spec i j), (Nat.eqb_spec (Z.to_nat i) (Z.to_nat j)); try lia; try reflexivity.
    destruct (Nat.ltb_spec (Z.to_nat i) (length l)), (Z.ltb_spec i (Z.of_nat (length l)));
      try reflexivity; lia.
Qed.

Lemma nthZ_Some {A} (l : list A) i :
  (exists v, nthZ l i = Some v) <-> 0 <= i < Z.of_nat (length l).
Proof.
  unfold nthZ. destruct (Z.ltb_spec i 0).
  - split; [intros [v Hv]; discriminate | lia].
  - split.
    + intros [v Hv]. assert (nth_error l (Z.to_nat i) <> None) as H0 by congruence.
      apply nth_error_Some in H0. lia.
    + intros Hl. destruct (nth_error l (Z.to_nat i)) eqn:E; [eauto|].
      apply nth_error_None in E. lia.
Qed.

Section Mem.
  Context {S : Scalar}.

  (** [p] points into an allocation. *)
  Definition valid (m : mem S) (p : ptr) : Prop :=
    exists n, nth_error (shape m) (fst p) = Some n /\ 0 <= snd p < Z.of_nat n.

  Lemma valid_load (m : mem S) p : valid m p <-> exists v, load m p = Some v.
  Proof.
    unfold valid, load, shape. rewrite nth_error_map.
    destruct (nth_error (cells m) (fst p)) as [a|]; simpl.
    - rewrite nthZ_Some. split.
      + intros (n & H & Hn). injection H as <-. exact Hn.
      + eauto.
    - split; [intros (n & H & _); discriminate | intros (v & H); discriminate].
  Qed.

  Lemma load_None_store (m : mem S) p : load m p = None -> forall v, store m p v = None.
  Proof.
    unfold load, store. destruct (nth_error (cells m) (fst p)) as [a|]; simpl; [|reflexivity].
    intros ->. reflexivity.
  Qed.

  Lemma store_Some (m : mem S) p v : (exists w, load m p = Some w) <-> (exists m', store m p v = Some m').
  Proof.
    unfold load, store. destruct (nth_error (cells m) (fst p)) as [a|]; simpl.
    - destruct (nthZ a (snd p)); simpl.
      + split; eauto.
      + split; intros [x Hx]; discriminate.
    - split; intros [x Hx]; discriminate.
  Qed.

  Lemma store_ints (m : mem S) p v m' : store m p v = Some m' -> ints m' = ints m.
  Proof.
    unfold store. intros H. apply bind_Some_inv in H as (a & _ & H).
    apply bind_Some_inv in H as (b & _ & H). injection H as <-. reflexivity.
  Qed.

  Lemma ptr_dec (p q : ptr) : {p = q} + {p <> q}.
  Proof. destruct p, q. destruct (Nat.eq_dec n n0), (Z.eq_dec z z0); subst; auto; right; congruence. Qed.

  Lemma load_store (m : mem S) p v m' q :
    store m p v = Some m' -> load m' q = if ptr_dec p q then Some v else load m q.
  Proof.
    unfold store, load. intros H. apply bind_Some_inv in H as (a & Ha & H).
    apply bind_Some_inv in H as (b & Hb & H). injection H as <-. simpl.
    rewrite nth_error_aset.
    assert (0 <= snd p < Z.of_nat (length a)) as Hr by (apply nthZ_Some; eauto).
    assert (fst p < length (cells m))%nat as Hl by (apply nth_error_Some; congruence).
    destruct (ptr_dec p q) as [<-|Hne].
    - rewrite Nat.eqb_refl. destruct (Nat.ltb_spec (fst p) (length (cells m))); [|lia]. simpl.
      rewrite nthZ_aset by lia. rewrite Z.eqb_refl.
      destruct (Z.ltb_spec (snd p) (Z.of_nat (length a))); [reflexivity|lia].
    - destruct (Nat.eqb_spec (fst p) (fst q)) as [E|E]; [|reflexivity].
      destruct (Nat.ltb_spec (fst p) (length (cells m))); [|lia]. simpl.
      rewrite <- E, Ha. simpl. rewrite nthZ_aset by lia.
      destruct (Z.eqb_spec (snd p) (snd q)) as [E'|E']; [|reflexivity].
      exfalso. apply Hne. destruct p, q; simpl in *; congruence.
  Qed.

  Lemma store_shape (m : mem S) p v m' : store m p v = Some m' -> shape m' = shape m.
  Proof.
    unfold store, shape. intros H. apply bind_Some_inv in H as (a & Ha & H).
    apply bind_Some_inv in H as (b & Hb & H). injection H as <-. simpl.
    clear Hb. revert Ha. generalize (fst p) as i. induction (cells m) as [|x l IH]; intros i Ha.
    - destruct i; discriminate.
    - destruct i; simpl in *.
      + injection Ha as ->. rewrite aset_length. reflexivity.
      + rewrite IH by assumption. reflexivity.
  Qed.

  (** A memory is determined by its allocation sizes and contents. *)
  Lemma mem_ext (m m' : mem S) :
    shape m = shape m' -> ints m = ints m' -> (forall p, load m p = load m' p) -> m = m'.
  Proof.
    destruct m as [c i], m' as [c' i']; unfold shape; simpl. intros Hs -> Hl. f_equal.
    assert (forall b o, bind (nth_error c b) (fun a => nthZ a o) =
                        bind (nth_error c' b) (fun a => nthZ a o)) as Hl'.
    { intros b o. exact (Hl (b, o)). }
    clear Hl. revert c' Hs Hl'.
    induction c as [|a c IH]; intros [|a' c'] Hs Hl; try discriminate; [reflexivity|].
    simpl in Hs. injection Hs as Hs1 Hs2. f_equal.
    - specialize (Hl 0%nat). simpl in Hl.
      clear - Hs1 Hl. revert a' Hs1 Hl.
      induction a as [|x a IH]; intros [|x' a'] Hs Hl; try discriminate; [reflexivity|].
      f_equal.
      + specialize (Hl 0). unfold nthZ in Hl. simpl in Hl. congruence.
      + apply IH; [simpl in Hs; congruence|]. intros o. unfold nthZ.
        destruct (Z.ltb_spec o 0); [reflexivity|].
        specialize (Hl (o + 1)). unfold nthZ in Hl.
        destruct (Z.ltb_spec (o + 1) 0); [lia|].
        replace (Z.to_nat (o + 1)) with (Datatypes.S (Z.to_nat o)) in Hl by lia. exact Hl.
    - apply IH; [assumption|]. intros b o. exact (Hl (Datatypes.S b) o).
  Qed.

  Lemma loadi_store (m : mem S) p v m' q : store m p v = Some m' -> loadi m' q = loadi m q.
  Proof. intros H. unfold loadi. rewrite (store_ints _ _ _ _ H). reflexivity. Qed.
End Mem.
