(** * Sums over patches *)

From Coq Require Import Field.
From Verif Require Import Base LemField SpecRow.
Import ListNotations.
Open Scope Z_scope.

Section Sums.
  Context {S : Scalar} (L : field_laws S).
  Add Field SF : (s_field S L) (morphism (lit_morph S L), constants [lit_cst]).

  Let sum (l : list nat) (f : nat -> S) : S := fold_right (fun k s => sadd (f k) s) (lit 0) l.

  Lemma sum_add l f g : sum l (fun k => f k + g k)%T = (sum l f + sum l g)%T.
  Proof. induction l as [|k l IH]; cbn; [ring|]. unfold sum in IH. rewrite IH. ring. Qed.
  Lemma sum_mul l c f : sum l (fun k => c * f k)%T = (c * sum l f)%T.
  Proof. induction l as [|k l IH]; cbn; [ring|]. unfold sum in IH. rewrite IH. ring. Qed.
  Lemma sum_zero l : sum l (fun _ => lit 0) = lit 0.
  Proof. induction l as [|k l IH]; cbn; [ring|]. unfold sum in IH. rewrite IH. ring. Qed.
  Lemma sum_swap l l' f : sum l (fun k => sum l' (fun k' => f k k')) = sum l' (fun k' => sum l (fun k => f k k')).
  Proof.
    induction l as [|k l IH].
    - symmetry. exact (sum_zero l').
    - change (sum l' (f k) + sum l (fun k => sum l' (fun k' => f k k')) =
              sum l' (fun k' => f k k' + sum l (fun k => f k k')))%T.
      rewrite IH. symmetry. exact (sum_add l' (f k) (fun k' => sum l (fun k => f k k'))).
  Qed.
  Lemma sum_ext l f g : (forall k, In k l -> f k = g k) -> sum l f = sum l g.
  Proof.
    induction l as [|k l IH]; intros H; [reflexivity|]. cbn. rewrite H by now left. f_equal. apply IH. intros. apply H. now right.
  Qed.
  Lemma sum_steps n : forall s (f : nat -> S), sum (seq s n) (fun k => f (Datatypes.S k) - f k)%T = (f (s + n)%nat - f s)%T.
  Proof.
    induction n as [|n IH]; intros s f.
    - cbn. rewrite Nat.add_0_r. ring.
    - change ((f (Datatypes.S s) - f s) + sum (seq (Datatypes.S s) n) (fun k => f (Datatypes.S k) - f k) = f (s + Datatypes.S n)%nat - f s)%T.
      rewrite IH. replace (s + Datatypes.S n)%nat with (Datatypes.S s + n)%nat by lia. ring.
  Qed.

  Lemma total_ext lo hi (f g : Z -> S) : (forall i, lo <= i <= hi -> f i = g i) -> total lo hi f = total lo hi g.
  Proof. intros H. apply sum_ext. intros k Ik. apply in_seq in Ik. apply H. lia. Qed.
  Lemma total_add lo hi (f g : Z -> S) : total lo hi (fun i => f i + g i)%T = (total lo hi f + total lo hi g)%T.
  Proof. exact (sum_add _ (fun k => f _) (fun k => g _)). Qed.
  Lemma total_mul lo hi (c : S) f : total lo hi (fun i => c * f i)%T = (c * total lo hi f)%T.
  Proof. exact (sum_mul _ c (fun k => f _)). Qed.
  Lemma total_swap a b c d (f : Z -> Z -> S) :
    total a b (fun i => total c d (fun j => f i j)) = total c d (fun j => total a b (fun i => f i j)).
  Proof. exact (sum_swap _ _ (fun k k' => f _ _)). Qed.
  Lemma total_sub lo hi (f g : Z -> S) : total lo hi (fun i => f i - g i)%T = (total lo hi f - total lo hi g)%T.
  Proof.
    transitivity (total lo hi (fun i => f i + lit (-1) * g i)%T); [apply total_ext; intros; ring|].
    rewrite total_add, total_mul. ring.
  Qed.
  Lemma total_div lo hi (f : Z -> S) h : total lo hi (fun i => f i / h)%T = (total lo hi f / h)%T.
  Proof.
    transitivity (total lo hi (fun i => (lit 1 / h) * f i)%T).
    - apply total_ext. intros. rewrite (sdiv_def S L). ring.
    - rewrite total_mul. rewrite (sdiv_def S L (total lo hi f)). ring.
  Qed.

  (** Differences of neighbours telescope. *)
  Lemma total_steps lo hi (f : Z -> S) : lo <= hi + 1 ->
    total lo hi (fun i => f (i + 1)%Z - f i)%T = (f (hi + 1)%Z - f lo)%T.
  Proof.
    intros B. pose proof (sum_steps (Z.to_nat (hi - lo + 1)) 0 (fun k => f (lo + Z.of_nat k))) as H. cbv beta in H.
    cbn [Nat.add] in H. rewrite Z.add_0_r in H. replace (lo + Z.of_nat (Z.to_nat (hi - lo + 1))) with (hi + 1) in H by lia.
    rewrite <- H. apply sum_ext. intros k _. do 2 f_equal. lia.
  Qed.

  Lemma total2_ext i0 j0 i1 j1 (f g : Z -> Z -> S) :
    (forall i j, i0 <= i <= i1 -> j0 <= j <= j1 -> f i j = g i j) -> total2 i0 j0 i1 j1 f = total2 i0 j0 i1 j1 g.
  Proof. intros H. unfold total2. apply total_ext. intros. apply total_ext. intros. now apply H. Qed.
  Lemma total3_ext i0 j0 k0 i1 j1 k1 (f g : Z -> Z -> Z -> S) :
    (forall i j k, i0 <= i <= i1 -> j0 <= j <= j1 -> k0 <= k <= k1 -> f i j k = g i j k) ->
    total3 i0 j0 k0 i1 j1 k1 f = total3 i0 j0 k0 i1 j1 k1 g.
  Proof. intros H. unfold total3. apply total_ext. intros. apply total2_ext. intros. now apply H. Qed.

  Lemma total2_add i0 j0 i1 j1 (f g : Z -> Z -> S) :
    total2 i0 j0 i1 j1 (fun i j => f i j + g i j)%T = (total2 i0 j0 i1 j1 f + total2 i0 j0 i1 j1 g)%T.
  Proof.
    unfold total2. rewrite <- total_add. apply total_ext. intros. apply total_add.
  Qed.
  Lemma total2_mul i0 j0 i1 j1 c (f : Z -> Z -> S) :
    total2 i0 j0 i1 j1 (fun i j => c * f i j)%T = (c * total2 i0 j0 i1 j1 f)%T.
  Proof. unfold total2. rewrite <- total_mul. apply total_ext. intros. apply total_mul. Qed.
  Lemma total2_div i0 j0 i1 j1 (f : Z -> Z -> S) h :
    total2 i0 j0 i1 j1 (fun i j => f i j / h)%T = (total2 i0 j0 i1 j1 f / h)%T.
  Proof. unfold total2. rewrite <- total_div. apply total_ext. intros. apply total_div. Qed.
  Lemma total3_add i0 j0 k0 i1 j1 k1 (f g : Z -> Z -> Z -> S) :
    total3 i0 j0 k0 i1 j1 k1 (fun i j k => f i j k + g i j k)%T =
    (total3 i0 j0 k0 i1 j1 k1 f + total3 i0 j0 k0 i1 j1 k1 g)%T.
  Proof. unfold total3. rewrite <- total_add. apply total_ext. intros. apply total2_add. Qed.
  Lemma total3_mul i0 j0 k0 i1 j1 k1 c (f : Z -> Z -> Z -> S) :
    total3 i0 j0 k0 i1 j1 k1 (fun i j k => c * f i j k)%T = (c * total3 i0 j0 k0 i1 j1 k1 f)%T.
  Proof. unfold total3. rewrite <- total_mul. apply total_ext. intros. apply total2_mul. Qed.
  Lemma total3_div i0 j0 k0 i1 j1 k1 (f : Z -> Z -> Z -> S) h :
    total3 i0 j0 k0 i1 j1 k1 (fun i j k => f i j k / h)%T = (total3 i0 j0 k0 i1 j1 k1 f / h)%T.
  Proof. unfold total3. rewrite <- total_div. apply total_ext. intros. apply total2_div. Qed.

  Lemma total2_steps0 i0 j0 i1 j1 (f : Z -> Z -> S) : i0 <= i1 + 1 ->
    total2 i0 j0 i1 j1 (fun i j => f (i + 1)%Z j - f i j)%T = total j0 j1 (fun j => f (i1 + 1)%Z j - f i0 j)%T.
  Proof. intros B. unfold total2. apply total_ext. intros j _. exact (total_steps i0 i1 (fun i => f i j) B). Qed.
  Lemma total2_steps1 i0 j0 i1 j1 (f : Z -> Z -> S) : j0 <= j1 + 1 ->
    total2 i0 j0 i1 j1 (fun i j => f i (j + 1)%Z - f i j)%T = total i0 i1 (fun i => f i (j1 + 1)%Z - f i j0)%T.
  Proof.
    intros B. unfold total2. rewrite total_swap. apply total_ext. intros i _. exact (total_steps j0 j1 (fun j => f i j) B).
  Qed.
  Lemma total3_steps0 i0 j0 k0 i1 j1 k1 (f : Z -> Z -> Z -> S) : i0 <= i1 + 1 ->
    total3 i0 j0 k0 i1 j1 k1 (fun i j k => f (i + 1)%Z j k - f i j k)%T =
    total2 j0 k0 j1 k1 (fun j k => f (i1 + 1)%Z j k - f i0 j k)%T.
  Proof. intros B. unfold total3. apply total_ext. intros k _. exact (total2_steps0 i0 j0 i1 j1 (fun i j => f i j k) B). Qed.
  Lemma total3_steps1 i0 j0 k0 i1 j1 k1 (f : Z -> Z -> Z -> S) : j0 <= j1 + 1 ->
    total3 i0 j0 k0 i1 j1 k1 (fun i j k => f i (j + 1)%Z k - f i j k)%T =
    total2 i0 k0 i1 k1 (fun i k => f i (j1 + 1)%Z k - f i j0 k)%T.
  Proof. intros B. unfold total3. apply total_ext. intros k _. exact (total2_steps1 i0 j0 i1 j1 (fun i j => f i j k) B). Qed.
  Lemma total3_steps2 i0 j0 k0 i1 j1 k1 (f : Z -> Z -> Z -> S) : k0 <= k1 + 1 ->
    total3 i0 j0 k0 i1 j1 k1 (fun i j k => f i j (k + 1)%Z - f i j k)%T =
    total2 i0 j0 i1 j1 (fun i j => f i j (k1 + 1)%Z - f i j k0)%T.
  Proof.
    intros B. unfold total3, total2. rewrite total_swap. apply total_ext. intros j _.
    rewrite total_swap. apply total_ext. intros i _. exact (total_steps k0 k1 (fun k => f i j k) B).
  Qed.
End Sums.
