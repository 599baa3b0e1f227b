(** * Lemmas about ravel, unravel and the traversal iterator *)

From Coq Require Import ZifyBool ZifyNat.
From Verif Require Import Base ModelBounds ModelMatrix LemBase.
Import ListNotations.
Open Scope Z_scope.

(** ** Mixed-radix digits: the specification side *)

(** Row-major number of a coordinate. *)
Fixpoint rav (n c : list Z) : Z :=
  match n, c with
  | _ :: n', x :: c' => x * prodZ n' + rav n' c'
  | _, _ => 0
  end.

(** Digits of [p]. *)
Fixpoint unrav (n : list Z) (p : Z) : list Z :=
  match n with
  | [] => []
  | _ :: n' => p / prodZ n' :: unrav n' (p mod prodZ n')
  end.

(** The one-past-the-end coordinate. *)
Fixpoint endc (n : list Z) : list Z :=
  match n with
  | [] => []
  | [x] => [x]
  | x :: n' => x - 1 :: endc n'
  end.

(** Coordinate of position [p], [0 <= p <= prodZ n]. *)
Definition coordZ (n : list Z) (p : Z) : list Z :=
  if p <? prodZ n then unrav n p else endc n.

Definition in_range (n c : list Z) : Prop := Forall2 (fun x c => 0 <= c < x) n c.

Lemma unrav_length n p : length (unrav n p) = length n.
Proof. revert p; induction n; simpl; auto. Qed.

Lemma endc_length n : length (endc n) = length n.
Proof. induction n as [|x [|y n] IH]; simpl in *; auto. Qed.

Lemma coordZ_length n p : length (coordZ n p) = length n.
Proof. unfold coordZ; destruct (p <? prodZ n); [apply unrav_length | apply endc_length]. Qed.

Lemma rav_bound n c : in_range n c -> 0 <= rav n c < prodZ n.
Proof.
  induction 1 as [|x c n' cs Hx Hn IH]; simpl; [unfold prodZ; simpl; lia|].
  rewrite prodZ_cons. nia.
Qed.

Lemma in_range_length n c : in_range n c -> length c = length n.
Proof. induction 1; simpl; congruence. Qed.

Lemma unrav_in_range n p :
  Forall (fun x => 1 <= x) n -> 0 <= p < prodZ n -> in_range n (unrav n p).
Proof.
  intros Hn; revert p; induction Hn as [|x n Hx Hn IH]; intros p Hp; simpl; constructor.
  - rewrite prodZ_cons in Hp. pose proof (prodZ_pos n Hn).
    split; [apply Z.div_pos; lia | apply Z.div_lt_upper_bound; lia].
  - apply IH. pose proof (prodZ_pos n Hn). apply Z.mod_pos_bound; lia.
Qed.

Lemma rav_unrav n p :
  n <> [] -> Forall (fun x => 1 <= x) n -> rav n (unrav n p) = p.
Proof.
  intros Hne Hn; revert p Hne; induction Hn as [|x n Hx Hn IH]; intros p Hne; [congruence|].
  simpl. destruct n as [|y n'].
  - simpl. unfold prodZ; simpl. rewrite Z.div_1_r. lia.
  - rewrite IH by congruence. pose proof (prodZ_pos _ Hn).
    rewrite (Z.div_mod p (prodZ (y :: n'))) at 3 by lia. ring.
Qed.

Lemma unrav_rav n c : Forall (fun x => 1 <= x) n -> in_range n c -> unrav n (rav n c) = c.
Proof.
  intros Hn H. revert Hn. induction H as [|x c n cs Hx H IH]; intros Hn; [reflexivity|].
  inversion Hn; subst. simpl. pose proof (rav_bound _ _ H).
  assert (0 < prodZ n) by lia.
  f_equal.
  - rewrite Z.div_add_l by lia. rewrite Z.div_small by lia. lia.
  - rewrite Z.add_comm, Z_mod_plus_full, Z.mod_small by lia. auto.
Qed.

Lemma rav_inj n c c' :
  Forall (fun x => 1 <= x) n -> in_range n c -> in_range n c' -> rav n c = rav n c' -> c = c'.
Proof.
  intros Hn H H' E. rewrite <- (unrav_rav n c), <- (unrav_rav n c') by assumption. congruence.
Qed.

Lemma rav_endc n : n <> [] -> Forall (fun x => 1 <= x) n -> rav n (endc n) = prodZ n.
Proof.
  intros Hne Hn; revert Hne; induction Hn as [|x n Hx Hn IH]; intros Hne; [congruence|].
  destruct n as [|y n'].
  - simpl. unfold prodZ; simpl; lia.
  - change (endc (x :: y :: n')) with (x - 1 :: endc (y :: n')).
    change (rav (x :: y :: n') (x - 1 :: endc (y :: n')))
      with ((x - 1) * prodZ (y :: n') + rav (y :: n') (endc (y :: n'))).
    rewrite IH by congruence. rewrite (prodZ_cons x). ring.
Qed.

Lemma rav_coordZ n p :
  n <> [] -> Forall (fun x => 1 <= x) n -> 0 <= p <= prodZ n -> rav n (coordZ n p) = p.
Proof.
  intros Hne Hn Hp. unfold coordZ. destruct (Z.ltb_spec p (prodZ n)).
  - apply rav_unrav; auto.
  - rewrite rav_endc by auto. lia.
Qed.

Lemma coordZ_inj n p q :
  n <> [] -> Forall (fun x => 1 <= x) n -> 0 <= p <= prodZ n -> 0 <= q <= prodZ n ->
  coordZ n p = coordZ n q -> p = q.
Proof.
  intros Hne Hn Hp Hq E. rewrite <- (rav_coordZ n p), <- (rav_coordZ n q) by assumption.
  congruence.
Qed.

Lemma unrav_0 n : Forall (fun x => 1 <= x) n -> unrav n 0 = map (fun _ => 0) n.
Proof. induction 1; simpl; [reflexivity|]. rewrite Z.mod_0_l, Z.div_0_l; pose proof (prodZ_pos _ H0); try lia. congruence. Qed.

Lemma coordZ_0 n : Forall (fun x => 1 <= x) n -> coordZ n 0 = map (fun _ => 0) n.
Proof.
  intros H. unfold coordZ. pose proof (prodZ_pos _ H).
  destruct (Z.ltb_spec 0 (prodZ n)); [apply unrav_0; auto | lia].
Qed.

(** Successor of a digit string. *)
Lemma unrav_succ n x p :
  Forall (fun x => 1 <= x) (x :: n) -> 0 <= p -> p + 1 < prodZ (x :: n) ->
  unrav (x :: n) (p + 1) =
  if p mod prodZ n + 1 <? prodZ n
  then p / prodZ n :: unrav n (p mod prodZ n + 1)
  else p / prodZ n + 1 :: unrav n 0.
Proof.
  intros H Hp Hb. inversion H; subst. pose proof (prodZ_pos _ H3) as Hpos. cbn [unrav].
  pose proof (Z.mod_pos_bound p (prodZ n) ltac:(lia)).
  pose proof (Z.div_mod p (prodZ n) ltac:(lia)) as Hdm.
  destruct (Z.ltb_spec (p mod prodZ n + 1) (prodZ n)).
  - f_equal.
    + symmetry. apply Z.div_unique with (r := p mod prodZ n + 1); lia.
    + f_equal. symmetry. apply Z.mod_unique with (q := p / prodZ n); lia.
  - f_equal.
    + symmetry. apply Z.div_unique with (r := 0); nia.
    + f_equal. symmetry. apply Z.mod_unique with (q := p / prodZ n + 1); nia.
Qed.

(** ** The code's index functions *)

Lemma stride_dim_skipn I sz : -1 <= I -> stride_dim I sz = prodZ (skipn (Z.to_nat (I + 1)) sz).
Proof. intros H. unfold stride_dim. rewrite fold_mul_seq. lia. Qed.

Lemma stride_dim_m1 sz : stride_dim (-1) sz = prodZ sz.
Proof. rewrite stride_dim_skipn by lia. reflexivity. Qed.

Lemma ravel_acc s size c coord t :
  length coord = length size ->
  fold_left (fun t i => (t + aget (c :: coord) i) * aget (s :: size) (i + 1))
            (seq 0 (length size)) t + aget (c :: coord) (length size)
  = (t + c) * prodZ size + rav size coord.
Proof.
  revert s c coord t; induction size as [|s' size IH]; intros s c coord t HL.
  - destruct coord; [|discriminate]. simpl. unfold aget; simpl. change (prodZ []) with 1. ring.
  - destruct coord as [|c' coord]; [discriminate|]. cbn [length seq fold_left].
    rewrite <- seq_shift, fold_left_map.
    erewrite fold_left_ext_in.
    2:{ intros a b _. rewrite aget_cons_S, Nat.add_succ_l, aget_cons_S. reflexivity. }
    rewrite aget_cons_S. rewrite IH by (simpl in HL; lia).
    cbn [rav]. unfold aget; simpl. rewrite prodZ_cons. ring.
Qed.

Lemma ravel_rav size coord : size <> [] -> length coord = length size -> ravel size coord = rav size coord.
Proof.
  intros Hne HL. destruct size as [|s size]; [congruence|].
  destruct coord as [|c coord]; [discriminate|]. unfold ravel.
  replace (length (s :: size) - 1)%nat with (length size) by (simpl; lia).
  rewrite ravel_acc by (simpl in HL; lia). simpl. ring.
Qed.

(** One pass of the general unravel loop. *)
Definition ubody (size : list Z) (i : nat) (st : Z * list Z) : option (Z * list Z) :=
  let '(index, coord) := st in
  let N := length size in
  let sz := fold_left (fun s j => s * aget size j) (seq (i + 2) (N - (i + 2)))
                      (aget size (i + 1)) in
  q <- cdiv index sz ;;
  r <- cmod index sz ;;
  Some (r, aset coord i q).

Lemma ubody_S s size i index c coord :
  ubody (s :: size) (S i) (index, c :: coord) =
  r <- ubody size i (index, coord) ;; Some (fst r, c :: snd r).
Proof.
  unfold ubody.
  replace (seq (S i + 2) (length (s :: size) - (S i + 2)))
    with (map S (seq (i + 2) (length size - (i + 2)))) by (rewrite seq_shift; f_equal; simpl; lia).
  rewrite fold_left_map.
  replace (aget (s :: size) (S i + 1)) with (aget size (i + 1)) by reflexivity.
  erewrite fold_left_ext_in.
  2:{ intros a b _. rewrite aget_cons_S. reflexivity. }
  destruct (cdiv _ _); simpl; [|reflexivity]. destruct (cmod _ _); reflexivity.
Qed.

Lemma forM_ubody_S s size l index c coord :
  forM (map S l) (ubody (s :: size)) (index, c :: coord) =
  r <- forM l (ubody size) (index, coord) ;; Some (fst r, c :: snd r).
Proof.
  revert index coord; induction l as [|i l IH]; intros index coord; [reflexivity|].
  cbn [map forM]. rewrite ubody_S. destruct (ubody size i (index, coord)) as [[x y]|]; simpl.
  - apply IH.
  - reflexivity.
Qed.

Lemma unravel_loop_ubody size index coord :
  unravel_loop size index coord =
  r <- forM (seq 0 (length size - 1)) (ubody size) (index, coord) ;;
  Some (aset (snd r) (length size - 1) (fst r)).
Proof.
  unfold unravel_loop, ubody. apply bind_ext. intros [a b] _. reflexivity.
Qed.

Lemma fold_sz_prod s s' size :
  fold_left (fun t j => t * aget (s :: s' :: size) j) (seq 2 (length (s :: s' :: size) - 2)) s'
  = prodZ (s' :: size).
Proof.
  rewrite fold_mul_seq. simpl skipn. rewrite prodZ_cons. reflexivity.
Qed.

Lemma cdiv_pos a b : 0 <= a -> 0 < b -> cdiv a b = Some (a / b).
Proof.
  intros Ha Hb. unfold cdiv. destruct (Z.eqb_spec b 0); [lia|].
  rewrite Z.quot_div_nonneg by lia. reflexivity.
Qed.

Lemma cmod_pos a b : 0 <= a -> 0 < b -> cmod a b = Some (a mod b).
Proof.
  intros Ha Hb. unfold cmod. destruct (Z.eqb_spec b 0); [lia|].
  rewrite Z.rem_mod_nonneg by lia. reflexivity.
Qed.

Lemma unravel_loop_unrav size index coord :
  size <> [] -> Forall (fun x => 1 <= x) size -> 0 <= index -> length coord = length size ->
  unravel_loop size index coord = Some (unrav size index).
Proof.
  intros Hne Hs. revert index coord Hne.
  induction Hs as [|s size Hs1 Hs IH]; intros index coord Hne Hi HL; [congruence|].
  destruct coord as [|c coord]; [discriminate|].
  rewrite unravel_loop_ubody.
  destruct size as [|s' size].
  - destruct coord; [|discriminate]. simpl. rewrite Z.div_1_r. reflexivity.
  - replace (length (s :: s' :: size) - 1)%nat with (S (length (s' :: size) - 1)) by (simpl; lia).
    cbn [seq]. rewrite <- seq_shift. cbn [forM].
    assert (ubody (s :: s' :: size) 0 (index, c :: coord)
            = Some (index mod prodZ (s' :: size), index / prodZ (s' :: size) :: coord)) as E0.
    { unfold ubody. cbn [Nat.add]. change (aget (s :: s' :: size) 1) with s'.
      rewrite fold_sz_prod. pose proof (prodZ_pos _ Hs).
      rewrite cdiv_pos, cmod_pos by lia. reflexivity. }
    rewrite E0. cbn [bind]. rewrite forM_ubody_S.
    pose proof (prodZ_pos _ Hs).
    specialize (IH (index mod prodZ (s' :: size)) coord ltac:(congruence)
                   ltac:(apply Z.mod_pos_bound; lia) ltac:(simpl in *; lia)).
    rewrite unravel_loop_ubody in IH.
    destruct (forM _ _ _) as [[x y]|]; cbn [bind fst snd] in *; [|discriminate].
    apply (f_equal (fun o => match o with Some l => l | None => [] end)) in IH.
    cbn beta iota in IH. cbn [unrav] in *. rewrite <- IH. reflexivity.
Qed.

Lemma fold_adjust_tail f size coord :
  let N := length size in
  length coord = N -> (2 <= N)%nat ->
  let c2 := fold_left (fun c i => aset c i (aget c i + f * (aget size i - 1)))
                      (seq 1 (N - 2)) coord in
  aset c2 (N - 1) (aget c2 (N - 1) + f * aget size (N - 1)) =
  map (fun j => aget coord j +
                f * (if Nat.eqb j 0 then 0 else if Nat.eqb j (N - 1) then aget size j
                     else aget size j - 1)) (seq 0 N).
Proof.
  intros N HL HN. cbn zeta.
  destruct (fold_aset_range (fun i x => x + f * (aget size i - 1)) 1 (N - 2) coord) as [H1 H2].
  set (c2 := fold_left _ _ coord) in *.
  apply aget_ext; rewrite ?aset_length, ?map_length, ?seq_length; [lia|].
  rewrite H1, HL. intros i Hi. rewrite aget_map_seq by lia. simpl Nat.add.
  rewrite aget_aset, H1.
  destruct (Nat.eqb_spec (N - 1) i) as [<-|Hne]; simpl.
  - destruct (Nat.ltb_spec (N - 1) (length coord)); [|lia].
    rewrite H2 by lia.
    destruct (Nat.leb_spec 1 (N - 1)), (Nat.ltb_spec (N - 1) (1 + (N - 2))),
      (Nat.eqb_spec (N - 1) 0); simpl; try lia; rewrite ?Nat.eqb_refl; reflexivity.
  - rewrite H2 by lia.
    destruct (Nat.leb_spec 1 i), (Nat.ltb_spec i (1 + (N - 2))),
      (Nat.eqb_spec i 0), (Nat.eqb_spec i (N - 1)); simpl; try lia; reflexivity.
Qed.

Lemma aget_endc n j :
  (j < length n)%nat ->
  aget (endc n) j = if Nat.eqb j (length n - 1) then aget n j else aget n j - 1.
Proof.
  revert j; induction n as [|x [|y n] IH]; intros j Hj; [simpl in Hj; lia| |].
  - destruct j; [reflexivity|simpl in Hj; lia].
  - change (endc (x :: y :: n)) with (x - 1 :: endc (y :: n)).
    destruct j as [|j]; [reflexivity|]. rewrite !aget_cons_S.
    rewrite IH by (simpl in *; lia). simpl length.
    replace (S (S (length n)) - 1)%nat with (S (length n)) by lia.
    replace (S (length n) - 1)%nat with (length n) by lia. reflexivity.
Qed.

Lemma unravel_adjust_coordZ size index :
  (2 <= length size)%nat -> Forall (fun x => 1 <= x) size -> 0 <= index <= prodZ size ->
  unravel_adjust size (unrav size index) = coordZ size index.
Proof.
  intros HN Hs Hi. unfold unravel_adjust.
  rewrite fold_adjust_tail by (rewrite ?aset_length, ?unrav_length; lia).
  destruct size as [|s size]; [simpl in HN; lia|].
  inversion Hs as [|? ? Hs1 Hs2]; subst.
  pose proof (prodZ_pos _ Hs2) as Hp. rewrite prodZ_cons in Hi.
  change (aget (s :: size) 0) with s.
  change (aget (unrav (s :: size) index) 0) with (index / prodZ size).
  unfold coordZ. destruct (Z.ltb_spec index (prodZ (s :: size))) as [Hlt|Hge];
    rewrite prodZ_cons in *.
  - assert (index / prodZ size < s) by (apply Z.div_lt_upper_bound; lia).
    unfold cnot. destruct (Z.eqb_spec (s - index / prodZ size) 0); [lia|].
    transitivity (map (aget (unrav (s :: size) index)) (seq 0 (length (unrav (s :: size) index))));
      [|apply map_aget_seq].
    rewrite unrav_length. apply map_ext_in. intros j Hj.
    rewrite Z.mul_0_l, Z.add_0_r, Z.sub_0_r, aget_aset.
    destruct (Nat.eqb_spec 0 j); simpl; [subst; reflexivity|reflexivity].
  - assert (index = s * prodZ size) as -> by lia.
    rewrite Z.div_mul by lia. rewrite Z.sub_diag. change (cnot 0) with 1.
    apply aget_ext; rewrite ?map_length, ?seq_length; [rewrite endc_length; reflexivity|].
    intros i Hi'. rewrite aget_map_seq by lia. simpl Nat.add.
    rewrite aget_endc by lia. rewrite aget_aset, unrav_length.
    assert (unrav (s :: size) (s * prodZ size) = s :: map (fun _ => 0) size) as E.
    { cbn [unrav]. rewrite Z.div_mul, Z_mod_mult by lia. rewrite unrav_0 by assumption. reflexivity. }
    rewrite E.
    destruct i as [|i].
    + destruct size; [simpl in HN; lia|]. unfold aget; simpl. lia.
    + change (Nat.eqb 0 (S i)) with false. change (Nat.eqb (S i) 0) with false.
      cbn [andb]. rewrite !aget_cons_S.
      assert (aget (map (fun _ => 0) size) i = 0) as ->.
      { rewrite aget_map with (d := 0); [reflexivity| simpl in Hi'; lia]. }
      destruct (Nat.eqb (S i) (length (s :: size) - 1)); lia.
Qed.

Lemma unravel_coordZ size index cur :
  size <> [] -> Forall (fun x => 1 <= x) size -> 0 <= index <= prodZ size ->
  length cur = length size ->
  unravel size index cur = Some (coordZ size index).
Proof.
  intros Hne Hs Hi HL.
  pose proof (unravel_loop_unrav size index cur Hne Hs (proj1 Hi) HL) as HU.
  destruct size as [|a [|b [|c [|d size]]]]; [congruence| | | |].
  - destruct cur as [|x [|]]; try discriminate. unfold unravel. cbn [length aset].
    f_equal. unfold coordZ, prodZ in *. simpl in *. rewrite Z.div_1_r.
    destruct (Z.ltb_spec index (a * 1)); [reflexivity|]. f_equal. lia.
  - rewrite <- unravel_adjust_coordZ by (simpl; auto; lia).
    unfold unravel. cbn [length].
    rewrite unravel_loop_ubody in HU. cbn [length Nat.sub seq forM] in HU.
    unfold ubody in HU at 1. cbn [length Nat.sub Nat.add seq fold_left] in HU.
    change (aget [a; b] 1) with b in *.
    destruct (cdiv index b); cbn [bind] in *; [|discriminate].
    destruct (cmod index b); cbn [bind fst snd] in *; [|discriminate].
    injection HU as HU. rewrite HU. reflexivity.
  - rewrite <- unravel_adjust_coordZ by (simpl; auto; lia).
    unfold unravel. cbn [length].
    rewrite unravel_loop_ubody in HU. cbn [length Nat.sub seq forM] in HU.
    unfold ubody in HU at 1. cbn [length Nat.sub Nat.add seq fold_left] in HU.
    change (aget [a; b; c] 1) with b in *. change (aget [a; b; c] 2) with c in *.
    destruct (cdiv index (b * c)); cbn [bind] in *; [|discriminate].
    destruct (cmod index (b * c)) as [i'|]; cbn [bind fst snd] in *; [|discriminate].
    unfold ubody in HU at 1. cbn [length Nat.sub Nat.add seq fold_left] in HU.
    change (aget [a; b; c] 2) with c in *.
    destruct (cdiv i' c); cbn [bind] in *; [|discriminate].
    destruct (cmod i' c); cbn [bind fst snd] in *; [|discriminate].
    injection HU as HU. rewrite HU. reflexivity.
  - rewrite <- unravel_adjust_coordZ by (simpl; auto; lia).
    unfold unravel. cbn [length]. rewrite HU. reflexivity.
Qed.

(** ** increment *)

Lemma cnot_nz x : x <> 0 -> cnot x = 0.
Proof. intros H. unfold cnot. destruct (Z.eqb_spec x 0); [contradiction | reflexivity]. Qed.


Definition istep (n : list Z) (st : list Z * Z) (i : nat) : list Z * Z :=
  let '(cur, f) := st in
  let a := cnot (aget n i - 1 - aget cur i) in
  let b := 1 - a * aget n i in
  let shift := f * b in
  (aset cur i (aget cur i + shift), f * cnot (cnot (shift - 1))).

Lemma istep_S x n c cur f i :
  istep (x :: n) (c :: cur, f) (S i) =
  (c :: fst (istep n (cur, f) i), snd (istep n (cur, f) i)).
Proof. reflexivity. Qed.

Lemma fold_istep_S x n c cur f l :
  fold_left (istep (x :: n)) (map S l) (c :: cur, f) =
  (c :: fst (fold_left (istep n) l (cur, f)), snd (fold_left (istep n) l (cur, f))).
Proof.
  revert cur f; induction l as [|i l IH]; intros cur f; [reflexivity|].
  cbn [map fold_left]. rewrite istep_S.
  destruct (istep n (cur, f) i) as [cur' f']. cbn [fst snd]. apply IH.
Qed.

Lemma rev_seq_S k : rev (seq 0 (S k)) = map S (rev (seq 0 k)) ++ [0%nat].
Proof. cbn [seq rev]. rewrite <- seq_shift, map_rev. reflexivity. Qed.

Lemma fold_istep_cons x n c cur f :
  fold_left (istep (x :: n)) (rev (seq 0 (length (x :: n)))) (c :: cur, f) =
  let r := fold_left (istep n) (rev (seq 0 (length n))) (cur, f) in
  let shift := snd r * (1 - cnot (x - 1 - c) * x) in
  (c + shift :: fst r, snd r * cnot (cnot (shift - 1))).
Proof.
  cbn [length]. rewrite rev_seq_S, fold_left_app, fold_istep_S.
  destruct (fold_left _ _ (cur, f)) as [cur' f']. reflexivity.
Qed.

Lemma istep_unrav n p :
  Forall (fun x => 1 <= x) n -> 0 <= p < prodZ n ->
  fold_left (istep n) (rev (seq 0 (length n))) (unrav n p, 1) =
  if p + 1 <? prodZ n then (unrav n (p + 1), 0) else (unrav n 0, 1).
Proof.
  intros Hn; revert p; induction Hn as [|x n Hx Hn IH]; intros p Hp.
  - change (prodZ []) with 1 in *. destruct (Z.ltb_spec (p + 1) 1); [lia|]. reflexivity.
  - pose proof (prodZ_pos _ Hn) as Hpos.
    assert (0 <= p mod prodZ n < prodZ n) as Hm by (apply Z.mod_pos_bound; lia).
    change (unrav (x :: n) p) with (p / prodZ n :: unrav n (p mod prodZ n)).
    rewrite fold_istep_cons, IH by assumption.
    pose proof (Z.div_mod p (prodZ n) ltac:(lia)) as Hdm. rewrite prodZ_cons in Hp.
    destruct (Z.ltb_spec (p + 1) (prodZ (x :: n))) as [Hlt|Hge].
    + rewrite unrav_succ by (auto; lia).
      destruct (Z.ltb_spec (p mod prodZ n + 1) (prodZ n)); cbn [fst snd]; cbn zeta.
      * f_equal; f_equal; lia.
      * rewrite prodZ_cons in Hlt. assert (p / prodZ n < x - 1) by nia.
        rewrite (cnot_nz (x - 1 - p / prodZ n)) by lia.
        apply f_equal2; [f_equal; lia|].
        replace (1 * (1 - 0 * x) - 1) with 0 by lia. reflexivity.
    + rewrite prodZ_cons in Hge. cbn [unrav]. rewrite Z.div_0_l, Z.mod_0_l by lia.
      assert (p / prodZ n < x) by (apply Z.div_lt_upper_bound; lia).
      destruct (Z.ltb_spec (p mod prodZ n + 1) (prodZ n)); [nia|]. cbn [fst snd]; cbn zeta.
      assert (p / prodZ n = x - 1) as -> by nia.
      rewrite Z.sub_diag. change (cnot 0) with 1. apply f_equal2; [f_equal; lia|].
      unfold cnot. destruct (Z.eqb_spec (1 * (1 - 1 * x) - 1) 0); [lia|]. reflexivity.
Qed.

Lemma inc_tail f1 n c :
  length c = length n -> n <> [] ->
  let N := length n in
  let cur2 := fold_left (fun c i => aset c i (aget c i + f1 * (aget n i - 1)))
                        (seq 0 (N - 1)) c in
  aset cur2 (N - 1) (aget cur2 (N - 1) + f1 * aget n (N - 1)) =
  map (fun j => aget c j + f1 * aget (endc n) j) (seq 0 N).
Proof.
  intros HL Hne. cbn zeta. set (N := length n) in *.
  assert (1 <= N)%nat by (destruct n; [congruence | simpl in N; lia]).
  destruct (fold_aset_range (fun i x => x + f1 * (aget n i - 1)) 0 (N - 1) c) as [H1 H2].
  set (c2 := fold_left _ _ c) in *.
  apply aget_ext; rewrite ?aset_length, ?map_length, ?seq_length; [lia|].
  rewrite H1, HL. intros i Hi. rewrite aget_map_seq by lia. simpl Nat.add.
  rewrite aget_endc by (fold N; lia). fold N.
  rewrite aget_aset, H1.
  destruct (Nat.eqb_spec (N - 1) i) as [<-|Hne']; simpl.
  - destruct (Nat.ltb_spec (N - 1) (length c)); [|lia]. rewrite Nat.eqb_refl.
    rewrite H2 by lia. destruct (Nat.ltb_spec (N - 1) (0 + (N - 1))); simpl; try lia; reflexivity.
  - rewrite H2 by lia. destruct (Nat.ltb_spec i (0 + (N - 1))); simpl; try lia.
    destruct (Nat.eqb_spec i (N - 1)); [lia|reflexivity].
Qed.

Lemma inc_cur_coordZ n p :
  n <> [] -> Forall (fun x => 1 <= x) n -> 0 <= p < prodZ n ->
  inc_cur n (coordZ n p) = coordZ n (p + 1).
Proof.
  intros Hne Hn Hp. unfold inc_cur.
  change (fun (st : list Z * Z) (i : nat) => _) with (istep n).
  assert (coordZ n p = unrav n p) as ->.
  { unfold coordZ. destruct (Z.ltb_spec p (prodZ n)); [reflexivity|lia]. }
  rewrite istep_unrav by assumption.
  unfold coordZ. destruct (Z.ltb_spec (p + 1) (prodZ n)).
  - rewrite inc_tail by (rewrite ?unrav_length; auto).
    transitivity (map (aget (unrav n (p + 1))) (seq 0 (length (unrav n (p + 1)))));
      [|apply map_aget_seq]. rewrite unrav_length.
    apply map_ext. intros; lia.
  - rewrite inc_tail by (rewrite ?unrav_length; auto).
    transitivity (map (aget (endc n)) (seq 0 (length (endc n)))); [|apply map_aget_seq].
    rewrite endc_length.
    apply map_ext_in. intros j Hj. apply in_seq in Hj.
    rewrite unrav_0 by assumption. rewrite aget_map with (d := 0) by lia. lia.
Qed.

(** ** decrement *)

Definition dstep (n : list Z) (st : list Z * Z) (i : nat) : list Z * Z :=
  let '(cur, f) := st in
  let a := cnot (aget cur i) in
  let b := -1 + a * aget n i in
  let shift := f * b in
  (aset cur i (aget cur i + shift), f * cnot (cnot (shift + 1))).

Lemma fold_dstep_S x n c cur f l :
  fold_left (dstep (x :: n)) (map S l) (c :: cur, f) =
  (c :: fst (fold_left (dstep n) l (cur, f)), snd (fold_left (dstep n) l (cur, f))).
Proof.
  revert cur f; induction l as [|i l IH]; intros cur f; [reflexivity|].
  cbn [map fold_left].
  change (dstep (x :: n) (c :: cur, f) (S i))
    with (c :: fst (dstep n (cur, f) i), snd (dstep n (cur, f) i)).
  destruct (dstep n (cur, f) i) as [cur' f']. cbn [fst snd]. apply IH.
Qed.

Lemma fold_dstep_cons x n c cur f :
  fold_left (dstep (x :: n)) (rev (seq 0 (length (x :: n)))) (c :: cur, f) =
  let r := fold_left (dstep n) (rev (seq 0 (length n))) (cur, f) in
  let shift := snd r * (-1 + cnot c * x) in
  (c + shift :: fst r, snd r * cnot (cnot (shift + 1))).
Proof.
  cbn [length]. rewrite rev_seq_S, fold_left_app, fold_dstep_S.
  destruct (fold_left _ _ (cur, f)) as [cur' f']. reflexivity.
Qed.

(** Borrow: from the all-zero digits we get the largest digits and a borrow. *)
Lemma dstep_unrav n p :
  Forall (fun x => 1 <= x) n -> 0 <= p < prodZ n ->
  fold_left (dstep n) (rev (seq 0 (length n))) (unrav n p, 1) =
  if p =? 0 then (unrav n (prodZ n - 1), 1) else (unrav n (p - 1), 0).
Proof.
  intros Hn; revert p; induction Hn as [|x n Hx Hn IH]; intros p Hp.
  - change (prodZ []) with 1 in *. destruct (Z.eqb_spec p 0); [reflexivity|lia].
  - pose proof (prodZ_pos _ Hn) as Hpos.
    assert (0 <= p mod prodZ n < prodZ n) as Hm by (apply Z.mod_pos_bound; lia).
    pose proof (Z.div_mod p (prodZ n) ltac:(lia)) as Hdm.
    rewrite prodZ_cons in *. cbn [unrav].
    rewrite fold_dstep_cons, IH by assumption.
    destruct (Z.eqb_spec (p mod prodZ n) 0) as [E0|E0]; cbn [fst snd]; cbn zeta.
    + destruct (Z.eqb_spec p 0) as [->|Hne].
      * rewrite Z.div_0_l by lia. change (cnot 0) with 1.
        assert ((x * prodZ n - 1) / prodZ n = x - 1) as ->
          by (symmetry; apply Z.div_unique with (r := prodZ n - 1); lia).
        assert ((x * prodZ n - 1) mod prodZ n = prodZ n - 1) as ->
          by (symmetry; apply Z.mod_unique with (q := x - 1); lia).
        apply f_equal2; [f_equal; lia|].
        unfold cnot. destruct (Z.eqb_spec (1 * (-1 + 1 * x) + 1) 0); [lia|]. reflexivity.
      * assert (1 <= p / prodZ n) by nia.
        assert ((p - 1) / prodZ n = p / prodZ n - 1) as ->
          by (symmetry; apply Z.div_unique with (r := prodZ n - 1); lia).
        assert ((p - 1) mod prodZ n = prodZ n - 1) as ->
          by (symmetry; apply Z.mod_unique with (q := p / prodZ n - 1); lia).
        rewrite (cnot_nz (p / prodZ n)) by lia.
        apply f_equal2; [f_equal; lia|].
        replace (1 * (-1 + 0 * x) + 1) with 0 by lia. reflexivity.
    + destruct (Z.eqb_spec p 0) as [->|Hne]; [rewrite Z.mod_0_l in E0; lia|].
      assert ((p - 1) / prodZ n = p / prodZ n) as ->
          by (symmetry; apply Z.div_unique with (r := p mod prodZ n - 1); lia).
      assert ((p - 1) mod prodZ n = p mod prodZ n - 1) as ->
          by (symmetry; apply Z.mod_unique with (q := p / prodZ n); lia).
      f_equal. f_equal. lia.
Qed.

Lemma dstep_endc n :
  n <> [] -> Forall (fun x => 1 <= x) n ->
  fold_left (dstep n) (rev (seq 0 (length n))) (endc n, 1) = (unrav n (prodZ n - 1), 0).
Proof.
  intros Hne Hn; revert Hne; induction Hn as [|x n Hx Hn IH]; intros Hne; [congruence|].
  pose proof (prodZ_pos _ Hn) as Hpos.
  destruct n as [|y n'].
  - change (endc [x]) with [x]. rewrite fold_dstep_cons.
    cbn [length seq rev fold_left fst snd unrav]; cbn zeta.
    rewrite (cnot_nz x) by lia. rewrite prodZ_cons. change (prodZ []) with 1.
    rewrite Z.div_1_r. apply f_equal2; [f_equal; lia|].
    replace (1 * (-1 + 0 * x) + 1) with 0 by lia. reflexivity.
  - change (endc (x :: y :: n')) with (x - 1 :: endc (y :: n')).
    rewrite fold_dstep_cons, IH by congruence. cbn [fst snd]; cbn zeta.
    set (n := y :: n') in *. cbn [unrav]. rewrite prodZ_cons.
    assert ((x * prodZ n - 1) / prodZ n = x - 1) as ->
      by (symmetry; apply Z.div_unique with (r := prodZ n - 1); lia).
    assert ((x * prodZ n - 1) mod prodZ n = prodZ n - 1) as ->
      by (symmetry; apply Z.mod_unique with (q := x - 1); lia).
    f_equal. f_equal. lia.
Qed.

Lemma dec_cur_coordZ n p :
  n <> [] -> Forall (fun x => 1 <= x) n -> 0 <= p < prodZ n ->
  dec_cur n (coordZ n (p + 1)) = coordZ n p.
Proof.
  intros Hne Hn Hp. unfold dec_cur.
  change (fun (st : list Z * Z) (i : nat) => _) with (dstep n).
  unfold coordZ. destruct (Z.ltb_spec p (prodZ n)); [|lia].
  destruct (Z.ltb_spec (p + 1) (prodZ n)).
  - rewrite dstep_unrav by (auto; lia). destruct (Z.eqb_spec (p + 1) 0); [lia|].
    cbn [fst]. f_equal. lia.
  - rewrite dstep_endc by auto. cbn [fst]. f_equal. lia.
Qed.

(** ** The iterator as a family indexed by position *)

Definition mt_at (base : ptr) (st n : list Z) (flag : bool) (p : Z) : mti :=
  mkMti base st (coordZ n p) n flag.

Section Family.
  Context (base : ptr) (st n : list Z) (flag : bool).
  Context (Hne : n <> []) (Hn : Forall (fun x => 1 <= x) n).
  Let F := mt_at base st n flag.

  Lemma mti_inc_at p : 0 <= p < prodZ n -> mti_inc (F p) = F (p + 1).
  Proof.
    intros Hp. unfold mti_inc, F, mt_at, with_cur; simpl. rewrite inc_cur_coordZ by auto. reflexivity.
  Qed.

  Lemma mti_dec_at p : 0 <= p < prodZ n -> mti_dec (F (p + 1)) = F p.
  Proof.
    intros Hp. unfold mti_dec, F, mt_at, with_cur; simpl. rewrite dec_cur_coordZ by auto. reflexivity.
  Qed.

  Lemma mti_adv_at p d :
    0 <= p <= prodZ n -> 0 <= p + d <= prodZ n -> mti_adv (F p) d = Some (F (p + d)).
  Proof.
    intros Hp Hd. unfold mti_adv, F, mt_at, with_cur; simpl.
    rewrite ravel_rav by (rewrite ?coordZ_length; auto).
    rewrite rav_coordZ by (auto; lia).
    rewrite unravel_coordZ by (rewrite ?coordZ_length; auto; lia).
    simpl. f_equal. f_equal. f_equal. lia.
  Qed.

  Lemma mti_dist_at p q :
    0 <= p <= prodZ n -> 0 <= q <= prodZ n -> mti_dist (F p) (F q) = q - p.
  Proof.
    intros Hp Hq. unfold mti_dist, F, mt_at; simpl.
    rewrite !ravel_rav by (rewrite ?coordZ_length; auto).
    rewrite !rav_coordZ by (auto; lia). reflexivity.
  Qed.

  Lemma mti_equal_at p q :
    0 <= p <= prodZ n -> 0 <= q <= prodZ n -> mti_equal (F p) (F q) = (p =? q).
  Proof.
    intros Hp Hq. unfold mti_equal, F, mt_at; simpl.
    destruct (Z.eqb_spec p q) as [->|Hpq].
    - apply forallb_forall. intros; apply Z.eqb_refl.
    - apply not_true_is_false. intros H. apply Hpq. apply (coordZ_inj n); auto.
      apply aget_ext; rewrite !coordZ_length; [reflexivity|].
      intros i Hi. rewrite forallb_forall in H. apply Z.eqb_eq. apply H.
      apply in_seq. lia.
  Qed.

  Lemma mti_size_at p : mti_size (F p) = prodZ n.
  Proof. unfold mti_size. simpl. apply stride_dim_m1. Qed.
End Family.

(** Dot product of strides and coordinates, as accumulated by dereference. *)
Fixpoint dotZ (s c : list Z) : Z :=
  match s, c with
  | x :: s', y :: c' => x * y + dotZ s' c'
  | _, _ => 0
  end.

Lemma fold_dotZ s c t :
  length s = length c ->
  fold_left (fun o j => o + aget s j * aget c j) (seq 0 (length c)) t = t + dotZ s c.
Proof.
  revert c t; induction s as [|x s IH]; intros [|y c] t HL; try discriminate.
  - simpl. lia.
  - cbn [length seq fold_left]. rewrite <- seq_shift, fold_left_map.
    erewrite fold_left_ext_in; [rewrite IH by (simpl in HL; lia)|].
    + unfold aget; simpl. lia.
    + intros; reflexivity.
Qed.

Lemma mti_addr_dotZ it :
  length (m_stride it) = length (m_n it) -> length (m_cur it) = length (m_n it) ->
  mti_addr it = padd (m_base it) (dotZ (m_stride it) (m_cur it)).
Proof.
  intros H1 H2. unfold mti_addr. rewrite <- H2. rewrite fold_dotZ by lia. reflexivity.
Qed.
