(** * The [int] index functions agree with the exact ones *)

From Coq Require Import ZifyBool ZifyNat Permutation.
From Verif Require Import Base ModelBounds ModelMatrix ModelIters ModelSpan ModelInt Spec
  LemBase LemMatrix LemFsi LemDomain LemExpr.
Import ListNotations.
Open Scope Z_scope.

Lemma ck_ok z : int_min <= z <= int_max -> ck z = Some z.
Proof. intros H. unfold ck. destruct (Z.leb_spec int_min z), (Z.leb_spec z int_max); try reflexivity; lia. Qed.

Lemma ckl_ok z : long_min <= z <= long_max -> ckl z = Some z.
Proof. intros H. unfold ckl. destruct (Z.leb_spec long_min z), (Z.leb_spec z long_max); try reflexivity; lia. Qed.

Ltac ilia := unfold int_min, int_max, long_min, long_max in *; lia.
Ltac inia := unfold int_min, int_max, long_min, long_max in *; nia.

Lemma iadd_ok a b : int_min <= a + b <= int_max -> iadd a b = Some (a + b).
Proof. apply ck_ok. Qed.
Lemma isub_ok a b : int_min <= a - b <= int_max -> isub a b = Some (a - b).
Proof. apply ck_ok. Qed.
Lemma imul_ok a b : int_min <= a * b <= int_max -> imul a b = Some (a * b).
Proof. apply ck_ok. Qed.
Lemma ladd_ok a b : long_min <= a + b <= long_max -> ladd a b = Some (a + b).
Proof. apply ckl_ok. Qed.
Lemma lsub_ok a b : long_min <= a - b <= long_max -> lsub a b = Some (a - b).
Proof. apply ckl_ok. Qed.
Lemma lmul_ok a b : long_min <= a * b <= long_max -> lmul a b = Some (a * b).
Proof. apply ckl_ok. Qed.

Lemma div_le a b : 0 <= a -> 1 <= b -> 0 <= a / b <= a.
Proof. intros Ha Hb. split; [apply Z.div_pos; lia|]. apply Z.div_le_upper_bound; nia. Qed.

Lemma idiv_pos a b : 0 <= a <= int_max -> 1 <= b -> idiv a b = Some (a / b).
Proof.
  intros Ha Hb. unfold idiv. rewrite cdiv_pos by lia. cbn [bind]. apply ck_ok.
  pose proof (div_le a b ltac:(lia) Hb). ilia.
Qed.
Lemma imod_pos a b : 0 <= a <= int_max -> 1 <= b -> imod a b = Some (a mod b).
Proof. intros Ha Hb. unfold imod. rewrite idiv_pos by assumption. cbn [bind]. apply cmod_pos; lia. Qed.
Lemma ldiv_pos a b : 0 <= a <= long_max -> 1 <= b -> ldiv a b = Some (a / b).
Proof.
  intros Ha Hb. unfold ldiv. rewrite cdiv_pos by lia. cbn [bind]. apply ckl_ok.
  pose proof (div_le a b ltac:(lia) Hb). ilia.
Qed.
Lemma lmod_pos a b : 0 <= a <= long_max -> 1 <= b -> lmod a b = Some (a mod b).
Proof. intros Ha Hb. unfold lmod. rewrite ldiv_pos by assumption. cbn [bind]. apply cmod_pos; lia. Qed.

Lemma cnot_01 x : cnot x = 0 \/ cnot x = 1.
Proof. unfold cnot. destruct (x =? 0); auto. Qed.

(** ** Products *)

Lemma prodZ_ge l x : Forall (fun x => 1 <= x) l -> In x l -> x <= prodZ l.
Proof.
  induction 1 as [|y l Hy Hl IH]; intros Hx; [destruct Hx|]. rewrite prodZ_cons.
  pose proof (prodZ_pos _ Hl). destruct Hx as [->|Hx]; [nia|]. specialize (IH Hx). nia.
Qed.

Lemma Forall_skipn {A} (P : A -> Prop) k l : Forall P l -> Forall P (skipn k l).
Proof. revert k; induction l; intros [|k] H; simpl; auto. inversion H; auto. Qed.

Lemma skipn_aget k (l : list Z) : (k < length l)%nat -> skipn k l = aget l k :: skipn (S k) l.
Proof.
  revert k; induction l as [|x l IH]; intros [|k] H; simpl in *; try lia; [reflexivity|].
  rewrite IH by lia. reflexivity.
Qed.

Lemma aget_pos l k : Forall (fun x => 1 <= x) l -> (k < length l)%nat -> 1 <= aget l k.
Proof. intros H Hk. rewrite Forall_forall in H. apply H. apply nth_In. exact Hk. Qed.

Lemma prod_loop sz k t :
  Forall (fun x => 1 <= x) sz -> 1 <= t -> t * prodZ (skipn k sz) <= int_max ->
  forM (seq k (length sz - k)) (fun i t => imul t (aget sz i)) t =
  Some (fold_left (fun t i => t * aget sz i) (seq k (length sz - k)) t).
Proof.
  intros Hsz. remember (length sz - k)%nat as n eqn:En. revert k t En.
  induction n as [|n IH]; intros k t En Ht HB; [reflexivity|].
  cbn [seq forM fold_left].
  assert (k < length sz)%nat as Hk by lia.
  rewrite (skipn_aget k sz Hk), prodZ_cons in HB.
  pose proof (aget_pos sz k Hsz Hk). pose proof (prodZ_pos _ (Forall_skipn _ (S k) _ Hsz)).
  rewrite imul_ok by inia. cbn [bind]. apply IH; [lia|nia|]. rewrite <- Z.mul_assoc. exact HB.
Qed.

Lemma prodZ_skipn_le k sz : Forall (fun x => 1 <= x) sz -> 1 <= prodZ (skipn k sz) <= prodZ sz.
Proof.
  revert k; induction sz as [|x sz IH]; intros k H.
  - destruct k; unfold prodZ; simpl; lia.
  - inversion H; subst. pose proof (prodZ_pos _ H). destruct k; [simpl; lia|]. cbn [skipn].
    rewrite prodZ_cons. destruct (IH k H3). nia.
Qed.

Lemma stride_dim32_ok I sz :
  Forall (fun x => 1 <= x) sz -> prodZ sz <= int_max -> stride_dim32 I sz = Some (stride_dim I sz).
Proof.
  intros H HB. unfold stride_dim32, stride_dim. apply prod_loop; [exact H|lia|].
  destruct (prodZ_skipn_le (Z.to_nat (I + 1)) sz H). lia.
Qed.

(** ** ravel *)

Lemma rav_nonneg n c : Forall (fun x => 1 <= x) n -> Forall (fun x => 0 <= x) c -> 0 <= rav n c.
Proof.
  intros Hn; revert c; induction Hn as [|x n Hx Hn IH]; intros c Hc; [destruct c; simpl; lia|].
  destruct c as [|y c]; simpl; [lia|]. inversion Hc; subst. specialize (IH c H2).
  pose proof (prodZ_pos _ Hn). nia.
Qed.

Lemma ravel32_acc size : forall s c coord t,
  length coord = length size -> Forall (fun x => 1 <= x) size ->
  0 <= c -> Forall (fun x => 0 <= x) coord -> 0 <= t ->
  (t + c) * prodZ size + rav size coord <= int_max ->
  (r <- forM (seq 0 (length size))
       (fun i t => a <- iadd t (aget (c :: coord) i) ;; imul a (aget (s :: size) (i + 1))) t ;;
   iadd r (aget (c :: coord) (length size))) = Some ((t + c) * prodZ size + rav size coord).
Proof.
  induction size as [|y size IH]; intros s c coord t HL Hs Hc Hcs Ht HB; destruct coord as [|c' coord]; try discriminate HL.
  - cbn in HB |- *. unfold prodZ in *; simpl in *. rewrite iadd_ok by ilia. f_equal. lia.
  - inversion Hs; inversion Hcs; subst. cbn [rav] in HB |- *. rewrite prodZ_cons in HB |- *.
    pose proof (prodZ_pos _ H2). pose proof (rav_nonneg size coord H2 H6).
    cbn [length seq forM]. change (aget (c :: c' :: coord) 0) with c. change (aget (s :: y :: size) (0 + 1)) with y.
    assert ((t + c) * y * prodZ size <= int_max) by nia.
    assert (t + c <= (t + c) * y) by nia. assert ((t + c) * y <= (t + c) * y * prodZ size) by nia.
    rewrite iadd_ok by inia. cbn [bind]. rewrite imul_ok by inia. cbn [bind].
    rewrite <- seq_shift, forM_map.
    change (aget (c :: c' :: coord) (S (length size))) with (aget (c' :: coord) (length size)).
    rewrite (forM_ext_in _ _ (fun i t => a <- iadd t (aget (c' :: coord) i) ;; imul a (aget (y :: size) (i + 1)))).
    + rewrite IH; [f_equal; ring|injection HL as ->; reflexivity|assumption|assumption|assumption|nia|nia].
    + intros i t' _. reflexivity.
Qed.

Lemma ravel32_ok size coord :
  size <> [] -> length coord = length size -> Forall (fun x => 1 <= x) size -> Forall (fun x => 0 <= x) coord ->
  rav size coord <= int_max -> ravel32 size coord = Some (ravel size coord).
Proof.
  intros Hne HL Hs Hc HB. rewrite ravel_rav by assumption.
  destruct size as [|s size]; [congruence|]. destruct coord as [|c coord]; [discriminate|].
  inversion Hs; inversion Hc; subst. unfold ravel32. cbn [length].
  replace (S (length size) - 1)%nat with (length size) by lia.
  cbn [rav] in HB |- *. rewrite (ravel32_acc size s c coord 0); auto; try lia.
Qed.

(** ** unravel *)

Lemma forM_eq_inv {A M} (P : M -> Prop) (l : list A) (f g : A -> M -> option M) m :
  P m -> (forall a m, In a l -> P m -> f a m = g a m /\ forall m', g a m = Some m' -> P m') ->
  forM l f m = forM l g m.
Proof.
  revert m; induction l as [|a l IH]; intros m Hm H; cbn [forM]; [reflexivity|].
  destruct (H a m (or_introl eq_refl) Hm) as [E HP]. rewrite E. apply bind_ext. intros m' E'.
  apply IH; [apply HP; exact E'|]. intros; apply H; auto. right; assumption.
Qed.

Lemma unravel_loop32_ok size index coord :
  Forall (fun x => 1 <= x) size -> prodZ size <= int_max -> 0 <= index <= int_max ->
  unravel_loop32 size index coord = unravel_loop size index coord.
Proof.
  intros Hs HB Hi. unfold unravel_loop32, unravel_loop. f_equal.
  apply (forM_eq_inv (fun st => 0 <= fst st <= int_max)); [exact Hi|].
  intros i [ix co] Hin Hix. apply in_seq in Hin. cbn [fst] in Hix.
  set (N := length size) in *.
  assert (aget size (i + 1) * prodZ (skipn (i + 2) size) = prodZ (skipn (i + 1) size)) as EP.
  { rewrite (skipn_aget (i + 1) size) by (fold N; lia). rewrite prodZ_cons.
    replace (S (i + 1)) with (i + 2)%nat by lia. reflexivity. }
  pose proof (aget_pos size (i + 1) Hs ltac:(fold N; lia)) as Hp.
  destruct (prodZ_skipn_le (i + 1) size Hs) as [Q1 Q2].
  unfold N. rewrite (prod_loop size (i + 2) (aget size (i + 1)) Hs Hp) by (rewrite EP; lia).
  cbn [bind]. rewrite fold_mul_seq, EP.
  rewrite idiv_pos, imod_pos, cdiv_pos, cmod_pos by lia. cbn [bind]. split; [reflexivity|].
  intros m' E. injection E as <-. cbn [fst].
  pose proof (Z.mod_pos_bound ix (prodZ (skipn (i + 1) size)) ltac:(lia)).
  pose proof (Z.mod_le ix (prodZ (skipn (i + 1) size)) ltac:(lia) ltac:(lia)). lia.
Qed.

(** A loop that rewrites entry [i] from entry [i] only. *)
Lemma forM_aset_range (f : nat -> Z -> option Z) (F : nat -> Z -> Z) a k c :
  (a + k <= length c)%nat ->
  (forall i, (a <= i < a + k)%nat -> f i (aget c i) = Some (F i (aget c i))) ->
  forM (seq a k) (fun i c => y <- f i (aget c i) ;; Some (aset c i y)) c =
  Some (fold_left (fun c i => aset c i (F i (aget c i))) (seq a k) c).
Proof.
  revert a c; induction k as [|k IH]; intros a c HL H; [reflexivity|].
  cbn [seq forM fold_left]. rewrite H by lia. cbn [bind]. apply IH; [rewrite aset_length; lia|].
  intros i Hi. rewrite aget_aset. destruct (Nat.eqb_spec a i); [lia|]. cbn [andb]. apply H. lia.
Qed.

Lemma unravel_adjust32_ok size coord :
  (2 <= length size)%nat -> length coord = length size ->
  Forall (fun x => 1 <= x <= int_max) size -> Forall (fun x => 0 <= x <= int_max) coord ->
  (aget coord 0 = aget size 0 -> forall i, (1 <= i < length size)%nat -> aget coord i = 0) ->
  unravel_adjust32 size coord = Some (unravel_adjust size coord).
Proof.
  intros H2 HL Hs Hc H0. unfold unravel_adjust32, unravel_adjust. set (N := length size) in *.
  assert (forall i, (i < N)%nat -> 1 <= aget size i <= int_max) as S1.
  { intros i Hi. rewrite Forall_forall in Hs. apply Hs. apply nth_In. exact Hi. }
  assert (forall i, (i < N)%nat -> 0 <= aget coord i <= int_max) as C1.
  { intros i Hi. rewrite Forall_forall in Hc. apply Hc. apply nth_In. lia. }
  pose proof (S1 0%nat ltac:(lia)). pose proof (C1 0%nat ltac:(lia)).
  rewrite isub_ok by ilia. cbn [bind].
  set (f := cnot (aget size 0 - aget coord 0)).
  assert ((f = 1 /\ forall i, (1 <= i < N)%nat -> aget coord i = 0) \/ f = 0) as Hf.
  { unfold f, cnot. destruct (Z.eqb_spec (aget size 0 - aget coord 0) 0); [left|right; reflexivity].
    split; [reflexivity|]. apply H0. lia. }
  assert (0 <= f <= 1 /\ 0 <= aget coord 0 - f) as [F1 F2].
  { unfold f, cnot. destruct (Z.eqb_spec (aget size 0 - aget coord 0) 0); lia. }
  rewrite isub_ok by ilia. cbn [bind].
  set (c1 := aset coord 0 (aget coord 0 - f)).
  assert (length c1 = N) as L1 by (unfold c1; rewrite aset_length; exact HL).
  assert (forall i, (1 <= i < N)%nat -> aget c1 i = aget coord i) as G1.
  { intros i Hi. unfold c1. rewrite aget_aset. destruct (Nat.eqb_spec 0 i); [lia|reflexivity]. }
  rewrite (forM_ext_in _ _ (fun i c => y <- (fun i x => s <- isub (aget size i) 1 ;; p <- imul f s ;; iadd x p) i (aget c i) ;;
                                       Some (aset c i y))).
  2:{ intros i c _. rewrite !bind_assoc. apply bind_ext; intros. rewrite bind_assoc. reflexivity. }
  rewrite (forM_aset_range (fun i x => s <- isub (aget size i) 1 ;; p <- imul f s ;; iadd x p)
             (fun i x => x + f * (aget size i - 1))).
  - cbn [bind].
    destruct (fold_aset_range (fun i x => x + f * (aget size i - 1)) 1 (N - 2) c1) as [L2 G2].
    set (c2 := fold_left _ _ c1) in *.
    assert (aget c2 (N - 1) = aget coord (N - 1)) as ->.
    { rewrite G2 by lia. destruct (Nat.leb_spec 1 (N - 1)), (Nat.ltb_spec (N - 1) (1 + (N - 2))); try lia; cbn [andb]; apply G1; lia. }
    pose proof (S1 (N - 1)%nat ltac:(lia)). pose proof (C1 (N - 1)%nat ltac:(lia)).
    destruct Hf as [[-> Hz]| ->].
    + rewrite imul_ok by ilia. cbn [bind]. pose proof (Hz (N - 1)%nat ltac:(lia)). rewrite iadd_ok by ilia. reflexivity.
    + rewrite imul_ok by ilia. cbn [bind]. rewrite iadd_ok by ilia. reflexivity.
  - lia.
  - intros i Hi. rewrite G1 by lia. pose proof (S1 i ltac:(lia)). pose proof (C1 i ltac:(lia)).
    rewrite isub_ok by ilia. cbn [bind]. destruct Hf as [[-> Hz]| ->].
    + rewrite imul_ok by ilia. cbn [bind]. pose proof (Hz i ltac:(lia)). rewrite iadd_ok by ilia. reflexivity.
    + rewrite imul_ok by ilia. cbn [bind]. rewrite iadd_ok by ilia. reflexivity.
Qed.

Lemma unrav_facts size index :
  (2 <= length size)%nat -> Forall (fun x => 1 <= x) size -> prodZ size <= int_max -> 0 <= index <= prodZ size ->
  Forall (fun x => 0 <= x <= int_max) (unrav size index) /\
  (aget (unrav size index) 0 = aget size 0 -> forall i, (1 <= i < length size)%nat -> aget (unrav size index) i = 0).
Proof.
  intros H2 Hs HB Hi. destruct size as [|x size]; [simpl in H2; lia|]. inversion Hs; subst.
  rewrite prodZ_cons in *. pose proof (prodZ_pos _ H3). cbn [unrav].
  pose proof (Z.mod_pos_bound index (prodZ size) ltac:(lia)) as Hm.
  pose proof (unrav_in_range size (index mod prodZ size) H3 Hm) as HR.
  split.
  - constructor.
    + pose proof (div_le index (prodZ size) ltac:(lia) ltac:(lia)). lia.
    + assert (forall y, In y size -> y <= int_max) as HU.
      { intros y Hy. pose proof (prodZ_ge size y H3 Hy). nia. }
      clear - HR HU. induction HR; constructor; auto.
      * specialize (HU x (or_introl eq_refl)). lia.
      * apply IHHR. intros; apply HU; right; assumption.
  - intros E i Hi'. cbn in E. destruct i as [|i]; [lia|]. rewrite aget_cons_S.
    pose proof (Z.div_mod index (prodZ size) ltac:(lia)) as Ed. rewrite E in Ed.
    replace (index mod prodZ size) with 0 by nia. rewrite unrav_0 by assumption.
    rewrite aget_map with (d := 0) by (simpl in Hi'; lia). reflexivity.
Qed.

Lemma unravel32_ok size index cur :
  size <> [] -> Forall (fun x => 1 <= x) size -> prodZ size <= int_max -> 0 <= index <= prodZ size ->
  length cur = length size ->
  unravel32 size index cur = unravel size index cur.
Proof.
  intros Hne Hs HB Hi HL.
  assert (Forall (fun x => 1 <= x <= int_max) size) as Hs2.
  { apply Forall_forall. intros y Hy. pose proof (prodZ_ge size y Hs Hy).
    rewrite Forall_forall in Hs. specialize (Hs y Hy). lia. }
  destruct size as [|s0 [|s1 [|s2 [|s3 size]]]]; [congruence|reflexivity| | |].
  - destruct cur as [|c0 [|c1 [|]]]; try discriminate HL.
    inversion Hs; inversion H2; subst. rewrite !prodZ_cons in HB, Hi. change (prodZ []) with 1 in HB, Hi.
    unfold unravel32, unravel. cbn [length]. change (aget [s0; s1] 1) with s1.
    rewrite idiv_pos, imod_pos, cdiv_pos, cmod_pos by lia. cbn [bind aset].
    destruct (unrav_facts [s0; s1] index ltac:(simpl; lia) Hs) as [U1 U2].
    { rewrite !prodZ_cons. exact HB. } { rewrite !prodZ_cons. exact Hi. }
    cbn [unrav] in U1, U2. rewrite !prodZ_cons in U1, U2. change (prodZ []) with 1 in U1, U2.
    rewrite !Z.mul_1_r, !Z.div_1_r in U1, U2.
    apply unravel_adjust32_ok; auto; simpl; lia.
  - destruct cur as [|c0 [|c1 [|c2 [|]]]]; try discriminate HL.
    inversion Hs; inversion H2; inversion H6; subst. rewrite !prodZ_cons in HB, Hi. change (prodZ []) with 1 in HB, Hi.
    unfold unravel32, unravel. cbn [length]. change (aget [s0; s1; s2] 1) with s1. change (aget [s0; s1; s2] 2) with s2.
    rewrite imul_ok by inia. cbn [bind].
    assert (0 <= index mod (s1 * s2) <= int_max).
    { pose proof (Z.mod_pos_bound index (s1 * s2) ltac:(nia)). pose proof (Z.mod_le index (s1 * s2) ltac:(lia) ltac:(nia)). lia. }
    rewrite idiv_pos, imod_pos, cdiv_pos, cmod_pos by nia. cbn [bind].
    rewrite idiv_pos, imod_pos, cdiv_pos, cmod_pos by nia. cbn [bind aset].
    destruct (unrav_facts [s0; s1; s2] index ltac:(simpl; lia) Hs) as [U1 U2].
    { rewrite !prodZ_cons. exact HB. } { rewrite !prodZ_cons. exact Hi. }
    cbn [unrav] in U1, U2. rewrite !prodZ_cons in U1, U2. change (prodZ []) with 1 in U1, U2.
    rewrite !Z.mul_1_r, !Z.div_1_r in U1, U2.
    apply unravel_adjust32_ok; auto; simpl; lia.
  - set (size' := s0 :: s1 :: s2 :: s3 :: size) in *.
    change (unravel32 size' index cur) with (c <- unravel_loop32 size' index cur ;; unravel_adjust32 size' c).
    change (unravel size' index cur) with (c <- unravel_loop size' index cur ;; Some (unravel_adjust size' c)).
    rewrite unravel_loop32_ok by (auto; lia).
    rewrite unravel_loop_unrav by (auto; lia). cbn [bind].
    destruct (unrav_facts size' index ltac:(unfold size'; simpl; lia) Hs HB Hi) as [U1 U2].
    apply unravel_adjust32_ok; auto.
    + unfold size'; simpl; lia.
    + apply unrav_length.
Qed.

(** ** increment, decrement *)

Definition istep32 (n : list Z) (i : nat) (st : list Z * Z) : option (list Z * Z) :=
  let '(cur, f) := st in
  x <- isub (aget n i) 1 ;;
  y <- isub x (aget cur i) ;;
  let a := cnot y in
  an <- imul a (aget n i) ;;
  b <- isub 1 an ;;
  shift <- imul f b ;;
  c <- iadd (aget cur i) shift ;;
  s1 <- isub shift 1 ;;
  f' <- imul f (cnot (cnot s1)) ;;
  Some (aset cur i c, f').

Definition dstep32 (n : list Z) (i : nat) (st : list Z * Z) : option (list Z * Z) :=
  let '(cur, f) := st in
  let a := cnot (aget cur i) in
  an <- imul a (aget n i) ;;
  b <- iadd (-1) an ;;
  shift <- imul f b ;;
  c <- iadd (aget cur i) shift ;;
  s1 <- iadd shift 1 ;;
  f' <- imul f (cnot (cnot s1)) ;;
  Some (aset cur i c, f').

Lemma istep32_ok n i cur f :
  1 <= aget n i <= int_max -> 0 <= aget cur i < aget n i -> (f = 0 \/ f = 1) ->
  istep32 n i (cur, f) = Some (istep n (cur, f) i) /\
  (snd (istep n (cur, f) i) = 0 \/ snd (istep n (cur, f) i) = 1).
Proof.
  intros Hn Hc Hf. unfold istep32, istep.
  rewrite isub_ok by ilia. cbn [bind]. rewrite isub_ok by ilia. cbn [bind].
  assert ((cnot (aget n i - 1 - aget cur i) = 1 /\ aget cur i = aget n i - 1) \/
          cnot (aget n i - 1 - aget cur i) = 0) as Ha.
  { unfold cnot. destruct (Z.eqb_spec (aget n i - 1 - aget cur i) 0); [left; lia|right; reflexivity]. }
  revert Ha. generalize (cnot (aget n i - 1 - aget cur i)). intros a Ha.
  assert (0 <= aget cur i + f * (1 - a * aget n i) <= aget n i /\ - aget n i <= f * (1 - a * aget n i) <= 1 /\
          0 <= a * aget n i <= aget n i) as (B1 & B2 & B3).
  { destruct Hf, Ha as [[-> ?]| ->]; subst; lia. }
  rewrite imul_ok by ilia. cbn [bind]. rewrite isub_ok by ilia. cbn [bind].
  rewrite imul_ok by ilia. cbn [bind]. rewrite iadd_ok by ilia. cbn [bind].
  rewrite isub_ok by ilia. cbn [bind snd].
  destruct (cnot_01 (cnot (f * (1 - a * aget n i) - 1))) as [E|E]; rewrite E.
  - rewrite Z.mul_0_r. rewrite imul_ok by ilia. rewrite Z.mul_0_r. split; [reflexivity|auto].
  - rewrite Z.mul_1_r. rewrite imul_ok by (rewrite Z.mul_1_r; destruct Hf; subst; ilia).
    rewrite Z.mul_1_r. split; [reflexivity|auto].
Qed.

Lemma dstep32_ok n i cur f :
  1 <= aget n i <= int_max -> 0 <= aget cur i <= aget n i -> (f = 0 \/ f = 1) ->
  dstep32 n i (cur, f) = Some (dstep n (cur, f) i) /\
  (snd (dstep n (cur, f) i) = 0 \/ snd (dstep n (cur, f) i) = 1).
Proof.
  intros Hn Hc Hf. unfold dstep32, dstep.
  assert ((cnot (aget cur i) = 1 /\ aget cur i = 0) \/
          cnot (aget cur i) = 0 /\ 1 <= aget cur i) as Ha.
  { unfold cnot. destruct (Z.eqb_spec (aget cur i) 0); [left; lia|right; lia]. }
  revert Ha. generalize (cnot (aget cur i)). intros a Ha.
  assert (0 <= aget cur i + f * (-1 + a * aget n i) <= aget n i /\ -1 <= f * (-1 + a * aget n i) <= aget n i - 1 /\
          0 <= a * aget n i <= aget n i) as (B1 & B2 & B3).
  { destruct Hf, Ha as [[-> ?]|[-> ?]]; subst; lia. }
  rewrite imul_ok by ilia. cbn [bind]. rewrite iadd_ok by ilia. cbn [bind].
  rewrite imul_ok by ilia. cbn [bind]. rewrite iadd_ok by ilia. cbn [bind].
  rewrite iadd_ok by ilia. cbn [bind snd].
  destruct (cnot_01 (cnot (f * (-1 + a * aget n i) + 1))) as [E|E]; rewrite E.
  - rewrite Z.mul_0_r. rewrite imul_ok by ilia. rewrite Z.mul_0_r. split; [reflexivity|auto].
  - rewrite Z.mul_1_r. rewrite imul_ok by (rewrite Z.mul_1_r; destruct Hf; subst; ilia).
    rewrite Z.mul_1_r. split; [reflexivity|auto].
Qed.

Lemma istep_other n cur f i j : i <> j -> aget (fst (istep n (cur, f) i)) j = aget cur j.
Proof. intros H. unfold istep, dstep. cbn [fst]. rewrite aget_aset. destruct (Nat.eqb_spec i j); [contradiction|reflexivity]. Qed.
Lemma dstep_other n cur f i j : i <> j -> aget (fst (dstep n (cur, f) i)) j = aget cur j.
Proof. intros H. unfold istep, dstep. cbn [fst]. rewrite aget_aset. destruct (Nat.eqb_spec i j); [contradiction|reflexivity]. Qed.

Lemma istep32_loop n l : NoDup l -> forall cur f,
  (forall i, In i l -> 1 <= aget n i <= int_max /\ 0 <= aget cur i < aget n i) -> (f = 0 \/ f = 1) ->
  forM l (istep32 n) (cur, f) = Some (fold_left (istep n) l (cur, f)).
Proof.
  induction 1 as [|i l Hi Hl IH]; intros cur f H Hf; [reflexivity|].
  destruct (H i (or_introl eq_refl)) as [H1 H2]. cbn [forM fold_left].
  destruct (istep32_ok n i cur f H1 H2 Hf) as [E Hf']. rewrite E. cbn [bind].
  pose proof (istep_other n cur f i) as HO. destruct (istep n (cur, f) i) as [cur' f']. cbn [fst snd] in *.
  apply IH; [|exact Hf']. intros j Hj. rewrite HO by (intros ->; contradiction). apply H. right; exact Hj.
Qed.
Lemma dstep32_loop n l : NoDup l -> forall cur f,
  (forall i, In i l -> 1 <= aget n i <= int_max /\ 0 <= aget cur i <= aget n i) -> (f = 0 \/ f = 1) ->
  forM l (dstep32 n) (cur, f) = Some (fold_left (dstep n) l (cur, f)).
Proof.
  induction 1 as [|i l Hi Hl IH]; intros cur f H Hf; [reflexivity|].
  destruct (H i (or_introl eq_refl)) as [H1 H2]. cbn [forM fold_left].
  destruct (dstep32_ok n i cur f H1 H2 Hf) as [E Hf']. rewrite E. cbn [bind].
  pose proof (dstep_other n cur f i) as HO. destruct (dstep n (cur, f) i) as [cur' f']. cbn [fst snd] in *.
  apply IH; [|exact Hf']. intros j Hj. rewrite HO by (intros ->; contradiction). apply H. right; exact Hj.
Qed.

Lemma in_range_aget n c i : in_range n c -> (i < length n)%nat -> 0 <= aget c i < aget n i.
Proof.
  intros H; revert i; induction H; intros i Hi; simpl in Hi; [lia|].
  destruct i; [exact H|]. rewrite !aget_cons_S. apply IHForall2. lia.
Qed.

Section Coord.
  Context (n : list Z) (Hne : n <> []) (Hn : Forall (fun x => 1 <= x) n) (HB : prodZ n <= int_max).

  Lemma n_int i : (i < length n)%nat -> 1 <= aget n i <= int_max.
  Proof.
    intros Hi. split; [apply aget_pos; assumption|].
    pose proof (prodZ_ge n (aget n i) Hn (nth_In _ _ Hi)). lia.
  Qed.

  Lemma coordZ_box p i : 0 <= p <= prodZ n -> (i < length n)%nat -> 0 <= aget (coordZ n p) i <= aget n i.
  Proof.
    intros Hp Hi. unfold coordZ. destruct (Z.ltb_spec p (prodZ n)).
    - pose proof (in_range_aget n _ i (unrav_in_range n p Hn ltac:(lia)) Hi). lia.
    - rewrite aget_endc by exact Hi. pose proof (n_int i Hi). destruct (Nat.eqb _ _); lia.
  Qed.

  Lemma inc_cur32_ok p : 0 <= p < prodZ n -> inc_cur32 n (coordZ n p) = Some (inc_cur n (coordZ n p)).
  Proof.
    intros Hp. unfold inc_cur32, inc_cur. set (N := length n).
    change (fun (i : nat) (st : list Z * Z) => _) with (istep32 n).
    change (fun (st : list Z * Z) (i : nat) => _) with (istep n).
    assert (coordZ n p = unrav n p) as ->.
    { unfold coordZ. destruct (Z.ltb_spec p (prodZ n)); [reflexivity|lia]. }
    assert (1 <= N)%nat as HN by (unfold N; destruct n; [congruence|simpl; lia]).
    rewrite istep32_loop.
    2:{ apply NoDup_rev, seq_NoDup. }
    2:{ intros i Hi. apply in_rev, in_seq in Hi. split; [apply n_int; fold N; lia|].
        apply in_range_aget; [apply unrav_in_range; assumption|fold N; lia]. }
    2:{ auto. }
    cbn [bind]. pose proof (istep_unrav n p Hn Hp) as EU. fold N in EU. rewrite EU. clear EU.
    assert (exists c f, (if p + 1 <? prodZ n then (unrav n (p + 1), 0) else (unrav n 0, 1)) = (c, f) /\ length c = N /\
              (f = 0 \/ f = 1) /\ forall i, (i < N)%nat -> 0 <= aget c i <= aget n i /\ (f = 1 -> aget c i = 0)) as (c & f & -> & Lc & Hf & Hc).
    { destruct (Z.ltb_spec (p + 1) (prodZ n)).
      - exists (unrav n (p + 1)), 0. split; [reflexivity|]. split; [apply unrav_length|]. split; [auto|]. intros i Hi. split; [|lia].
        pose proof (in_range_aget n _ i (unrav_in_range n (p + 1) Hn ltac:(lia)) Hi). lia.
      - exists (unrav n 0), 1. split; [reflexivity|]. split; [apply unrav_length|]. split; [auto|]. intros i Hi.
        rewrite unrav_0 by assumption. rewrite aget_map with (d := 0) by exact Hi. pose proof (n_int i Hi). lia. }
    rewrite (forM_ext_in _ _ (fun i c => y <- (fun i x => s <- isub (aget n i) 1 ;; p <- imul f s ;; iadd x p) i (aget c i) ;;
                                         Some (aset c i y))).
    2:{ intros i c' _. rewrite !bind_assoc. apply bind_ext; intros. rewrite bind_assoc. reflexivity. }
    rewrite (forM_aset_range (fun i x => s <- isub (aget n i) 1 ;; p <- imul f s ;; iadd x p)
               (fun i x => x + f * (aget n i - 1))).
    - cbn [bind].
      destruct (fold_aset_range (fun i x => x + f * (aget n i - 1)) 0 (N - 1) c) as [L2 G2].
      set (c2 := fold_left _ _ c) in *.
      assert (aget c2 (N - 1) = aget c (N - 1)) as ->.
      { rewrite G2 by lia. destruct (Nat.ltb_spec (N - 1) (0 + (N - 1))); [lia|].
        rewrite Bool.andb_false_r. reflexivity. }
      pose proof (n_int (N - 1)%nat ltac:(fold N; lia)). destruct (Hc (N - 1)%nat ltac:(lia)) as [C1 C2].
      destruct Hf as [-> | ->]; rewrite imul_ok by ilia; cbn [bind]; rewrite iadd_ok by ilia; reflexivity.
    - lia.
    - intros i Hi. pose proof (n_int i ltac:(fold N; lia)). destruct (Hc i ltac:(lia)) as [C1 C2].
      rewrite isub_ok by ilia; cbn [bind].
      destruct Hf as [-> | ->]; rewrite imul_ok by ilia; cbn [bind]; rewrite iadd_ok by ilia; reflexivity.
  Qed.

  Lemma dec_cur32_ok p : 0 <= p <= prodZ n -> dec_cur32 n (coordZ n p) = Some (dec_cur n (coordZ n p)).
  Proof.
    intros Hp. unfold dec_cur32, dec_cur.
    change (fun (i : nat) (st : list Z * Z) => _) with (dstep32 n).
    change (fun (st : list Z * Z) (i : nat) => _) with (dstep n).
    rewrite dstep32_loop; [reflexivity|apply NoDup_rev, seq_NoDup| |auto].
    intros i Hi. apply in_rev, in_seq in Hi. split; [apply n_int|apply coordZ_box]; lia.
  Qed.
End Coord.

(** ** dereference *)

Lemma addr_loop st : forall cur o,
  length cur = length st -> Forall (fun x => 0 <= x) st -> Forall (fun x => 0 <= x) cur ->
  0 <= o -> o + dotZ st cur <= int_max ->
  forM (seq 0 (length st)) (fun j o => p <- imul (aget st j) (aget cur j) ;; ladd o p) o = Some (o + dotZ st cur).
Proof.
  induction st as [|x st IH]; intros cur o HL Hs Hc Ho HB; destruct cur as [|c cur]; try discriminate HL.
  - cbn. f_equal. lia.
  - inversion Hs; inversion Hc; subst. cbn [length seq forM dotZ] in *.
    change (aget (x :: st) 0) with x. change (aget (c :: cur) 0) with c.
    assert (0 <= dotZ st cur) as HD.
    { clear - H2 H6. revert cur H6. induction H2; intros cur Hc; [destruct cur; simpl; lia|].
      destruct cur; simpl; [lia|]. inversion Hc; subst. specialize (IHForall cur H4). nia. }
    rewrite imul_ok by inia. cbn [bind]. rewrite ladd_ok by inia. cbn [bind].
    rewrite <- seq_shift, forM_map.
    rewrite (forM_ext_in _ _ (fun j o => p <- imul (aget st j) (aget cur j) ;; ladd o p)) by (intros; reflexivity).
    rewrite IH; [f_equal; lia| |assumption|assumption|nia|lia]. injection HL as ->. reflexivity.
Qed.

Lemma mti_addr32_ok it :
  length (m_stride it) = length (m_n it) -> length (m_cur it) = length (m_n it) ->
  Forall (fun x => 0 <= x) (m_stride it) -> Forall (fun x => 0 <= x) (m_cur it) ->
  dotZ (m_stride it) (m_cur it) <= int_max -> mti_addr32 it = Some (mti_addr it).
Proof.
  intros H1 H2 H3 H4 H5. rewrite mti_addr_dotZ by assumption. unfold mti_addr32. rewrite <- H1.
  rewrite addr_loop by (auto; lia). reflexivity.
Qed.

(** ** The positions of a traversal *)

Section Traversal.
  Context (base : ptr) (st n : list Z) (flag : bool).
  Context (Hne : n <> []) (Hn : Forall (fun x => 1 <= x) n) (HB : prodZ n <= int_max).
  Let F := mt_at base st n flag.

  Lemma mti_inc32_at p : 0 <= p < prodZ n -> mti_inc32 (F p) = Some (F (p + 1)).
  Proof.
    intros Hp. unfold mti_inc32. cbn [F mt_at m_n m_cur]. rewrite inc_cur32_ok by assumption. cbn [bind].
    rewrite inc_cur_coordZ by assumption. reflexivity.
  Qed.
  Lemma mti_dec32_at p : 0 <= p < prodZ n -> mti_dec32 (F (p + 1)) = Some (F p).
  Proof.
    intros Hp. unfold mti_dec32. cbn [F mt_at m_n m_cur]. rewrite dec_cur32_ok by (assumption || lia). cbn [bind].
    rewrite dec_cur_coordZ by assumption. reflexivity.
  Qed.
  Lemma ravel32_coordZ p : 0 <= p <= prodZ n -> ravel32 n (coordZ n p) = Some p.
  Proof.
    intros Hp. rewrite ravel32_ok; auto.
    - rewrite ravel_rav by (rewrite ?coordZ_length; auto). rewrite rav_coordZ by (auto; lia). reflexivity.
    - apply coordZ_length.
    - apply Forall_forall. intros x Hx. destruct (In_nth _ _ 0 Hx) as (i & Hi & <-). rewrite coordZ_length in Hi.
      apply (coordZ_box n Hn HB p i Hp Hi).
    - rewrite rav_coordZ by (auto; lia). lia.
  Qed.
  Lemma mti_adv32_at p d : 0 <= p <= prodZ n -> 0 <= p + d <= prodZ n -> mti_adv32 (F p) d = Some (F (p + d)).
  Proof.
    intros Hp Hd. unfold mti_adv32. cbn [F mt_at m_n m_cur]. rewrite ravel32_coordZ by assumption. cbn [bind].
    rewrite ladd_ok by ilia. cbn [bind]. rewrite ck_ok by ilia. cbn [bind].
    rewrite unravel32_ok by (rewrite ?coordZ_length; auto; lia).
    rewrite unravel_coordZ by (rewrite ?coordZ_length; auto; lia).
    cbn [bind]. unfold with_cur, mt_at. cbn. rewrite Z.add_comm. reflexivity.
  Qed.
  Lemma mti_dist32_at p q : 0 <= p <= prodZ n -> 0 <= q <= prodZ n -> mti_dist32 (F p) (F q) = Some (q - p).
  Proof.
    intros Hp Hq. unfold mti_dist32. cbn [F mt_at m_n m_cur]. rewrite !ravel32_coordZ by assumption. cbn [bind].
    apply isub_ok. ilia.
  Qed.
  Lemma mti_size32_at p : mti_size32 (F p) = Some (prodZ n).
  Proof.
    unfold mti_size32. cbn [F mt_at m_n]. rewrite stride_dim32_ok by assumption.
    rewrite stride_dim_skipn by lia. reflexivity.
  Qed.
  Lemma mti_addr32_at p :
    length st = length n -> Forall (fun x => 0 <= x) st -> 0 <= p <= prodZ n ->
    dotZ st (coordZ n p) <= int_max -> mti_addr32 (F p) = Some (mti_addr (F p)).
  Proof.
    intros HL Hs Hp HD. apply mti_addr32_ok; cbn [F mt_at m_n m_cur m_stride]; auto.
    - apply coordZ_length.
    - apply Forall_forall. intros x Hx. destruct (In_nth _ _ 0 Hx) as (i & Hi & <-). rewrite coordZ_length in Hi.
      apply (coordZ_box n Hn HB p i Hp Hi).
  Qed.
End Traversal.

(** ** The forward stencil *)

Lemma fsi_inc32_ok {A} (O : IterOps A) f :
  0 <= f_cur f <= int_max -> 0 <= f_dtl f <= int_max -> 0 <= f_stride f <= int_max -> 0 <= f_max f <= int_max ->
  fsi_inc32 O f = fsi_inc O f.
Proof.
  intros H1 H2 H3 H4. unfold fsi_inc32, fsi_inc. apply bind_ext. intros fst1 _. cbv zeta.
  rewrite ladd_ok by ilia. cbn [bind]. rewrite lsub_ok by ilia. cbn [bind]. rewrite lsub_ok by ilia. cbn [bind].
  assert (imul (cnot (cnot (f_dtl f - 1))) (cnot (f_max f - (f_cur f + 1))) =
          Some (cnot (cnot (f_dtl f - 1)) * cnot (f_max f - (f_cur f + 1)))) as ->.
  { apply imul_ok. destruct (cnot_01 (cnot (f_dtl f - 1))) as [-> | ->], (cnot_01 (f_max f - (f_cur f + 1))) as [-> | ->]; ilia. }
  cbn [bind].
  assert (exists r, cnot (cnot (f_dtl f - 1)) * cnot (f_max f - (f_cur f + 1)) = r /\ (r = 0 \/ r = 1)) as (r & -> & Hr).
  { eexists; split; [reflexivity|]. destruct (cnot_01 (cnot (f_dtl f - 1))) as [-> | ->], (cnot_01 (f_max f - (f_cur f + 1))) as [-> | ->]; lia. }
  destruct Hr as [-> | ->]; rewrite lmul_ok by ilia; cbn [bind]; rewrite lsub_ok by ilia; cbn [bind];
    rewrite lmul_ok by ilia; reflexivity.
Qed.

Lemma quot_abs a b : 1 <= b -> Z.abs (Z.quot a b) <= Z.abs a.
Proof.
  intros Hb. destruct (Z.le_gt_cases 0 a).
  - rewrite Z.quot_div_nonneg by lia. pose proof (div_le a b H Hb). lia.
  - replace a with (- (- a)) at 1 by lia. rewrite Z.quot_opp_l by lia.
    rewrite Z.quot_div_nonneg by lia. pose proof (div_le (- a) b ltac:(lia) Hb). lia.
Qed.

Lemma rem_abs a b : 1 <= b -> Z.abs (Z.rem a b) <= b.
Proof. intros Hb. pose proof (Z.rem_bound_abs a b ltac:(lia)). lia. Qed.

Lemma fsi_adv32_ok {A} (O : IterOps A) f d :
  0 <= f_cur f <= int_max -> 0 <= f_dtl f <= int_max -> 0 <= f_stride f <= int_max -> 1 <= f_max f <= int_max ->
  - int_max <= d <= int_max ->
  fsi_adv32 O f d = fsi_adv O f d.
Proof.
  intros H1 H2 H3 H4 Hd. unfold fsi_adv32, fsi_adv, ldiv, lmod, ldiv, cdiv, cmod.
  rewrite lsub_ok by ilia. cbn [bind]. rewrite ladd_ok by ilia. cbn [bind].
  destruct (Z.eqb_spec (f_max f) 0); [lia|]. cbn [bind].
  pose proof (quot_abs (d + f_cur f) (f_max f) ltac:(lia)) as HQ.
  pose proof (rem_abs (d + f_cur f) (f_max f) ltac:(lia)) as HR.
  set (q := Z.quot (d + f_cur f) (f_max f)) in *. set (r := Z.rem (d + f_cur f) (f_max f)) in *.
  assert (Z.abs (q * f_stride f) <= 2 * int_max * int_max) as HM.
  { rewrite Z.abs_mul. apply Z.mul_le_mono_nonneg; lia. }
  assert (2 * int_max * int_max = 9223372028264841218) as EM by reflexivity.
  rewrite (ckl_ok q) by ilia. cbn [bind]. rewrite lmul_ok by ilia. cbn [bind].
  rewrite ladd_ok by ilia. cbn [bind].
  assert (b2z (d + f_cur f <? 0) = 0 \/ b2z (d + f_cur f <? 0) = 1) as Hb by (unfold b2z; destruct (_ <? _); auto).
  pose proof (cnot_01 (f_dtl f - d)) as Ha.
  set (bk := b2z _) in *. set (al := cnot _) in *.
  assert (0 <= bk * f_stride f <= int_max /\ 0 <= bk * f_max f <= int_max /\ 0 <= al * f_max f <= int_max /\
          -1 <= al * (f_stride f - 1) <= int_max) as (B1 & B2 & B3 & B4).
  { destruct Hb as [-> | ->], Ha as [-> | ->]; clear - H3 H4; lia. }
  clear Hb Ha. clearbody bk al q r.
  rewrite lmul_ok by ilia. cbn [bind]. rewrite lsub_ok by ilia. cbn [bind].
  rewrite lsub_ok by ilia. cbn [bind]. rewrite lmul_ok by ilia. cbn [bind]. rewrite lsub_ok by ilia. cbn [bind].
  rewrite lmul_ok by ilia. cbn [bind].
  rewrite ladd_ok by ilia. cbn [bind]. rewrite lmul_ok by ilia. cbn [bind]. rewrite ladd_ok by ilia. cbn [bind].
  reflexivity.
Qed.

(** ** [stencil<I>()] *)

Lemma mti_stencil32_ok base st flag pre x post :
  Forall (fun x => 1 <= x) pre -> Forall (fun x => 1 <= x) post -> 2 <= x ->
  prodZ (pre ++ x :: post) <= int_max ->
  let it := mt_at base st (pre ++ x :: post) flag 0 in
  mti_stencil32 it (length pre) = Some (mti_stencil it (length pre)).
Proof.
  intros Hp Hq Hx HB it. destruct (pairs_n_pos pre post x Hp Hq Hx) as [N1 N2].
  assert (prodZ (pre ++ (x - 1) :: post) <= int_max) as HB'.
  { rewrite prodZ_app, prodZ_cons in *. pose proof (prodZ_pos _ Hp). pose proof (prodZ_pos _ Hq). nia. }
  unfold mti_stencil32, mti_stencil. cbn [it mt_at m_n]. set (n' := pre ++ x :: post) in *.
  assert (map (fun i => if Nat.eqb i (length pre) then aget n' i - 1 else aget n' i)
                (seq 0 (length n')) = pre ++ (x - 1) :: post) as ED.
  { apply aget_ext; rewrite map_length, seq_length; unfold n'.
    - rewrite !app_length. reflexivity.
    - intros i Hi. rewrite aget_map_seq by exact Hi. simpl Nat.add.
      unfold aget. destruct (Nat.eqb_spec i (length pre)) as [->|Hne].
      + rewrite !app_nth2 by lia. rewrite Nat.sub_diag. reflexivity.
      + destruct (Nat.lt_ge_cases i (length pre)).
        * rewrite !app_nth1 by lia. reflexivity.
        * rewrite !app_nth2 by lia. destruct (i - length pre)%nat eqn:E; [lia|]. reflexivity. }
  rewrite (mapM_map _ (fun i => if Nat.eqb i (length pre) then aget n' i - 1 else aget n' i)).
  - cbn [bind]. rewrite ED. rewrite !stride_dim32_ok by assumption. reflexivity.
  - intros i Hi. apply in_seq in Hi. destruct (Nat.eqb i (length pre)); [|reflexivity].
    pose proof (n_int n' N2 HB i ltac:(lia)). apply isub_ok. ilia.
Qed.

(** ** coarse_index *)

Lemma coarse_index32_ok r fi :
  1 <= r <= int_max -> int_min <= fi < int_max -> coarse_index32 r fi = Some (fi / r).
Proof.
  intros Hr Hf. rewrite <- coarse_index_floor by lia. unfold coarse_index32, coarse_index, idiv, cdiv.
  destruct (Z.eqb_spec r 0); [lia|]. cbn [bind].
  pose proof (quot_abs fi r ltac:(lia)) as Q1. pose proof (quot_abs (fi + 1) r ltac:(lia)) as Q2.
  assert (fi < 0 -> -int_max <= Z.quot (fi + 1) r <= 0) as Q3.
  { intros H. replace (fi + 1) with (- (- fi - 1)) by lia. rewrite Z.quot_opp_l by lia.
    rewrite Z.quot_div_nonneg by lia. pose proof (div_le (- fi - 1) r ltac:(lia) ltac:(lia)). ilia. }
  assert (0 <= fi -> 0 <= Z.quot fi r <= fi /\ 0 <= Z.quot (fi + 1) r <= fi + 1) as Q4.
  { intros H. rewrite !Z.quot_div_nonneg by lia.
    pose proof (div_le fi r ltac:(lia) ltac:(lia)). pose proof (div_le (fi + 1) r ltac:(lia) ltac:(lia)). lia. }
  assert (fi < 0 -> int_min <= Z.quot fi r <= 0) as Q5.
  { intros H. replace fi with (- (- fi)) by lia. rewrite Z.quot_opp_l by lia.
    rewrite Z.quot_div_nonneg by lia. pose proof (div_le (- fi) r ltac:(lia) ltac:(lia)). ilia. }
  set (q1 := Z.quot fi r) in *. set (q2 := Z.quot (fi + 1) r) in *.
  unfold b2z. destruct (Z.ltb_spec fi 0).
  - specialize (Q3 H). specialize (Q5 H). clear Q4.
    rewrite isub_ok by ilia. cbn [bind]. rewrite ck_ok by ilia. cbn [bind]. rewrite imul_ok by ilia. cbn [bind].
    rewrite iadd_ok by ilia. cbn [bind]. fold q2. rewrite ck_ok by ilia. cbn [bind]. rewrite isub_ok by ilia. cbn [bind].
    rewrite imul_ok by ilia. cbn [bind]. rewrite iadd_ok by ilia. reflexivity.
  - destruct (Q4 H).
    rewrite isub_ok by ilia. cbn [bind]. rewrite ck_ok by ilia. cbn [bind]. rewrite imul_ok by ilia. cbn [bind].
    rewrite iadd_ok by ilia. cbn [bind]. fold q2. rewrite ck_ok by ilia. cbn [bind]. rewrite isub_ok by ilia. cbn [bind].
    rewrite imul_ok by ilia. cbn [bind]. rewrite iadd_ok by ilia. reflexivity.
Qed.
