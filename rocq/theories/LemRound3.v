(** * Rounding errors of whole programs *)

From Coq Require Import QArith Qcanon Qcabs.
From Verif Require Import Base Instances SpecRel LemRel SpecRound LemRound SpecPrograms SpecReference LemUniform.
Import ListNotations.
Open Scope Qc_scope.

Lemma mrel_shape {S T : Scalar} (R : S -> T -> Prop) m m' : mrel R m m' -> shape m = shape m'.
Proof.
  intros [H _]. unfold shape. induction H as [|a b l l' Hab _ IH]; [reflexivity|]. cbn. f_equal; [|exact IH].
  clear - Hab. induction Hab; cbn; congruence.
Qed.

Lemma mrel_load {S T : Scalar} (R : S -> T -> Prop) m m' q x y : mrel R m m' ->
  load m q = Some x -> load m' q = Some y -> R x y.
Proof. intros H E1 E2. assert (K := load_rel R m m' q H). rewrite E1, E2 in K. inversion K. assumption. Qed.

Lemma mrel_elementwise {S T : Scalar} (R : S -> T -> Prop) o o' : orel (mrel R) o o' -> elementwise (fun _ => R) o o'.
Proof.
  intros [|m m' H]; [exact I|]. split; [exact (mrel_shape R m m' H)|]. split; [exact (proj2 H)|].
  intros q x y. exact (mrel_load R m m' q x y H).
Qed.

Lemma elementwise_mono {S T : Scalar} (P Q : ptr -> S -> T -> Prop) o o' :
  (forall m m' q x y, o = Some m -> o' = Some m' -> load m q = Some x -> load m' q = Some y -> P q x y -> Q q x y) ->
  elementwise P o o' -> elementwise Q o o'.
Proof.
  destruct o as [m|], o' as [m'|]; try tauto. intros H (A & B & C). split; [exact A|]. split; [exact B|].
  intros q x y E1 E2. apply (H m m' q x y); auto.
Qed.

Lemma Forall2_map_l {A B C} (f : A -> B) (R : B -> C -> Prop) l l' :
  Forall2 (fun a c => R (f a) c) l l' -> Forall2 R (map f l) l'.
Proof. induction 1; constructor; auto. Qed.

Lemma Forall2_diag {A} (R : A -> A -> Prop) l : (forall a, R a a) -> Forall2 R l l.
Proof. intros H. induction l; constructor; auto. Qed.

Section Prog.
  Context (K : prog) (U : uniform K).

  Lemma bnd_near rnd eps (HM : std_model rnd eps) p (m : mem (rounded rnd)) :
    orel (mrel (near rnd eps)) (K BndS (fun d => leaf (p d)) (bnd_mem m)) (K (rounded rnd) p m).
  Proof.
    apply U; [apply near_sim, HM|intros d; apply near_leaf, HM|]. split; [|reflexivity].
    cbn. apply Forall2_map_l, Forall2_diag. intros l. apply Forall2_map_l, Forall2_diag. intros x. apply near_leaf, HM.
  Qed.

  Lemma bnd_exact rnd p (m : mem (rounded rnd)) :
    orel (mrel exactly) (K BndS (fun d => leaf (p d)) (bnd_mem m)) (K QcS p (exact_mem m)).
  Proof.
    apply U; [apply exactly_sim|intros d; apply b_val_leaf|]. split; [|reflexivity].
    cbn. apply Forall2_map_l, Forall2_diag. intros l. apply Forall2_map_l, Forall2_diag. intros x. apply b_val_leaf.
  Qed.

  Lemma uniform_accurate : accurate K.
  Proof.
    intros rnd eps HM p m. assert (A := bnd_near rnd eps HM p m). assert (B := bnd_exact rnd p m).
    unfold bound. revert A B. set (kb := K BndS _ _). clearbody kb. intros A B.
    destruct A as [|mb m1 A].
    - inversion B. exact I.
    - inversion B as [|mb' m2 B' E1 E2]. subst mb'. split.
      { rewrite <- (mrel_shape _ _ _ A). apply (mrel_shape _ _ _ B'). }
      split. { rewrite <- (proj2 A). apply (proj2 B'). }
      intros q x y Ex Ey b (mb' & E & Eb). injection E as <-.
      assert (N := mrel_load _ _ _ _ _ _ A Eb Ex). assert (V := mrel_load _ _ _ _ _ _ B' Eb Ey).
      cbn in V. rewrite <- V. exact (near_err rnd eps HM b x N).
  Qed.

  Lemma uniform_oblivious : oblivious K.
  Proof.
    intros S T p p' m m' Hs Hi.
    assert (R : orel (mrel (fun (_ : S) (_ : T) => True)) (K S p m) (K T p' m')).
    { apply U; [split; intros; exact I|intros; exact I|]. split; [|exact Hi]. revert Hs. unfold shape.
      generalize (cells m) (cells m'). intros l. induction l as [|a l IH]; intros [|b l'] E; try discriminate E; constructor.
      - injection E as E _. revert b E. induction a as [|x a IHa]; intros [|y b] E; try discriminate E; constructor; [exact I|].
        apply IHa. injection E as E. exact E.
      - apply IH. injection E as _ E. exact E. }
    exact (mrel_elementwise _ _ _ R).
  Qed.
End Prog.

Lemma shape_loads {S T : Scalar} (m : mem S) (m' : mem T) q x : shape m = shape m' -> load m q = Some x ->
  exists y, load m' q = Some y.
Proof.
  intros Hs. assert (H : mrel (fun (_ : S) (_ : T) => True) (mkMem (cells m) []) (mkMem (cells m') [])).
  { split; [|reflexivity]. cbn [cells]. revert Hs. unfold shape. generalize (cells m) (cells m').
    intros l. induction l as [|a l IH]; intros [|b l'] E; try discriminate E; constructor.
    - injection E as E _. revert b E. induction a as [|z a IHa]; intros [|y b] E; try discriminate E; constructor; [exact I|].
      apply IHa. injection E as E. exact E.
    - apply IH. injection E as _ E. exact E. }
  apply (load_rel _ _ _ q) in H. intros E. unfold load in H, E |- *. cbn [cells] in H. rewrite E in H.
  inversion H as [|? y ? E1 E2]. exists y. reflexivity.
Qed.

Lemma uniform_agree (K F : prog) : uniform K -> uniform F ->
  (forall p (m : mem QcS), (forall d, (0 <= d <= 2)%Z -> p d <> lit 0) -> K QcS p m = F QcS p m) -> agree_rounded K F.
Proof.
  intros UK UF EQ rnd eps HM p m N.
  assert (A := uniform_accurate K UK rnd eps HM p m). assert (B := uniform_accurate F UF rnd eps HM p m).
  rewrite (EQ p (exact_mem m)) in A by (intros d Hd; exact (N d Hd)).
  destruct (K (rounded rnd) p m) as [m1|], (F (rounded rnd) p m) as [m2|], (F QcS p (exact_mem m)) as [m3|];
    cbn in A, B |- *; try contradiction; auto.
  destruct A as (A1 & A2 & A3), B as (B1 & B2 & B3). split; [congruence|]. split; [congruence|].
  intros q x y Ex Ey b b' Hb Hb'.
  destruct (shape_loads m1 m3 q x A1 Ex) as (z & Ez).
  specialize (A3 q x z Ex Ez b Hb). specialize (B3 q y z Ey Ez b' Hb').
  replace (x - y) with ((x - z) + (z - y)) by ring. apply Qcle_trans with (Qcabs (x - z) + Qcabs (z - y)).
  - apply Qcabs_triangle.
  - apply Qcplus_le_compat; [exact A3|]. rewrite Qcabs_Qcminus. exact B3.
Qed.

Lemma kernel_accurate K : kernel K -> accurate K.
Proof. intros H. apply uniform_accurate, kernel_uniform, H. Qed.
Lemma subroutine_accurate K : subroutine K -> accurate K.
Proof. intros H. apply uniform_accurate, subroutine_uniform, H. Qed.
Lemma kernel_oblivious K : kernel K -> oblivious K.
Proof. intros H. apply uniform_oblivious, kernel_uniform, H. Qed.
Lemma subroutine_oblivious K : subroutine K -> oblivious K.
Proof. intros H. apply uniform_oblivious, subroutine_uniform, H. Qed.
Lemma reference_agree K F : reference K F -> agree_rounded K F.
Proof.
  intros H. destruct (reference_programs K F H) as [HK HF].
  apply uniform_agree; [apply kernel_uniform, HK|apply subroutine_uniform, HF|].
  intros p m N. exact (reference_exact K F H QcS QcS_laws p m N).
Qed.
