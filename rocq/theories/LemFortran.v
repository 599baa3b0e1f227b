(** * What Fortran loop nests leave in memory

    A loop nest assigning one element of an array per iteration, from values the
    array does not hold, leaves in each element the value of its expression. *)

From Verif Require Import Base FortranBase SpecIter LemBase LemDomain LemAssign LemKernel LemKernel2 LemStencil LemSafe.
Import ListNotations.
Open Scope Z_scope.

(** ** Statements that keep an invariant *)

Definition keeps {M} (Q : M -> Prop) (s : M -> option M) : Prop := forall m m', Q m -> s m = Some m' -> Q m'.

Lemma forM_keeps {A M} (Q : M -> Prop) (f : A -> M -> option M) l : (forall x, In x l -> keeps Q (f x)) -> keeps Q (forM l f).
Proof.
  induction l as [|x l IH]; intros H m m' HQ E; cbn [forM] in E; [injection E as <-; exact HQ|].
  apply bind_Some_inv in E as [m1 [E1 E]]. refine (IH _ m1 m' _ E).
  - intros y Hy. apply H. right. exact Hy.
  - refine (H x _ m m1 HQ E1). left. reflexivity.
Qed.

Lemma forM_ext_keeps {A M} (Q : M -> Prop) (f g : A -> M -> option M) l m :
  (forall x m, In x l -> Q m -> f x m = g x m) -> (forall x, In x l -> keeps Q (g x)) -> Q m ->
  forM l f m = forM l g m.
Proof.
  revert m. induction l as [|x l IH]; intros m H K HQ; cbn [forM]; [reflexivity|].
  rewrite (H x m (or_introl eq_refl) HQ). destruct (g x m) as [m1|] eqn:E; [|reflexivity].
  apply IH.
  - intros y m2 Hy. apply H. right. exact Hy.
  - intros y Hy. apply K. right. exact Hy.
  - exact (K x (or_introl eq_refl) m m1 HQ E).
Qed.

Lemma do_keeps {M} (Q : M -> Prop) lo hi (f : Z -> M -> option M) :
  (forall x, lo <= x <= hi -> keeps Q (f x)) -> keeps Q (do_ lo hi f).
Proof.
  intros H m m' HQ. rewrite do_values. intros E. refine (forM_keeps Q _ _ _ _ _ HQ E).
  intros x Hx. apply H. apply loop_Bnd_in. exact Hx.
Qed.

Lemma do_ext_keeps {M} (Q : M -> Prop) lo hi (f g : Z -> M -> option M) m :
  (forall x m', lo <= x <= hi -> Q m' -> f x m' = g x m') -> (forall x, lo <= x <= hi -> keeps Q (g x)) -> Q m ->
  do_ lo hi f m = do_ lo hi g m.
Proof.
  intros H K HQ. rewrite !do_values. apply (forM_ext_keeps Q); [| |exact HQ].
  - intros x m' Hx. apply H. apply loop_Bnd_in. exact Hx.
  - intros x Hx. apply K. apply loop_Bnd_in. exact Hx.
Qed.

(** ** Loop nests as lists of index tuples, in execution order *)

Definition zvals (lo hi : Z) : list Z := map (fun k => lo + Z.of_nat k) (seq 0 (Z.to_nat (hi - lo + 1))).

Lemma zvals_in lo hi x : In x (zvals lo hi) <-> lo <= x <= hi.
Proof.
  unfold zvals. rewrite in_map_iff. split.
  - intros (k & <- & H). apply in_seq in H. lia.
  - intros H. exists (Z.to_nat (x - lo)). split; [lia|]. apply in_seq. lia.
Qed.

Lemma zvals_nodup lo hi : NoDup (zvals lo hi).
Proof. apply FinFun.Injective_map_NoDup; [intros a b; lia|apply seq_NoDup]. Qed.

Definition pairs {A B} (l : list A) (g : list B) : list (A * B) := flat_map (fun x => map (pair x) g) l.

Lemma pairs_in {A B} (l : list A) (g : list B) p : In p (pairs l g) <-> In (fst p) l /\ In (snd p) g.
Proof.
  unfold pairs. rewrite in_flat_map. split.
  - intros (x & Hx & H). apply in_map_iff in H as (y & <- & Hy). auto.
  - intros [H1 H2]. exists (fst p). split; [exact H1|]. apply in_map_iff. exists (snd p). split; [|exact H2].
    symmetry. apply surjective_pairing.
Qed.

Lemma pairs_nodup {A B} (l : list A) (g : list B) : NoDup l -> NoDup g -> NoDup (pairs l g).
Proof.
  intros Hl Hg. induction Hl as [|x l Hx Hl IH]; [constructor|]. cbn [pairs flat_map].
  apply NoDup_app; [|exact IH|].
  - apply FinFun.Injective_map_NoDup; [intros a b E; injection E; auto|exact Hg].
  - intros p Hp Hq. apply in_map_iff in Hp as (y & <- & _). apply pairs_in in Hq as [Hq _]. exact (Hx Hq).
Qed.

Lemma do_zvals {M} lo hi (f : Z -> M -> option M) m : do_ lo hi f m = forM (zvals lo hi) f m.
Proof. reflexivity. Qed.

Lemma forM_pairs {A B M} (l : list A) (g : list B) (f : A -> B -> M -> option M) m :
  forM (pairs l g) (fun p => f (fst p) (snd p)) m = forM l (fun x => forM g (f x)) m.
Proof.
  unfold pairs. rewrite forM_flat_map. apply forM_ext_in. intros x m' _. rewrite forM_map. reflexivity.
Qed.

Lemma do2_pairs {M} l1 h1 l0 h0 (f : Z -> Z -> M -> option M) m :
  do_ l1 h1 (fun j => do_ l0 h0 (fun i => f j i)) m =
  forM (pairs (zvals l1 h1) (zvals l0 h0)) (fun p => f (fst p) (snd p)) m.
Proof. rewrite forM_pairs. reflexivity. Qed.

Lemma do3_pairs {M} l2 h2 l1 h1 l0 h0 (f : Z -> Z -> Z -> M -> option M) m :
  do_ l2 h2 (fun k => do_ l1 h1 (fun j => do_ l0 h0 (fun i => f k j i))) m =
  forM (pairs (zvals l2 h2) (pairs (zvals l1 h1) (zvals l0 h0))) (fun p => f (fst p) (fst (snd p)) (snd (snd p))) m.
Proof.
  rewrite (forM_pairs (zvals l2 h2) (pairs (zvals l1 h1) (zvals l0 h0)) (fun k q => f k (fst q) (snd q))).
  rewrite do_zvals. apply forM_ext_in. intros k m' _.
  rewrite (forM_pairs (zvals l1 h1) (zvals l0 h0) (f k)). reflexivity.
Qed.

(** ** One assignment per iteration *)

(** Two memories that agree outside allocation [n]. *)
Definition same_off {S : Scalar} (n : nat) (m m' : mem S) : Prop :=
  (forall q, fst q <> n -> load m' q = load m q) /\ ints m' = ints m.

Section Put.
  Context {S : Scalar}.

  Lemma same_off_refl n (m : mem S) : same_off n m m.
  Proof. split; reflexivity. Qed.

  Lemma same_off_trans n (m1 m2 m3 : mem S) : same_off n m1 m2 -> same_off n m2 m3 -> same_off n m1 m3.
  Proof. intros [H1 I1] [H2 I2]. split; [intros q Hq; rewrite H2, H1 by exact Hq; reflexivity|congruence]. Qed.

  Lemma same_off_sym n (m1 m2 : mem S) : same_off n m1 m2 -> same_off n m2 m1.
  Proof. intros [H1 I1]. split; [intros q Hq; rewrite H1 by exact Hq; reflexivity|congruence]. Qed.

  Lemma same_off_store n (m m' : mem S) q v : store m q v = Some m' -> fst q = n -> same_off n m m'.
  Proof.
    intros H E. split; [|exact (store_ints _ _ _ _ H)]. intros q' Hq. rewrite (load_store _ _ _ _ _ H).
    destruct (ptr_dec q q') as [<-|_]; [congruence|reflexivity].
  Qed.

  (** An expression that does not look into allocation [n]. *)
  Definition blind (n : nat) (e : fexp S) : Prop := forall m m', same_off n m m' -> e m' = e m.

  Lemma blind_fel n a is : fst (fa_ptr a) <> n -> blind n (fel a is).
  Proof. intros H m m' [E _]. apply E. exact H. Qed.
  Lemma blind_fsc n x : blind n (fsc x).
  Proof. intros m m' _. reflexivity. Qed.
  Lemma blind_fop n o e1 e2 : blind n e1 -> blind n e2 -> blind n (fop o e1 e2).
  Proof. intros H1 H2 m m' E. unfold fop. rewrite (H1 _ _ E), (H2 _ _ E). reflexivity. Qed.
  Lemma blind_fneg n e : blind n e -> blind n (fneg e).
  Proof. intros H m m' E. unfold fneg. rewrite (H _ _ E). reflexivity. Qed.

  Lemma blind_bind n (e : fexp S) (g : S -> fexp S) : blind n e -> (forall x, blind n (g x)) -> blind n (fun m => x <- e m ;; g x m).
  Proof. intros H1 H2 m m' E. cbn. rewrite (H1 _ _ E). destruct (e m); cbn; [apply H2; exact E|reflexivity]. Qed.

  (** A local scalar computed before the assignment is part of its expression. *)
  Lemma flet_put (e1 : fexp S) (s : S -> mem S -> option (mem S)) a is (e : S -> fexp S) m :
    (forall x m, s x m = fset a is (e x) m) -> flet e1 s m = fset a is (fun m => x <- e1 m ;; e x m) m.
  Proof. intros H. unfold flet, fset. destruct (e1 m) as [x|]; cbn; [rewrite H; reflexivity|reflexivity]. Qed.

  Lemma forM_put {A} (l : list A) (ad : A -> ptr) (e : A -> fexp S) n m m' :
    NoDup l -> (forall x y, In x l -> In y l -> ad x = ad y -> x = y) ->
    (forall x, In x l -> fst (ad x) = n) -> (forall x, In x l -> blind n (e x)) ->
    forM l (fun x m => v <- e x m ;; store m (ad x) v) m = Some m' ->
    same_off n m m' /\ (forall x, In x l -> exists v, e x m = Some v /\ load m' (ad x) = Some v) /\
    (forall q, (forall x, In x l -> ad x <> q) -> load m' q = load m q).
  Proof.
    intros Hn. revert m. induction Hn as [|x l Hx Hn IH]; intros m Inj Ad Bl E.
    - injection E as <-. split; [apply same_off_refl|]. split; [intros x []|reflexivity].
    - cbn [forM] in E. apply bind_Some_inv in E as (m1 & E1 & E). apply bind_Some_inv in E1 as (v & Ev & Es).
      assert (O1 : same_off n m m1) by (apply (same_off_store _ _ _ _ _ Es); apply Ad; left; reflexivity).
      apply IH in E; cycle 1.
      { intros y z Hy Hz. apply Inj; right; assumption. }
      { intros y Hy. apply Ad. right. exact Hy. }
      { intros y Hy. apply Bl. right. exact Hy. }
      destruct E as (O & V & F). split; [exact (same_off_trans _ _ _ _ O1 O)|]. split.
      + intros y [<-|Hy].
        * exists v. split; [exact Ev|]. rewrite F.
          -- rewrite (load_store _ _ _ _ _ Es). destruct (ptr_dec _ _) as [_|N]; [reflexivity|congruence].
          -- intros z Hz Eq. apply Inj in Eq; [subst z; exact (Hx Hz)|right; exact Hz|left; reflexivity].
        * destruct (V y Hy) as (w & Ew & Lw). exists w. split; [|exact Lw].
          rewrite <- (Bl y (or_intror Hy) _ _ O1). exact Ew.
      + intros q Hq. rewrite F by (intros z Hz; apply Hq; right; exact Hz).
        rewrite (load_store _ _ _ _ _ Es). destruct (ptr_dec _ _) as [Eq|_]; [|reflexivity].
        exfalso. exact (Hq x (or_introl eq_refl) Eq).
  Qed.
End Put.

(** Distinct indices within the bounds have distinct addresses. *)
Lemma foffset_inj ds is is' : in_range ds is -> in_range ds is' -> foffset ds is = foffset ds is' -> is = is'.
Proof.
  intros H. revert is'. induction H as [|[lo hi] i ds is Hi H IH]; intros is' H' E.
  - inversion H'. reflexivity.
  - inversion H' as [|? i' ? is2 Hi' H2]; subst. cbn [foffset fst snd] in *.
    set (x := foffset ds is) in *. set (y := foffset ds is2) in *.
    assert (x = y) by nia. f_equal; [nia|]. apply IH; assumption.
Qed.

Lemma faddr_inj p ds is is' : in_range ds is -> in_range ds is' ->
  faddr (mkFa p ds) is = faddr (mkFa p ds) is' -> is = is'.
Proof.
  intros H H' E. apply (foffset_inj ds); [exact H|exact H'|].
  unfold faddr, padd in E. cbn [fa_ptr fa_dims] in E. apply (f_equal snd) in E. cbn [snd] in E. lia.
Qed.

(** ** Loop nests of one to three dimensions over a ghosted array *)
Section Nests.
  Context {S : Scalar}.
  Variables (p : ptr) (n : nat).
  Hypothesis Hp : fst p = n.

  Lemma do1_put f l0 h0 b0 e m m' :
    (forall i m, f i m = fset (mkFa p [b0]) [i] (e i) m) -> fst b0 <= l0 -> h0 <= snd b0 -> (forall i, l0 <= i <= h0 -> blind n (e i)) ->
    do_ l0 h0 f m = Some m' ->
    same_off n m m' /\ (forall i, l0 <= i <= h0 -> exists v : S, e i m = Some v /\ fel (mkFa p [b0]) [i] m' = Some v).
  Proof.
    intros Hf L0 H0 Bl E. rewrite (do_ext _ _ _ (fun i => fset (mkFa p [b0]) [i] (e i))), do_zvals in E by auto.
    apply (forM_put _ (fun i => faddr (mkFa p [b0]) [i]) e n) in E.
    - destruct E as (O & V & _). split; [exact O|]. intros i Hi. apply V. apply zvals_in. exact Hi.
    - apply zvals_nodup.
    - intros x y Hx Hy Eq. apply zvals_in in Hx, Hy. apply faddr_inj in Eq; [congruence| |];
        repeat constructor; cbn; lia.
    - intros. exact Hp.
    - intros x Hx. apply Bl. apply zvals_in. exact Hx.
  Qed.

  Lemma do2_put f l0 h0 l1 h1 b0 b1 e m m' :
    (forall i j m, f i j m = fset (mkFa p [b0; b1]) [i; j] (e i j) m) ->
    fst b0 <= l0 -> h0 <= snd b0 -> fst b1 <= l1 -> h1 <= snd b1 ->
    (forall i j, l0 <= i <= h0 -> l1 <= j <= h1 -> blind n (e i j)) ->
    do_ l1 h1 (fun j => do_ l0 h0 (fun i => f i j)) m = Some m' ->
    same_off n m m' /\ (forall i j, l0 <= i <= h0 -> l1 <= j <= h1 ->
      exists v : S, e i j m = Some v /\ fel (mkFa p [b0; b1]) [i; j] m' = Some v).
  Proof.
    intros Hf L0 H0 L1 H1 Bl E.
    rewrite (do_ext _ _ _ (fun j => do_ l0 h0 (fun i => fset (mkFa p [b0; b1]) [i; j] (e i j)))) in E
      by (intros; apply do_ext; auto).
    rewrite (do2_pairs l1 h1 l0 h0 (fun j i => fset (mkFa p [b0; b1]) [i; j] (e i j))) in E.
    apply (forM_put _ (fun q => faddr (mkFa p [b0; b1]) [snd q; fst q]) (fun q => e (snd q) (fst q)) n) in E.
    - destruct E as (O & V & _). split; [exact O|]. intros i j Hi Hj. apply (V (j, i)).
      apply pairs_in. split; apply zvals_in; assumption.
    - apply pairs_nodup; apply zvals_nodup.
    - intros [xj xi] [yj yi] Hx Hy Eq. apply pairs_in in Hx as [Hx1 Hx2], Hy as [Hy1 Hy2].
      apply zvals_in in Hx1, Hx2, Hy1, Hy2. cbn [fst snd] in *. apply faddr_inj in Eq; [congruence| |];
        repeat constructor; cbn; lia.
    - intros. exact Hp.
    - intros x Hx. apply pairs_in in Hx as [Hx1 Hx2]. apply Bl; apply zvals_in; assumption.
  Qed.

  Lemma do3_put f l0 h0 l1 h1 l2 h2 b0 b1 b2 e m m' :
    (forall i j k m, f i j k m = fset (mkFa p [b0; b1; b2]) [i; j; k] (e i j k) m) ->
    fst b0 <= l0 -> h0 <= snd b0 -> fst b1 <= l1 -> h1 <= snd b1 -> fst b2 <= l2 -> h2 <= snd b2 ->
    (forall i j k, l0 <= i <= h0 -> l1 <= j <= h1 -> l2 <= k <= h2 -> blind n (e i j k)) ->
    do_ l2 h2 (fun k => do_ l1 h1 (fun j => do_ l0 h0 (fun i => f i j k))) m = Some m' ->
    same_off n m m' /\ (forall i j k, l0 <= i <= h0 -> l1 <= j <= h1 -> l2 <= k <= h2 ->
      exists v : S, e i j k m = Some v /\ fel (mkFa p [b0; b1; b2]) [i; j; k] m' = Some v).
  Proof.
    intros Hf L0 H0 L1 H1 L2 H2 Bl E.
    rewrite (do_ext _ _ _ (fun k => do_ l1 h1 (fun j => do_ l0 h0 (fun i => fset (mkFa p [b0; b1; b2]) [i; j; k] (e i j k))))) in E
      by (intros; apply do_ext; intros; apply do_ext; auto).
    rewrite (do3_pairs l2 h2 l1 h1 l0 h0 (fun k j i => fset (mkFa p [b0; b1; b2]) [i; j; k] (e i j k))) in E.
    apply (forM_put _ (fun q => faddr (mkFa p [b0; b1; b2]) [snd (snd q); fst (snd q); fst q])
      (fun q => e (snd (snd q)) (fst (snd q)) (fst q)) n) in E.
    - destruct E as (O & V & _). split; [exact O|]. intros i j k Hi Hj Hk. apply (V (k, (j, i))).
      repeat (apply pairs_in; split); apply zvals_in; assumption.
    - repeat apply pairs_nodup; apply zvals_nodup.
    - intros [xk [xj xi]] [yk [yj yi]] Hx Hy Eq. apply pairs_in in Hx as [Hx1 Hx2], Hy as [Hy1 Hy2].
      apply pairs_in in Hx2 as [Hx2 Hx3], Hy2 as [Hy2 Hy3].
      apply zvals_in in Hx1, Hx2, Hx3, Hy1, Hy2, Hy3. cbn [fst snd] in *. apply faddr_inj in Eq; [congruence| |];
        repeat constructor; cbn; lia.
    - intros. exact Hp.
    - intros x Hx. apply pairs_in in Hx as [Hx1 Hx2]. apply pairs_in in Hx2 as [Hx2 Hx3].
      apply Bl; apply zvals_in; assumption.
  Qed.
End Nests.

Ltac f_blind := repeat first [apply blind_bind; intros|apply blind_fop|apply blind_fneg|apply blind_fsc|apply blind_fel; cbn [fa_ptr]; congruence].
