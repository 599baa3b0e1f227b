(** * Loops over the cells of a patch

    A nest of loops as one loop over cells (index lists), in execution order; what
    a sweep assigning one element per cell leaves in memory; and the sum an
    accumulating loop over the columns of an offset table computes. *)

From Coq Require Import Sorted.
From Verif Require Import Base FortranBase FortranLoops SpecIter LemBase LemDomain LemAssign LemField LemKernel LemKernel2 LemStencil LemSafe
  SpecRow LemSum SpecSmooth LemFortran LemSmooth.
Import ListNotations.
Open Scope Z_scope.

(** ** Cells in execution order *)

(** The outer loops run over [outer]; for each, the first index runs over [inner]. *)
Definition rows_of (inner : list Z -> list Z) (outer : list (list Z)) : list (list Z) :=
  flat_map (fun t => map (fun i => i :: t) (inner t)) outer.

Fixpoint box_cells (bs : list (Z * Z)) : list (list Z) :=
  match bs with
  | [] => [[]]
  | b :: bs => rows_of (fun _ => zvals (fst b) (snd b)) (box_cells bs)
  end.

Lemma rows_of_in inner outer c : In c (rows_of inner outer) <-> exists i t, c = i :: t /\ In t outer /\ In i (inner t).
Proof.
  unfold rows_of. rewrite in_flat_map. split.
  - intros (t & Ht & H). apply in_map_iff in H as (i & <- & Hi). exists i, t. auto.
  - intros (i & t & -> & Ht & Hi). exists t. split; [exact Ht|]. apply in_map_iff. exists i. auto.
Qed.

Lemma rows_of_nodup inner outer : NoDup outer -> (forall t, In t outer -> NoDup (inner t)) -> NoDup (rows_of inner outer).
Proof.
  intros H Hi. induction H as [|t outer Ht H IH]; [constructor|]. unfold rows_of. cbn [flat_map].
  apply NoDup_app.
  - apply FinFun.Injective_map_NoDup; [intros a b E; injection E; auto|]. apply Hi. left. reflexivity.
  - apply IH. intros t' Ht'. apply Hi. right. exact Ht'.
  - intros c Hc Hc'. apply in_map_iff in Hc as (i & <- & _). apply rows_of_in in Hc' as (i' & t' & E & Ht' & _).
    injection E as -> ->. exact (Ht Ht').
Qed.

Lemma box_cells_in bs c : In c (box_cells bs) <-> in_box bs c.
Proof.
  revert c. induction bs as [|b bs IH]; intros c; cbn [box_cells].
  - split; [intros [<-|[]]; constructor|intros H; inversion H; left; reflexivity].
  - rewrite rows_of_in. split.
    + intros (i & t & -> & Ht & Hi). constructor; [apply zvals_in; exact Hi|apply IH; exact Ht].
    + intros H. inversion H as [|? i ? t Hi Ht]; subst. exists i, t. split; [reflexivity|]. split; [apply IH; exact Ht|apply zvals_in; exact Hi].
Qed.

Lemma box_cells_nodup bs : NoDup (box_cells bs).
Proof.
  induction bs as [|b bs IH]; cbn [box_cells]; [repeat constructor; intros []|].
  apply rows_of_nodup; [exact IH|]. intros. apply zvals_nodup.
Qed.

Lemma forM_rows {M} inner outer (f : list Z -> M -> option M) m :
  forM (rows_of inner outer) f m = forM outer (fun t => forM (inner t) (fun i => f (i :: t))) m.
Proof. unfold rows_of. rewrite forM_flat_map. apply forM_ext_in. intros t m' _. rewrite forM_map. reflexivity. Qed.

Lemma bind_id {A} (x : option A) : (y <- x ;; Some y) = x.
Proof. destruct x; reflexivity. Qed.

Lemma forM_unit {A M} (x : A) (f : A -> M -> option M) m : forM [x] f m = f x m.
Proof. cbn [forM]. apply bind_id. Qed.

Lemma do1_cells {M} b0 (f : list Z -> M -> option M) m :
  do_ (fst b0) (snd b0) (fun i => f [i]) m = forM (box_cells [b0]) f m.
Proof. cbn [box_cells]. rewrite forM_rows, forM_unit. reflexivity. Qed.

Lemma do2_cells {M} b0 b1 (f : list Z -> M -> option M) m :
  do_ (fst b1) (snd b1) (fun j => do_ (fst b0) (snd b0) (fun i => f [i; j])) m = forM (box_cells [b0; b1]) f m.
Proof.
  change (box_cells [b0; b1]) with (rows_of (fun _ => zvals (fst b0) (snd b0)) (box_cells [b1])).
  rewrite forM_rows, <- do1_cells. reflexivity.
Qed.

Lemma do3_cells {M} b0 b1 b2 (f : list Z -> M -> option M) m :
  do_ (fst b2) (snd b2) (fun k => do_ (fst b1) (snd b1) (fun j => do_ (fst b0) (snd b0) (fun i => f [i; j; k]))) m =
  forM (box_cells [b0; b1; b2]) f m.
Proof.
  change (box_cells [b0; b1; b2]) with (rows_of (fun _ => zvals (fst b0) (snd b0)) (box_cells [b1; b2])).
  rewrite forM_rows, <- do2_cells. reflexivity.
Qed.

(** ** Sweeps *)
Section Sweep.
  Context {S : Scalar}.

  (** Assigning one element per step, each step reading what the earlier ones left. *)
  Lemma forM_sweep {A} (l : list A) (ad : A -> ptr) (e : A -> fexp S) n m m' :
    NoDup l -> (forall x y, In x l -> In y l -> ad x = ad y -> x = y) -> (forall x, In x l -> fst (ad x) = n) ->
    forM l (fun x m => v <- e x m ;; store m (ad x) v) m = Some m' ->
    same_off n m m' /\ (forall q, (forall x, In x l -> ad x <> q) -> load m' q = load m q) /\
    (forall l1 x l2, l = l1 ++ x :: l2 -> exists mc v,
      same_off n m mc /\ (forall y, In y l1 -> load mc (ad y) = load m' (ad y)) /\
      (forall q, (forall y, In y l1 -> ad y <> q) -> load mc q = load m q) /\
      e x mc = Some v /\ load m' (ad x) = Some v).
  Proof.
    intros Hn. revert m. induction Hn as [|x l Hx Hn IH]; intros m Inj Ad E.
    - injection E as <-. split; [apply same_off_refl|]. split; [reflexivity|]. intros [|y l1] x l2 H; discriminate H.
    - cbn [forM] in E. apply bind_Some_inv in E as (m1 & E1 & E). apply bind_Some_inv in E1 as (v & Ev & Es).
      assert (O1 : same_off n m m1) by (apply (same_off_store _ _ _ _ _ Es); apply Ad; left; reflexivity).
      apply IH in E; cycle 1.
      { intros y z Hy Hz. apply Inj; right; assumption. }
      { intros y Hy. apply Ad. right. exact Hy. }
      destruct E as (O & F & V). split; [exact (same_off_trans _ _ _ _ O1 O)|].
      assert (Hxl : forall y, In y l -> ad y <> ad x).
      { intros z Hz Eq. apply Inj in Eq; [subst z; exact (Hx Hz)|right; exact Hz|left; reflexivity]. }
      assert (F1 : forall q, ad x <> q -> load m1 q = load m q).
      { intros q Hq. rewrite (load_store _ _ _ _ _ Es). destruct (ptr_dec _ _); [contradiction|reflexivity]. }
      split.
      + intros q Hq. rewrite F by (intros z Hz; apply Hq; right; exact Hz). apply F1. apply Hq. left. reflexivity.
      + intros [|y l1] z l2 H; injection H as -> H.
        * exists m, v. split; [apply same_off_refl|]. split; [intros y []|]. split; [reflexivity|]. split; [exact Ev|].
          subst l2. rewrite F by exact Hxl. apply (load_stored _ _ _ _ Es).
        * destruct (V l1 z l2 H) as (mc & w & Oc & Vc & Fc & Ec & Lc). exists mc, w.
          split; [exact (same_off_trans _ _ _ _ O1 Oc)|]. split; [|split; [|split; [exact Ec|exact Lc]]].
          -- intros y' [<-|Hy']; [|apply Vc; exact Hy']. rewrite F, Fc; [reflexivity| |exact Hxl].
             intros y' Hy'. apply Hxl. rewrite H. apply in_or_app. left. exact Hy'.
          -- intros q Hq. rewrite Fc by (intros y' Hy'; apply Hq; right; exact Hy'). apply F1. apply Hq. left. reflexivity.
  Qed.

  (** When a step reads of the array it writes no more than the element it writes. *)
  Lemma forM_own {A} (l : list A) (ad : A -> ptr) (e : A -> fexp S) n m m' :
    NoDup l -> (forall x y, In x l -> In y l -> ad x = ad y -> x = y) -> (forall x, In x l -> fst (ad x) = n) ->
    (forall x m1 m2, In x l -> same_off n m1 m2 -> load m2 (ad x) = load m1 (ad x) -> e x m2 = e x m1) ->
    forM l (fun x m => v <- e x m ;; store m (ad x) v) m = Some m' ->
    same_off n m m' /\ (forall q, (forall x, In x l -> ad x <> q) -> load m' q = load m q) /\
    (forall x, In x l -> exists v, e x m = Some v /\ load m' (ad x) = Some v).
  Proof.
    intros Hn Inj Ad Bl E. pose proof (forM_sweep l ad e n m m' Hn Inj Ad E) as (O & F & V).
    split; [exact O|]. split; [exact F|]. intros x Hx. apply in_split in Hx as (l1 & l2 & Hl).
    destruct (V _ _ _ Hl) as (mc & v & Oc & _ & Fc & Ec & Lc). exists v. split; [|exact Lc].
    assert (In x l) as Hx by (rewrite Hl; apply in_or_app; right; left; reflexivity).
    rewrite <- Ec. symmetry. apply Bl; [exact Hx|exact Oc|]. apply Fc. intros y Hy Eq.
    assert (In y l) as Hyl by (rewrite Hl; apply in_or_app; left; exact Hy).
    apply Inj in Eq; [|exact Hyl|exact Hx]. subst y. rewrite Hl in Hn. apply NoDup_remove_2 in Hn.
    apply Hn. apply in_or_app. left. exact Hy.
  Qed.
End Sweep.

(** ** The order of execution *)

Lemma before_lt i i' t : before (i :: t) (i' :: t) = (before t t || (i <? i')).
Proof. cbn [before]. destruct (list_eq_dec _ t t); [reflexivity|congruence]. Qed.

Lemma before_irrefl c : before c c = false.
Proof. induction c as [|i t IH]; [reflexivity|]. rewrite before_lt, IH. apply Z.ltb_irrefl. Qed.

Lemma before_asym c c' : before c c' = true -> before c' c = false.
Proof.
  revert c'. induction c as [|i t IH]; intros [|i' t']; try reflexivity. cbn [before]. intros H. apply orb_true_iff in H as [H|H].
  - rewrite (IH _ H). destruct (list_eq_dec Z.eq_dec t' t) as [->|_]; [|reflexivity]. rewrite before_irrefl in H. discriminate H.
  - apply andb_true_iff in H as [Ht Hi]. destruct (list_eq_dec Z.eq_dec t t') as [->|_]; [|discriminate Ht].
    rewrite before_irrefl. destruct (list_eq_dec Z.eq_dec t' t'); [|congruence]. apply Z.ltb_lt in Hi. apply Z.ltb_ge. lia.
Qed.

(** Every cell of the list comes before the cells after it. *)
Definition in_order (l : list (list Z)) : Prop := forall l1 x l2, l = l1 ++ x :: l2 -> forall y, In y l2 -> before x y = true.

Lemma in_order_nil : in_order [].
Proof. intros [|? l1] x l2 E; discriminate E. Qed.

Lemma in_order_cons x l : (forall y, In y l -> before x y = true) -> in_order l -> in_order (x :: l).
Proof.
  intros Hx H [|a l1] y l2 E; injection E as <- E.
  - subst l2. exact Hx.
  - exact (H l1 y l2 E).
Qed.

Lemma in_order_inv x l : in_order (x :: l) -> (forall y, In y l -> before x y = true) /\ in_order l.
Proof.
  intros H. split.
  - exact (H [] x l eq_refl).
  - intros l1 y l2 ->. exact (H (x :: l1) y l2 eq_refl).
Qed.

Lemma in_order_app l l' : in_order l -> in_order l' -> (forall x y, In x l -> In y l' -> before x y = true) -> in_order (l ++ l').
Proof.
  induction l as [|x l IH]; intros H H' Hb; [exact H'|]. apply in_order_inv in H as [Hx H]. cbn [app]. apply in_order_cons.
  - intros y Hy. apply in_app_or in Hy as [Hy|Hy]; [exact (Hx y Hy)|]. apply Hb; [left; reflexivity|exact Hy].
  - apply IH; [exact H|exact H'|]. intros a b Ha. apply Hb. right. exact Ha.
Qed.

Lemma rows_in_order inner outer : in_order outer -> (forall t, In t outer -> StronglySorted Z.lt (inner t)) -> in_order (rows_of inner outer).
Proof.
  induction outer as [|t outer IH]; intros H Hs; [apply in_order_nil|]. apply in_order_inv in H as [Ht H].
  unfold rows_of. cbn [flat_map]. apply in_order_app.
  - specialize (Hs t (or_introl eq_refl)). induction Hs as [|i l Hl IHl Hi]; [apply in_order_nil|]. cbn [map]. apply in_order_cons; [|exact IHl].
    intros c Hc. apply in_map_iff in Hc as (i' & <- & Hi'). rewrite before_lt.
    rewrite Forall_forall in Hi. apply orb_true_iff. right. apply Z.ltb_lt. exact (Hi i' Hi').
  - apply IH; [exact H|]. intros t' Ht'. apply Hs. right. exact Ht'.
  - intros x y Hx Hy. apply in_map_iff in Hx as (i & <- & _). apply rows_of_in in Hy as (i' & t' & -> & Ht' & _).
    cbn [before]. rewrite (Ht t' Ht'). reflexivity.
Qed.

Lemma zseq_sorted (f : nat -> Z) s n : (forall a b, (a < b)%nat -> f a < f b) -> StronglySorted Z.lt (map f (seq s n)).
Proof.
  intros Hf. revert s. induction n as [|n IH]; intros s; cbn [seq map]; constructor; [apply IH|].
  apply Forall_forall. intros z Hz. apply in_map_iff in Hz as (k & <- & Hk). apply in_seq in Hk. apply Hf. lia.
Qed.

Lemma zvals_sorted lo hi : StronglySorted Z.lt (zvals lo hi).
Proof. apply zseq_sorted. intros. lia. Qed.

Lemma box_in_order bs : in_order (box_cells bs).
Proof.
  induction bs as [|b bs IH]; cbn [box_cells].
  - apply in_order_cons; [intros y []|apply in_order_nil].
  - apply rows_in_order; [exact IH|]. intros. apply zvals_sorted.
Qed.

(** ** Accumulating over the columns of a table *)
Section Rows.
  Context {S : Scalar} (L : field_laws S).
  Add Field SFc : (s_field S L) (morphism (lit_morph S L), constants [lit_cst]).

  (** One term of a row. *)
  Definition row_term (m : mem S) (tab st : farray) (base : Z) (c : list Z) (val : list Z -> option S) (s : Z) (cf x : S) : Prop :=
    fel st (s :: c) m = Some cf /\ exists c', displaced_cell m tab base s c c' /\ val c' = Some x.

  Lemma acc_terms (T : nat -> S -> S -> Prop) (k : S) (f : nat -> S -> option S) l r v : NoDup l ->
    (forall i r r', In i l -> f i r = Some r' -> exists cf x, T i cf x /\ r' = (r + k * (cf * x))%T) ->
    forM l f r = Some v ->
    exists cf x : nat -> S, (forall i, In i l -> T i (cf i) (x i)) /\
      v = (r + k * fold_right (fun i s => cf i * x i + s)%T (lit 0) l)%T.
  Proof.
    intros Hn. revert r. induction Hn as [|i l Hi Hn IH]; intros r H E.
    - injection E as <-. exists (fun _ => lit 0), (fun _ => lit 0). split; [intros i []|]. cbn [fold_right]. ring.
    - cbn [forM] in E. apply bind_Some_inv in E as (r1 & E1 & E).
      destruct (H i r r1 (or_introl eq_refl) E1) as (cf0 & x0 & T0 & ->).
      apply IH in E; [|intros; eapply H; [right|]; eassumption]. destruct E as (cf & x & HT & ->).
      exists (fun j => if Nat.eq_dec j i then cf0 else cf j), (fun j => if Nat.eq_dec j i then x0 else x j). split.
      + intros j [<-|Hj].
        * destruct (Nat.eq_dec i i); [exact T0|congruence].
        * destruct (Nat.eq_dec j i) as [->|_]; [contradiction|]. exact (HT j Hj).
      + cbn [fold_right]. destruct (Nat.eq_dec i i) as [_|]; [|congruence].
        replace (fold_right (fun j s => (if Nat.eq_dec j i then cf0 else cf j) * (if Nat.eq_dec j i then x0 else x j) + s)%T (lit 0) l)
          with (fold_right (fun j s => cf j * x j + s)%T (lit 0) l); [ring|].
        clear -Hi. induction l as [|j l IHl]; [reflexivity|]. cbn [fold_right]. rewrite IHl by (intros H; apply Hi; right; exact H).
        destruct (Nat.eq_dec j i) as [->|_]; [|reflexivity]. exfalso. apply Hi. left. reflexivity.
  Qed.

  (** The value an accumulating loop over the columns [lo..hi] leaves. *)
  Lemma facc_row m tab st base lo hi c val (k : S) e step v :
    (forall s r r', lo <= s <= hi -> step s r m = Some r' ->
       exists cf x, row_term m tab st base c val s cf x /\ r' = (r + k * (cf * x))%T) ->
    facc lo hi e step m = Some v ->
    exists y d, e m = Some y /\ row_sum m tab st base lo hi c val d /\ v = (y + k * d)%T.
  Proof.
    intros H E. unfold facc in E. apply bind_Some_inv in E as (y & Ey & E). rewrite do_zvals in E. unfold zvals in E. rewrite forM_map in E.
    apply (acc_terms (fun i => row_term m tab st base c val (lo + Z.of_nat i)) k) in E; [|apply seq_NoDup|].
    2:{ intros i r r' Hi. apply in_seq in Hi. apply H. lia. }
    destruct E as (cf & x & HT & ->). exists y. eexists. split; [exact Ey|]. split; [|reflexivity].
    exists (fun s => cf (Z.to_nat (s - lo))), (fun s => x (Z.to_nat (s - lo))). split.
    - intros s Hs. specialize (HT (Z.to_nat (s - lo))). replace (lo + Z.of_nat (Z.to_nat (s - lo))) with s in HT by lia.
      apply HT. apply in_seq. lia.
    - unfold total. clear HT H. generalize (seq 0 (Z.to_nat (hi - lo + 1))). intros l. induction l as [|i l IHl]; [reflexivity|].
      cbn [fold_right]. rewrite IHl. replace (Z.to_nat (lo + Z.of_nat i - lo)) with i by lia. reflexivity.
  Qed.

  (** Rows of memories that agree on what a row reads. *)
  Lemma row_sum_ext m m' tab st base lo hi c val val' (d : S) :
    ints m' = ints m ->
    (forall s, lo <= s <= hi -> fel st (s :: c) m' = fel st (s :: c) m) ->
    (forall s c', lo <= s <= hi -> displaced_cell m tab base s c c' -> val' c' = val c') ->
    row_sum m tab st base lo hi c val d -> row_sum m' tab st base lo hi c val' d.
  Proof.
    intros Hi Hs Hv (cf & x & H & ->). exists cf, x. split; [|reflexivity].
    intros s Hs'. destruct (H s Hs') as (Hc & c' & Hd & Hx). split; [rewrite Hs by exact Hs'; exact Hc|].
    exists c'. split.
    - destruct Hd as [Hl Hd]. split; [exact Hl|]. intros n Hn. unfold loadi. rewrite Hi. exact (Hd n Hn).
    - rewrite Hv with (s := s); assumption.
  Qed.

  (** A row has one value. *)
  Lemma displaced_cell_fun m tab base s c c1 c2 : displaced_cell (S := S) m tab base s c c1 -> displaced_cell m tab base s c c2 -> c1 = c2.
  Proof.
    intros [L1 H1] [L2 H2]. apply (nth_ext _ _ 0 0); [congruence|]. intros n Hn. rewrite L1 in Hn.
    specialize (H1 n Hn). specialize (H2 n Hn). rewrite H1 in H2. injection H2 as H2. lia.
  Qed.

  Lemma row_sum_fun m tab st base lo hi c val (d d' : S) :
    row_sum m tab st base lo hi c val d -> row_sum m tab st base lo hi c val d' -> d = d'.
  Proof.
    intros (cf & x & H & ->) (cf' & x' & H' & ->). apply total_ext. intros s Hs.
    destruct (H s Hs) as (Hc & c1 & D1 & V1), (H' s Hs) as (Hc' & c2 & D2 & V2).
    rewrite (displaced_cell_fun _ _ _ _ _ _ _ D1 D2) in V1. congruence.
  Qed.

  (** The first term of a row apart from the others. *)
  Lemma row_sum_first m tab st base lo hi c val (d : S) : lo <= hi ->
    row_sum m tab st base lo hi c val d <->
    exists cf x d', row_term m tab st base c val lo cf x /\ row_sum m tab st base (lo + 1) hi c val d' /\ d = (cf * x + d')%T.
  Proof.
    intros Hl.
    assert (Ht : forall f : Z -> S, total lo hi f = (f lo + total (lo + 1) hi f)%T).
    { intros f. unfold total. replace (Z.to_nat (hi - lo + 1)) with (Datatypes.S (Z.to_nat (hi - (lo + 1) + 1))) by lia.
      cbn [seq fold_right]. rewrite Z.add_0_r. f_equal. rewrite <- seq_shift. rewrite <- (map_id (seq 0 _)) at 2.
      generalize (seq 0 (Z.to_nat (hi - (lo + 1) + 1))). intros l. induction l as [|i l IHl]; [reflexivity|].
      cbn [map fold_right]. rewrite IHl. do 2 f_equal. lia. }
    split.
    - intros (cf & x & H & ->). exists (cf lo), (x lo). eexists. split; [apply H; lia|]. split; [|apply Ht].
      exists cf, x. split; [|reflexivity]. intros s Hs. apply H. lia.
    - intros (c0 & x0 & d' & T0 & (cf & x & H & ->) & ->).
      exists (fun s => if s =? lo then c0 else cf s), (fun s => if s =? lo then x0 else x s). split.
      + intros s Hs. destruct (Z.eqb_spec s lo) as [->|]; [exact T0|]. apply H. lia.
      + rewrite Ht, Z.eqb_refl. f_equal. apply total_ext. intros s Hs. destruct (Z.eqb_spec s lo); [lia|reflexivity].
  Qed.

  (** The cell a table displaces a cell to, in one to three dimensions. *)
  Lemma displaced1 m tab base s i io : loadi (S := S) m (faddr tab [base; s]) = Some io -> displaced_cell m tab base s [i] [i + io].
  Proof.
    intros H. split; [reflexivity|]. intros [|n] Hn; cbn in *; [|lia]. rewrite Z.add_0_r, H. f_equal. ring.
  Qed.
  Lemma displaced2 m tab base s i j io jo :
    loadi (S := S) m (faddr tab [base; s]) = Some io -> loadi m (faddr tab [base + 1; s]) = Some jo ->
    displaced_cell m tab base s [i; j] [i + io; j + jo].
  Proof.
    intros H H1. split; [reflexivity|]. intros [|[|n]] Hn; cbn in *; [| |lia].
    - rewrite Z.add_0_r, H. f_equal. ring.
    - rewrite H1. f_equal. ring.
  Qed.
  Lemma displaced3 m tab base s i j k io jo ko :
    loadi (S := S) m (faddr tab [base; s]) = Some io -> loadi m (faddr tab [base + 1; s]) = Some jo -> loadi m (faddr tab [base + 2; s]) = Some ko ->
    displaced_cell m tab base s [i; j; k] [i + io; j + jo; k + ko].
  Proof.
    intros H H1 H2. split; [reflexivity|]. intros [|[|[|n]]] Hn; cbn in *; [| | |lia].
    - rewrite Z.add_0_r, H. f_equal. ring.
    - rewrite H1. f_equal. ring.
    - rewrite H2. f_equal. ring.
  Qed.
End Rows.
