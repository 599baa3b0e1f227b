(** * Adjusting a right-hand side *)

From Coq Require Import Field.
From Verif Require Import Base FortranBase FortranLoops FortranSmooth SpecIter LemBase LemDomain LemAssign LemField LemKernel LemKernel2 LemStencil LemSafe
  SpecRow SpecSmooth SpecAdjust LemFortran LemSum LemSmooth LemCells LemSmoothers LemApplySt LemLocal.
Import ListNotations.
Open Scope Z_scope.

(** ** Boxes one cell thick *)

Lemma thick2_0 {M} a b1 (f : list Z -> M -> option M) m :
  forM (box_cells [(a, a); b1]) f m = do_ (fst b1) (snd b1) (fun j => f [a; j]) m.
Proof. rewrite <- do2_cells. apply do_ext. intros j m1 _. exact (do_unit a (fun i => f [i; j]) m1). Qed.
Lemma thick2_1 {M} a b0 (f : list Z -> M -> option M) m :
  forM (box_cells [b0; (a, a)]) f m = do_ (fst b0) (snd b0) (fun i => f [i; a]) m.
Proof. rewrite <- do2_cells. exact (do_unit a (fun j => do_ (fst b0) (snd b0) (fun i => f [i; j])) m). Qed.
Lemma thick3_0 {M} a b1 b2 (f : list Z -> M -> option M) m :
  forM (box_cells [(a, a); b1; b2]) f m = do_ (fst b2) (snd b2) (fun k => do_ (fst b1) (snd b1) (fun j => f [a; j; k])) m.
Proof. rewrite <- do3_cells. apply do_ext. intros k m1 _. apply do_ext. intros j m2 _. exact (do_unit a (fun i => f [i; j; k]) m2). Qed.
Lemma thick3_1 {M} a b0 b2 (f : list Z -> M -> option M) m :
  forM (box_cells [b0; (a, a); b2]) f m = do_ (fst b2) (snd b2) (fun k => do_ (fst b0) (snd b0) (fun i => f [i; a; k])) m.
Proof. rewrite <- do3_cells. apply do_ext. intros k m1 _. exact (do_unit a (fun j => do_ (fst b0) (snd b0) (fun i => f [i; j; k])) m1). Qed.
Lemma thick3_2 {M} a b0 b1 (f : list Z -> M -> option M) m :
  forM (box_cells [b0; b1; (a, a)]) f m = do_ (fst b1) (snd b1) (fun j => do_ (fst b0) (snd b0) (fun i => f [i; j; a])) m.
Proof. rewrite <- do3_cells. exact (do_unit a (fun k => do_ (fst b1) (snd b1) (fun j => do_ (fst b0) (snd b0) (fun i => f [i; j; k]))) m). Qed.

(** ** Columns of a table *)
Section Column.
  Context {S : Scalar}.

  Fixpoint fcol {T} (d : nat) (base : Z) (tab : farray) (s : Z) (k : list Z -> mem S -> option T) : mem S -> option T :=
    match d with
    | O => k []
    | Datatypes.S d' => fint tab [base; s] (fun o => fcol d' (base + 1) tab s (fun os => k (o :: os)))
    end.

  Lemma fcol_inv {T} d : forall base tab s (k : list Z -> mem S -> option T) m r, fcol d base tab s k m = Some r ->
    exists os, length os = d /\ (forall j, (j < d)%nat -> loadi m (faddr tab [base + Z.of_nat j; s]) = Some (nth j os 0)) /\ k os m = Some r.
  Proof.
    induction d as [|d IH]; cbn [fcol]; intros base tab s k m r E.
    - exists []. split; [reflexivity|]. split; [intros j Hj; lia|exact E].
    - unfold fint in E. apply bind_Some_inv in E as (o & Eo & E). apply IH in E as (os & Hl & Ho & E). exists (o :: os).
      split; [cbn; congruence|]. split; [|exact E]. intros [|j] Hj; cbn [nth].
      + rewrite Z.add_0_r. exact Eo.
      + rewrite <- (Ho j) by lia. f_equal. f_equal. f_equal. lia.
  Qed.

  Lemma fcol_ext {T} d : forall base tab s (k k' : list Z -> mem S -> option T) m, (forall os, length os = d -> k os m = k' os m) ->
    fcol d base tab s k m = fcol d base tab s k' m.
  Proof.
    induction d as [|d IH]; cbn [fcol]; intros base tab s k k' m H; [apply H; reflexivity|].
    unfold fint. apply bind_ext. intros o _. apply IH. intros os Hl. apply H. cbn. congruence.
  Qed.

  Lemma blind_fcol {T} n d : forall base tab s (k : list Z -> mem S -> option T), (forall os m1 m2, same_off n m1 m2 -> k os m2 = k os m1) ->
    forall m1 m2, same_off n m1 m2 -> fcol d base tab s k m2 = fcol d base tab s k m1.
  Proof.
    induction d as [|d IH]; cbn [fcol]; intros base tab s k H m1 m2 O; [apply H; exact O|].
    unfold fint. unfold loadi. rewrite (proj2 O). apply bind_ext. intros o _. apply IH; auto.
  Qed.

  Fixpoint shift (c o : list Z) : list Z :=
    match c, o with
    | i :: c', j :: o' => i + j :: shift c' o'
    | _, _ => []
    end.

  Lemma shift_nth c o n : length o = length c -> (n < length c)%nat -> nth n (shift c o) 0 = nth n c 0 + nth n o 0.
  Proof.
    revert o n. induction c as [|i c IH]; intros [|j o] [|n] Hl Hn; cbn in *; try lia. apply IH; lia.
  Qed.
  Lemma shift_length c o : length o = length c -> length (shift c o) = length c.
  Proof. revert o. induction c as [|i c IH]; intros [|j o] Hl; cbn in *; try lia. rewrite IH; lia. Qed.

  (** Adding up in place. *)
  Lemma store_same (m : mem S) q x : load m q = Some x -> store m q x = Some m.
  Proof.
    unfold load, store. intros E. apply bind_Some_inv in E as (a & Ea & E). rewrite Ea. cbn [bind]. rewrite E. cbn [bind]. f_equal.
    destruct m as [cs is]. cbn [cells ints] in *. f_equal.
    assert (forall (T : Type) (l : list T) k v, nth_error l k = Some v -> aset l k v = l) as H.
    { intros T l. induction l as [|z l IH]; intros [|k] v; cbn; try discriminate; [congruence|]. intros Ev. rewrite IH; auto. }
    rewrite (H _ a); [apply H; exact Ea|]. unfold nthZ in E. destruct (_ <? 0); [discriminate|exact E].
  Qed.

  Lemma acc_own a is lo hi (body : Z -> mem S -> option (mem S)) (step : Z -> S -> fexp S) m : lo <= hi ->
    (forall s m, body s m = fset a is (fun m => r <- fel a is m ;; step s r m) m) ->
    (forall s r, blind (fst (fa_ptr a)) (step s r)) ->
    do_ lo hi body m = fset a is (facc lo hi (fel a is) step) m.
  Proof.
    intros Hle Hb Bl. rewrite <- (acc_put a is lo hi (fel a is) body step m Hb Bl). unfold fseq. unfold fset at 1, fel at 1.
    destruct (load m (faddr a is)) as [x|] eqn:E; cbn [bind].
    - rewrite (store_same _ _ _ E). reflexivity.
    - rewrite do_zvals. destruct (zvals lo hi) as [|s l] eqn:Z.
      + assert (In lo (zvals lo hi)) as H by (apply zvals_in; lia). rewrite Z in H. destruct H.
      + cbn [forM]. rewrite Hb. unfold fset, fel. rewrite E. reflexivity.
  Qed.
End Column.

(** ** Moving terms across an interface *)
Section Move.
  Context {S : Scalar} (L : field_laws S).
  Add Field MoveField : (s_field S L) (morphism (lit_morph S L), constants [lit_cst]).

  (** One cell: copy the layer of [u] across the interface, then subtract the row. *)
  Definition layer_fill (u ul : farray) (layer : list (Z * Z)) (c : list Z) : mem S -> option (mem S) :=
    forM (box_cells layer) (fun o => fset ul o (fel u (shift c o))).
  Definition row_subtract (d : nat) (n : Z) (tab st rhs ul : farray) (c : list Z) : mem S -> option (mem S) :=
    do_ 0 (n - 1) (fun s => fcol d 0 tab s (fun o => fset rhs c (fop ssub (fel rhs c) (fop smul (fel st (s :: c)) (fel ul o))))).
  Definition move_cell (d : nat) (n : Z) (tab st u rhs ul : farray) (layer : list (Z * Z)) (c : list Z) : mem S -> option (mem S) :=
    fseq (layer_fill u ul layer c) (row_subtract d n tab st rhs ul c).

  (** The table is read before the element. *)
  Lemma fcol_put d : forall base tab s (a : farray) is (k : list Z -> fexp S) m,
    fcol d base tab s (fun o => fset a is (fop ssub (fel a is) (k o))) m =
    fset a is (fun m => r <- fel a is m ;; fcol d base tab s (fun o => fop ssub (fsc r) (k o)) m) m.
  Proof.
    intros base tab s a is k m. unfold fset, fel. destruct (load m (faddr a is)) as [r|] eqn:E; cbn [bind].
    - revert base k. induction d as [|d IH]; intros base k; cbn [fcol].
      + unfold fop, fsc. rewrite E. reflexivity.
      + unfold fint. destruct (loadi m _) as [o|]; cbn [bind]; [|reflexivity]. rewrite <- (IH (base + 1) (fun os => k (o :: os))). reflexivity.
    - revert base k. induction d as [|d IH]; intros base k; cbn [fcol].
      + unfold fop. rewrite E. reflexivity.
      + unfold fint. destruct (loadi m _) as [o|]; cbn [bind]; [|reflexivity]. apply (IH (base + 1) (fun os => k (o :: os))).
  Qed.

  Definition unit_box (d : nat) : list (Z * Z) := repeat (-1, 1) d.

  Lemma unit_box_in d o : length o = d -> (forall k, (k < d)%nat -> -1 <= nth k o 0 <= 1) -> in_box (unit_box d) o.
  Proof.
    revert o. induction d as [|d IH]; intros [|i o] Hl H; try discriminate; [constructor|]. cbn [unit_box repeat]. constructor.
    - apply (H 0%nat). lia.
    - apply IH; [cbn in Hl; lia|]. intros k Hk. apply (H (Datatypes.S k)). lia.
  Qed.

  (** The layer: the directions of the unit box with one fixed at [e]. *)
  Definition layer_box (d dir : nat) (e : Z) : list (Z * Z) :=
    map (fun k => if Nat.eqb k dir then (e, e) else (-1, 1)) (seq 0 d).

  Lemma map_seq_in (f : nat -> Z * Z) : forall d s o, in_box (map f (seq s d)) o <->
    length o = d /\ forall k, (k < d)%nat -> fst (f (s + k)%nat) <= nth k o 0 <= snd (f (s + k)%nat).
  Proof.
    induction d as [|d IH]; intros s o; cbn [seq map].
    - split; [intros H; inversion H; split; [reflexivity|intros; lia]|]. intros [H _]. destruct o; [constructor|discriminate].
    - split.
      + intros H. inversion H as [|? i ? o' Hi Ho]; subst. apply IH in Ho as [Hl Ho]. split; [cbn; congruence|].
        intros [|k] Hk; cbn [nth]; [rewrite Nat.add_0_r; exact Hi|]. rewrite <- Nat.add_succ_comm. apply Ho. lia.
      + intros [Hl H]. destruct o as [|i o]; [discriminate|]. constructor.
        * specialize (H 0%nat ltac:(lia)). rewrite Nat.add_0_r in H. exact H.
        * apply IH. split; [cbn in Hl; lia|]. intros k Hk. specialize (H (Datatypes.S k) ltac:(lia)). rewrite <- Nat.add_succ_comm in H. exact H.
  Qed.

  Lemma layer_in d dir e o : (dir < d)%nat -> -1 <= e <= 1 ->
    in_box (layer_box d dir e) o <-> in_box (unit_box d) o /\ nth dir o 0 = e.
  Proof.
    intros Hd He. unfold layer_box. rewrite map_seq_in.
    assert (unit_box d = map (fun _ : nat => (-1, 1)) (seq 0 d)) as ->.
    { unfold unit_box. generalize 0%nat. clear. induction d as [|d IH]; intros s; cbn; [reflexivity|]. rewrite (IH (Datatypes.S s)). reflexivity. }
    rewrite map_seq_in. cbn [fst snd Nat.add]. split.
    - intros [Hl H]. split; [split; [exact Hl|]|].
      + intros k Hk. specialize (H k Hk). destruct (Nat.eqb k dir); cbn [fst snd] in H; lia.
      + specialize (H dir Hd). rewrite Nat.eqb_refl in H. cbn [fst snd] in H. lia.
    - intros [[Hl H] E]. split; [exact Hl|]. intros k Hk. specialize (H k Hk). destruct (Nat.eqb_spec k dir) as [->|N]; cbn [fst snd]; lia.
  Qed.

  (** Outside the layer the scratch array is zero. *)
  Definition zero_off (d dir : nat) (e : Z) (ul : farray) (m : mem S) : Prop :=
    forall o, in_box (unit_box d) o -> nth dir o 0 <> e -> fel ul o m = Some (lit 0).

  Lemma move_cell_inv d dir e n tab st u rhs ul c (m m' : mem S) :
    (dir < d)%nat -> -1 <= e <= 1 -> 1 <= n -> length c = d -> fa_dims ul = unit_box d ->
    fst (fa_ptr ul) <> fst (fa_ptr u) -> fst (fa_ptr ul) <> fst (fa_ptr rhs) -> fst (fa_ptr ul) <> fst (fa_ptr st) ->
    fst (fa_ptr rhs) <> fst (fa_ptr st) -> near m tab n (Z.of_nat d) -> zero_off d dir e ul m ->
    move_cell d n tab st u rhs ul (layer_box d dir e) c m = Some m' ->
    ints m' = ints m /\ zero_off d dir e ul m' /\
    (forall q, q <> faddr rhs c -> fst q <> fst (fa_ptr ul) -> load m' q = load m q) /\
    exists y t, fel rhs c m = Some y /\
      row_sum m tab st 0 0 (n - 1) c (fun c' => if nth dir c' 0 =? nth dir c 0 + e then fel u c' m else Some (lit 0)) t /\
      fel rhs c m' = Some (y - t)%T.
  Proof.
    intros Hdir He Hn Hl Hul Auu Aur Aus Ars Near Zero E. unfold move_cell, fseq in E. apply bind_Some_inv in E as (m1 & E1 & E).
    unfold layer_fill in E1.
    apply (forM_put (box_cells (layer_box d dir e)) (faddr ul) (fun o => fel u (shift c o)) (fst (fa_ptr ul))) in E1.
    2: apply box_cells_nodup.
    2:{ intros x y Hx Hy. destruct ul as [p ds]. cbn [fa_dims] in Hul. subst ds. apply box_cells_in, layer_in in Hx, Hy; try assumption.
        destruct Hx as [Hx _], Hy as [Hy _]. apply faddr_inj; assumption. }
    2:{ reflexivity. }
    2:{ intros x _. apply blind_fel. congruence. }
    destruct E1 as (O1 & V1 & F1).
    assert (Near1 : near m1 tab n (Z.of_nat d)).
    { intros s k o Hs Hk. unfold loadi. rewrite (proj2 O1). apply (Near s k o Hs Hk). }
    assert (UL : forall o, in_box (unit_box d) o -> fel ul o m1 = if nth dir o 0 =? e then fel u (shift c o) m else Some (lit 0)).
    { intros o Ho. destruct (Z.eqb_spec (nth dir o 0) e) as [Eq|N].
      - assert (In o (box_cells (layer_box d dir e))) as Hin by (apply box_cells_in, layer_in; auto).
        destruct (V1 o Hin) as (v & Ev & Lv). rewrite Ev. exact Lv.
      - unfold fel. rewrite F1; [apply Zero; auto|]. intros o' Hin Eq. apply box_cells_in, layer_in in Hin as [Ho' E']; auto.
        destruct ul as [p ds]. cbn [fa_dims] in Hul. subst ds. apply faddr_inj in Eq; [|assumption|assumption]. congruence. }
    unfold row_subtract in E.
    rewrite (acc_own rhs c 0 (n - 1) _ (fun s r => fcol d 0 tab s (fun o => fop ssub (fsc r) (fop smul (fel st (s :: c)) (fel ul o))))) in E.
    2: lia.
    2:{ intros s m2. apply fcol_put. }
    2:{ intros s r. intros ma mb O. apply (blind_fcol (fst (fa_ptr rhs))); [|exact O]. intros os mc md O'.
        revert O'. apply (blind_fop (fst (fa_ptr rhs))); [apply blind_fsc|apply blind_fop; apply blind_fel; congruence]. }
    unfold fset in E. apply bind_Some_inv in E as (v & Ev & St).
    apply (facc_row L m1 tab st 0 0 (n - 1) c (fun c' => if nth dir c' 0 =? nth dir c 0 + e then fel u c' m else Some (lit 0)) (lit (-1))) in Ev.
    2:{ intros s r r' Hs H. apply fcol_inv in H as (os & Hos & Ho & H). unfold fop, fsc in H. cbn [bind] in H.
        apply bind_Some_inv in H as (t & Ht & H). apply bind_Some_inv in Ht as (cf & Ecf & Ht). apply bind_Some_inv in Ht as (x & Ex & Ht).
        injection Ht as <-. injection H as <-. exists cf, x. split; [|ring]. split; [exact Ecf|].
        exists (shift c os). split.
        - split; [apply shift_length; congruence|]. intros j Hj. rewrite shift_nth by congruence. rewrite (Ho j) by congruence. f_equal. ring.
        - rewrite UL in Ex.
          + rewrite shift_nth by congruence. rewrite <- Ex.
            replace (nth dir c 0 + nth dir os 0 =? nth dir c 0 + e) with (nth dir os 0 =? e); [reflexivity|].
            destruct (Z.eqb_spec (nth dir os 0) e), (Z.eqb_spec (nth dir c 0 + nth dir os 0) (nth dir c 0 + e)); try reflexivity; lia.
          + apply unit_box_in; [exact Hos|]. intros k Hk. apply (Near1 s (Z.of_nat k) (nth k os 0)); [lia|lia|]. rewrite <- (Ho k Hk). reflexivity. }
    destruct Ev as (y & t & Ey & Hr & ->). pose proof (store_ints _ _ _ _ St) as I2. split; [rewrite I2; apply (proj2 O1)|]. split; [|split].
    - intros o Ho N. unfold fel. rewrite (load_store _ _ _ _ _ St). destruct (ptr_dec _ _) as [Eq|_].
      + exfalso. apply Aur. apply (f_equal fst) in Eq. symmetry. exact Eq.
      + fold (fel ul o m1). rewrite (UL o Ho). destruct (Z.eqb_spec (nth dir o 0) e); [contradiction|reflexivity].
    - intros q Hq Hf. rewrite (load_store _ _ _ _ _ St). destruct (ptr_dec _ _) as [Eq|_]; [congruence|]. apply (proj1 O1). exact Hf.
    - exists y, t. split; [|split].
      + rewrite <- Ey. symmetry. apply (proj1 O1). cbn. congruence.
      + destruct Hr as (cf & x & H & ->). exists cf, x. split; [|reflexivity]. intros s Hs. destruct (H s Hs) as (H1 & c' & H2 & H3). split.
        * rewrite <- H1. symmetry. apply (proj1 O1). cbn. congruence.
        * exists c'. split; [|exact H3]. destruct H2 as [H2 H4]. split; [exact H2|]. intros k Hk. rewrite <- (H4 k Hk). unfold loadi. rewrite (proj2 O1). reflexivity.
      + unfold fel. rewrite (load_stored _ _ _ _ St). f_equal. ring.
  Qed.
  Lemma moved_cells d dir e n tab st u rhs ul bs (m m0 m' : mem S) :
    (dir < d)%nat -> -1 <= e <= 1 -> 1 <= n -> length bs = d -> fa_dims ul = unit_box d ->
    fst (fa_ptr ul) <> fst (fa_ptr u) -> fst (fa_ptr ul) <> fst (fa_ptr rhs) -> fst (fa_ptr ul) <> fst (fa_ptr st) ->
    fst (fa_ptr rhs) <> fst (fa_ptr st) -> fst (fa_ptr rhs) <> fst (fa_ptr u) -> near m tab n (Z.of_nat d) ->
    (forall c, in_box bs c -> in_box (fa_dims rhs) c) ->
    same_off (fst (fa_ptr ul)) m m0 -> (forall o, in_box (unit_box d) o -> fel ul o m0 = Some (lit 0)) ->
    forM (box_cells bs) (move_cell d n tab st u rhs ul (layer_box d dir e)) m0 = Some m' ->
    moved m m' tab st n u rhs ul dir e bs.
  Proof.
    intros Hdir He Hn Hd Hul Auu Aur Aus Ars Aru Near Hb O0 Z0 E. pose proof (box_cells_in bs) as Hc.
    assert (Hl : forall c, In c (box_cells bs) -> length c = d).
    { intros c Hin. apply Hc in Hin. rewrite <- Hd. clear -Hin. induction Hin; cbn; congruence. }
    apply (forM_local_inv (box_cells bs) (move_cell d n tab st u rhs ul (layer_box d dir e))
      (fun c q => q = faddr rhs c \/ fst q = fst (fa_ptr ul))
      (fun c q => q = faddr rhs c \/ (fst q <> fst (fa_ptr rhs) /\ fst q <> fst (fa_ptr ul)))
      (fun m1 => ints m1 = ints m /\ zero_off d dir e ul m1)) in E.
    - destruct E as (F & [I _] & V). split; [|split; [|exact I]].
      + intros c Hin. apply Hc in Hin. destruct (V c Hin) as (m1 & m2 & G & [I1 Z1] & P1 & P2).
        apply (move_cell_inv d dir e) in G; auto.
        2:{ intros s k o Hs Hk. unfold loadi. rewrite I1. apply (Near s k o Hs Hk). }
        destruct G as (_ & _ & _ & y & t & Ey & Hr & Et). exists y, t. split; [|split].
        * rewrite <- Ey. symmetry. unfold fel. rewrite P1 by auto. apply (proj1 O0). cbn. congruence.
        * assert (Q : forall q, fst q <> fst (fa_ptr rhs) -> fst q <> fst (fa_ptr ul) -> load m1 q = load m q).
          { intros q N1 N2. rewrite P1 by auto. apply (proj1 O0). exact N2. }
          destruct Hr as (cf & x & H & ->). exists cf, x. split; [|reflexivity]. intros s Hs. destruct (H s Hs) as (H1 & c' & H2 & H3). split.
          -- rewrite <- H1. symmetry. apply Q; cbn; congruence.
          -- exists c'. split.
             ++ destruct H2 as [H2 H4]. split; [exact H2|]. intros k Hk. rewrite <- (H4 k Hk). unfold loadi. rewrite I1. reflexivity.
             ++ rewrite <- H3. destruct (_ =? _); [|reflexivity]. symmetry. apply Q; cbn; congruence.
        * rewrite <- Et. apply P2. auto.
      + intros q Hq Hf. rewrite F; [apply (proj1 O0); exact Hf|]. intros c Hin [->|N]; [|congruence]. apply Hc in Hin. exact (Hq c Hin eq_refl).
    - apply box_cells_nodup.
    - split; [exact (proj2 O0)|]. intros o Ho _. apply Z0. exact Ho.
    - intros c m1 m2 Hin [I1 Z1] G. apply (move_cell_inv d dir e) in G; auto.
      2:{ intros s k o Hs Hk. unfold loadi. rewrite I1. apply (Near s k o Hs Hk). }
      destruct G as (I2 & Z2 & Fr & _). split; [split; [congruence|exact Z2]|]. intros q Hq. apply Fr; intros Eq; apply Hq; auto.
    - intros c c' q Hx Hy N [->|[N1 N2]] [Eq|Eq].
      + apply N. destruct rhs as [p ds]. apply faddr_inj in Eq; [exact Eq| |]; apply Hb, Hc; assumption.
      + apply Aur. symmetry. exact Eq.
      + subst q. apply N1. reflexivity.
      + exact (N2 Eq).
  Qed.

  (** The scratch array is set to zero, in any order. *)
  Lemma zero_fill d (ul : farray) (cells : list (list Z)) (perm : list Z -> list Z) (m m0 : mem S) :
    fa_dims ul = unit_box d -> NoDup cells -> (forall x y, In x cells -> In y cells -> perm x = perm y -> x = y) ->
    (forall o, in_box (unit_box d) o <-> In o (map perm cells)) ->
    forM cells (fun o => fset ul (perm o) (fsc (lit 0))) m = Some m0 ->
    same_off (fst (fa_ptr ul)) m m0 /\ (forall o, in_box (unit_box d) o -> fel ul o m0 = Some (lit 0)).
  Proof.
    intros Hul Hn Hp Hin E.
    apply (forM_put cells (fun o => faddr ul (perm o)) (fun o => fsc (lit 0)) (fst (fa_ptr ul))) in E.
    - destruct E as (O & V & _). split; [exact O|]. intros o Ho. apply Hin, in_map_iff in Ho as (x & <- & Hx).
      destruct (V x Hx) as (v & Ev & Lv). unfold fsc in Ev. rewrite <- Ev in Lv. exact Lv.
    - exact Hn.
    - intros x y Hx Hy Eq. apply Hp; auto. destruct ul as [p ds]. cbn [fa_dims] in Hul. subst ds.
      apply faddr_inj in Eq; [exact Eq| |]; apply Hin, in_map; assumption.
    - reflexivity.
    - intros x _. apply blind_fsc.
  Qed.

  Lemma zero_fill_id d (ul : farray) (m m0 : mem S) : fa_dims ul = unit_box d ->
    forM (box_cells (unit_box d)) (fun o => fset ul o (fsc (lit 0))) m = Some m0 ->
    same_off (fst (fa_ptr ul)) m m0 /\ (forall o, in_box (unit_box d) o -> fel ul o m0 = Some (lit 0)).
  Proof.
    intros Hul E. apply (zero_fill d ul (box_cells (unit_box d)) (fun o => o)); auto.
    - apply box_cells_nodup.
    - intros o. rewrite map_id. symmetry. apply box_cells_in.
  Qed.

  Lemma rev_unit2 o : in_box (unit_box 2) o <-> In o (map (@rev Z) (box_cells (unit_box 2))).
  Proof.
    rewrite in_map_iff. setoid_rewrite box_cells_in. split.
    - intros H. inversion H as [|? i ? o1 Hi H1]; subst. inversion H1 as [|? j ? o2 Hj H2]; subst. inversion H2; subst.
      exists [j; i]. split; [reflexivity|]. constructor; [exact Hj|]. constructor; [exact Hi|constructor].
    - intros (x & <- & H). inversion H as [|? i ? o1 Hi H1]; subst. inversion H1 as [|? j ? o2 Hj H2]; subst. inversion H2; subst.
      constructor; [exact Hj|]. constructor; [exact Hi|constructor].
  Qed.

  Lemma adj1d_moved_0 : forall ifirst0 ilast0 pfirst0 plast0 side n offset st gcw u rhs ul (m m' : mem S),
    side = 0 \/ side = 1 -> 1 <= n -> near m (mkFa offset [(0, 0); (0, n - 1)]) n 1 ->
    fst ul <> fst u -> fst ul <> fst rhs -> fst ul <> fst st -> fst rhs <> fst st -> fst rhs <> fst u ->
    (forall c, in_box [(pfirst0 + 1 - 2 * side, pfirst0 + 1 - 2 * side)] c -> in_box (CELL1d ifirst0 ilast0 0) c) ->
    adjcellcrsfinebdryrhs1d ifirst0 ilast0 pfirst0 plast0 side n offset st gcw u rhs ul m = Some m' ->
    moved m m' (mkFa offset [(0, 0); (0, n - 1)]) (mkFa st ((0, n - 1) :: CELL1d ifirst0 ilast0 0)) n
      (mkFa u (CELL1d ifirst0 ilast0 gcw)) (mkFa rhs (CELL1d ifirst0 ilast0 0)) (mkFa ul [(-1, 1)]) 0 (2 * side - 1) [(pfirst0 + 1 - 2 * side, pfirst0 + 1 - 2 * side)].
  Proof.
    intros ifirst0 ilast0 pfirst0 plast0 side n offset st gcw u rhs ul m m' Hs Hn Near A1 A2 A3 A4 A5 Hb E.
    unfold adjcellcrsfinebdryrhs1d in E. unfold fseq at 1 in E. apply bind_Some_inv in E as (m0 & E0 & E).
    assert (Z : same_off (fst (fa_ptr (mkFa ul [(-1, 1)]))) m m0 /\ (forall o, in_box (unit_box 1) o -> fel (mkFa ul [(-1, 1)]) o m0 = Some (lit 0))).
    { apply (zero_fill_id 1); [reflexivity|]. rewrite <- (do1_cells (-1, 1)). exact E0. }
    destruct Z as [O0 Z0].
    apply (moved_cells 1 0 (2 * side - 1) n (mkFa offset [(0, 0); (0, n - 1)]) (mkFa st ((0, n - 1) :: CELL1d ifirst0 ilast0 0)) (mkFa u (CELL1d ifirst0 ilast0 gcw)) (mkFa rhs (CELL1d ifirst0 ilast0 0)) (mkFa ul [(-1, 1)]) [(pfirst0 + 1 - 2 * side, pfirst0 + 1 - 2 * side)] m m0 m'); try assumption; try reflexivity; try lia.
    destruct Hs as [-> | ->].
    - etransitivity; [|exact E]. rewrite <- do1_cells. cbn [fst snd]. etransitivity; [exact (do_unit _ (fun i => move_cell 1 n _ _ _ _ _ _ [i]) m0)|].
      unfold move_cell, layer_fill, fseq. change (layer_box 1 0 (2 * 0 - 1)) with [(-1, -1)]. rewrite <- do1_cells. cbn [fst snd]. rewrite (do_unit (-1) (fun i => fset _ [i] (fel _ (shift _ [i])))). reflexivity.
    - etransitivity; [|exact E]. rewrite <- do1_cells. cbn [fst snd]. etransitivity; [exact (do_unit _ (fun i => move_cell 1 n _ _ _ _ _ _ [i]) m0)|].
      unfold move_cell, layer_fill, fseq. change (layer_box 1 0 (2 * 1 - 1)) with [(1, 1)]. rewrite <- do1_cells. cbn [fst snd]. rewrite (do_unit (1) (fun i => fset _ [i] (fel _ (shift _ [i])))). reflexivity.
  Qed.

  Lemma adj2d_moved_0 : forall ifirst0 ifirst1 ilast0 ilast1 pfirst0 pfirst1 plast0 plast1 side n offset st gcw u rhs ul (m m' : mem S),
    side = 0 \/ side = 1 -> 1 <= n -> near m (mkFa offset [(0, 1); (0, n - 1)]) n 2 ->
    fst ul <> fst u -> fst ul <> fst rhs -> fst ul <> fst st -> fst rhs <> fst st -> fst rhs <> fst u ->
    (forall c, in_box [(pfirst0 + 1 - 2 * side, pfirst0 + 1 - 2 * side); (pfirst1, plast1)] c -> in_box (CELL2d ifirst0 ifirst1 ilast0 ilast1 0) c) ->
    adjcellcrsfinebdryrhs2d ifirst0 ifirst1 ilast0 ilast1 pfirst0 pfirst1 plast0 plast1 0 side n offset st gcw u rhs ul m = Some m' ->
    moved m m' (mkFa offset [(0, 1); (0, n - 1)]) (mkFa st ((0, n - 1) :: CELL2d ifirst0 ifirst1 ilast0 ilast1 0)) n
      (mkFa u (CELL2d ifirst0 ifirst1 ilast0 ilast1 gcw)) (mkFa rhs (CELL2d ifirst0 ifirst1 ilast0 ilast1 0)) (mkFa ul [(-1, 1); (-1, 1)]) 0 (2 * side - 1) [(pfirst0 + 1 - 2 * side, pfirst0 + 1 - 2 * side); (pfirst1, plast1)].
  Proof.
    intros ifirst0 ifirst1 ilast0 ilast1 pfirst0 pfirst1 plast0 plast1 side n offset st gcw u rhs ul m m' Hs Hn Near A1 A2 A3 A4 A5 Hb E.
    unfold adjcellcrsfinebdryrhs2d in E. unfold fseq at 1 in E. apply bind_Some_inv in E as (m0 & E0 & E).
    assert (Z : same_off (fst (fa_ptr (mkFa ul [(-1, 1); (-1, 1)]))) m m0 /\ (forall o, in_box (unit_box 2) o -> fel (mkFa ul [(-1, 1); (-1, 1)]) o m0 = Some (lit 0))).
    { apply (zero_fill 2 _ (box_cells (unit_box 2)) (@rev Z)); [reflexivity|apply box_cells_nodup| |apply rev_unit2|rewrite <- (do2_cells (-1, 1) (-1, 1)); exact E0]. intros x y _ _ Eq. apply (f_equal (@rev Z)) in Eq. rewrite !rev_involutive in Eq. exact Eq. }
    destruct Z as [O0 Z0].
    apply (moved_cells 2 0 (2 * side - 1) n (mkFa offset [(0, 1); (0, n - 1)]) (mkFa st ((0, n - 1) :: CELL2d ifirst0 ifirst1 ilast0 ilast1 0)) (mkFa u (CELL2d ifirst0 ifirst1 ilast0 ilast1 gcw)) (mkFa rhs (CELL2d ifirst0 ifirst1 ilast0 ilast1 0)) (mkFa ul [(-1, 1); (-1, 1)]) [(pfirst0 + 1 - 2 * side, pfirst0 + 1 - 2 * side); (pfirst1, plast1)] m m0 m'); try assumption; try reflexivity; try lia.
    destruct Hs as [-> | ->].
    - etransitivity; [|exact E]. rewrite thick2_0. cbn [fif Z.eqb Pos.eqb fst snd]. apply do_ext. intros x1 m2 _.
      unfold move_cell, layer_fill, fseq. change (layer_box 2 0 (2 * 0 - 1)) with [(-1, -1); (-1, 1)]. rewrite thick2_0. reflexivity.
    - etransitivity; [|exact E]. rewrite thick2_0. cbn [fif Z.eqb Pos.eqb fst snd]. apply do_ext. intros x1 m2 _.
      unfold move_cell, layer_fill, fseq. change (layer_box 2 0 (2 * 1 - 1)) with [(1, 1); (-1, 1)]. rewrite thick2_0. reflexivity.
  Qed.

  Lemma adj2d_moved_1 : forall ifirst0 ifirst1 ilast0 ilast1 pfirst0 pfirst1 plast0 plast1 side n offset st gcw u rhs ul (m m' : mem S),
    side = 0 \/ side = 1 -> 1 <= n -> near m (mkFa offset [(0, 1); (0, n - 1)]) n 2 ->
    fst ul <> fst u -> fst ul <> fst rhs -> fst ul <> fst st -> fst rhs <> fst st -> fst rhs <> fst u ->
    (forall c, in_box [(pfirst0, plast0); (pfirst1 + 1 - 2 * side, pfirst1 + 1 - 2 * side)] c -> in_box (CELL2d ifirst0 ifirst1 ilast0 ilast1 0) c) ->
    adjcellcrsfinebdryrhs2d ifirst0 ifirst1 ilast0 ilast1 pfirst0 pfirst1 plast0 plast1 1 side n offset st gcw u rhs ul m = Some m' ->
    moved m m' (mkFa offset [(0, 1); (0, n - 1)]) (mkFa st ((0, n - 1) :: CELL2d ifirst0 ifirst1 ilast0 ilast1 0)) n
      (mkFa u (CELL2d ifirst0 ifirst1 ilast0 ilast1 gcw)) (mkFa rhs (CELL2d ifirst0 ifirst1 ilast0 ilast1 0)) (mkFa ul [(-1, 1); (-1, 1)]) 1 (2 * side - 1) [(pfirst0, plast0); (pfirst1 + 1 - 2 * side, pfirst1 + 1 - 2 * side)].
  Proof.
    intros ifirst0 ifirst1 ilast0 ilast1 pfirst0 pfirst1 plast0 plast1 side n offset st gcw u rhs ul m m' Hs Hn Near A1 A2 A3 A4 A5 Hb E.
    unfold adjcellcrsfinebdryrhs2d in E. unfold fseq at 1 in E. apply bind_Some_inv in E as (m0 & E0 & E).
    assert (Z : same_off (fst (fa_ptr (mkFa ul [(-1, 1); (-1, 1)]))) m m0 /\ (forall o, in_box (unit_box 2) o -> fel (mkFa ul [(-1, 1); (-1, 1)]) o m0 = Some (lit 0))).
    { apply (zero_fill 2 _ (box_cells (unit_box 2)) (@rev Z)); [reflexivity|apply box_cells_nodup| |apply rev_unit2|rewrite <- (do2_cells (-1, 1) (-1, 1)); exact E0]. intros x y _ _ Eq. apply (f_equal (@rev Z)) in Eq. rewrite !rev_involutive in Eq. exact Eq. }
    destruct Z as [O0 Z0].
    apply (moved_cells 2 1 (2 * side - 1) n (mkFa offset [(0, 1); (0, n - 1)]) (mkFa st ((0, n - 1) :: CELL2d ifirst0 ifirst1 ilast0 ilast1 0)) (mkFa u (CELL2d ifirst0 ifirst1 ilast0 ilast1 gcw)) (mkFa rhs (CELL2d ifirst0 ifirst1 ilast0 ilast1 0)) (mkFa ul [(-1, 1); (-1, 1)]) [(pfirst0, plast0); (pfirst1 + 1 - 2 * side, pfirst1 + 1 - 2 * side)] m m0 m'); try assumption; try reflexivity; try lia.
    destruct Hs as [-> | ->].
    - etransitivity; [|exact E]. rewrite thick2_1. cbn [fif Z.eqb Pos.eqb fst snd]. apply do_ext. intros x0 m1 _.
      unfold move_cell, layer_fill, fseq. change (layer_box 2 1 (2 * 0 - 1)) with [(-1, 1); (-1, -1)]. rewrite thick2_1. reflexivity.
    - etransitivity; [|exact E]. rewrite thick2_1. cbn [fif Z.eqb Pos.eqb fst snd]. apply do_ext. intros x0 m1 _.
      unfold move_cell, layer_fill, fseq. change (layer_box 2 1 (2 * 1 - 1)) with [(-1, 1); (1, 1)]. rewrite thick2_1. reflexivity.
  Qed.

  Lemma adj3d_moved_0 : forall ifirst0 ifirst1 ifirst2 ilast0 ilast1 ilast2 pfirst0 pfirst1 pfirst2 plast0 plast1 plast2 side n offset st gcw u rhs ul (m m' : mem S),
    side = 0 \/ side = 1 -> 1 <= n -> near m (mkFa offset [(0, 2); (0, n - 1)]) n 3 ->
    fst ul <> fst u -> fst ul <> fst rhs -> fst ul <> fst st -> fst rhs <> fst st -> fst rhs <> fst u ->
    (forall c, in_box [(pfirst0 + 1 - 2 * side, pfirst0 + 1 - 2 * side); (pfirst1, plast1); (pfirst2, plast2)] c -> in_box (CELL3d ifirst0 ifirst1 ifirst2 ilast0 ilast1 ilast2 0) c) ->
    adjcellcrsfinebdryrhs3d ifirst0 ifirst1 ifirst2 ilast0 ilast1 ilast2 pfirst0 pfirst1 pfirst2 plast0 plast1 plast2 0 side n offset st gcw u rhs ul m = Some m' ->
    moved m m' (mkFa offset [(0, 2); (0, n - 1)]) (mkFa st ((0, n - 1) :: CELL3d ifirst0 ifirst1 ifirst2 ilast0 ilast1 ilast2 0)) n
      (mkFa u (CELL3d ifirst0 ifirst1 ifirst2 ilast0 ilast1 ilast2 gcw)) (mkFa rhs (CELL3d ifirst0 ifirst1 ifirst2 ilast0 ilast1 ilast2 0)) (mkFa ul [(-1, 1); (-1, 1); (-1, 1)]) 0 (2 * side - 1) [(pfirst0 + 1 - 2 * side, pfirst0 + 1 - 2 * side); (pfirst1, plast1); (pfirst2, plast2)].
  Proof.
    intros ifirst0 ifirst1 ifirst2 ilast0 ilast1 ilast2 pfirst0 pfirst1 pfirst2 plast0 plast1 plast2 side n offset st gcw u rhs ul m m' Hs Hn Near A1 A2 A3 A4 A5 Hb E.
    unfold adjcellcrsfinebdryrhs3d in E. unfold fseq at 1 in E. apply bind_Some_inv in E as (m0 & E0 & E).
    assert (Z : same_off (fst (fa_ptr (mkFa ul [(-1, 1); (-1, 1); (-1, 1)]))) m m0 /\ (forall o, in_box (unit_box 3) o -> fel (mkFa ul [(-1, 1); (-1, 1); (-1, 1)]) o m0 = Some (lit 0))).
    { apply (zero_fill_id 3); [reflexivity|]. rewrite <- (do3_cells (-1, 1) (-1, 1) (-1, 1)). exact E0. }
    destruct Z as [O0 Z0].
    apply (moved_cells 3 0 (2 * side - 1) n (mkFa offset [(0, 2); (0, n - 1)]) (mkFa st ((0, n - 1) :: CELL3d ifirst0 ifirst1 ifirst2 ilast0 ilast1 ilast2 0)) (mkFa u (CELL3d ifirst0 ifirst1 ifirst2 ilast0 ilast1 ilast2 gcw)) (mkFa rhs (CELL3d ifirst0 ifirst1 ifirst2 ilast0 ilast1 ilast2 0)) (mkFa ul [(-1, 1); (-1, 1); (-1, 1)]) [(pfirst0 + 1 - 2 * side, pfirst0 + 1 - 2 * side); (pfirst1, plast1); (pfirst2, plast2)] m m0 m'); try assumption; try reflexivity; try lia.
    destruct Hs as [-> | ->].
    - etransitivity; [|exact E]. rewrite thick3_0. cbn [fif Z.eqb Pos.eqb fst snd]. apply do_ext. intros x2 m3 _. apply do_ext. intros x1 m2 _.
      unfold move_cell, layer_fill, fseq. change (layer_box 3 0 (2 * 0 - 1)) with [(-1, -1); (-1, 1); (-1, 1)]. rewrite thick3_0. reflexivity.
    - etransitivity; [|exact E]. rewrite thick3_0. cbn [fif Z.eqb Pos.eqb fst snd]. apply do_ext. intros x2 m3 _. apply do_ext. intros x1 m2 _.
      unfold move_cell, layer_fill, fseq. change (layer_box 3 0 (2 * 1 - 1)) with [(1, 1); (-1, 1); (-1, 1)]. rewrite thick3_0. reflexivity.
  Qed.

  Lemma adj3d_moved_1 : forall ifirst0 ifirst1 ifirst2 ilast0 ilast1 ilast2 pfirst0 pfirst1 pfirst2 plast0 plast1 plast2 side n offset st gcw u rhs ul (m m' : mem S),
    side = 0 \/ side = 1 -> 1 <= n -> near m (mkFa offset [(0, 2); (0, n - 1)]) n 3 ->
    fst ul <> fst u -> fst ul <> fst rhs -> fst ul <> fst st -> fst rhs <> fst st -> fst rhs <> fst u ->
    (forall c, in_box [(pfirst0, plast0); (pfirst1 + 1 - 2 * side, pfirst1 + 1 - 2 * side); (pfirst2, plast2)] c -> in_box (CELL3d ifirst0 ifirst1 ifirst2 ilast0 ilast1 ilast2 0) c) ->
    adjcellcrsfinebdryrhs3d ifirst0 ifirst1 ifirst2 ilast0 ilast1 ilast2 pfirst0 pfirst1 pfirst2 plast0 plast1 plast2 1 side n offset st gcw u rhs ul m = Some m' ->
    moved m m' (mkFa offset [(0, 2); (0, n - 1)]) (mkFa st ((0, n - 1) :: CELL3d ifirst0 ifirst1 ifirst2 ilast0 ilast1 ilast2 0)) n
      (mkFa u (CELL3d ifirst0 ifirst1 ifirst2 ilast0 ilast1 ilast2 gcw)) (mkFa rhs (CELL3d ifirst0 ifirst1 ifirst2 ilast0 ilast1 ilast2 0)) (mkFa ul [(-1, 1); (-1, 1); (-1, 1)]) 1 (2 * side - 1) [(pfirst0, plast0); (pfirst1 + 1 - 2 * side, pfirst1 + 1 - 2 * side); (pfirst2, plast2)].
  Proof.
    intros ifirst0 ifirst1 ifirst2 ilast0 ilast1 ilast2 pfirst0 pfirst1 pfirst2 plast0 plast1 plast2 side n offset st gcw u rhs ul m m' Hs Hn Near A1 A2 A3 A4 A5 Hb E.
    unfold adjcellcrsfinebdryrhs3d in E. unfold fseq at 1 in E. apply bind_Some_inv in E as (m0 & E0 & E).
    assert (Z : same_off (fst (fa_ptr (mkFa ul [(-1, 1); (-1, 1); (-1, 1)]))) m m0 /\ (forall o, in_box (unit_box 3) o -> fel (mkFa ul [(-1, 1); (-1, 1); (-1, 1)]) o m0 = Some (lit 0))).
    { apply (zero_fill_id 3); [reflexivity|]. rewrite <- (do3_cells (-1, 1) (-1, 1) (-1, 1)). exact E0. }
    destruct Z as [O0 Z0].
    apply (moved_cells 3 1 (2 * side - 1) n (mkFa offset [(0, 2); (0, n - 1)]) (mkFa st ((0, n - 1) :: CELL3d ifirst0 ifirst1 ifirst2 ilast0 ilast1 ilast2 0)) (mkFa u (CELL3d ifirst0 ifirst1 ifirst2 ilast0 ilast1 ilast2 gcw)) (mkFa rhs (CELL3d ifirst0 ifirst1 ifirst2 ilast0 ilast1 ilast2 0)) (mkFa ul [(-1, 1); (-1, 1); (-1, 1)]) [(pfirst0, plast0); (pfirst1 + 1 - 2 * side, pfirst1 + 1 - 2 * side); (pfirst2, plast2)] m m0 m'); try assumption; try reflexivity; try lia.
    destruct Hs as [-> | ->].
    - etransitivity; [|exact E]. rewrite thick3_1. cbn [fif Z.eqb Pos.eqb fst snd]. apply do_ext. intros x2 m3 _. apply do_ext. intros x0 m1 _.
      unfold move_cell, layer_fill, fseq. change (layer_box 3 1 (2 * 0 - 1)) with [(-1, 1); (-1, -1); (-1, 1)]. rewrite thick3_1. reflexivity.
    - etransitivity; [|exact E]. rewrite thick3_1. cbn [fif Z.eqb Pos.eqb fst snd]. apply do_ext. intros x2 m3 _. apply do_ext. intros x0 m1 _.
      unfold move_cell, layer_fill, fseq. change (layer_box 3 1 (2 * 1 - 1)) with [(-1, 1); (1, 1); (-1, 1)]. rewrite thick3_1. reflexivity.
  Qed.

  Lemma adj3d_moved_2 : forall ifirst0 ifirst1 ifirst2 ilast0 ilast1 ilast2 pfirst0 pfirst1 pfirst2 plast0 plast1 plast2 side n offset st gcw u rhs ul (m m' : mem S),
    side = 0 \/ side = 1 -> 1 <= n -> near m (mkFa offset [(0, 2); (0, n - 1)]) n 3 ->
    fst ul <> fst u -> fst ul <> fst rhs -> fst ul <> fst st -> fst rhs <> fst st -> fst rhs <> fst u ->
    (forall c, in_box [(pfirst0, plast0); (pfirst1, plast1); (pfirst2 + 1 - 2 * side, pfirst2 + 1 - 2 * side)] c -> in_box (CELL3d ifirst0 ifirst1 ifirst2 ilast0 ilast1 ilast2 0) c) ->
    adjcellcrsfinebdryrhs3d ifirst0 ifirst1 ifirst2 ilast0 ilast1 ilast2 pfirst0 pfirst1 pfirst2 plast0 plast1 plast2 2 side n offset st gcw u rhs ul m = Some m' ->
    moved m m' (mkFa offset [(0, 2); (0, n - 1)]) (mkFa st ((0, n - 1) :: CELL3d ifirst0 ifirst1 ifirst2 ilast0 ilast1 ilast2 0)) n
      (mkFa u (CELL3d ifirst0 ifirst1 ifirst2 ilast0 ilast1 ilast2 gcw)) (mkFa rhs (CELL3d ifirst0 ifirst1 ifirst2 ilast0 ilast1 ilast2 0)) (mkFa ul [(-1, 1); (-1, 1); (-1, 1)]) 2 (2 * side - 1) [(pfirst0, plast0); (pfirst1, plast1); (pfirst2 + 1 - 2 * side, pfirst2 + 1 - 2 * side)].
  Proof.
    intros ifirst0 ifirst1 ifirst2 ilast0 ilast1 ilast2 pfirst0 pfirst1 pfirst2 plast0 plast1 plast2 side n offset st gcw u rhs ul m m' Hs Hn Near A1 A2 A3 A4 A5 Hb E.
    unfold adjcellcrsfinebdryrhs3d in E. unfold fseq at 1 in E. apply bind_Some_inv in E as (m0 & E0 & E).
    assert (Z : same_off (fst (fa_ptr (mkFa ul [(-1, 1); (-1, 1); (-1, 1)]))) m m0 /\ (forall o, in_box (unit_box 3) o -> fel (mkFa ul [(-1, 1); (-1, 1); (-1, 1)]) o m0 = Some (lit 0))).
    { apply (zero_fill_id 3); [reflexivity|]. rewrite <- (do3_cells (-1, 1) (-1, 1) (-1, 1)). exact E0. }
    destruct Z as [O0 Z0].
    apply (moved_cells 3 2 (2 * side - 1) n (mkFa offset [(0, 2); (0, n - 1)]) (mkFa st ((0, n - 1) :: CELL3d ifirst0 ifirst1 ifirst2 ilast0 ilast1 ilast2 0)) (mkFa u (CELL3d ifirst0 ifirst1 ifirst2 ilast0 ilast1 ilast2 gcw)) (mkFa rhs (CELL3d ifirst0 ifirst1 ifirst2 ilast0 ilast1 ilast2 0)) (mkFa ul [(-1, 1); (-1, 1); (-1, 1)]) [(pfirst0, plast0); (pfirst1, plast1); (pfirst2 + 1 - 2 * side, pfirst2 + 1 - 2 * side)] m m0 m'); try assumption; try reflexivity; try lia.
    destruct Hs as [-> | ->].
    - etransitivity; [|exact E]. rewrite thick3_2. cbn [fif Z.eqb Pos.eqb fst snd]. apply do_ext. intros x1 m2 _. apply do_ext. intros x0 m1 _.
      unfold move_cell, layer_fill, fseq. change (layer_box 3 2 (2 * 0 - 1)) with [(-1, 1); (-1, 1); (-1, -1)]. rewrite thick3_2. reflexivity.
    - etransitivity; [|exact E]. rewrite thick3_2. cbn [fif Z.eqb Pos.eqb fst snd]. apply do_ext. intros x1 m2 _. apply do_ext. intros x0 m1 _.
      unfold move_cell, layer_fill, fseq. change (layer_box 3 2 (2 * 1 - 1)) with [(-1, 1); (-1, 1); (1, 1)]. rewrite thick3_2. reflexivity.
  Qed.

End Move.
