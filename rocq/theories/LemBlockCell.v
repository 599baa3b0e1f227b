(** * Relaxation with several unknowns per cell: one cell *)

From Coq Require Import Field.
From Verif Require Import Base FortranBase FortranLoops FortranSmooth FortranBlock FortranBlockCell SpecIter LemBase LemDomain LemAssign LemField LemKernel LemKernel2 LemStencil LemSafe
  SpecRow LemSum SpecSmooth SpecBlock SpecBlockJacobi SpecBlockCell LemFortran LemSmooth LemCells LemSmoothers LemLocal LemMatrixBlock LemSmoothFinal LemAdjust LemDense LemBlockJacobi.
Import ListNotations.
Open Scope Z_scope.

(** Memories that agree on the integers and off [W]. *)
Definition near {S : Scalar} (W : ptr -> Prop) (m m' : mem S) : Prop :=
  ints m' = ints m /\ forall q, ~ W q -> load m' q = load m q.

Section Near.
  Context {S : Scalar}.
  Lemma near_refl W (m : mem S) : near W m m.
  Proof. split; reflexivity. Qed.
  Lemma near_trans W (m1 m2 m3 : mem S) : near W m1 m2 -> near W m2 m3 -> near W m1 m3.
  Proof. intros [I1 H1] [I2 H2]. split; [congruence|]. intros q Hq. rewrite H2, H1 by exact Hq. reflexivity. Qed.
  Lemma near_weaken (W W' : ptr -> Prop) (m1 m2 : mem S) : (forall q, W q -> W' q) -> near W m1 m2 -> near W' m1 m2.
  Proof. intros H [I H1]. split; [exact I|]. intros q Hq. apply H1. intros K. exact (Hq (H q K)). Qed.
  Lemma near_el W (m m' : mem S) a is : near W m m' -> ~ W (faddr a is) -> fel a is m' = fel a is m.
  Proof. intros [_ H] Hq. apply H, Hq. Qed.
  Lemma near_val W (m m' : mem S) a is : near W m m' -> ~ W (faddr a is) -> fval a is m' = fval a is m.
  Proof. intros N Hq. unfold fval. rewrite (near_el _ _ _ _ _ N Hq). reflexivity. Qed.
End Near.

Lemma zvals_shift n : zvals 0 (n - 1) = map (fun b => b - 1) (zvals 1 n).
Proof. unfold zvals. rewrite map_map. replace (n - 1 - 0 + 1) with (n - 1 + 1) by ring. apply map_ext. intros k. lia. Qed.

Section BlockCell.
  Context {S : Scalar} (L : field_laws S).
  Add Field BCField : (s_field S L) (morphism (lit_morph S L), constants [lit_cst]).

  Lemma total_shift n (f : Z -> S) : total 0 (n - 1) f = total 1 n (fun b => f (b - 1)).
  Proof. rewrite !total_lsum, zvals_shift, lsum_map. reflexivity. Qed.

  (** An element of a matrix times a vector. *)
  Lemma matmul_inv n (B : Z -> Z -> fexp S) (v : Z -> fexp S) a (m : mem S) w :
    matmul_el n B v a m = Some w ->
    exists cf x, (forall b, 1 <= b <= n -> B a b m = Some (cf b) /\ v b m = Some (x b)) /\ w = total 1 n (fun b => cf b * x b)%T.
  Proof.
    intros E. unfold matmul_el, facc in E. unfold fsc at 1 in E. cbn [bind] in E. rewrite do_zvals in E. unfold zvals in E. rewrite forM_map in E.
    apply (acc_terms L (fun i cf x => B a (1 + Z.of_nat i) m = Some cf /\ v (1 + Z.of_nat i) m = Some x) (lit 1)) in E; [|apply seq_NoDup|].
    2:{ intros i r r' _ H. unfold fop, fsc in H. cbn [bind] in H. apply bind_Some_inv in H as (t & Ht & H). injection H as <-.
        apply bind_Some_inv in Ht as (cf & Hc & Ht). apply bind_Some_inv in Ht as (x & Hx & Ht). injection Ht as <-. exists cf, x. split; [auto|ring]. }
    destruct E as (cf & x & HT & ->). exists (fun b => cf (Z.to_nat (b - 1))), (fun b => x (Z.to_nat (b - 1))). split.
    - intros b Hb. specialize (HT (Z.to_nat (b - 1))). replace (1 + Z.of_nat (Z.to_nat (b - 1))) with b in HT by lia. apply HT, in_seq. lia.
    - unfold total.
      transitivity (fold_right (fun i s => cf i * x i + s)%T (lit 0) (seq 0 (Z.to_nat (n - 1 + 1)))); [ring|].
      generalize (seq 0 (Z.to_nat (n - 1 + 1))). intros l. induction l as [|i l IHl]; [reflexivity|].
      cbn [fold_right]. rewrite IHl. replace (Z.to_nat (1 + Z.of_nat i - 1)) with i by lia. reflexivity.
  Qed.

  (** Filling the unknowns of one cell. *)
  Lemma line_own n p ds c (e : Z -> fexp S) (m m' : mem S) : in_box ds c ->
    let a := mkFa p ((1, n) :: ds) in let W q := exists b, 1 <= b <= n /\ faddr a (b :: c) = q in
    (forall b m1 m2, 1 <= b <= n -> same_off (fst p) m1 m2 -> fel a (b :: c) m2 = fel a (b :: c) m1 -> e b m2 = e b m1) ->
    do_ 1 n (fun b => fset a (b :: c) (e b)) m = Some m' ->
    near W m m' /\ forall b, 1 <= b <= n -> exists v, e b m = Some v /\ fel a (b :: c) m' = Some v.
  Proof.
    intros Hc a W Bl E. rewrite do_zvals in E.
    apply (forM_own (zvals 1 n) (fun b => faddr a (b :: c)) e (fst p)) in E.
    - destruct E as (O & F & V). split; [split; [exact (proj2 O)|]|].
      + intros q Hq. apply F. intros b Hb Eq. apply Hq. exists b. split; [apply zvals_in, Hb|exact Eq].
      + intros b Hb. apply V, zvals_in, Hb.
    - apply zvals_nodup.
    - intros x y Hx Hy Eq. apply zvals_in in Hx, Hy. unfold a in Eq. apply faddr_inj in Eq; [injection Eq; auto| |]; (constructor; [cbn; lia|exact Hc]).
    - reflexivity.
    - intros b m1 m2 Hb. apply Bl, zvals_in, Hb.
  Qed.

  (** Solving in place. *)
  Lemma dgesv_inv (la : lapack S) n A x (m m' : mem S) : fst A <> fst x ->
    let AA := mkFa A [(0, n - 1); (0, n - 1)] in let X := mkFa x [(0, n - 1)] in
    dgesv la n AA X m = Some m' ->
    near (fun q => fst q = fst A \/ exists i, 0 <= i <= n - 1 /\ faddr X [i] = q) m m' /\
    (forall i j, 0 <= i <= n - 1 -> 0 <= j <= n - 1 -> fel AA [i; j] m = Some (fval AA [i; j] m)) /\
    (forall i, 0 <= i <= n - 1 -> fel X [i] m = Some (fval X [i] m)) /\
    exists v, (forall i, 0 <= i <= n - 1 -> fel X [i] m' = Some (v i)) /\
      (solver_correct la n -> nonsingular n (fun i j => fval AA [i; j] m) ->
       forall i, 0 <= i <= n - 1 -> total 0 (n - 1) (fun j => fval AA [i; j] m * v j)%T = fval X [i] m).
  Proof.
    intros Nax AA X E. unfold dgesv, dgetrf in E.
    apply bind_Some_inv in E as (m1 & E1 & E).
    rewrite (do2_cells (0, n - 1) (0, n - 1) (fun ij => fcheck AA ij)) in E1. apply check_inv in E1 as [-> C1].
    set (r := la_getrf la n (fun i j => fval AA [i; j] m)) in *. cbv zeta in E. apply bind_Some_inv in E as (m2 & E2 & E).
    assert (F2 : same_off (fst A) m m2 /\ forall i j, 0 <= i <= n - 1 -> 0 <= j <= n - 1 -> fel AA [i; j] m2 = Some (fst r i j)).
    { rewrite (do2_cells (0, n - 1) (0, n - 1) (fun ij => fset AA ij (fsc (fst r (nth 0 ij 0) (nth 1 ij 0))))) in E2.
      apply (fill_inv AA (fun ij => fsc (fst r (nth 0 ij 0) (nth 1 ij 0)))) in E2; [|intros; apply blind_fsc]. destruct E2 as [O V]. split; [exact O|].
      intros i j Hi Hj. destruct (V [i; j] (in_square n i j Hi Hj)) as (v & Ev & Lv). cbn [nth] in Ev. unfold fsc in Ev. congruence. }
    destruct F2 as [O2 V2]. unfold dgetrs in E. apply bind_Some_inv in E as (m4 & E4 & E).
    rewrite (do2_cells (0, n - 1) (0, n - 1) (fun ij => fcheck AA ij)) in E4. apply check_inv in E4 as [-> C4].
    apply bind_Some_inv in E as (m5 & E5 & E).
    rewrite (do1_cells (0, n - 1) (fun i => fcheck X i)) in E5. apply check_inv in E5 as [-> C5].
    set (v := la_getrs la n (fun i j => fval AA [i; j] m2) (snd r) (fun i => fval X [i] m2)) in *. cbv zeta in E.
    assert (XE : forall i, fel X [i] m2 = fel X [i] m) by (intros i; apply (proj1 O2); cbn; congruence).
    rewrite do_zvals in E.
    apply (forM_put (zvals 0 (n - 1)) (fun i => faddr X [i]) (fun i => fsc (v i)) (fst x)) in E;
      [|apply zvals_nodup| |reflexivity|intros; apply blind_fsc].
    2:{ intros i j Hi Hj Eq. apply zvals_in in Hi, Hj. unfold X in Eq. apply faddr_inj in Eq; [injection Eq; auto| |]; apply in_line; assumption. }
    destruct E as (O6 & V6 & F6).
    split; [|split; [|split]].
    - split; [rewrite (proj2 O6); apply (proj2 O2)|]. intros q Hq. rewrite F6.
      + apply (proj1 O2). intros K. apply Hq. left. exact K.
      + intros i Hi Eq. apply Hq. right. exists i. split; [apply zvals_in, Hi|exact Eq].
    - intros i j Hi Hj. apply C1, in_square; assumption.
    - intros i Hi. specialize (C5 [i] (in_line n i Hi)). rewrite XE in C5. unfold fval in C5 |- *. rewrite XE in C5. exact C5.
    - exists v. split.
      + intros i Hi. destruct (V6 i (proj2 (zvals_in _ _ _) Hi)) as (y & Ey & Ly). unfold fsc in Ey. injection Ey as <-. exact Ly.
      + intros SC Ns i Hi.
        etransitivity; [apply (SC (fun i j => fval AA [i; j] m) (fun i j => fval AA [i; j] m2) (fun i => fval X [i] m2) Ns); [|exact Hi]|].
        * intros i' j' Hi' Hj'. unfold fval at 1. rewrite (V2 i' j' Hi' Hj'). reflexivity.
        * unfold fval. rewrite XE. reflexivity.
  Qed.
End BlockCell.

Section OneCell.
  Context {S : Scalar} (L : field_laws S) (la : lapack S) (n : Z) (tab st : farray) (f u r block : ptr) (df du dr : list (Z * Z)).
  Add Field OCField : (s_field S L) (morphism (lit_morph S L), constants [lit_cst]).
  Let fa := mkFa f ((1, n) :: df).
  Let ua := mkFa u ((1, n) :: du).
  Let ra := mkFa r ((1, n) :: dr).
  Let B := mkFa block [(1, n); (1, n)].
  Let B0 := mkFa block [(0, n - 1); (0, n - 1)].
  Context (Nbu : fst block <> fst u) (Nbr : fst block <> fst r) (Nbs : fst block <> fst (fa_ptr st)) (Nbf : fst block <> fst f)
    (Nru : fst r <> fst u) (Nrs : fst r <> fst (fa_ptr st)) (Nrf : fst r <> fst f)
    (Nus : fst u <> fst (fa_ptr st)) (Nuf : fst u <> fst f).

  Definition zint (o : option Z) : Z := match o with Some z => z | None => 0 end.
  Definition led (m : mem S) (s : Z) (c : list Z) : list Z :=
    [nth 0 c 0 + zint (loadi m (faddr tab [1; s])); nth 1 c 0 + zint (loadi m (faddr tab [2; s])); nth 2 c 0 + zint (loadi m (faddr tab [3; s]))].
  Definition cfv (m : mem S) (s : Z) (c : list Z) (a b : Z) : S := fval st (s :: (a + (b - 1) * n) :: c) m.
  Definition uxv (m : mem S) (s : Z) (c : list Z) (b : Z) : S := fval ua (b :: led m s c) m.

  (** Written for one cell: the block, the unknowns of [r]. *)
  Definition own (c : list Z) (q : ptr) : Prop := fst q = fst block \/ exists b, 1 <= b <= n /\ faddr ra (b :: c) = q.

  Lemma own_fst c q : own c q -> fst q = fst block \/ fst q = fst r.
  Proof. intros [H|(b & _ & <-)]; [left; exact H|right; reflexivity]. Qed.
  Lemma own_not c a is : fst block <> fst (fa_ptr a) -> fst r <> fst (fa_ptr a) -> ~ own c (faddr a is).
  Proof. intros H1 H2 K. apply own_fst in K. cbn in K. intuition congruence. Qed.

  Lemma led_near c m m' s : near (own c) m m' -> led m' s c = led m s c.
  Proof. intros [I _]. unfold led, loadi. rewrite I. reflexivity. Qed.
  Lemma cfv_near c m m' s a b : near (own c) m m' -> cfv m' s c a b = cfv m s c a b.
  Proof. intros N. unfold cfv. apply (near_val (own c) _ _ _ _ N). apply own_not; assumption. Qed.
  Lemma uxv_near c m m' s b : near (own c) m m' -> uxv m' s c b = uxv m s c b.
  Proof. intros N. unfold uxv. rewrite (led_near c _ _ _ N). apply (near_val (own c) _ _ _ _ N). apply own_not; assumption. Qed.

  Definition fill_step (s : Z) (c : list Z) : mem S -> option (mem S) :=
    do_ 1 n (fun b => do_ 1 n (fun a => fset B [a; b] (fel st (s :: (a + (b - 1) * n) :: c)))).

  Lemma fill_step_inv s c m m' : fill_step s c m = Some m' ->
    near (own c) m m' /\ (forall a b, 1 <= a <= n -> 1 <= b <= n -> entry st n s c a b m = Some (cfv m s c a b) /\ fel B [a; b] m' = Some (cfv m s c a b)) /\
    forall b, fel ra (b :: c) m' = fel ra (b :: c) m.
  Proof.
    intros E. unfold fill_step in E.
    rewrite (do2_cells (1, n) (1, n) (fun ab => fset B ab (fel st (s :: (nth 0 ab 0 + (nth 1 ab 0 - 1) * n) :: c)))) in E.
    apply (fill_inv B (fun ab => fel st (s :: (nth 0 ab 0 + (nth 1 ab 0 - 1) * n) :: c))) in E; [|intros; apply blind_fel; cbn; congruence].
    destruct E as [O V]. split; [|split].
    - split; [exact (proj2 O)|]. intros q Hq. apply (proj1 O). intros K. apply Hq. left. exact K.
    - intros a b Ha Hb. destruct (V [a; b]) as (v & Ev & Lv); [constructor; [exact Ha|constructor; [exact Hb|constructor]]|].
      cbn [nth] in Ev. unfold entry, cfv, fval. rewrite Ev. split; [reflexivity|exact Lv].
    - intros b. apply (proj1 O). cbn. congruence.
  Qed.

  Definition entry_step (c : list Z) (s : Z) : mem S -> option (mem S) :=
    fint tab [1; s] (fun io => fint tab [2; s] (fun jo => fint tab [3; s] (fun ko =>
      fseq (fill_step s c)
        (do_ 1 n (fun a => fset ra (a :: c) (fop ssub (fel ra (a :: c))
          (matmul_el n (fun a b => fel B [a; b]) (fun b => fel ua [b; nth 0 c 0 + io; nth 1 c 0 + jo; nth 2 c 0 + ko]) a))))))).

  (** What one entry takes off. *)
  Definition offd (m : mem S) (c : list Z) (a s : Z) : S := total 1 n (fun b => cfv m s c a b * uxv m s c b)%T.

  Definition entry_ok (m : mem S) (c : list Z) (s : Z) : Prop :=
    displaced_cell m tab 1 s c (led m s c) /\
    (forall a b, 1 <= a <= n -> 1 <= b <= n -> entry st n s c a b m = Some (cfv m s c a b)) /\
    (forall b, 1 <= b <= n -> fel ua (b :: led m s c) m = Some (uxv m s c b)).

  Lemma entry_step_inv c s m m' : length c = 3%nat -> in_box dr c -> entry_step c s m = Some m' ->
    near (own c) m m' /\ entry_ok m c s /\
    forall a, 1 <= a <= n -> exists y, fel ra (a :: c) m = Some y /\ fel ra (a :: c) m' = Some (y - offd m c a s)%T.
  Proof.
    intros Hl Hc E. unfold entry_step, fint in E.
    apply bind_Some_inv in E as (io & Ei & E). apply bind_Some_inv in E as (jo & Ej & E). apply bind_Some_inv in E as (ko & Ek & E).
    unfold fseq in E. apply bind_Some_inv in E as (m1 & E1 & E).
    assert (LD : led m s c = [nth 0 c 0 + io; nth 1 c 0 + jo; nth 2 c 0 + ko]) by (unfold led; rewrite Ei, Ej, Ek; reflexivity).
    apply fill_step_inv in E1 as (N1 & V1 & R1).
    apply (line_own n r dr c _ m1 m' Hc) in E.
    2:{ intros b ma mb Hb O Eq. fold ra in Eq. unfold fop. rewrite Eq. destruct (fel ra (b :: c) ma) as [y|]; [|reflexivity]. cbn [bind].
        replace (matmul_el n (fun a b => fel B [a; b]) (fun b => fel ua [b; nth 0 c 0 + io; nth 1 c 0 + jo; nth 2 c 0 + ko]) b mb)
          with (matmul_el n (fun a b => fel B [a; b]) (fun b => fel ua [b; nth 0 c 0 + io; nth 1 c 0 + jo; nth 2 c 0 + ko]) b ma); [reflexivity|].
        unfold matmul_el, facc, fsc. cbn [bind]. rewrite !do_zvals. apply forM_ext_in. intros b' y' _. unfold fop. cbn [bind].
        assert (EB : fel B [b; b'] mb = fel B [b; b'] ma) by (apply (proj1 O); cbn; congruence).
        assert (EU : fel ua [b'; nth 0 c 0 + io; nth 1 c 0 + jo; nth 2 c 0 + ko] mb = fel ua [b'; nth 0 c 0 + io; nth 1 c 0 + jo; nth 2 c 0 + ko] ma) by (apply (proj1 O); cbn; congruence).
        rewrite EB, EU. reflexivity. }
    destruct E as (N2 & V2).
    assert (N2' : near (own c) m1 m') by (apply (near_weaken _ _ _ _ (fun q K => or_intror K) N2)).
    split; [exact (near_trans _ _ _ _ N1 N2')|].
    assert (MV : forall a, 1 <= a <= n -> exists y w, fel ra (a :: c) m = Some y /\ fel ra (a :: c) m' = Some (y - w)%T /\
      w = offd m c a s /\ forall b, 1 <= b <= n -> fel ua (b :: led m s c) m = Some (uxv m s c b)).
    { intros a Ha. destruct (V2 a Ha) as (v & Ev & Lv). unfold fop in Ev. apply bind_Some_inv in Ev as (y & Ey & Ev). apply bind_Some_inv in Ev as (w & Ew & Ev). injection Ev as <-.
      exists y, w. split; [rewrite <- Ey; symmetry; apply R1|]. split; [exact Lv|].
      apply (matmul_inv L) in Ew as (cf & x & H & ->).
      assert (HU : forall b, 1 <= b <= n -> fel ua (b :: led m s c) m = Some (x b)).
      { intros b Hb. rewrite LD. rewrite <- (proj2 (H b Hb)). symmetry. apply (near_el (own c) _ _ _ _ N1). apply own_not; assumption. }
      split.
      - apply total_ext. intros b Hb. unfold uxv, fval. rewrite (HU b Hb). f_equal.
        destruct (V1 a b Ha Hb) as [_ VB]. pose proof (proj1 (H b Hb)) as HB. rewrite HB in VB. injection VB as ->. reflexivity.
      - intros b Hb. unfold uxv, fval. rewrite (HU b Hb). reflexivity. }
    split; [split; [|split]|].
    - rewrite LD. destruct c as [|i [|j [|k [|? ?]]]]; try discriminate Hl. cbn [nth]. apply displaced3; assumption.
    - intros a b Ha Hb. apply V1; assumption.
    - intros b Hb. destruct (MV b Hb) as (_ & _ & _ & _ & _ & K). apply K, Hb.
    - intros a Ha. destruct (MV a Ha) as (y & w & E1 & E2 & -> & _). eauto.
  Qed.

  Lemma entries_inv c l m m' : length c = 3%nat -> in_box dr c -> forM l (entry_step c) m = Some m' ->
    near (own c) m m' /\ (forall s, In s l -> entry_ok m c s) /\
    ((forall a, 1 <= a <= n -> exists y, fel ra (a :: c) m = Some y) ->
     forall a, 1 <= a <= n -> exists y, fel ra (a :: c) m = Some y /\ fel ra (a :: c) m' = Some (y - lsum l (offd m c a))%T).
  Proof.
    intros Hl Hc. revert m. induction l as [|s l IH]; intros m E.
    - injection E as <-. split; [apply near_refl|]. split; [intros s []|]. intros R a Ha. destruct (R a Ha) as (y & Ey). exists y. split; [exact Ey|].
      rewrite Ey. f_equal. cbn. ring.
    - cbn [forM] in E. apply bind_Some_inv in E as (m1 & E1 & E). apply entry_step_inv in E1 as (N1 & K1 & V1); [|exact Hl|exact Hc].
      apply IH in E as (N & K & V). split; [exact (near_trans _ _ _ _ N1 N)|]. split.
      + intros t [<-|Ht]; [exact K1|]. destruct (K t Ht) as (D & EE & EU). split; [|split].
        * rewrite (led_near c _ _ _ N1) in D. refine (displaced_ints m1 m _ _ _ _ _ _ D). symmetry. exact (proj1 N1).
        * intros a b Ha Hb. rewrite <- (cfv_near c _ _ _ _ _ N1), <- (EE a b Ha Hb). symmetry. apply (near_el (own c) _ _ _ _ N1). apply own_not; assumption.
        * intros b Hb. rewrite <- (uxv_near c _ _ _ _ N1), <- (EU b Hb), (led_near c _ _ _ N1). symmetry. apply (near_el (own c) _ _ _ _ N1). apply own_not; assumption.
      + intros _ a Ha. destruct (V1 a Ha) as (y & Ey & Ly).
        destruct (V) with (a := a) as (y' & Ey' & Ly'); [intros a' Ha'; destruct (V1 a' Ha') as (? & _ & ?); eauto|exact Ha|].
        exists y. split; [exact Ey|]. rewrite Ly'. f_equal. rewrite Ly in Ey'. injection Ey' as <-. cbn [lsum fold_right]. fold (lsum l (offd m c a)).
        rewrite (lsum_ext l (offd m1 c a) (offd m c a)); [ring|]. intros t _. unfold offd. apply total_ext. intros b Hb.
        rewrite (cfv_near c _ _ _ _ _ N1), (uxv_near c _ _ _ _ N1). reflexivity.
  Qed.
  (** ** The cell *)

  Definition cell_step (size : Z) (c : list Z) : mem S -> option (mem S) :=
    fseq (do_ 1 n (fun a => fset ra (a :: c) (fel fa (a :: c))))
    (fseq (do_ 2 size (entry_step c))
    (fseq (fill_step 1 c)
    (fseq (dgesv la n B0 (mkFa (faddr ra (1 :: c)) [(0, n - 1)]))
      (do_ 1 n (fun a => fset ua (a :: c) (fop sadd (fel ua (a :: c)) (fel ra (a :: c)))))))).

  Definition writes (c : list Z) (q : ptr) : Prop := own c q \/ exists b, 1 <= b <= n /\ faddr ua (b :: c) = q.

  Lemma section_addr c i : faddr (mkFa (faddr ra (1 :: c)) [(0, n - 1)]) [i] = faddr ra (i + 1 :: c).
  Proof. unfold faddr, padd, ra. cbn [fa_ptr fa_dims foffset fst snd]. f_equal. ring. Qed.

  Lemma block_addr a b : faddr B0 [a - 1; b - 1] = faddr B [a; b].
  Proof. unfold faddr, padd, B, B0. cbn [fa_ptr fa_dims foffset fst snd]. f_equal. ring. Qed.

  Lemma cell_step_inv size c m m' : length c = 3%nat -> in_box dr c -> in_box du c -> cell_step size c m = Some m' ->
    solver_correct la n -> regular_entry m st n c ->
    near (writes c) m m' /\ (forall s, 2 <= s <= size -> entry_ok m c s) /\
    exists D x y, forall a, 1 <= a <= n ->
      (forall b, 1 <= b <= n -> entry st n 1 c a b m = Some (D a b)) /\ fel ua (a :: c) m = Some (x a) /\ fel ra (a :: c) m' = Some (y a) /\
      fel ua (a :: c) m' = Some (x a + y a)%T /\
      exists b, fel fa (a :: c) m = Some b /\ total 1 n (fun b => D a b * y b)%T = (b - total 2 size (offd m c a))%T.
  Proof.
    intros Hl Hc Hu E SC RE. unfold cell_step, fseq in E.
    apply bind_Some_inv in E as (m1 & E1 & E). apply bind_Some_inv in E as (m2 & E2 & E). apply bind_Some_inv in E as (m3 & E3 & E). apply bind_Some_inv in E as (m4 & E4 & E5).
    apply (line_own n r dr c _ m m1 Hc) in E1; [|intros b ma mb _ O _; apply (proj1 O); cbn; congruence]. destruct E1 as (N1 & V1).
    apply (near_weaken _ (own c) _ _ (fun q K => or_intror K)) in N1.
    rewrite do_zvals in E2. apply entries_inv in E2; [|exact Hl|exact Hc]. destruct E2 as (N2 & K2 & V2).
    specialize (V2 (fun a Ha => let '(ex_intro _ v (conj _ H)) := V1 a Ha in ex_intro _ v H)).
    apply fill_step_inv in E3 as (N3 & V3 & R3).
    apply (dgesv_inv la n block (faddr ra (1 :: c)) m3 m4) in E4; [|cbn; congruence]. destruct E4 as (N4 & C4 & X4 & v & VX & Sol).
    assert (N4' : near (own c) m3 m4).
    { refine (near_weaken _ _ _ _ _ N4). intros q [K|(i & Hi & <-)]; [left; exact K|]. right. exists (i + 1). split; [lia|]. symmetry. apply section_addr. }
    clear N4. apply (line_own n u du c _ m4 m' Hu) in E5.
    2:{ intros b ma mb _ O Eq. fold ua in Eq. unfold fop. rewrite Eq. replace (fel ra (b :: c) mb) with (fel ra (b :: c) ma); [reflexivity|]. symmetry. apply (proj1 O). cbn. congruence. }
    destruct E5 as (N5 & V5).
    assert (N14 : near (own c) m m4) by (exact (near_trans _ _ _ _ N1 (near_trans _ _ _ _ N2 (near_trans _ _ _ _ N3 N4')))).
    assert (N13 : near (own c) m m2) by (exact (near_trans _ _ _ _ N1 N2)).
    split; [|split].
    - refine (near_trans _ _ _ _ (near_weaken _ _ _ _ (fun q K => or_introl K) N14) (near_weaken _ _ _ _ (fun q K => or_intror K) N5)).
    - intros s Hs. destruct (K2 s (proj2 (zvals_in _ _ _) Hs)) as (D & EE & EU). split; [|split].
      + rewrite (led_near c _ _ _ N1) in D. refine (displaced_ints m1 m _ _ _ _ _ _ D). symmetry. exact (proj1 N1).
      + intros a b Ha Hb. rewrite <- (cfv_near c _ _ _ _ _ N1), <- (EE a b Ha Hb). symmetry. apply (near_el (own c) _ _ _ _ N1). apply own_not; assumption.
      + intros b Hb. rewrite <- (uxv_near c _ _ _ _ N1), <- (EU b Hb), (led_near c _ _ _ N1). symmetry. apply (near_el (own c) _ _ _ _ N1). apply own_not; assumption.
    - exists (fun a b => cfv m 1 c a b), (fun a => fval ua (a :: c) m4), (fun a => v (a - 1)). intros a Ha.
      assert (BV : forall a b, 1 <= a <= n -> 1 <= b <= n -> fval B0 [a - 1; b - 1] m3 = cfv m 1 c a b).
      { intros a' b' Ha' Hb'. unfold fval, fel. rewrite block_addr. destruct (V3 a' b' Ha' Hb') as [_ VB]. unfold fel in VB. rewrite VB. apply (cfv_near c _ _ _ _ _ N13). }
      assert (EN : forall a b, 1 <= a <= n -> 1 <= b <= n -> entry st n 1 c a b m = Some (cfv m 1 c a b)).
      { intros a' b' Ha' Hb'. rewrite <- (cfv_near c _ _ _ _ _ N13), <- (proj1 (V3 a' b' Ha' Hb')). symmetry. apply (near_el (own c) _ _ _ _ N13). apply own_not; assumption. }
      split; [intros b Hb; apply EN; assumption|].
      destruct (V5 a Ha) as (w & Ew & Lw). unfold fop in Ew. apply bind_Some_inv in Ew as (x & Ex & Ew). apply bind_Some_inv in Ew as (y & Ey & Ew). injection Ew as <-.
      assert (EX : fval ua (a :: c) m4 = x) by (unfold fval; rewrite Ex; reflexivity).
      assert (EY : y = v (a - 1)).
      { specialize (VX (a - 1) ltac:(lia)). unfold fel in VX, Ey. rewrite section_addr in VX. replace (a - 1 + 1) with a in VX by ring. congruence. }
      rewrite EX. split; [|split; [|split]].
      + rewrite <- Ex. symmetry. apply (near_el (own c) _ _ ua _ N14). apply own_not; assumption.
      + subst y. rewrite <- Ey. apply (proj2 N5). intros (b & _ & Eq). apply Nru. apply (f_equal fst) in Eq. cbn in Eq. congruence.
      + subst y. exact Lw.
      + destruct (V1 a Ha) as (b & Eb & Lb). exists b. split; [exact Eb|].
        assert (NS : nonsingular n (fun i j => fval B0 [i; j] m3)).
        { intros z Hz i Hi. specialize (RE (fun a => z (a - 1))). cbv beta in RE. replace i with (i + 1 - 1) by ring. apply RE; [|lia].
          intros a' Ha'. exists (fun b => cfv m 1 c a' b). split; [intros b' Hb'; apply EN; assumption|].
          specialize (Hz (a' - 1) ltac:(lia)). rewrite total_shift in Hz. rewrite <- Hz. apply total_ext. intros b' Hb'. rewrite (BV a' b' Ha' Hb'). reflexivity. }
        specialize (Sol SC NS (a - 1) ltac:(lia)). rewrite total_shift in Sol.
        transitivity (total 1 n (fun b => fval B0 [(a - 1)%Z; (b - 1)%Z] m3 * v (b - 1)%Z)%T).
        { apply total_ext. intros b' Hb'. rewrite (BV a b' Ha Hb'). reflexivity. }
        etransitivity; [exact Sol|]. unfold fval, fel. rewrite section_addr. replace (a - 1 + 1) with a by ring. fold (fel ra (a :: c) m3). rewrite R3.
        destruct (V2 a Ha) as (y' & Ey' & Ly'). rewrite Ly'. unfold ra in Ey'. rewrite Lb in Ey'. injection Ey' as <-. f_equal.
        rewrite total_lsum. apply lsum_ext. intros t _. unfold offd. apply total_ext. intros b' Hb'.
        rewrite (cfv_near c _ _ _ _ _ N1), (uxv_near c _ _ _ _ N1). reflexivity.
  Qed.
End OneCell.
