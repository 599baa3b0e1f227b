(** * Relaxation with several unknowns per cell: the sweep *)

From Coq Require Import Field.
From Verif Require Import Base FortranBase FortranLoops FortranSmooth FortranBlock FortranBlockCell SpecIter LemBase LemDomain LemAssign LemField LemKernel LemKernel2 LemStencil LemSafe
  SpecRow LemSum SpecSmooth SpecBlock SpecBlockJacobi SpecBlockCell LemFortran LemSmooth LemCells LemSmoothers LemLocal LemMatrixBlock LemSmoothFinal LemAdjust LemDense LemBlockJacobi LemBlockCell.
Import ListNotations.
Open Scope Z_scope.

Section Sweep.
  Context {S : Scalar} (L : field_laws S) (la : lapack S) (n size : Z) (tab st : farray) (f u r block : ptr) (df du dr : list (Z * Z)).
  Add Field SWField : (s_field S L) (morphism (lit_morph S L), constants [lit_cst]).
  Let fa := mkFa f ((1, n) :: df).
  Let ua := mkFa u ((1, n) :: du).
  Let ra := mkFa r ((1, n) :: dr).
  Context (Nbu : fst block <> fst u) (Nbr : fst block <> fst r) (Nbs : fst block <> fst (fa_ptr st)) (Nbf : fst block <> fst f)
    (Nru : fst r <> fst u) (Nrs : fst r <> fst (fa_ptr st)) (Nrf : fst r <> fst f)
    (Nus : fst u <> fst (fa_ptr st)) (Nuf : fst u <> fst f) (SC : solver_correct la n).

  Notation step := (cell_step la n tab st f u r block df du dr size).
  Notation wr := (writes n u r block du dr).

  Lemma wr_fst c q : wr c q -> fst q = fst block \/ fst q = fst r \/ fst q = fst u.
  Proof. intros [H|(b & _ & <-)]; [apply own_fst in H; tauto|right; right; reflexivity]. Qed.

  Lemma entry_near (P : list Z -> Prop) m m' s c a b : near (fun q => exists c, P c /\ wr c q) m m' -> entry (S := S) st n s c a b m' = entry st n s c a b m.
  Proof. intros [_ H]. apply H. intros (c' & _ & K). apply wr_fst in K. cbn in K. intuition congruence. Qed.

  Lemma f_near (P : list Z -> Prop) m m' is : near (fun q => exists c, P c /\ wr c q) m m' -> fel (S := S) fa is m' = fel fa is m.
  Proof. intros [_ H]. apply H. intros (c' & _ & K). apply wr_fst in K. cbn in K. intuition congruence. Qed.

  Lemma regular_near (P : list Z -> Prop) (m m' : mem S) c : near (fun q => exists c, P c /\ wr c q) m m' -> regular_entry m st n c -> regular_entry m' st n c.
  Proof.
    intros N H z Hz. apply H. intros a Ha. destruct (Hz a Ha) as (D & HD & T). exists D. split; [|exact T].
    intros b Hb. rewrite <- (entry_near P m m' 1 c a b N). apply HD, Hb.
  Qed.

  Definition fits (c : list Z) : Prop := length c = 3%nat /\ in_box dr c /\ in_box du c.

  Lemma sweep_near l (m m' : mem S) : (forall c, In c l -> fits c) -> (forall c, In c l -> regular_entry m st n c) -> forM l step m = Some m' ->
    near (fun q => exists c, In c l /\ wr c q) m m'.
  Proof.
    revert m. induction l as [|c l IH]; intros m Hf Hr E.
    - injection E as <-. apply near_refl.
    - cbn [forM] in E. apply bind_Some_inv in E as (m1 & E1 & E). destruct (Hf c (or_introl eq_refl)) as (Hl & Hc & Hu).
      apply (cell_step_inv L) in E1; try assumption; [|apply Hr; left; reflexivity]. destruct E1 as (N1 & _).
      assert (N1' : near (fun q => exists c', In c' (c :: l) /\ wr c' q) m m1).
      { refine (near_weaken _ _ _ _ _ N1). intros q K. exists c. split; [left; reflexivity|exact K]. }
      refine (near_trans _ _ _ _ N1' (near_weaken _ _ _ _ _ (IH m1 _ _ E))).
      + intros q (c' & Hc' & K). exists c'. split; [right; exact Hc'|exact K].
      + intros c' Hc'. apply Hf. right. exact Hc'.
      + intros c' Hc'. apply (regular_near _ _ _ _ N1'). apply Hr. right. exact Hc'.
  Qed.

  (** Where [u] has changed. *)
  Lemma u_near l (m m' : mem S) b c : (forall c, In c l -> fits c) -> 1 <= b <= n -> in_box du c -> ~ In c l ->
    near (fun q => exists c, In c l /\ wr c q) m m' -> fel ua (b :: c) m' = fel ua (b :: c) m.
  Proof.
    intros Hf Hb Hu Hn [_ H]. apply H. intros (c' & Hc' & [K|(b' & Hb' & Eq)]).
    - apply own_fst in K. cbn in K. intuition congruence.
    - unfold ua in Eq. apply faddr_inj in Eq; [|constructor; [exact Hb'|apply (Hf c' Hc')]|constructor; [exact Hb|exact Hu]].
      injection Eq as _ ->. exact (Hn Hc').
  Qed.
  Lemma r_near l (m m' : mem S) b c : (forall c, In c l -> fits c) -> 1 <= b <= n -> in_box dr c -> ~ In c l ->
    near (fun q => exists c, In c l /\ wr c q) m m' -> fel ra (b :: c) m' = fel ra (b :: c) m.
  Proof.
    intros Hf Hb Hu Hn [_ H]. apply H. intros (c' & Hc' & [[K|(b' & Hb' & Eq)]|(b' & _ & Eq)]).
    - cbn in K. congruence.
    - unfold ra in Eq. apply faddr_inj in Eq; [|constructor; [exact Hb'|apply (Hf c' Hc')]|constructor; [exact Hb|exact Hu]].
      injection Eq as _ ->. exact (Hn Hc').
    - apply (f_equal fst) in Eq. cbn in Eq. congruence.
  Qed.

  Lemma sweep_inv bs (m m' : mem S) : (forall c, in_box bs c -> fits c) -> (forall c, in_box bs c -> regular_entry m st n c) ->
    (forall c s c', in_box bs c -> 2 <= s <= size -> displaced_cell m tab 1 s c c' -> in_box du c') ->
    forM (box_cells bs) step m = Some m' -> block_swept m m' tab st size n fa ua ra (fst block) bs.
  Proof.
    intros Hf Hr Hs E.
    assert (Hf' : forall c, In c (box_cells bs) -> fits c) by (intros c Hc; apply Hf, box_cells_in, Hc).
    assert (Hr' : forall c, In c (box_cells bs) -> regular_entry m st n c) by (intros c Hc; apply Hr, box_cells_in, Hc).
    pose proof (sweep_near _ _ _ Hf' Hr' E) as NA. split; [|split; [|exact (proj1 NA)]].
    2:{ intros q Hq Hb. apply (proj2 NA). intros (c & Hc & [[K|(b & Hb' & Eq)]|(b & Hb' & Eq)]); [exact (Hb K)| |];
        apply box_cells_in in Hc; destruct (Hq c b Hc Hb') as [Q1 Q2]; [exact (Q2 Eq)|exact (Q1 Eq)]. }
    intros c a Hc Ha. pose proof (proj2 (box_cells_in bs c) Hc) as Hin. apply in_split in Hin as (l1 & l2 & El).
    pose proof (box_cells_nodup bs) as ND. pose proof (box_in_order bs) as IO. rewrite El in E, ND, IO. rewrite forM_app in E.
    apply bind_Some_inv in E as (mc & E1 & E). cbn [forM] in E. apply bind_Some_inv in E as (mc' & E2 & E3).
    assert (Hl1 : forall x, In x l1 -> In x (box_cells bs)) by (intros x Hx; rewrite El; apply in_or_app; left; exact Hx).
    assert (Hl2 : forall x, In x l2 -> In x (box_cells bs)) by (intros x Hx; rewrite El; apply in_or_app; right; right; exact Hx).
    assert (Nc1 : ~ In c l1) by (intros K; apply (NoDup_remove_2 _ _ _ ND), in_or_app; left; exact K).
    assert (Nc2 : ~ In c l2) by (intros K; apply (NoDup_remove_2 _ _ _ ND), in_or_app; right; exact K).
    pose proof (sweep_near l1 m mc (fun x Hx => Hf' x (Hl1 x Hx)) (fun x Hx => Hr' x (Hl1 x Hx)) E1) as N1.
    destruct (Hf c Hc) as (Lc & Hcr & Hcu).
    apply (cell_step_inv L) in E2; try assumption; [|apply (regular_near _ _ _ _ N1), Hr, Hc]. destruct E2 as (N2 & K2 & D & x & y & V2).
    assert (N2' : near (fun q => exists c', In c' [c] /\ wr c' q) mc mc').
    { refine (near_weaken _ _ _ _ _ N2). intros q K. exists c. split; [left; reflexivity|exact K]. }
    pose proof (sweep_near l2 mc' m' (fun x Hx => Hf' x (Hl2 x Hx)) (fun x Hx => regular_near _ _ _ _ N2' (regular_near _ _ _ _ N1 (Hr' x (Hl2 x Hx)))) E3) as N3.
    assert (N23 : near (fun q => exists c', In c' (c :: l2) /\ wr c' q) mc m').
    { refine (near_trans _ _ _ _ (near_weaken _ _ _ _ _ N2') (near_weaken _ _ _ _ _ N3)); intros q (c' & Hc' & K); exists c'; (split; [|exact K]).
      - destruct Hc' as [<-|[]]. left. reflexivity.
      - right. exact Hc'. }
    destruct (V2 a Ha) as (DE & _ & _ & _ & b & Eb & Tot).
    exists b, (total 2 size (offd n tab st u du mc c a)), (D a), x, y. split; [|split; [|split]].
    - rewrite <- Eb. symmetry. apply (f_near _ _ _ _ N1).
    - exists (fun s b => cfv n st mc s c a b), (fun s b => uxv n tab u du mc s c b). split; [|split; [|reflexivity]].
      + intros s b' Hs' Hb'. destruct (K2 s Hs') as (_ & EE & _). rewrite <- (EE a b' Ha Hb'). symmetry. apply (entry_near _ _ _ _ _ _ _ N1).
      + intros s Hs'. destruct (K2 s Hs') as (DD & _ & EU). apply (displaced_ints mc m) in DD; [|symmetry; exact (proj1 N1)].
        exists (led tab mc s c). split; [exact DD|]. intros b' Hb'. rewrite <- (EU b' Hb').
        pose proof (Hs c s _ Hc Hs' DD) as Hin. destruct (before (led tab mc s c) c) eqn:Be.
        * apply (u_near (c :: l2)); [|exact Hb'|exact Hin| |exact N23].
          -- intros z [<-|Hz]; [apply Hf, Hc|apply Hf', Hl2, Hz].
          -- intros [K|K].
             ++ rewrite <- K, before_irrefl in Be. discriminate Be.
             ++ apply (IO l1 c l2 eq_refl) in K. apply before_asym in K. congruence.
        * symmetry. apply (u_near l1); [|exact Hb'|exact Hin| |exact N1].
          -- intros z Hz. apply Hf', Hl1, Hz.
          -- intros K. apply in_split in K as (l3 & l4 & ->). assert (before (led tab mc s c) c = true); [|congruence].
             apply (IO l3 _ (l4 ++ c :: l2)); [rewrite <- app_assoc; reflexivity|]. apply in_or_app. right. left. reflexivity.
    - intros b' Hb'. destruct (V2 b' Hb') as (_ & Ex & Ey & Ez & _). split; [|split; [|split]].
      + rewrite <- (DE b' Hb'). symmetry. apply (entry_near _ _ _ _ _ _ _ N1).
      + rewrite <- Ex. symmetry. apply (u_near l1); try assumption. intros z Hz. apply Hf', Hl1, Hz.
      + rewrite <- Ey. apply (r_near l2); try assumption. intros z Hz. apply Hf', Hl2, Hz.
      + rewrite <- Ez. apply (u_near l2); try assumption. intros z Hz. apply Hf', Hl2, Hz.
    - exact Tot.
  Qed.
End Sweep.

Section Final.
  Context {S : Scalar} (L : field_laws S).
  Add Field FNField : (s_field S L) (morphism (lit_morph S L), constants [lit_cst]).

  Lemma block_jacobi_swept : forall (la : lapack S) lo0 hi0 lo1 hi1 lo2 hi2 size offset st ndof fgcw f ugcw u rgcw r block (m m' : mem S),
    let bs := [(lo0, hi0); (lo1, hi1); (lo2, hi2)] in
    let tab := mkFa offset [(1, 3); (1, size)] in
    let sta := mkFa st ((1, size) :: (1, ndof * ndof) :: CELL3d lo0 lo1 lo2 hi0 hi1 hi2 0) in
    let fa := mkFa f ((1, ndof) :: CELL3d lo0 lo1 lo2 hi0 hi1 hi2 fgcw) in
    let ua := mkFa u ((1, ndof) :: CELL3d lo0 lo1 lo2 hi0 hi1 hi2 ugcw) in
    let ra := mkFa r ((1, ndof) :: CELL3d lo0 lo1 lo2 hi0 hi1 hi2 rgcw) in
    NoDup [fst u; fst r; fst block] -> ~ In (fst f) [fst u; fst r; fst block] -> ~ In (fst st) [fst u; fst r; fst block] ->
    0 <= ugcw -> 0 <= rgcw ->
    (forall c s c', in_box bs c -> 2 <= s <= size -> displaced_cell m tab 1 s c c' -> in_box (CELL3d lo0 lo1 lo2 hi0 hi1 hi2 ugcw) c') ->
    solver_correct la ndof -> (forall c, in_box bs c -> regular_entry m sta ndof c) ->
    ccellblkjacobi3d la lo0 hi0 lo1 hi1 lo2 hi2 size offset st ndof fgcw f ugcw u rgcw r block m = Some m' ->
    block_swept m m' tab sta size ndof fa ua ra (fst block) bs.
  Proof.
    intros la lo0 hi0 lo1 hi1 lo2 hi2 size offset st ndof fgcw f ugcw u rgcw r block m m' bs tab sta fa ua ra ND Nf Ns Gu Gr Hs SC RE E.
    inversion_clear ND as [|? ? A1 ND']. inversion_clear ND' as [|? ? A2 _]. cbn [In] in *.
    assert (In3 : forall g c, 0 <= g -> in_box bs c -> in_box (CELL3d lo0 lo1 lo2 hi0 hi1 hi2 g) c).
    { intros g c Hg Hc. inversion_clear Hc as [|? ? ? ? H0 Hc']. inversion_clear Hc' as [|? ? ? ? H1 Hc]. inversion_clear Hc as [|? ? ? ? H2 Hc'].
      inversion Hc'; subst. cbn in H0, H1, H2. repeat constructor; cbn; lia. }
    apply (sweep_inv L la ndof size tab sta f u r block); try (cbn; intuition congruence).
    - intros c Hc. split; [|split; apply In3; assumption]. symmetry. exact (in_box_len _ _ Hc).
    - rewrite <- E. symmetry. exact (do3_cells (lo0, hi0) (lo1, hi1) (lo2, hi2) (cell_step la ndof tab sta f u r block _ _ _ size) m).
  Qed.

  Section Consequences.
    Context (m m' : mem S) (tab st : farray) (n ndof : Z) (f u r : farray) (local : nat) (bs : list (Z * Z)).
    Context (SW : block_swept m m' tab st n ndof f u r local bs).

    (** The change is determined. *)
    Lemma change_unique c (z : Z -> S) : in_box bs c -> regular_entry m st ndof c ->
      (forall a, 1 <= a <= ndof -> exists b d (D : Z -> S), fel f (a :: c) m = Some b /\
         block_row m tab st ndof 2 n c a (fun b c' => fel u (b :: c') (if before c' c then m' else m)) d /\
         (forall b, 1 <= b <= ndof -> entry st ndof 1 c a b m = Some (D b)) /\ total 1 ndof (fun b => D b * z b)%T = (b - d)%T) ->
      forall a, 1 <= a <= ndof -> exists x, fel u (a :: c) m = Some x /\ fel u (a :: c) m' = Some (x + z a)%T.
    Proof.
      intros Hc RE Hz a Ha. destruct SW as (V & _ & _).
      destruct (V c a Hc Ha) as (b0 & d & D & x & y & _ & _ & Hb & _). exists (x a). destruct (Hb a Ha) as (_ & Ex & Ey & Eu). split; [exact Ex|]. rewrite Eu. do 2 f_equal.
      assert (K : forall a, 1 <= a <= ndof -> (fun b => y b - z b)%T a = lit 0).
      { apply RE. intros a' Ha'. destruct (V c a' Hc Ha') as (b1 & d1 & D1 & x1 & y1 & Ef1 & R1 & Hb1 & T1).
        destruct (Hz a' Ha') as (b2 & d2 & D2 & Ef2 & R2 & Hb2 & T2). exists D2. split; [exact Hb2|].
        assert (b1 = b2) as -> by congruence.
        assert (d1 = d2) as ->.
        { destruct R1 as (cf1 & w1 & C1 & X1 & ->), R2 as (cf2 & w2 & C2 & X2 & ->). apply total_ext. intros s Hs. apply total_ext. intros b Hb'.
          destruct (X1 s Hs) as (c1 & DC1 & U1), (X2 s Hs) as (c2 & DC2 & U2). rewrite (displaced_cell_fun _ _ _ _ _ _ _ DC2 DC1) in U2.
          pose proof (C1 s b Hs Hb'). pose proof (C2 s b Hs Hb'). pose proof (U1 b Hb'). pose proof (U2 b Hb'). congruence. }
        transitivity (total 1 ndof (fun b => D1 b * y1 b - D2 b * z b)%T); [|rewrite (total_sub L), T1, T2; ring].
        apply total_ext. intros b Hb'. destruct (Hb1 b Hb') as (E1 & _ & Ey1 & _). pose proof (Hb2 b Hb') as E2. destruct (Hb b Hb') as (_ & _ & Ey2 & _).
        assert (D1 b = D2 b) as -> by congruence. assert (y1 b = y b) as -> by congruence. ring. }
      specialize (K a Ha). cbv beta in K. transitivity (z a + (y a - z a))%T; [ring|]. rewrite K. ring.
    Qed.

    (** Starting from zero in a cell, its equations hold afterwards with the values used. *)
    Lemma from_zero c a : in_box bs c -> (forall b, 1 <= b <= ndof -> fel u (b :: c) m = Some (lit 0)) -> 1 <= a <= ndof ->
      exists b d (D x : Z -> S), fel f (a :: c) m = Some b /\
        block_row m tab st ndof 2 n c a (fun b c' => fel u (b :: c') (if before c' c then m' else m)) d /\
        (forall b, 1 <= b <= ndof -> entry st ndof 1 c a b m = Some (D b) /\ fel u (b :: c) m' = Some (x b)) /\
        (total 1 ndof (fun b => D b * x b) + d)%T = b.
    Proof.
      intros Hc Hz Ha. destruct SW as (V & _ & _). destruct (V c a Hc Ha) as (b & d & D & x & y & Ef & R & Hb & T).
      exists b, d, D, y. split; [exact Ef|]. split; [exact R|]. split.
      - intros b' Hb'. destruct (Hb b' Hb') as (E1 & E2 & _ & E4). split; [exact E1|]. rewrite E4. f_equal. rewrite (Hz b' Hb') in E2. injection E2 as <-. ring.
      - rewrite T. ring.
    Qed.

    (** Where nothing changes, the entries beside the diagonal one give [f] alone. *)
    Lemma unchanged c a : in_box bs c -> (forall b, 1 <= b <= ndof -> fel u (b :: c) m' = fel u (b :: c) m) -> 1 <= a <= ndof ->
      exists b, fel f (a :: c) m = Some b /\ block_row m tab st ndof 2 n c a (fun b c' => fel u (b :: c') (if before c' c then m' else m)) b.
    Proof.
      intros Hc Hz Ha. destruct SW as (V & _ & _). destruct (V c a Hc Ha) as (b & d & D & x & y & Ef & R & Hb & T).
      exists b. split; [exact Ef|]. replace b with d; [exact R|].
      assert (total 1 ndof (fun b => D b * y b)%T = lit 0).
      { transitivity (total 1 ndof (fun _ => lit 0 * lit 0 : S)%T); [|rewrite (total_mul L); ring]. apply total_ext. intros b' Hb'. destruct (Hb b' Hb') as (_ & E2 & _ & E4).
        rewrite (Hz b' Hb'), E2 in E4. injection E4 as E4. assert (y b' = lit 0) as ->; [|ring].
        transitivity (x b' + y b' - x b')%T; [ring|]. rewrite <- E4. ring. }
      transitivity (b - (b - d))%T; [ring|]. rewrite <- T, H. ring.
    Qed.
  End Consequences.

  Lemma total_first lo hi (g : Z -> S) : lo <= hi -> total lo hi g = (g lo + total (lo + 1) hi g)%T.
  Proof.
    intros Hl. unfold total. replace (Z.to_nat (hi - lo + 1)) with (Datatypes.S (Z.to_nat (hi - (lo + 1) + 1))) by lia.
    cbn [seq fold_right]. rewrite Z.add_0_r. f_equal. rewrite <- seq_shift. rewrite <- (map_id (seq 0 _)) at 2.
    generalize (seq 0 (Z.to_nat (hi - (lo + 1) + 1))). intros l. induction l as [|i l IHl]; [reflexivity|].
    cbn [map fold_right]. rewrite IHl. do 2 f_equal. lia.
  Qed.

  (** A cell whose equations hold gets twice its values. *)
  Lemma doubles (m m' : mem S) (tab st : farray) (n ndof : Z) (f u r : farray) (local : nat) (bs : list (Z * Z)) c :
    block_swept m m' tab st n ndof f u r local bs -> in_box bs c -> regular_entry m st ndof c -> 1 <= n ->
    displaced_cell m tab 1 1 c c -> (forall s c', 2 <= s <= n -> displaced_cell m tab 1 s c c' -> before c' c = false) ->
    block_solves m tab st n ndof f u c ->
    forall a, 1 <= a <= ndof -> exists x, fel u (a :: c) m = Some x /\ fel u (a :: c) m' = Some (x + x)%T.
  Proof.
    intros SW Hc RE Hn DD NB SO a Ha.
    destruct (change_unique m m' tab st n ndof f u r local bs SW c (fun b => fval u (b :: c) m) Hc RE) with (a := a) as (x & Ex & Ey); [|exact Ha|].
    - intros a' Ha'. destruct (SO a' Ha') as (b & Eb & cf & x & C & X & ->).
      exists (total 1 n (fun s => total 1 ndof (fun b => cf s b * x s b)))%T, (total 2 n (fun s => total 1 ndof (fun b => cf s b * x s b)))%T, (cf 1).
      split; [exact Eb|]. split; [|split].
      + exists cf, x. split; [|split; [|reflexivity]].
        * intros s b Hs. apply C. lia.
        * intros s Hs. destruct (X s ltac:(lia)) as (c' & Dc & U). exists c'. split; [exact Dc|]. rewrite (NB s c' Hs Dc). exact U.
      + intros b Hb. apply C; [lia|exact Hb].
      + rewrite (total_first 1 n) by lia. change (1 + 1) with 2.
        transitivity (total 1 ndof (fun b => cf 1 b * x 1 b))%T; [|ring]. apply total_ext. intros b Hb.
        destruct (X 1 ltac:(lia)) as (c' & Dc & U). rewrite (displaced_cell_fun _ _ _ _ _ _ _ Dc DD) in U. unfold fval. rewrite (U b Hb). reflexivity.
    - exists x. split; [exact Ex|]. rewrite Ey. unfold fval. rewrite Ex. reflexivity.
  Qed.
End Final.
