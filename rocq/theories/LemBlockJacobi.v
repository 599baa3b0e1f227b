(** * Block Jacobi *)

From Coq Require Import Field.
From Verif Require Import Base FortranBase FortranLoops FortranSmooth FortranBlock SpecIter LemBase LemDomain LemAssign LemField LemKernel LemKernel2 LemStencil LemSafe
  SpecRow LemSum SpecSmooth SpecBlock SpecBlockJacobi LemFortran LemSmooth LemCells LemSmoothers LemLocal LemMatrixBlock LemSmoothFinal LemAdjust LemDense.
Import ListNotations.
Open Scope Z_scope.

Lemma do4_cells {M} b0 b1 b2 b3 (f : list Z -> M -> option M) m :
  do_ (fst b3) (snd b3) (fun l => do_ (fst b2) (snd b2) (fun k => do_ (fst b1) (snd b1) (fun j => do_ (fst b0) (snd b0) (fun i => f [i; j; k; l])))) m =
  forM (box_cells [b0; b1; b2; b3]) f m.
Proof.
  change (box_cells [b0; b1; b2; b3]) with (rows_of (fun _ => zvals (fst b0) (snd b0)) (box_cells [b1; b2; b3])).
  rewrite forM_rows, <- do3_cells. reflexivity.
Qed.

(** The values of a strided loop. *)
Definition steps (lo hi st : Z) : list Z := map (fun k => lo + st * Z.of_nat k) (seq 0 (Z.to_nat (Z.quot (hi - lo + st) st))).

Lemma steps_in lo hi st i : 1 <= st -> In i (steps lo hi st) <-> starts lo hi st i.
Proof.
  intros Hs. unfold steps, starts. rewrite in_map_iff. split.
  - intros (k & <- & Hk). apply in_seq in Hk. exists (Z.of_nat k). split; [lia|]. split; [reflexivity|].
    destruct (Z.le_gt_cases 0 (hi - lo + st)) as [P|P].
    + rewrite Z.quot_div_nonneg in Hk by lia. pose proof (Z.div_pos (hi - lo + st) st P ltac:(lia)).
      pose proof (Z.mul_div_le (hi - lo + st) st ltac:(lia)). nia.
    + assert (Z.quot (hi - lo + st) st <= 0); [|lia].
      pose proof (Z.quot_opp_l (- (hi - lo + st)) st ltac:(lia)) as E. rewrite Z.opp_involutive in E. rewrite E.
      pose proof (Z.quot_pos (- (hi - lo + st)) st ltac:(lia) ltac:(lia)). lia.
  - intros (k & Hk & -> & Hb). exists (Z.to_nat k). rewrite Z2Nat.id by lia. split; [reflexivity|]. apply in_seq. split; [lia|].
    assert (0 <= hi - lo + st) by nia. rewrite Z.quot_div_nonneg by lia.
    assert (k < (hi - lo + st) / st); [|lia]. apply Z.lt_le_trans with (k + 1); [lia|]. apply Z.div_le_lower_bound; nia.
Qed.

Lemma steps_nodup lo hi st : 1 <= st -> NoDup (steps lo hi st).
Proof. intros Hs. apply FinFun.Injective_map_NoDup; [intros a b E; nia|apply seq_NoDup]. Qed.

Section BlockJacobi.
  Context {S : Scalar} (L : field_laws S).
  Add Field BJField : (s_field S L) (morphism (lit_morph S L), constants [lit_cst]).

  (** Filling a whole array. *)
  Lemma fill_inv (a : farray) (e : list Z -> fexp S) (m m' : mem S) :
    (forall l, in_box (fa_dims a) l -> blind (fst (fa_ptr a)) (e l)) ->
    forM (box_cells (fa_dims a)) (fun l => fset a l (e l)) m = Some m' ->
    same_off (fst (fa_ptr a)) m m' /\ (forall l, in_box (fa_dims a) l -> exists v, e l m = Some v /\ fel a l m' = Some v).
  Proof.
    intros B E. apply (forM_put (box_cells (fa_dims a)) (faddr a) e (fst (fa_ptr a))) in E.
    - destruct E as (O & V & _). split; [exact O|]. intros l Hl. apply V, box_cells_in, Hl.
    - apply box_cells_nodup.
    - intros x y Hx Hy. destruct a as [p ds]. apply faddr_inj; apply box_cells_in; assumption.
    - reflexivity.
    - intros l Hl. apply B, box_cells_in, Hl.
  Qed.

  Lemma check_inv (a : farray) bs (m m' : mem S) : forM (box_cells bs) (fun l => fcheck a l) m = Some m' ->
    m' = m /\ forall l, in_box bs l -> fel a l m = Some (fval a l m).
  Proof.
    intros E. assert (G : m' = m /\ forall l, In l (box_cells bs) -> fel a l m = Some (fval a l m)).
    { revert E. generalize (box_cells bs). intros ls. induction ls as [|l ls IH]; cbn [forM]; intros E.
      - injection E as <-. split; [reflexivity|intros l []].
      - apply bind_Some_inv in E as (m1 & E1 & E). unfold fcheck in E1. apply bind_Some_inv in E1 as (x & Ex & E1). injection E1 as <-.
        destruct (IH E) as [-> H]. split; [reflexivity|]. intros l' [<-|Hl']; [|apply H, Hl']. unfold fval. rewrite Ex. reflexivity. }
    destruct G as [-> H]. split; [reflexivity|]. intros l Hl. apply H, box_cells_in, Hl.
  Qed.

  Lemma in_square n i j : 0 <= i <= n - 1 -> 0 <= j <= n - 1 -> in_box [(0, n - 1); (0, n - 1)] [i; j].
  Proof. intros Hi Hj. constructor; [exact Hi|]. constructor; [exact Hj|constructor]. Qed.
  Lemma in_line n i : 0 <= i <= n - 1 -> in_box [(0, n - 1)] [i].
  Proof. intros Hi. constructor; [exact Hi|constructor]. Qed.

  (** Solving the system. *)
  Lemma apply_inv (la : lapack S) A x b n (m m' : mem S) :
    fst A <> fst x -> fst A <> fst b -> fst x <> fst b -> apply la A x b n m = Some m' ->
    let AA := mkFa A [(0, n - 1); (0, n - 1)] in let B := mkFa b [(0, n - 1)] in let X := mkFa x [(0, n - 1)] in
    ints m' = ints m /\ (forall q, fst q <> fst A -> fst q <> fst x -> load m' q = load m q) /\
    (forall i j, 0 <= i <= n - 1 -> 0 <= j <= n - 1 -> fel AA [i; j] m = Some (fval AA [i; j] m)) /\
    (forall i, 0 <= i <= n - 1 -> fel B [i] m = Some (fval B [i] m)) /\
    exists v, (forall i, 0 <= i <= n - 1 -> fel X [i] m' = Some (v i)) /\
      (solver_correct la n -> nonsingular n (fun i j => fval AA [i; j] m) ->
       forall i, 0 <= i <= n - 1 -> total 0 (n - 1) (fun j => fval AA [i; j] m * v j)%T = fval B [i] m).
  Proof.
    intros Nax Nab Nxb E AA B X. unfold apply in E. fold AA B X in E. unfold dgetrf in E.
    apply bind_Some_inv in E as (m1 & E1 & E).
    rewrite (do2_cells (0, n - 1) (0, n - 1) (fun ij => fcheck AA ij)) in E1. apply check_inv in E1 as [-> C1].
    set (r := la_getrf la n (fun i j => fval AA [i; j] m)) in *. cbv zeta in E. apply bind_Some_inv in E as (m2 & E2 & E).
    assert (F2 : same_off (fst A) m m2 /\ forall i j, 0 <= i <= n - 1 -> 0 <= j <= n - 1 -> fel AA [i; j] m2 = Some (fst r i j)).
    { rewrite (do2_cells (0, n - 1) (0, n - 1) (fun ij => fset AA ij (fsc (fst r (nth 0 ij 0) (nth 1 ij 0))))) in E2.
      apply (fill_inv AA (fun ij => fsc (fst r (nth 0 ij 0) (nth 1 ij 0)))) in E2; [|intros; apply blind_fsc]. destruct E2 as [O V]. split; [exact O|].
      intros i j Hi Hj. destruct (V [i; j] (in_square n i j Hi Hj)) as (v & Ev & Lv). cbn [nth] in Ev. unfold fsc in Ev. congruence. }
    destruct F2 as [O2 V2]. unfold fseq in E. apply bind_Some_inv in E as (m3 & E3 & E).
    assert (F3 : same_off (fst x) m2 m3 /\ forall i, 0 <= i <= n - 1 -> exists v, fel B [i] m2 = Some v /\ fel X [i] m3 = Some v).
    { unfold dcopy in E3. rewrite (do1_cells (0, n - 1) (fun i => fset X i (fel B i))) in E3.
      apply (fill_inv X (fun i => fel B i)) in E3; [|intros; apply blind_fel; cbn; congruence]. destruct E3 as [O V]. split; [exact O|].
      intros i Hi. exact (V [i] (in_line n i Hi)). }
    destruct F3 as [O3 V3]. unfold dgetrs in E. apply bind_Some_inv in E as (m4 & E4 & E).
    rewrite (do2_cells (0, n - 1) (0, n - 1) (fun ij => fcheck AA ij)) in E4. apply check_inv in E4 as [-> C4].
    apply bind_Some_inv in E as (m5 & E5 & E).
    rewrite (do1_cells (0, n - 1) (fun i => fcheck X i)) in E5. apply check_inv in E5 as [-> C5].
    set (v := la_getrs la n (fun i j => fval AA [i; j] m3) (snd r) (fun i => fval X [i] m3)) in *. cbv zeta in E.
    assert (F6 : same_off (fst x) m3 m' /\ forall i, 0 <= i <= n - 1 -> fel X [i] m' = Some (v i)).
    { rewrite (do1_cells (0, n - 1) (fun i => fset X i (fsc (v (nth 0 i 0))))) in E.
      apply (fill_inv X (fun i => fsc (v (nth 0 i 0)))) in E; [|intros; apply blind_fsc]. destruct E as [O V]. split; [exact O|].
      intros i Hi. destruct (V [i] (in_line n i Hi)) as (y & Ey & Ly). cbn [nth] in Ey. unfold fsc in Ey. congruence. }
    destruct F6 as [O6 V6]. split; [|split; [|split; [|split]]].
    - rewrite (proj2 O6), (proj2 O3), (proj2 O2). reflexivity.
    - intros q Hq1 Hq2. rewrite (proj1 O6), (proj1 O3), (proj1 O2); auto.
    - intros i j Hi Hj. apply C1, in_square; assumption.
    - intros i Hi. destruct (V3 i Hi) as (y & Ey & _). unfold fval. replace (fel B [i] m) with (fel B [i] m2); [rewrite Ey; reflexivity|].
      apply (proj1 O2). cbn. congruence.
    - exists v. split; [exact V6|]. intros SC Ns i Hi.
      etransitivity; [apply (SC (fun i j => fval AA [i; j] m) (fun i j => fval AA [i; j] m3) (fun i => fval X [i] m3) Ns); [|exact Hi]|]; cycle 1.
      + destruct (V3 i Hi) as (y & Ey & Ly). unfold fval. rewrite Ly. replace (fel B [i] m) with (fel B [i] m2); [rewrite Ey; reflexivity|].
        apply (proj1 O2). cbn. congruence.
      + intros i' j' Hi' Hj'. unfold fval at 1. unfold fel at 1. rewrite (proj1 O3) by (cbn; congruence).
        fold (fel AA [i'; j'] m2). rewrite (V2 i' j' Hi' Hj'). reflexivity.
  Qed.

  Lemma number_addr (q : ptr) bx by_ bz l : in_box (block_box bx by_ bz) l ->
    faddr (mkFa q (block_box bx by_ bz)) l = faddr (mkFa q [(0, bx * by_ * bz - 1)]) [number bx by_ l].
  Proof.
    intros H. pose proof (box3 _ _ _ _ H) as E. rewrite E. generalize (nth 0 l 0) (nth 1 l 0) (nth 2 l 0). intros i j k.
    unfold faddr, block_box. cbn [fa_ptr fa_dims foffset number]. f_equal. ring.
  Qed.

  (** ** One block *)

  Definition block_step (la : lapack S) (n bx by_ bz : Z) (offset : ptr) (st u r : farray) (A br x bst : ptr) (w : S) (c0 : list Z) : mem S -> option (mem S) :=
    let box := block_box bx by_ bz in let N := bx * by_ * bz in
    fseq (forM (box_cells box) (fun l => fset (mkFa br box) l (fel r (shift c0 l))))
    (fseq (forM (box_cells ((0, n - 1) :: box)) (fun sl => fset (mkFa bst ((0, n - 1) :: box)) sl (fel st (hd 0 sl :: shift c0 (tl sl)))))
    (fseq (forM (box_cells [(0, N - 1); (0, N - 1)]) (fun ij => fset (mkFa A [(0, N - 1); (0, N - 1)]) ij (fsc (lit 0))))
    (fseq (creatematrix A n bst offset bx by_ bz)
    (fseq (apply la A x br N)
    (forM (box_cells box) (fun l => fset u (shift c0 l) (fop sadd (fel u (shift c0 l)) (fop smul (fsc w) (fel (mkFa x box) l))))))))).

  Lemma block_step_inv la n bx by_ bz offset st u r A br x bst w c0 (m m' : mem S) :
    1 <= n -> 1 <= bx -> 1 <= by_ -> length c0 = 3%nat ->
    NoDup [fst A; fst br; fst x; fst bst; fst (fa_ptr u); fst (fa_ptr r)] ->
    ~ In (fst (fa_ptr st)) [fst A; fst br; fst x; fst bst; fst (fa_ptr u)] ->
    columns_distinct m (mkFa offset [(0, 2); (0, n - 1)]) n (block_box bx by_ bz) ->
    leads_out m (mkFa offset [(0, 2); (0, n - 1)]) n (block_box bx by_ bz) ->
    (forall l, in_box (block_box bx by_ bz) l -> in_box (fa_dims u) (shift c0 l)) ->
    block_step la n bx by_ bz offset st u r A br x bst w c0 m = Some m' ->
    let box := block_box bx by_ bz in let N := bx * by_ * bz in let tab := mkFa offset [(0, 2); (0, n - 1)] in
    ints m' = ints m /\
    (forall q, (forall l, in_box box l -> faddr u (shift c0 l) <> q) -> ~ In (fst q) [fst A; fst br; fst x; fst bst] -> load m' q = load m q) /\
    exists M X (rv : list Z -> S),
      (forall l, in_box box l -> fel r (shift c0 l) m = Some (rv l) /\
         exists y, fel u (shift c0 l) m = Some y /\ fel u (shift c0 l) m' = Some (y + w * X (number bx by_ l))%T) /\
      (forall l l', in_box box l -> in_box box l' ->
         (forall s, 0 <= s <= n - 1 -> displaced_cell m tab 0 s l l' -> fel st (s :: shift c0 l) m = Some (M (number bx by_ l) (number bx by_ l'))) /\
         ((forall s, 0 <= s <= n - 1 -> ~ displaced_cell m tab 0 s l l') -> M (number bx by_ l) (number bx by_ l') = lit 0)) /\
      (solver_correct la N -> nonsingular N M ->
       forall l, in_box box l -> total 0 (N - 1) (fun j => M (number bx by_ l) j * X j)%T = rv l).
  Proof.
    intros Hn Hbx Hby H0 ND NS CD LO Hu E box N tab. fold box tab in CD, LO. fold box in Hu.
    repeat match goal with H : NoDup (_ :: _) |- _ => let a := fresh "N" in inversion_clear H as [|? ? a H']; rename H' into H end.
    cbn [In] in *. clear ND.
    unfold block_step in E. cbv zeta in E. fold box N in E. unfold fseq in E.
    apply bind_Some_inv in E as (m1 & E1 & E). apply bind_Some_inv in E as (m2 & E2 & E). apply bind_Some_inv in E as (m3 & E3 & E).
    apply bind_Some_inv in E as (m4 & E4 & E). apply bind_Some_inv in E as (m5 & E5 & E6).
    apply (fill_inv (mkFa br box) (fun l => fel r (shift c0 l))) in E1; [|intros; apply blind_fel; cbn; intuition congruence].
    apply (fill_inv (mkFa bst ((0, n - 1) :: box)) (fun sl => fel st (hd 0 sl :: shift c0 (tl sl)))) in E2; [|intros; apply blind_fel; cbn; intuition congruence].
    apply (fill_inv (mkFa A [(0, N - 1); (0, N - 1)]) (fun _ => fsc (lit 0))) in E3; [|intros; apply blind_fsc].
    destruct E1 as [O1 V1], E2 as [O2 V2], E3 as [O3 V3]. cbn [fa_ptr fa_dims] in *.
    assert (I3 : ints m3 = ints m) by (rewrite (proj2 O3), (proj2 O2), (proj2 O1); reflexivity).
    apply creatematrix_made in E4; [|intuition congruence|exact Hn| |].
    2:{ intros c Hc. destruct (CD c Hc) as [D0 DD]. split; [exact (displaced_ints m m3 _ _ _ _ _ I3 D0)|].
        intros s s' c' Hs Hs' D D'. apply (DD s s' c' Hs Hs'); eapply displaced_ints; try eassumption; congruence. }
    2:{ intros c c' Hc D. apply (LO c c' Hc). eapply displaced_ints; try eassumption; congruence. }
    destruct E4 as (V4 & F4 & I4). change [(0, bx - 1); (0, by_ - 1); (0, bz - 1)] with box in V4, F4. fold N tab in V4, F4.
    assert (O4 : forall q, fst q <> fst A -> load m4 q = load m3 q).
    { intros q Hq. apply F4. intros c c' _ _ Eq. apply Hq. rewrite <- Eq. reflexivity. }
    apply apply_inv in E5; [|intuition congruence|intuition congruence|intuition congruence]. cbv zeta in E5.
    destruct E5 as (I5 & O5 & CA & CB & X & VX & Sol).
    apply (forM_own (box_cells box) (fun l => faddr u (shift c0 l)) (fun l => fop sadd (fel u (shift c0 l)) (fop smul (fsc w) (fel (mkFa x box) l))) (fst (fa_ptr u))) in E6.
    2: apply box_cells_nodup.
    2:{ intros l l' Hl Hl' Eq. apply box_cells_in in Hl, Hl'. destruct u as [p ds]. apply faddr_inj in Eq; [|apply Hu; assumption|apply Hu; assumption].
        apply shift_inj in Eq; [exact Eq| |]; rewrite H0; symmetry; [exact (in_box_len _ _ Hl)|exact (in_box_len _ _ Hl')]. }
    2:{ reflexivity. }
    2:{ intros l ma mb _ O Eq. unfold fop, fsc, fel at 1 3. rewrite Eq. cbn [bind].
        replace (fel (mkFa x box) l mb) with (fel (mkFa x box) l ma); [reflexivity|]. symmetry. apply (proj1 O). cbn. intuition congruence. }
    destruct E6 as (O6 & F6 & V6). split; [|split].
    - rewrite (proj2 O6), I5, I4, I3. reflexivity.
    - intros q Hq Hloc. cbn [In] in Hloc. rewrite F6 by (intros l Hl; apply Hq, box_cells_in, Hl).
      rewrite O5 by intuition congruence. rewrite O4 by intuition congruence. rewrite (proj1 O3) by (cbn; intuition congruence).
      rewrite (proj1 O2) by (cbn; intuition congruence). apply (proj1 O1). cbn. intuition congruence.
    - exists (fun i j => fval (mkFa A [(0, N - 1); (0, N - 1)]) [i; j] m4), X, (fun l => fval (mkFa br box) l m4).
      assert (BR : forall l, in_box box l -> fel (mkFa br box) l m4 = fel r (shift c0 l) m /\ fel (mkFa br box) l m4 = Some (fval (mkFa br box) l m4)).
      { intros l Hl. destruct (V1 l Hl) as (v & Ev & Lv). assert (G : fel (mkFa br box) l m4 = Some v).
        { unfold fel. rewrite O4 by (cbn; intuition congruence). rewrite (proj1 O3) by (cbn; intuition congruence).
          rewrite (proj1 O2) by (cbn; intuition congruence). exact Lv. }
        unfold fval. rewrite G, Ev. auto. }
      split; [|split].
      + intros l Hl. destruct (BR l Hl) as [B1 B2]. split; [congruence|].
        destruct (V6 l (proj2 (box_cells_in box l) Hl)) as (v & Ev & Lv). unfold fop, fsc in Ev. cbn [bind] in Ev.
        apply bind_Some_inv in Ev as (y & Ey & Ev). apply bind_Some_inv in Ev as (t & Et & Ev). apply bind_Some_inv in Et as (g & Eg & Et).
        injection Ev as <-. injection Et as <-. exists y. split.
        * rewrite <- Ey. symmetry. unfold fel. rewrite O5 by (cbn; intuition congruence). rewrite O4 by (cbn; intuition congruence).
          rewrite (proj1 O3) by (cbn; intuition congruence). rewrite (proj1 O2) by (cbn; intuition congruence). apply (proj1 O1). cbn. intuition congruence.
        * unfold fel. rewrite Lv. do 3 f_equal. unfold fel in Eg. unfold box in Eg. rewrite (number_addr x bx by_ bz l Hl) in Eg.
          fold N in Eg. fold (fel (mkFa x [(0, N - 1)]) [number bx by_ l] m5) in Eg. rewrite (VX _ (number_range bx by_ bz l Hl)) in Eg. congruence.
      + intros l l' Hl Hl'. destruct (V4 l l' Hl Hl') as [W1 W2].
        pose proof (CA _ _ (number_range bx by_ bz l Hl) (number_range bx by_ bz l' Hl')) as CC. split.
        * intros s Hs D. specialize (W1 s Hs (displaced_ints m m3 _ _ _ _ _ I3 D)). rewrite <- CC, W1. symmetry. unfold fel. rewrite (proj1 O3) by (cbn; intuition congruence).
          destruct (V2 (s :: l)) as (v & Ev & Lv); [constructor; assumption|]. cbn [hd tl] in Ev. fold (fel (mkFa bst ((0, n - 1) :: box)) (s :: l) m2).
          change [(0, n - 1); (0, bx - 1); (0, by_ - 1); (0, bz - 1)] with ((0, n - 1) :: box).
          unfold fel in Lv. unfold fel. rewrite Lv. rewrite <- Ev. unfold fel. apply (proj1 O1). cbn. intuition congruence.
        * intros Hno. assert (Hno3 : forall s, 0 <= s <= n - 1 -> ~ displaced_cell m3 tab 0 s l l').
          { intros s Hs D. apply (Hno s Hs). eapply displaced_ints; try eassumption. congruence. }
          specialize (W2 Hno3). unfold fval. rewrite W2.
          destruct (V3 [number bx by_ l; number bx by_ l']) as (v & Ev & Lv).
          { apply in_square; apply (number_range bx by_ bz); assumption. }
          rewrite Lv. unfold fsc in Ev. congruence.
      + intros SC Nsg l Hl. rewrite (Sol SC Nsg _ (number_range bx by_ bz l Hl)). unfold fval, fel. unfold box at 1. rewrite (number_addr br bx by_ bz l Hl). reflexivity.
  Qed.
End BlockJacobi.
