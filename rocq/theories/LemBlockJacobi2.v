(** * Block Jacobi: the subroutine *)

From Coq Require Import Field.
From Verif Require Import Base FortranBase FortranLoops FortranSmooth FortranBlock SpecIter LemBase LemDomain LemAssign LemField LemKernel LemKernel2 LemStencil LemSafe
  SpecRow LemSum SpecSmooth SpecBlock SpecBlockJacobi LemFortran LemSmooth LemCells LemSmoothers LemLocal LemMatrixBlock LemSmoothFinal LemAdjust LemDense LemFixedStencil LemBlockJacobi.
Import ListNotations.
Open Scope Z_scope.

Section BlockJacobi.
  Context {S : Scalar} (L : field_laws S).
  Add Field BJField : (s_field S L) (morphism (lit_morph S L), constants [lit_cst]).

  (** ** The residual *)

  Definition row_subtract' (n : Z) (tab st u r : farray) (c : list Z) : mem S -> option (mem S) :=
    do_ 0 (n - 1) (fun s => fcol 3 0 tab s (fun o => fset r c (fop ssub (fel r c) (fop smul (fel st (s :: c)) (fel u (shift c o)))))).
  Definition residual_step (n : Z) (tab st f u r : farray) (c : list Z) : mem S -> option (mem S) :=
    fseq (fset r c (fel f c)) (row_subtract' n tab st u r c).

  Lemma residual_inv n tab st f u r bs (m m' : mem S) :
    length bs = 3%nat -> fst (fa_ptr r) <> fst (fa_ptr st) -> fst (fa_ptr r) <> fst (fa_ptr u) -> fst (fa_ptr r) <> fst (fa_ptr f) ->
    (forall c, in_box bs c -> in_box (fa_dims r) c) ->
    forM (box_cells bs) (residual_step n tab st f u r) m = Some m' ->
    same_off (fst (fa_ptr r)) m m' /\
    forall c, in_box bs c -> exists b d, fel f c m = Some b /\ row_sum m tab st 0 0 (n - 1) c (fun c' => fel u c' m) d /\ fel r c m' = Some (b - d)%T.
  Proof.
    intros H3 Ars Aru Arf Hr E. pose proof (box_cells_in bs) as Hc.
    set (step := fun c s (t : S) => fcol 3 0 tab s (fun o => fop ssub (fsc t) (fop smul (fel st (s :: c)) (fel u (shift c o))))) in *.
    assert (Bl : forall c s t, blind (fst (fa_ptr r)) (step c s t)).
    { intros c s t ma mb O. apply (blind_fcol (fst (fa_ptr r))); [|exact O]. intros os mc md O'.
      revert O'. apply (blind_fop (fst (fa_ptr r))); [apply blind_fsc|apply blind_fop; apply blind_fel; congruence]. }
    rewrite (forM_ext_in _ _ (fun c m => v <- facc 0 (n - 1) (fel f c) (step c) m ;; store m (faddr r c) v)) in E.
    2:{ intros c m1 _. unfold residual_step, row_subtract'. rewrite (acc_put r c 0 (n - 1) (fel f c) _ (step c)); [reflexivity| |].
        - intros s m2. apply fcol_put.
        - intros s t. apply Bl. }
    apply (forM_put (box_cells bs) (faddr r) (fun c => facc 0 (n - 1) (fel f c) (step c)) (fst (fa_ptr r))) in E.
    2: apply box_cells_nodup.
    2:{ intros x y Hx Hy. destruct r as [p ds]. apply faddr_inj; apply Hr, Hc; assumption. }
    2:{ reflexivity. }
    2:{ intros c _. apply blind_facc; [apply blind_fel; congruence|intros; apply Bl]. }
    destruct E as (O & V & _). split; [exact O|]. intros c Hin. pose proof (in_box_len _ _ Hin) as Hl. apply Hc in Hin. destruct (V c Hin) as (v & Ev & Lv).
    apply (facc_row L m tab st 0 0 (n - 1) c (fun c' => fel u c' m) (lit (-1))) in Ev.
    2:{ intros s t t' Hs H. unfold step in H. apply fcol_inv in H as (os & Hos & Ho & H). unfold fop, fsc in H. cbn [bind] in H.
        apply bind_Some_inv in H as (z & Hz & H). apply bind_Some_inv in Hz as (cf & Ecf & Hz). apply bind_Some_inv in Hz as (x & Ex & Hz).
        injection Hz as <-. injection H as <-. exists cf, x. split; [|ring]. split; [exact Ecf|]. exists (shift c os). split; [|exact Ex].
        split; [apply shift_length; congruence|]. intros j Hj. rewrite shift_nth by congruence. rewrite (Ho j) by lia. f_equal. ring. }
    destruct Ev as (b & d & Eb & Hd & ->). exists b, d. split; [exact Eb|]. split; [exact Hd|]. unfold fel. rewrite Lv. f_equal. ring.
  Qed.

  (** ** Blocks *)

  Lemma starts_apart first last size i i' d d' : 1 <= size -> starts first last size i -> starts first last size i' ->
    0 <= d <= size - 1 -> 0 <= d' <= size - 1 -> i + d = i' + d' -> i = i'.
  Proof. intros Hs (k & Hk & -> & _) (k' & Hk' & -> & _) Hd Hd' E. assert (k = k') by nia. congruence. Qed.

  Lemma inside_shift i j k bx by_ bz l : length l = 3%nat -> inside (block_at [i; j; k] [bx; by_; bz]) (shift [i; j; k] l) = inside (block_box bx by_ bz) l.
  Proof.
    intros Hl. apply eq_iff_eq_true. rewrite !inside_spec, block_at_in. split.
    - intros (l' & Hl' & E). apply shift_inj in E; [subst; exact Hl'|cbn; lia|]. exact (eq_sym (in_box_len _ _ Hl')).
    - intros H. exists l. auto.
  Qed.

  Definition unshift (c0 c : list Z) : list Z := shift (map Z.opp c0) c.
  Lemma unshift_shift c0 l : length l = length c0 -> unshift c0 (shift c0 l) = l.
  Proof.
    unfold unshift. revert l. induction c0 as [|i c0 IH]; intros [|x l] H; cbn in *; try discriminate; [reflexivity|]. f_equal; [lia|]. apply IH. lia.
  Qed.

  (** The displacement of column [s]. *)
  Definition column (m : mem S) (tab : farray) (s : Z) : list Z :=
    map (fun k => match loadi m (faddr tab [k; s]) with Some o => o | None => 0 end) [0; 1; 2].

  Lemma column_displaces m tab s c c' : length c = 3%nat -> displaced_cell m tab 0 s c c' ->
    forall l, length l = 3%nat -> displaced_cell m tab 0 s l (shift l (column m tab s)).
  Proof.
    intros Hc [Hl' D] l Hl. split; [apply shift_length; symmetry; exact Hl|]. intros k Hk. rewrite shift_nth by (try assumption; symmetry; exact Hl).
    assert (K : (k < length c)%nat) by lia. specialize (D k K). rewrite Z.add_0_l in *. unfold column.
    assert (k = 0 \/ k = 1 \/ k = 2)%nat as [-> | [-> | ->]] by lia; cbn [map nth Z.of_nat Pos.of_succ_nat Pos.succ] in *; rewrite D; f_equal; ring.
  Qed.

  Lemma shift_assoc c0 l o : length l = length c0 -> length o = length c0 -> shift (shift c0 l) o = shift c0 (shift l o).
  Proof.
    revert l o. induction c0 as [|i c0 IH]; intros [|x l] [|y o] Hl Ho; cbn in *; try discriminate; [reflexivity|]. f_equal; [lia|]. apply IH; lia.
  Qed.

  (** ** Integers are not written *)

  Lemma fseq_ints (s t : mem S -> option (mem S)) z :
    keeps (fun m => ints m = z) s -> keeps (fun m => ints m = z) t -> keeps (fun m => ints m = z) (fseq s t).
  Proof. intros Hs Ht m m' H E. unfold fseq in E. apply bind_Some_inv in E as (m1 & E1 & E). exact (Ht _ _ (Hs _ _ H E1) E). Qed.
  Lemma fint_ints a is (k : Z -> mem S -> option (mem S)) z : (forall v, keeps (fun m => ints m = z) (k v)) -> keeps (fun m => ints m = z) (fint a is k).
  Proof. intros Hk m m' H E. unfold fint in E. apply bind_Some_inv in E as (v & _ & E). exact (Hk v _ _ H E). Qed.
  Lemma fint_read a is (k : Z -> mem S -> option (mem S)) (m m1 : mem S) v : ints m1 = ints m -> loadi m (faddr a is) = Some v -> fint a is k m1 = k v m1.
  Proof. intros I H. unfold fint. replace (loadi m1 (faddr a is)) with (loadi m (faddr a is)); [rewrite H; reflexivity|]. unfold loadi. rewrite I. reflexivity. Qed.
  Lemma fcheck_ints (a : farray) is z : keeps (fun m : mem S => ints m = z) (fcheck a is).
  Proof. intros m m' H E. unfold fcheck in E. apply bind_Some_inv in E as (v & _ & E). congruence. Qed.
  Lemma bind_ints (s t : mem S -> option (mem S)) z :
    keeps (fun m => ints m = z) s -> keeps (fun m => ints m = z) t -> keeps (fun m => ints m = z) (fun m => m1 <- s m ;; t m1).
  Proof. exact (fseq_ints s t z). Qed.

  Lemma apply_ints (la : lapack S) A x b n z : keeps (fun m => ints m = z) (apply la A x b n).
  Proof.
    intros m m' H E. unfold apply, dgetrf in E. apply bind_Some_inv in E as (m1 & E1 & E). apply bind_Some_inv in E as (m2 & E2 & E).
    assert (I1 : ints m1 = z) by (refine (do_keeps (fun m0 => ints m0 = z) _ _ _ _ _ _ H E1); intros; apply do_keeps; intros; apply fcheck_ints).
    assert (I2 : ints m2 = z) by (refine (do_keeps (fun m0 => ints m0 = z) _ _ _ _ _ _ I1 E2); intros; apply do_keeps; intros; apply fset_ints).
    refine (fseq_ints _ _ z _ _ _ _ I2 E); [apply do_keeps; intros; apply fset_ints|]. clear. intros m m' H E. unfold dgetrs in E.
    apply bind_Some_inv in E as (m3 & E1 & E). apply bind_Some_inv in E as (m4 & E2 & E).
    assert (I1 : ints m3 = z) by (refine (do_keeps (fun m0 => ints m0 = z) _ _ _ _ _ _ H E1); intros; apply do_keeps; intros; apply fcheck_ints).
    assert (I2 : ints m4 = z) by (refine (do_keeps (fun m0 => ints m0 = z) _ _ _ _ _ _ I1 E2); intros; apply fcheck_ints).
    refine (do_keeps (fun m0 => ints m0 = z) _ _ _ _ _ _ I2 E). intros. apply fset_ints.
  Qed.

  Lemma creatematrix_ints A n st offset bx by_ bz z : keeps (fun m : mem S => ints m = z) (creatematrix A n st offset bx by_ bz).
  Proof.
    unfold creatematrix. cbv zeta. apply do_keeps; intros k _. apply do_keeps; intros j _. apply do_keeps; intros i _. apply fseq_ints; [apply fset_ints|].
    apply do_keeps; intros s _. apply fint_ints; intros io. apply fint_ints; intros jo. apply fint_ints; intros ko. unfold fif.
    destruct (_ && _)%bool; [apply fset_ints|]. intros m m' H E. injection E as <-. exact H.
  Qed.

  Lemma block_step_ints (la : lapack S) n bx by_ bz offset st u r A br x bst w c0 z : keeps (fun m => ints m = z) (block_step la n bx by_ bz offset st u r A br x bst w c0).
  Proof.
    unfold block_step. cbv zeta.
    repeat first [apply creatematrix_ints | apply apply_ints | apply fseq_ints | apply forM_keeps; intros; apply fset_ints].
  Qed.

  Lemma bind_ext2 {X Y} (a b : option X) (f g : X -> option Y) : a = b -> (forall x, f x = g x) -> bind a f = bind b g.
  Proof. intros -> H. destruct b; [apply H|reflexivity]. Qed.

  Lemma block_step_eq (la : lapack S) n bx by_ bz offset st u r A br x bst w i j k (m : mem S) :
    (let N := bx * by_ * bz in
     let BR := mkFa br [(0, bx - 1); (0, by_ - 1); (0, bz - 1)] in
     let BS := mkFa bst [(0, n - 1); (0, bx - 1); (0, by_ - 1); (0, bz - 1)] in
     let X := mkFa x [(0, bx - 1); (0, by_ - 1); (0, bz - 1)] in
     fseq (do_ 0 (bz - 1) (fun lz => do_ 0 (by_ - 1) (fun ly => do_ 0 (bx - 1) (fun lx => fset BR [lx; ly; lz] (fel r [i + lx; j + ly; k + lz])))))
     (fseq (do_ 0 (bz - 1) (fun lz => do_ 0 (by_ - 1) (fun ly => do_ 0 (bx - 1) (fun lx => do_ 0 (n - 1) (fun s => fset BS [s; lx; ly; lz] (fel st [s; i + lx; j + ly; k + lz]))))))
     (fseq (do_ 0 (N - 1) (fun q => do_ 0 (N - 1) (fun p => fset (mkFa A [(0, N - 1); (0, N - 1)]) [p; q] (fsc (lit 0)))))
     (fseq (creatematrix A n bst offset bx by_ bz)
     (fseq (apply la A x br N)
     (do_ 0 (bz - 1) (fun lz => do_ 0 (by_ - 1) (fun ly => do_ 0 (bx - 1) (fun lx => fset u [i + lx; j + ly; k + lz]
        (fop sadd (fel u [i + lx; j + ly; k + lz]) (fop smul (fsc w) (fel X [lx; ly; lz])))))))))))) m =
    block_step la n bx by_ bz offset st u r A br x bst w [i; j; k] m.
  Proof.
    cbv zeta. unfold block_step, block_box. cbv zeta. unfold fseq.
    apply bind_ext2; [rewrite <- do3_cells; reflexivity|intros m1].
    apply bind_ext2; [rewrite <- do4_cells; reflexivity|intros m2].
    apply bind_ext2; [rewrite <- do2_cells; reflexivity|intros m3].
    apply bind_ext2; [reflexivity|intros m4]. apply bind_ext2; [reflexivity|intros m5]. rewrite <- do3_cells. reflexivity.
  Qed.

  (** ** The subroutine *)

  Definition corners (lo0 lo1 lo2 bx by_ bz dx0 dx1 dy0 dy1 dz0 dz1 : Z) : list (list Z) :=
    rows_of (fun _ => steps (lo0 + dx0) (lo0 + dx1) bx) (rows_of (fun _ => steps (lo1 + dy0) (lo1 + dy1) by_) (rows_of (fun _ => steps (lo2 + dz0) (lo2 + dz1) bz) [[]])).

  (** First the residual, then the blocks. *)
  Lemma cellblockjacobi3d_phases : forall (la : lapack S) lo0 hi0 lo1 hi1 lo2 hi2 n offset st flo0 fhi0 flo1 fhi1 flo2 fhi2 f ulo0 uhi0 ulo1 uhi1 ulo2 uhi2 u
      dispX numX bx dispY numY by_ dispZ numZ bz r A br x bst (w : S) dx0 dx1 dy0 dy1 dz0 dz1 (m : mem S),
    loadi m (faddr (mkFa dispX [(0, numX - 1)]) [0]) = Some dx0 -> loadi m (faddr (mkFa dispX [(0, numX - 1)]) [numX - 1]) = Some dx1 ->
    loadi m (faddr (mkFa dispY [(0, numY - 1)]) [0]) = Some dy0 -> loadi m (faddr (mkFa dispY [(0, numY - 1)]) [numY - 1]) = Some dy1 ->
    loadi m (faddr (mkFa dispZ [(0, numZ - 1)]) [0]) = Some dz0 -> loadi m (faddr (mkFa dispZ [(0, numZ - 1)]) [numZ - 1]) = Some dz1 ->
    cellblockjacobi3d la lo0 hi0 lo1 hi1 lo2 hi2 n offset st flo0 fhi0 flo1 fhi1 flo2 fhi2 f ulo0 uhi0 ulo1 uhi1 ulo2 uhi2 u
      dispX numX bx dispY numY by_ dispZ numZ bz r A br x bst w m =
    bind (forM (box_cells [(lo0, hi0); (lo1, hi1); (lo2, hi2)]) (residual_step n (mkFa offset [(0, 2); (0, n - 1)]) (mkFa st ((0, n - 1) :: CELL3d lo0 lo1 lo2 hi0 hi1 hi2 0))
        (mkFa f (CELL3d flo0 flo1 flo2 fhi0 fhi1 fhi2 0)) (mkFa u (CELL3d ulo0 ulo1 ulo2 uhi0 uhi1 uhi2 0)) (mkFa r (CELL3d lo0 lo1 lo2 hi0 hi1 hi2 0))) m)
      (forM (corners lo0 lo1 lo2 bx by_ bz dx0 dx1 dy0 dy1 dz0 dz1)
        (block_step la n bx by_ bz offset (mkFa st ((0, n - 1) :: CELL3d lo0 lo1 lo2 hi0 hi1 hi2 0)) (mkFa u (CELL3d ulo0 ulo1 ulo2 uhi0 uhi1 uhi2 0))
          (mkFa r (CELL3d lo0 lo1 lo2 hi0 hi1 hi2 0)) A br x bst w)).
  Proof.
    intros la lo0 hi0 lo1 hi1 lo2 hi2 n offset st flo0 fhi0 flo1 fhi1 flo2 fhi2 f ulo0 uhi0 ulo1 uhi1 ulo2 uhi2 u
      dispX numX bx dispY numY by_ dispZ numZ bz r A br x bst w dx0 dx1 dy0 dy1 dz0 dz1 m LX0 LX1 LY0 LY1 LZ0 LZ1.
    set (ST := mkFa st _). set (FF := mkFa f _). set (U := mkFa u _). set (R := mkFa r _). set (tab := mkFa offset _).
    set (res := forM (box_cells _) (residual_step n tab ST FF U R) m). unfold cellblockjacobi3d. cbv zeta. unfold fseq at 1.
    assert (Eres : res = do_ lo2 hi2 (fun k => do_ lo1 hi1 (fun j => do_ lo0 hi0 (fun i => residual_step n tab ST FF U R [i; j; k]))) m)
      by (unfold res; rewrite <- do3_cells; reflexivity).
    etransitivity; [|apply (f_equal (fun o => bind o _)); symmetry; exact Eres].
    apply bind_ext. intros mr Er.
    assert (Ir : ints mr = ints m).
    { refine (do_keeps (fun m0 => ints m0 = ints m) _ _ _ _ m mr eq_refl Er). intros. apply do_keeps. intros. apply do_keeps. intros. apply fseq_ints; [apply fset_ints|].
      apply do_keeps. intros. apply fint_ints. intros. apply fint_ints. intros. apply fint_ints. intros. apply fset_ints. }
    clear Er Eres res. unfold corners. rewrite !forM_rows. cbn [forM].
    rewrite (fint_read _ _ _ m _ _ Ir LZ0).
    rewrite (fint_read _ _ _ m _ _ Ir LZ1).
    rewrite bind_id. apply (do_step_ext_keeps (fun m1 => ints m1 = ints m)); [| |exact Ir].
    2:{ intros k. apply do_step_keeps. intros j. apply do_step_keeps. intros i. apply block_step_ints. }
    intros k m1 I1.
    rewrite (fint_read _ _ _ m _ _ I1 LY0).
    rewrite (fint_read _ _ _ m _ _ I1 LY1).
    apply (do_step_ext_keeps (fun m1 => ints m1 = ints m)); [| |exact I1].
    2:{ intros j. apply do_step_keeps. intros i. apply block_step_ints. }
    intros j m2 I2.
    rewrite (fint_read _ _ _ m _ _ I2 LX0).
    rewrite (fint_read _ _ _ m _ _ I2 LX1).
    apply (do_step_ext_keeps (fun _ => True)); [|intros i ? ? _ _; exact I|exact I].
    intros i m3 _. apply block_step_eq.
  Qed.

  Lemma cellblockjacobi3d_relaxed : forall (la : lapack S) lo0 hi0 lo1 hi1 lo2 hi2 n offset st flo0 fhi0 flo1 fhi1 flo2 fhi2 f ulo0 uhi0 ulo1 uhi1 ulo2 uhi2 u
      dispX numX bx dispY numY by_ dispZ numZ bz r A br x bst (w : S) dx0 dx1 dy0 dy1 dz0 dz1 (m m' : mem S),
    let tab := mkFa offset [(0, 2); (0, n - 1)] in
    let ST := mkFa st ((0, n - 1) :: CELL3d lo0 lo1 lo2 hi0 hi1 hi2 0) in
    let U := mkFa u (CELL3d ulo0 ulo1 ulo2 uhi0 uhi1 uhi2 0) in
    let first := fun c0 => exists i j k, c0 = [i; j; k] /\ starts (lo0 + dx0) (lo0 + dx1) bx i /\ starts (lo1 + dy0) (lo1 + dy1) by_ j /\ starts (lo2 + dz0) (lo2 + dz1) bz k in
    1 <= n -> 1 <= bx -> 1 <= by_ -> 1 <= bz ->
    NoDup [fst A; fst br; fst x; fst bst; fst u; fst r] ->
    ~ In (fst st) [fst A; fst br; fst x; fst bst; fst u; fst r] -> ~ In (fst f) [fst A; fst br; fst x; fst bst; fst u; fst r] ->
    loadi m (faddr (mkFa dispX [(0, numX - 1)]) [0]) = Some dx0 -> loadi m (faddr (mkFa dispX [(0, numX - 1)]) [numX - 1]) = Some dx1 ->
    loadi m (faddr (mkFa dispY [(0, numY - 1)]) [0]) = Some dy0 -> loadi m (faddr (mkFa dispY [(0, numY - 1)]) [numY - 1]) = Some dy1 ->
    loadi m (faddr (mkFa dispZ [(0, numZ - 1)]) [0]) = Some dz0 -> loadi m (faddr (mkFa dispZ [(0, numZ - 1)]) [numZ - 1]) = Some dz1 ->
    columns_distinct m tab n [(0, bx - 1); (0, by_ - 1); (0, bz - 1)] ->
    leads_out m tab n [(0, bx - 1); (0, by_ - 1); (0, bz - 1)] ->
    (forall c0 c, first c0 -> in_box (block_at c0 [bx; by_; bz]) c -> in_box [(lo0, hi0); (lo1, hi1); (lo2, hi2)] c /\ in_box (fa_dims U) c) ->
    solver_correct la (bx * by_ * bz) ->
    (forall c0, first c0 -> regular_block m tab ST n (block_at c0 [bx; by_; bz])) ->
    cellblockjacobi3d la lo0 hi0 lo1 hi1 lo2 hi2 n offset st flo0 fhi0 flo1 fhi1 flo2 fhi2 f ulo0 uhi0 ulo1 uhi1 ulo2 uhi2 u
      dispX numX bx dispY numY by_ dispZ numZ bz r A br x bst w m = Some m' ->
    block_relaxed m m' tab ST n w (mkFa f (CELL3d flo0 flo1 flo2 fhi0 fhi1 fhi2 0)) U [fst r; fst A; fst br; fst x; fst bst] first [bx; by_; bz].
  Proof.
    intros la lo0 hi0 lo1 hi1 lo2 hi2 n offset st flo0 fhi0 flo1 fhi1 flo2 fhi2 f ulo0 uhi0 ulo1 uhi1 ulo2 uhi2 u
      dispX numX bx dispY numY by_ dispZ numZ bz r A br x bst w dx0 dx1 dy0 dy1 dz0 dz1 m m' tab ST U first
      Hn Hx Hy Hz ND Nst Nf LX0 LX1 LY0 LY1 LZ0 LZ1 CD LO Hin SC Reg E.
    set (FF := mkFa f (CELL3d flo0 flo1 flo2 fhi0 fhi1 fhi2 0)). set (R := mkFa r (CELL3d lo0 lo1 lo2 hi0 hi1 hi2 0)).
    set (box := block_box bx by_ bz). change [(0, bx - 1); (0, by_ - 1); (0, bz - 1)] with box in CD, LO.
    rewrite (cellblockjacobi3d_phases la lo0 hi0 lo1 hi1 lo2 hi2 n offset st flo0 fhi0 flo1 fhi1 flo2 fhi2 f ulo0 uhi0 ulo1 uhi1 ulo2 uhi2 u
      dispX numX bx dispY numY by_ dispZ numZ bz r A br x bst w dx0 dx1 dy0 dy1 dz0 dz1 m LX0 LX1 LY0 LY1 LZ0 LZ1) in E.
    apply bind_Some_inv in E as (mr & E1 & E).
    assert (RES : same_off (fst r) m mr /\ forall c, in_box [(lo0, hi0); (lo1, hi1); (lo2, hi2)] c -> exists b d, fel FF c m = Some b /\
      row_sum m tab ST 0 0 (n - 1) c (fun c' => fel U c' m) d /\ fel R c mr = Some (b - d)%T).
    { apply (residual_inv n tab ST FF U R [(lo0, hi0); (lo1, hi1); (lo2, hi2)] m mr).
      - reflexivity.
      - cbn. cbn in Nst. intuition congruence.
      - cbn. inversion_clear ND as [|? ? ? N1]. inversion_clear N1 as [|? ? ? N2]. inversion_clear N2 as [|? ? ? N3]. inversion_clear N3 as [|? ? ? N4].
        inversion_clear N4 as [|? ? N5 _]. cbn in N5. intuition congruence.
      - cbn. cbn in Nf. intuition congruence.
      - intros c H. unfold R, CELL3d. cbn [fa_dims]. rewrite !Z.sub_0_r, !Z.add_0_r. exact H.
      - exact E1. }
    clear E1. destruct RES as [Or VR].
    (* the loop over the blocks *)
    set (bstep := block_step la n bx by_ bz offset ST U R A br x bst w).
    set (cs := corners lo0 lo1 lo2 bx by_ bz dx0 dx1 dy0 dy1 dz0 dz1).
    assert (Hcs : forall c0, In c0 cs <-> first c0).
    { intros c0. unfold cs, corners, first. rewrite rows_of_in. split.
      - intros (i & t & -> & Ht & Hi). apply rows_of_in in Ht as (j & t' & -> & Ht & Hj). apply rows_of_in in Ht as (k & t'' & -> & Ht & Hk). destruct Ht as [<-|[]].
        exists i, j, k. rewrite <- !steps_in by assumption. auto.
      - intros (i & j & k & -> & Hi & Hj & Hk). exists i, [j; k]. split; [reflexivity|]. split; [|apply steps_in; assumption].
        apply rows_of_in. exists j, [k]. split; [reflexivity|]. split; [|apply steps_in; assumption].
        apply rows_of_in. exists k, []. split; [reflexivity|]. split; [left; reflexivity|apply steps_in; assumption]. }
    assert (Ncs : NoDup cs).
    { unfold cs, corners. repeat (apply rows_of_nodup; [|intros; apply steps_nodup; assumption]). constructor; [intros []|constructor]. }
    assert (Ir : ints mr = ints m) by exact (proj2 Or).
    rename E into E2. fold cs in E2.
    assert (L3 : forall l, in_box box l -> length l = 3%nat) by (intros l Hl; exact (eq_sym (in_box_len _ _ Hl))).
    assert (F3 : forall c0, first c0 -> length c0 = 3%nat) by (intros c0 (i & j & k & -> & _); reflexivity).
    assert (U0 : forall c0 l, first c0 -> in_box box l -> in_box (fa_dims U) (shift c0 l) /\ in_box [(lo0, hi0); (lo1, hi1); (lo2, hi2)] (shift c0 l)).
    { intros c0 l F0 Hl. pose proof F0 as (i & j & k & -> & _). destruct (Hin _ (shift [i; j; k] l) F0) as [H1 H2]; [apply block_at_in; exists l; auto|auto]. }
    assert (CDm : forall m1 : mem S, ints m1 = ints m -> columns_distinct m1 tab n box).
    { intros m1 I1 c Hc. destruct (CD c Hc) as [D0 DD]. split; [exact (displaced_ints m m1 _ _ _ _ _ I1 D0)|].
      intros s s' c' Hs Hs' D D'. apply (DD s s' c' Hs Hs'); eapply displaced_ints; try eassumption; congruence. }
    assert (LOm : forall m1 : mem S, ints m1 = ints m -> leads_out m1 tab n box).
    { intros m1 I1 c c' Hc D. apply (LO c c' Hc). eapply displaced_ints; try eassumption; congruence. }
    assert (INV : forall c0 (m1 m2 : mem S), first c0 -> ints m1 = ints m -> bstep c0 m1 = Some m2 -> _) by
      exact (fun c0 m1 m2 F0 I1 E => block_step_inv la n bx by_ bz offset ST U R A br x bst w c0 m1 m2 Hn Hx Hy (F3 c0 F0) ND
        (fun H => Nst ltac:(cbn in H |- *; tauto)) (CDm m1 I1) (LOm m1 I1) (fun l Hl => proj1 (U0 c0 l F0 Hl)) E).
    cbv zeta in INV. fold box tab in INV.
    assert (APART : forall c0 c1 l l', first c0 -> first c1 -> in_box box l -> in_box box l' -> shift c0 l = shift c1 l' -> c0 = c1).
    { intros c0 c1 l l' (i & j & k & -> & Si & Sj & Sk) (i' & j' & k' & -> & Si' & Sj' & Sk') Hl Hl'.
      pose proof (box3 _ _ _ _ Hl) as B. pose proof (box3 _ _ _ _ Hl') as B'. rewrite B in Hl |- *. rewrite B' in Hl' |- *. clear B B'.
      apply in_block in Hl as (A1 & A2 & A3), Hl' as (B1 & B2 & B3). cbn [shift]. intros Eq. injection Eq as Q1 Q2 Q3.
      rewrite (starts_apart _ _ _ _ _ _ _ Hx Si Si' A1 B1 Q1), (starts_apart _ _ _ _ _ _ _ Hy Sj Sj' A2 B2 Q2), (starts_apart _ _ _ _ _ _ _ Hz Sk Sk' A3 B3 Q3). reflexivity. }
    set (scratch := [fst A; fst br; fst x; fst bst]) in *.
    assert (Us : ~ In (fst u) scratch).
    { clear - ND. unfold scratch. cbn. repeat match goal with H : NoDup (_ :: _) |- _ => inversion_clear H end. cbn in *. intuition congruence. }
    assert (Rs : ~ In (fst r) scratch /\ fst r <> fst u).
    { clear - ND. unfold scratch. cbn. repeat match goal with H : NoDup (_ :: _) |- _ => inversion_clear H end. cbn in *. intuition congruence. }
    set (W := fun c0 q => (exists l, in_box box l /\ faddr U (shift c0 l) = q) \/ In (fst q) scratch).
    set (Fr := fun c0 (q : ptr) => (exists l, in_box box l /\ faddr U (shift c0 l) = q) \/ (fst q <> fst u /\ ~ In (fst q) scratch)).
    apply (forM_local_inv cs bstep W Fr (fun m1 => ints m1 = ints m)) in E2.
    2: exact Ncs. 2: exact Ir.
    2:{ intros c0 m1 m2 H0 I1 E1. apply Hcs in H0. destruct (INV c0 m1 m2 H0 I1 E1) as (I2 & F2 & _). split; [congruence|].
        intros q Hq. apply F2.
        - intros l Hl Eq. apply Hq. left. eauto.
        - intros H. apply Hq. right. exact H. }
    2:{ intros c0 c1 q H0 H1 Ne HF HW. apply Hcs in H0, H1. destruct HF as [(l & Hl & <-)|[Q1 Q2]], HW as [(l' & Hl' & Eq)|HW].
        - apply Ne. apply (APART c0 c1 l l'); auto. destruct U as [pu du]. symmetry. apply faddr_inj in Eq; [exact Eq| |]; apply U0; assumption.
        - exact (Us HW).
        - apply Q1. rewrite <- Eq. reflexivity.
        - exact (Q2 HW). }
    destruct E2 as (FRAME & I' & BLK). split; [|split; [|exact I']].
    2:{ intros q Hq Hloc. cbn [In] in Hloc. rewrite FRAME.
        - apply (proj1 Or). intuition congruence.
        - intros c0 H0 [(l & Hl & Eq)|HW]; [|apply Hloc; right; exact HW]. apply Hcs in H0. pose proof H0 as (i & j & k & E0 & _). subst c0.
          apply (Hq [i; j; k] (shift [i; j; k] l) H0); [apply block_at_in; exists l; auto|exact Eq]. }
    intros c0 c F0 Hc. pose proof F0 as (i & j & k & E0 & _). destruct (BLK c0 (proj2 (Hcs c0) F0)) as (m1 & m2 & E & I1 & A1 & A2).
    destruct (INV c0 m1 m2 F0 I1 E) as (_ & _ & M & X & rv & VAL & MAT & SOL). clear E.
    subst c0. set (c0 := [i; j; k]) in *.
    (* what the block read *)
    assert (ldST : forall is, fel ST is m1 = fel ST is m).
    { intros is. unfold fel. rewrite A1.
      - apply (proj1 Or). cbn. cbn in Nst. intuition congruence.
      - right. cbn. cbn in Nst. unfold scratch. cbn. intuition congruence. }
    assert (ldR : forall c, fel R c m1 = fel R c mr).
    { intros c1. unfold fel. apply A1. right. cbn [fst faddr fa_ptr R]. tauto. }
    assert (ldU : forall l, in_box box l -> fel U (shift c0 l) m1 = fel U (shift c0 l) m /\ fel U (shift c0 l) m' = fel U (shift c0 l) m2).
    { intros l Hl. unfold fel. split; [|apply A2; left; eauto]. rewrite A1 by (left; eauto). apply (proj1 Or). cbn. apply not_eq_sym. tauto. }
    assert (HM : forall l l', in_box box l -> in_box box l' ->
      (forall s, 0 <= s <= n - 1 -> displaced_cell m tab 0 s l l' -> fel ST (s :: shift c0 l) m = Some (M (number bx by_ l) (number bx by_ l'))) /\
      ((forall s, 0 <= s <= n - 1 -> ~ displaced_cell m tab 0 s l l') -> M (number bx by_ l) (number bx by_ l') = lit 0)).
    { intros l l' Hl Hl'. destruct (MAT l l' Hl Hl') as [W1 W2]. split.
      - intros s Hs D. rewrite <- ldST. apply (W1 s Hs). exact (displaced_ints m m1 _ _ _ _ _ I1 D).
      - intros N. apply W2. intros s Hs D. apply (N s Hs). eapply displaced_ints; try eassumption; congruence. }
    (* the rows *)
    assert (ROW : forall l, in_box box l -> exists b d cf, fel FF (shift c0 l) m = Some b /\ row_sum m tab ST 0 0 (n - 1) (shift c0 l) (fun c' => fel U c' m) d /\
      rv l = (b - d)%T /\
      (forall s, 0 <= s <= n - 1 -> fel ST (s :: shift c0 l) m = Some (cf s) /\ displaced_cell m tab 0 s l (shift l (column m tab s)) /\
         displaced_cell m tab 0 s (shift c0 l) (shift c0 (shift l (column m tab s)))) /\
      forall Y, total 0 (bx * by_ * bz - 1) (fun j => M (number bx by_ l) j * Y j)%T =
        total 0 (n - 1) (fun s => cf s * (if inside box (shift l (column m tab s)) then Y (number bx by_ (shift l (column m tab s))) else lit 0))%T).
    { intros l Hl. destruct (VR (shift c0 l)) as (b & d & Eb & Hd & Er); [apply U0; assumption|]. pose proof Hd as (cf & xx & T & _).
      exists b, d, cf. split; [exact Eb|]. split; [exact Hd|]. destruct (VAL l Hl) as (Ev & _). rewrite ldR, Er in Ev. split; [congruence|].
      assert (G : forall s, 0 <= s <= n - 1 -> fel ST (s :: shift c0 l) m = Some (cf s) /\ displaced_cell m tab 0 s l (shift l (column m tab s)) /\
         displaced_cell m tab 0 s (shift c0 l) (shift c0 (shift l (column m tab s)))).
      { intros s Hs. destruct (T s Hs) as (Ecf & c' & D & _). split; [exact Ecf|].
        pose proof (L3 l Hl) as Ll. assert (Lc : length (shift c0 l) = 3%nat) by (apply shift_length; rewrite Ll; reflexivity).
        split; [apply (column_displaces m tab s (shift c0 l) c' Lc D l Ll)|]. rewrite <- shift_assoc; [|exact Ll|reflexivity].
        exact (column_displaces m tab s (shift c0 l) c' Lc D (shift c0 l) Lc). }
      split; [exact G|]. intros Y. apply (dense_row L m tab ST n bx by_ bz c0 M l Hx Hy Hl CD (fun l' Hl' => HM l l' Hl Hl') cf (fun s => shift l (column m tab s))).
      intros s Hs. destruct (G s Hs) as (G1 & G2 & _). auto. }
    assert (NS : nonsingular (bx * by_ * bz) M).
    { intros Y HY q Hq. destruct (number_cell bx by_ bz q Hx Hy Hq) as (l0 & Hl0 & <-).
      pose proof (Reg c0 F0 (fun c => Y (number bx by_ (unshift c0 c)))) as RG.
      assert (K : forall l, in_box box l -> unshift c0 (shift c0 l) = l) by (intros l Hl; apply unshift_shift; rewrite (L3 l Hl); reflexivity).
      rewrite <- (K l0 Hl0). apply RG; [|apply block_at_in; exists l0; auto]. clear RG.
      intros c1 H1. apply block_at_in in H1 as (l & Hl & ->). fold c0. destruct (ROW l Hl) as (b & d & cf & _ & _ & _ & G & DR).
      exists cf, (fun s => if inside box (shift l (column m tab s)) then Y (number bx by_ (shift l (column m tab s))) else lit 0). split.
      - intros s Hs. destruct (G s Hs) as (G1 & G2 & G3). split; [exact G1|]. exists (shift c0 (shift l (column m tab s))). split; [exact G3|].
        assert (Ls : length (shift l (column m tab s)) = 3%nat) by (rewrite <- (L3 l Hl); apply (proj1 G2)).
        unfold c0 at 1 2. rewrite inside_shift by exact Ls. fold box. f_equal. rewrite unshift_shift by (rewrite Ls; reflexivity). reflexivity.
      - rewrite <- DR. symmetry. apply HY. apply (number_range bx by_ bz l Hl). }
    (* the block *)
    apply block_at_in in Hc as (l & Hl & ->). fold c0. destruct (ROW l Hl) as (b & d & cf & Eb & Hd & Erv & G & DR).
    exists b, d. split; [exact Eb|]. split; [exact Hd|].
    exists cf, (fun s => if inside box (shift l (column m tab s)) then w * X (number bx by_ (shift l (column m tab s))) else lit 0)%T. split.
    - intros s Hs. destruct (G s Hs) as (G1 & G2 & G3). split; [exact G1|]. exists (shift c0 (shift l (column m tab s))). split; [exact G3|].
      assert (Ls : length (shift l (column m tab s)) = 3%nat) by (rewrite <- (L3 l Hl); apply (proj1 G2)).
      unfold c0 at 1 2. rewrite inside_shift by exact Ls. fold box c0. destruct (inside box (shift l (column m tab s))) eqn:In0; [|reflexivity].
      apply inside_spec in In0. destruct (VAL _ In0) as (_ & y & Ey & Ey'). destruct (ldU _ In0) as [K1 K2]. unfold change. rewrite <- K1, Ey, K2, Ey'. cbn [bind]. f_equal. ring.
    - rewrite <- Erv, <- (SOL SC NS l Hl), DR.
      rewrite <- (total_mul L). apply total_ext. intros s _. destruct (inside box (shift l (column m tab s))); ring.
  Qed.

  (** ** A table without a column behind the last *)

  Lemma block_step_none (la : lapack S) n bx by_ bz offset st u r A br x bst w c0 (m : mem S) tab :
    nth_error (ints m) (fst offset) = Some tab -> Z.of_nat (length tab) = snd offset + 3 * n ->
    1 <= n -> 1 <= bx -> 1 <= by_ -> 1 <= bz ->
    block_step la n bx by_ bz offset st u r A br x bst w c0 m = None.
  Proof.
    intros Ht Hl Hn Hx Hy Hz. destruct (block_step la n bx by_ bz offset st u r A br x bst w c0 m) as [m'|] eqn:E; [|reflexivity]. exfalso.
    unfold block_step in E. cbv zeta in E. unfold fseq in E.
    apply bind_Some_inv in E as (m1 & E1 & E). apply bind_Some_inv in E as (m2 & E2 & E). apply bind_Some_inv in E as (m3 & E3 & E).
    assert (I1 : ints m1 = ints m) by (refine (forM_keeps (fun m0 => ints m0 = ints m) _ _ _ _ _ eq_refl E1); intros; apply fset_ints).
    assert (I2 : ints m2 = ints m) by (refine (forM_keeps (fun m0 => ints m0 = ints m) _ _ _ _ _ I1 E2); intros; apply fset_ints).
    assert (I3 : ints m3 = ints m) by (refine (forM_keeps (fun m0 => ints m0 = ints m) _ _ _ _ _ I2 E3); intros; apply fset_ints).
    rewrite (creatematrix_none A n bst offset bx by_ bz m3 tab) in E; [discriminate|congruence|assumption..].
  Qed.

  Lemma cellblockjacobi3d_none : forall (la : lapack S) lo0 hi0 lo1 hi1 lo2 hi2 n offset st flo0 fhi0 flo1 fhi1 flo2 fhi2 f ulo0 uhi0 ulo1 uhi1 ulo2 uhi2 u
      dispX numX bx dispY numY by_ dispZ numZ bz r A br x bst (w : S) dx0 dx1 dy0 dy1 dz0 dz1 (m : mem S) tab,
    nth_error (ints m) (fst offset) = Some tab -> Z.of_nat (length tab) = snd offset + 3 * n ->
    1 <= n -> 1 <= bx -> 1 <= by_ -> 1 <= bz ->
    loadi m (faddr (mkFa dispX [(0, numX - 1)]) [0]) = Some dx0 -> loadi m (faddr (mkFa dispX [(0, numX - 1)]) [numX - 1]) = Some dx1 ->
    loadi m (faddr (mkFa dispY [(0, numY - 1)]) [0]) = Some dy0 -> loadi m (faddr (mkFa dispY [(0, numY - 1)]) [numY - 1]) = Some dy1 ->
    loadi m (faddr (mkFa dispZ [(0, numZ - 1)]) [0]) = Some dz0 -> loadi m (faddr (mkFa dispZ [(0, numZ - 1)]) [numZ - 1]) = Some dz1 ->
    dx0 <= dx1 -> dy0 <= dy1 -> dz0 <= dz1 ->
    cellblockjacobi3d la lo0 hi0 lo1 hi1 lo2 hi2 n offset st flo0 fhi0 flo1 fhi1 flo2 fhi2 f ulo0 uhi0 ulo1 uhi1 ulo2 uhi2 u
      dispX numX bx dispY numY by_ dispZ numZ bz r A br x bst w m = None.
  Proof.
    intros la lo0 hi0 lo1 hi1 lo2 hi2 n offset st flo0 fhi0 flo1 fhi1 flo2 fhi2 f ulo0 uhi0 ulo1 uhi1 ulo2 uhi2 u
      dispX numX bx dispY numY by_ dispZ numZ bz r A br x bst w dx0 dx1 dy0 dy1 dz0 dz1 m tab Ht Hl Hn Hx Hy Hz LX0 LX1 LY0 LY1 LZ0 LZ1 Dx Dy Dz.
    rewrite (cellblockjacobi3d_phases la lo0 hi0 lo1 hi1 lo2 hi2 n offset st flo0 fhi0 flo1 fhi1 flo2 fhi2 f ulo0 uhi0 ulo1 uhi1 ulo2 uhi2 u
      dispX numX bx dispY numY by_ dispZ numZ bz r A br x bst w dx0 dx1 dy0 dy1 dz0 dz1 m LX0 LX1 LY0 LY1 LZ0 LZ1).
    match goal with |- bind ?a _ = None => destruct a as [mr|] eqn:Er; [|reflexivity] end. cbn [bind].
    assert (Ir : ints mr = ints m).
    { refine (forM_keeps (fun m0 => ints m0 = ints m) _ _ _ _ _ eq_refl Er). intros. apply fseq_ints; [apply fset_ints|]. apply do_keeps. intros. apply fint_ints. intros. apply fint_ints. intros. apply fint_ints. intros. apply fset_ints. }
    assert (Hc : In [lo0 + dx0; lo1 + dy0; lo2 + dz0] (corners lo0 lo1 lo2 bx by_ bz dx0 dx1 dy0 dy1 dz0 dz1)).
    { assert (K : forall a b d, 1 <= d -> a <= b -> In a (steps a b d)) by (intros a b d H1 H2; apply steps_in; [exact H1|]; exists 0; lia).
      unfold corners. apply rows_of_in. do 2 eexists. split; [reflexivity|]. split; [|apply K; lia].
      apply rows_of_in. do 2 eexists. split; [reflexivity|]. split; [|apply K; lia].
      apply rows_of_in. do 2 eexists. split; [reflexivity|]. split; [left; reflexivity|apply K; lia]. }
    destruct (corners lo0 lo1 lo2 bx by_ bz dx0 dx1 dy0 dy1 dz0 dz1) as [|c cs]; [destruct Hc|]. cbn [forM].
    rewrite (block_step_none _ _ _ _ _ _ _ _ _ _ _ _ _ _ _ mr tab); [reflexivity|congruence|assumption..].
  Qed.
End BlockJacobi.
