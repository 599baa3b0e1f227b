(** * Jacobi sweeps *)

From Coq Require Import Field.
From Verif Require Import Base FortranBase FortranLoops FortranSmooth SpecIter LemBase LemDomain LemAssign LemField LemKernel LemKernel2 LemStencil LemSafe
  SpecRow LemSum SpecSmooth LemFortran LemSmooth LemCells LemSweep LemSmoothers.
Import ListNotations.
Open Scope Z_scope.

Section Jacobi.
  Context {S : Scalar} (L : field_laws S).
  Add Field SFj : (s_field S L) (morphism (lit_morph S L), constants [lit_cst]).

  Lemma fseq_assoc (s1 s2 s3 : mem S -> option (mem S)) m : fseq s1 (fseq s2 s3) m = fseq (fseq s1 s2) s3 m.
  Proof. unfold fseq. destruct (s1 m) as [m1|]; reflexivity. Qed.

  (** Two assignments to one element. *)
  Lemma fset_fset a is (e1 : fexp S) (s2 : mem S -> option (mem S)) (g : S -> fexp S) m :
    (forall m, s2 m = fset a is (fun m => v <- fel a is m ;; g v m) m) ->
    (forall v, blind (fst (fa_ptr a)) (g v)) ->
    fseq (fset a is e1) s2 m = fset a is (fun m => v <- e1 m ;; g v m) m.
  Proof.
    intros H B. unfold fseq, fset. destruct (e1 m) as [v|]; cbn [bind]; [|reflexivity].
    destruct (store m (faddr a is) v) as [m1|] eqn:E; cbn [bind].
    - rewrite H. unfold fset, fel. rewrite (load_stored _ _ _ _ E). cbn [bind].
      rewrite (B v m m1 (same_off_store _ _ _ _ _ E eq_refl)). destruct (g v m) as [w|]; cbn [bind]; [|reflexivity].
      apply (store_store _ _ _ _ w E).
    - destruct (g v m) as [w|]; cbn [bind]; [|reflexivity]. symmetry. destruct (store m (faddr a is) w) as [m2|] eqn:E2; [|reflexivity].
      assert (exists m3, store m (faddr a is) v = Some m3) as [m3 E3].
      { apply store_Some. apply (store_Some m (faddr a is) w). exists m2. exact E2. }
      congruence.
  Qed.

  Lemma relaxed_cells (cells : list (list Z)) f1 f2 g1 g2 (m m' : mem S) tab st n w fa u r bs step
    (visit1 : forall m, f1 m = forM cells (fun c => g1 c) m) (visit2 : forall m, f2 m = forM cells (fun c => g2 c) m)
    (Hg1 : forall c m, In c cells -> g1 c m = fset r c (fun m => t <- facc 0 (n - 1) (fel fa c) (step c) m ;; fop sdiv (fsc t) (fel st (0 :: c)) m) m)
    (Hg2 : forall c m, In c cells -> g2 c m = fset u c (fop sadd (fel u c) (fop smul (fsc w) (fel r c))) m) :
    (forall c, In c cells <-> in_box bs c) -> NoDup cells ->
    (forall c, in_box bs c -> in_box (fa_dims u) c) -> (forall c, in_box bs c -> in_box (fa_dims r) c) ->
    fst (fa_ptr u) <> fst (fa_ptr r) -> fst (fa_ptr r) <> fst (fa_ptr st) -> fst (fa_ptr r) <> fst (fa_ptr fa) ->
    (forall c s t, blind (fst (fa_ptr r)) (step c s t)) ->
    (forall c s r0 r1 m, In c cells -> step c s r0 m = Some r1 ->
       exists cf x, row_term m tab st 0 c (fun c' => fel u c' m) s cf x /\ r1 = (r0 + lit (-1) * (cf * x))%T) ->
    fseq f1 f2 m = Some m' -> relaxed m m' tab st n w fa u r bs.
  Proof.
    intros Hc Hn Hu Hr Aur Ars Arf B Hs E. unfold fseq in E. apply bind_Some_inv in E as (m1 & E1 & E2).
    rewrite visit1 in E1. rewrite visit2 in E2.
    rewrite (forM_ext_in _ g1 (fun c m => v <- (t <- facc 0 (n - 1) (fel fa c) (step c) m ;; fop sdiv (fsc t) (fel st (0 :: c)) m) ;; store m (faddr r c) v)) in E1
      by (intros; apply Hg1; assumption).
    rewrite (forM_ext_in _ g2 (fun c m => v <- fop sadd (fel u c) (fop smul (fsc w) (fel r c)) m ;; store m (faddr u c) v)) in E2
      by (intros; apply Hg2; assumption).
    assert (Inj : forall a x y, in_box (fa_dims a) x -> in_box (fa_dims a) y -> faddr a x = faddr a y -> x = y).
    { intros [p ds] x y Hx Hy. apply faddr_inj; assumption. }
    apply (forM_put cells (faddr r) (fun c m => t <- facc 0 (n - 1) (fel fa c) (step c) m ;; fop sdiv (fsc t) (fel st (0 :: c)) m) (fst (fa_ptr r))) in E1.
    2: exact Hn.
    2:{ intros x y Hx Hy. apply Inj; apply Hr, Hc; assumption. }
    2:{ reflexivity. }
    2:{ intros c Hin. apply blind_bind; [apply blind_facc; [apply blind_fel; congruence|intros; apply B]|].
        intros t. apply blind_fop; [apply blind_fsc|apply blind_fel; congruence]. }
    apply (forM_own cells (faddr u) (fun c => fop sadd (fel u c) (fop smul (fsc w) (fel r c))) (fst (fa_ptr u))) in E2.
    2: exact Hn.
    2:{ intros x y Hx Hy. apply Inj; apply Hu, Hc; assumption. }
    2:{ reflexivity. }
    2:{ intros c ma mb Hin O Hl. unfold fop, fsc, fel at 1 3. rewrite Hl. cbn [bind].
        replace (fel r c mb) with (fel r c ma); [reflexivity|]. symmetry. apply (proj1 O). cbn. congruence. }
    destruct E1 as (O1 & V1 & F1), E2 as (O2 & F2 & V2). split; [|split].
    - intros c Hin. apply Hc in Hin as Hin'. destruct (V1 c Hin') as (v & Ev & Lv). destruct (V2 c Hin') as (y & Ey & Ly).
      apply bind_Some_inv in Ev as (t & Et & Ev). unfold fop, fsc in Ev. cbn [bind] in Ev. apply bind_Some_inv in Ev as (a0 & Ea & Ev).
      injection Ev as <-.
      apply (facc_row L m tab st 0 0 (n - 1) c (fun c' => fel u c' m) (lit (-1))) in Et.
      2:{ intros s r0 r1 _. apply Hs. exact Hin'. }
      destruct Et as (b & d & Eb & Hd & ->). unfold fop, fsc in Ey. cbn [bind] in Ey.
      apply bind_Some_inv in Ey as (x & Ex & Ey). unfold fel in Ey at 1. rewrite Lv in Ey. cbn [bind] in Ey. injection Ey as <-.
      exists b, a0, d, x. split; [exact Eb|]. split; [exact Ea|]. split; [|split; [exact Hd|]].
      + rewrite <- Ex. symmetry. apply (proj1 O1). cbn. congruence.
      + unfold fel. rewrite Ly. do 3 f_equal. f_equal. ring.
    - intros q Hq. rewrite F2, F1; [reflexivity| |]; intros c Hin; apply Hc in Hin; apply Hq; exact Hin.
    - rewrite (proj2 O2), (proj2 O1). reflexivity.
  Qed.

  (** A solution is not changed. *)
  Lemma relaxed_fixed (m m' : mem S) tab st n w f u r bs c :
    relaxed m m' tab st n w f u r bs -> in_box bs c -> solves m tab st n f u c ->
    fel st (0 :: c) m <> Some (lit 0) -> fel u c m' = fel u c m.
  Proof.
    intros (V & _ & _) Hc (b & Eb & Er) N. destruct (V c Hc) as (b' & a0 & d & x & Eb' & Ea & Ex & Ed & ->).
    assert (b' = b) by congruence. subst b'. rewrite (row_sum_fun _ _ _ _ _ _ _ _ _ _ Ed Er), Ex. f_equal.
    assert (a0 <> lit 0) by congruence. field. assumption.
  Qed.

  Lemma celljacobi1d_relaxed : forall lo0 hi0 n offset slo0 shi0 st flo0 fhi0 f ulo0 uhi0 u r (m m' : mem S),
  fst u <> fst r -> fst r <> fst st -> fst r <> fst f ->
  (forall c, in_box [(lo0, hi0)] c -> in_box (CELL1d ulo0 uhi0 0) c) ->
  celljacobi1d lo0 hi0 n offset slo0 shi0 st flo0 fhi0 f ulo0 uhi0 u r m = Some m' ->
  relaxed m m' (mkFa offset [(0, 0); (0, n - 1)]) (mkFa st ((0, n - 1) :: CELL1d slo0 shi0 0)) n (lit 2 / lit 3)%T
    (mkFa f (CELL1d flo0 fhi0 0)) (mkFa u (CELL1d ulo0 uhi0 0)) (mkFa r (CELL1d lo0 hi0 0)) [(lo0, hi0)].
  Proof.
    intros lo0 hi0 n offset slo0 shi0 st flo0 fhi0 f ulo0 uhi0 u r m m' Aur Ars Arf Hb E.
    assert (Hcells : forall c, In c (box_cells [(lo0, hi0)]) <-> in_box [(lo0, hi0)] c) by apply box_cells_in.
    assert (Hform : forall c, In c (box_cells [(lo0, hi0)]) -> c = [nth 0 c 0]).
    { intros c Hin. apply Hcells in Hin. exact (box1 _ c Hin). }
    apply (relaxed_cells (box_cells [(lo0, hi0)]) (do_ lo0 hi0 (fun i => fseq (fset (mkFa r (CELL1d lo0 hi0 0)) [i] (fel (mkFa f (CELL1d flo0 fhi0 0)) [i])) (fseq (do_ 0 (n - 1) (fun s => fint (mkFa offset [(0, 0); (0, n - 1)]) [0; s] (fun io => fset (mkFa r (CELL1d lo0 hi0 0)) [i] (fop ssub (fel (mkFa r (CELL1d lo0 hi0 0)) [i]) (fop smul (fel (mkFa st ((0, n - 1) :: CELL1d slo0 shi0 0)) [s; i]) (fel (mkFa u (CELL1d ulo0 uhi0 0)) [i + io])))))) (fset (mkFa r (CELL1d lo0 hi0 0)) [i] (fop sdiv (fel (mkFa r (CELL1d lo0 hi0 0)) [i]) (fel (mkFa st ((0, n - 1) :: CELL1d slo0 shi0 0)) [0; i]))))))
      (do_ lo0 hi0 (fun i => fset (mkFa u (CELL1d ulo0 uhi0 0)) [i] (fop sadd (fel (mkFa u (CELL1d ulo0 uhi0 0)) [i]) (fop smul (fsc (lit 2 / lit 3)%T) (fel (mkFa r (CELL1d lo0 hi0 0)) [i])))))
      (fun c => fseq (fset (mkFa r (CELL1d lo0 hi0 0)) [nth 0 c 0] (fel (mkFa f (CELL1d flo0 fhi0 0)) [nth 0 c 0])) (fseq (do_ 0 (n - 1) (fun s => fint (mkFa offset [(0, 0); (0, n - 1)]) [0; s] (fun io => fset (mkFa r (CELL1d lo0 hi0 0)) [nth 0 c 0] (fop ssub (fel (mkFa r (CELL1d lo0 hi0 0)) [nth 0 c 0]) (fop smul (fel (mkFa st ((0, n - 1) :: CELL1d slo0 shi0 0)) [s; nth 0 c 0]) (fel (mkFa u (CELL1d ulo0 uhi0 0)) [nth 0 c 0 + io])))))) (fset (mkFa r (CELL1d lo0 hi0 0)) [nth 0 c 0] (fop sdiv (fel (mkFa r (CELL1d lo0 hi0 0)) [nth 0 c 0]) (fel (mkFa st ((0, n - 1) :: CELL1d slo0 shi0 0)) [0; nth 0 c 0])))))
      (fun c => fset (mkFa u (CELL1d ulo0 uhi0 0)) [nth 0 c 0] (fop sadd (fel (mkFa u (CELL1d ulo0 uhi0 0)) [nth 0 c 0]) (fop smul (fsc (lit 2 / lit 3)%T) (fel (mkFa r (CELL1d lo0 hi0 0)) [nth 0 c 0]))))
      m m' (mkFa offset [(0, 0); (0, n - 1)]) (mkFa st ((0, n - 1) :: CELL1d slo0 shi0 0)) n (lit 2 / lit 3)%T (mkFa f (CELL1d flo0 fhi0 0)) (mkFa u (CELL1d ulo0 uhi0 0)) (mkFa r (CELL1d lo0 hi0 0)) [(lo0, hi0)] (fun c s r => fint (mkFa offset [(0, 0); (0, n - 1)]) [0; s] (fun io => fop ssub (fsc r) (fop smul (fel (mkFa st ((0, n - 1) :: CELL1d slo0 shi0 0)) [s; nth 0 c 0]) (fel (mkFa u (CELL1d ulo0 uhi0 0)) [nth 0 c 0 + io]))))).
    - intros m0. rewrite <- do1_cells. reflexivity.
    - intros m0. rewrite <- do1_cells. reflexivity.
    - intros c m0 Hin. rewrite (Hform c Hin). cbn [nth]. rewrite fseq_assoc.
      unfold fseq at 1. rewrite (acc_put (mkFa r (CELL1d lo0 hi0 0)) [nth 0 c 0] 0 (n - 1) _ _ ((fun c s r => fint (mkFa offset [(0, 0); (0, n - 1)]) [0; s] (fun io => fop ssub (fsc r) (fop smul (fel (mkFa st ((0, n - 1) :: CELL1d slo0 shi0 0)) [s; nth 0 c 0]) (fel (mkFa u (CELL1d ulo0 uhi0 0)) [nth 0 c 0 + io])))) c)).
      + exact (fset_fset (mkFa r (CELL1d lo0 hi0 0)) [nth 0 c 0] (facc 0 (n - 1) (fel (mkFa f (CELL1d flo0 fhi0 0)) [nth 0 c 0]) ((fun c s r => fint (mkFa offset [(0, 0); (0, n - 1)]) [0; s] (fun io => fop ssub (fsc r) (fop smul (fel (mkFa st ((0, n - 1) :: CELL1d slo0 shi0 0)) [s; nth 0 c 0]) (fel (mkFa u (CELL1d ulo0 uhi0 0)) [nth 0 c 0 + io])))) c)) _
          (fun v => fop sdiv (fsc v) (fel (mkFa st ((0, n - 1) :: CELL1d slo0 shi0 0)) [0; nth 0 c 0])) m0 ltac:(reflexivity) ltac:(intros; f_blind)).
      + acc_body.
      + intros; f_blind.
    - intros c m0 Hin. rewrite (Hform c Hin). cbn [nth]. reflexivity.
    - exact Hcells.
    - apply box_cells_nodup.
    - exact Hb.
    - intros c Hin. unfold in_box in *. inv_box. cbn [fa_dims fst snd] in *. repeat constructor; cbn [fst snd]; lia.
    - exact Aur.
    - exact Ars.
    - exact Arf.
    - intros; f_blind.
    - clear E. step_row @displaced1 Hform ltac:(ring).
    - exact E.
  Qed.

  Lemma celljacobi2d_relaxed : forall lo0 hi0 lo1 hi1 n offset slo0 shi0 slo1 shi1 st flo0 fhi0 flo1 fhi1 f ulo0 uhi0 ulo1 uhi1 u r (w : S) (m m' : mem S),
  fst u <> fst r -> fst r <> fst st -> fst r <> fst f ->
  (forall c, in_box [(lo0, hi0); (lo1, hi1)] c -> in_box (CELL2d ulo0 ulo1 uhi0 uhi1 0) c) ->
  celljacobi2d lo0 hi0 lo1 hi1 n offset slo0 shi0 slo1 shi1 st flo0 fhi0 flo1 fhi1 f ulo0 uhi0 ulo1 uhi1 u r w m = Some m' ->
  relaxed m m' (mkFa offset [(0, 1); (0, n - 1)]) (mkFa st ((0, n - 1) :: CELL2d slo0 slo1 shi0 shi1 0)) n w
    (mkFa f (CELL2d flo0 flo1 fhi0 fhi1 0)) (mkFa u (CELL2d ulo0 ulo1 uhi0 uhi1 0)) (mkFa r (CELL2d lo0 lo1 hi0 hi1 0)) [(lo0, hi0); (lo1, hi1)].
  Proof.
    intros lo0 hi0 lo1 hi1 n offset slo0 shi0 slo1 shi1 st flo0 fhi0 flo1 fhi1 f ulo0 uhi0 ulo1 uhi1 u r w m m' Aur Ars Arf Hb E.
    assert (Hcells : forall c, In c (box_cells [(lo0, hi0); (lo1, hi1)]) <-> in_box [(lo0, hi0); (lo1, hi1)] c) by apply box_cells_in.
    assert (Hform : forall c, In c (box_cells [(lo0, hi0); (lo1, hi1)]) -> c = [nth 0 c 0; nth 1 c 0]).
    { intros c Hin. apply Hcells in Hin. exact (box2 _ _ c Hin). }
    apply (relaxed_cells (box_cells [(lo0, hi0); (lo1, hi1)]) (do_ lo1 hi1 (fun j => do_ lo0 hi0 (fun i => fseq (fset (mkFa r (CELL2d lo0 lo1 hi0 hi1 0)) [i; j] (fel (mkFa f (CELL2d flo0 flo1 fhi0 fhi1 0)) [i; j])) (fseq (do_ 0 (n - 1) (fun s => fint (mkFa offset [(0, 1); (0, n - 1)]) [0; s] (fun io => fint (mkFa offset [(0, 1); (0, n - 1)]) [1; s] (fun jo => fset (mkFa r (CELL2d lo0 lo1 hi0 hi1 0)) [i; j] (fop ssub (fel (mkFa r (CELL2d lo0 lo1 hi0 hi1 0)) [i; j]) (fop smul (fel (mkFa st ((0, n - 1) :: CELL2d slo0 slo1 shi0 shi1 0)) [s; i; j]) (fel (mkFa u (CELL2d ulo0 ulo1 uhi0 uhi1 0)) [i + io; j + jo]))))))) (fset (mkFa r (CELL2d lo0 lo1 hi0 hi1 0)) [i; j] (fop sdiv (fel (mkFa r (CELL2d lo0 lo1 hi0 hi1 0)) [i; j]) (fel (mkFa st ((0, n - 1) :: CELL2d slo0 slo1 shi0 shi1 0)) [0; i; j])))))))
      (do_ lo1 hi1 (fun j => do_ lo0 hi0 (fun i => fset (mkFa u (CELL2d ulo0 ulo1 uhi0 uhi1 0)) [i; j] (fop sadd (fel (mkFa u (CELL2d ulo0 ulo1 uhi0 uhi1 0)) [i; j]) (fop smul (fsc w) (fel (mkFa r (CELL2d lo0 lo1 hi0 hi1 0)) [i; j]))))))
      (fun c => fseq (fset (mkFa r (CELL2d lo0 lo1 hi0 hi1 0)) [nth 0 c 0; nth 1 c 0] (fel (mkFa f (CELL2d flo0 flo1 fhi0 fhi1 0)) [nth 0 c 0; nth 1 c 0])) (fseq (do_ 0 (n - 1) (fun s => fint (mkFa offset [(0, 1); (0, n - 1)]) [0; s] (fun io => fint (mkFa offset [(0, 1); (0, n - 1)]) [1; s] (fun jo => fset (mkFa r (CELL2d lo0 lo1 hi0 hi1 0)) [nth 0 c 0; nth 1 c 0] (fop ssub (fel (mkFa r (CELL2d lo0 lo1 hi0 hi1 0)) [nth 0 c 0; nth 1 c 0]) (fop smul (fel (mkFa st ((0, n - 1) :: CELL2d slo0 slo1 shi0 shi1 0)) [s; nth 0 c 0; nth 1 c 0]) (fel (mkFa u (CELL2d ulo0 ulo1 uhi0 uhi1 0)) [nth 0 c 0 + io; nth 1 c 0 + jo]))))))) (fset (mkFa r (CELL2d lo0 lo1 hi0 hi1 0)) [nth 0 c 0; nth 1 c 0] (fop sdiv (fel (mkFa r (CELL2d lo0 lo1 hi0 hi1 0)) [nth 0 c 0; nth 1 c 0]) (fel (mkFa st ((0, n - 1) :: CELL2d slo0 slo1 shi0 shi1 0)) [0; nth 0 c 0; nth 1 c 0])))))
      (fun c => fset (mkFa u (CELL2d ulo0 ulo1 uhi0 uhi1 0)) [nth 0 c 0; nth 1 c 0] (fop sadd (fel (mkFa u (CELL2d ulo0 ulo1 uhi0 uhi1 0)) [nth 0 c 0; nth 1 c 0]) (fop smul (fsc w) (fel (mkFa r (CELL2d lo0 lo1 hi0 hi1 0)) [nth 0 c 0; nth 1 c 0]))))
      m m' (mkFa offset [(0, 1); (0, n - 1)]) (mkFa st ((0, n - 1) :: CELL2d slo0 slo1 shi0 shi1 0)) n w (mkFa f (CELL2d flo0 flo1 fhi0 fhi1 0)) (mkFa u (CELL2d ulo0 ulo1 uhi0 uhi1 0)) (mkFa r (CELL2d lo0 lo1 hi0 hi1 0)) [(lo0, hi0); (lo1, hi1)] (fun c s r => fint (mkFa offset [(0, 1); (0, n - 1)]) [0; s] (fun io => fint (mkFa offset [(0, 1); (0, n - 1)]) [1; s] (fun jo => fop ssub (fsc r) (fop smul (fel (mkFa st ((0, n - 1) :: CELL2d slo0 slo1 shi0 shi1 0)) [s; nth 0 c 0; nth 1 c 0]) (fel (mkFa u (CELL2d ulo0 ulo1 uhi0 uhi1 0)) [nth 0 c 0 + io; nth 1 c 0 + jo])))))).
    - intros m0. rewrite <- do2_cells. reflexivity.
    - intros m0. rewrite <- do2_cells. reflexivity.
    - intros c m0 Hin. rewrite (Hform c Hin). cbn [nth]. rewrite fseq_assoc.
      unfold fseq at 1. rewrite (acc_put (mkFa r (CELL2d lo0 lo1 hi0 hi1 0)) [nth 0 c 0; nth 1 c 0] 0 (n - 1) _ _ ((fun c s r => fint (mkFa offset [(0, 1); (0, n - 1)]) [0; s] (fun io => fint (mkFa offset [(0, 1); (0, n - 1)]) [1; s] (fun jo => fop ssub (fsc r) (fop smul (fel (mkFa st ((0, n - 1) :: CELL2d slo0 slo1 shi0 shi1 0)) [s; nth 0 c 0; nth 1 c 0]) (fel (mkFa u (CELL2d ulo0 ulo1 uhi0 uhi1 0)) [nth 0 c 0 + io; nth 1 c 0 + jo]))))) c)).
      + exact (fset_fset (mkFa r (CELL2d lo0 lo1 hi0 hi1 0)) [nth 0 c 0; nth 1 c 0] (facc 0 (n - 1) (fel (mkFa f (CELL2d flo0 flo1 fhi0 fhi1 0)) [nth 0 c 0; nth 1 c 0]) ((fun c s r => fint (mkFa offset [(0, 1); (0, n - 1)]) [0; s] (fun io => fint (mkFa offset [(0, 1); (0, n - 1)]) [1; s] (fun jo => fop ssub (fsc r) (fop smul (fel (mkFa st ((0, n - 1) :: CELL2d slo0 slo1 shi0 shi1 0)) [s; nth 0 c 0; nth 1 c 0]) (fel (mkFa u (CELL2d ulo0 ulo1 uhi0 uhi1 0)) [nth 0 c 0 + io; nth 1 c 0 + jo]))))) c)) _
          (fun v => fop sdiv (fsc v) (fel (mkFa st ((0, n - 1) :: CELL2d slo0 slo1 shi0 shi1 0)) [0; nth 0 c 0; nth 1 c 0])) m0 ltac:(reflexivity) ltac:(intros; f_blind)).
      + acc_body.
      + intros; f_blind.
    - intros c m0 Hin. rewrite (Hform c Hin). cbn [nth]. reflexivity.
    - exact Hcells.
    - apply box_cells_nodup.
    - exact Hb.
    - intros c Hin. unfold in_box in *. inv_box. cbn [fa_dims fst snd] in *. repeat constructor; cbn [fst snd]; lia.
    - exact Aur.
    - exact Ars.
    - exact Arf.
    - intros; f_blind.
    - clear E. step_row @displaced2 Hform ltac:(ring).
    - exact E.
  Qed.

  Lemma celljacobi3d_relaxed : forall lo0 hi0 lo1 hi1 lo2 hi2 n offset slo0 shi0 slo1 shi1 slo2 shi2 st flo0 fhi0 flo1 fhi1 flo2 fhi2 f ulo0 uhi0 ulo1 uhi1 ulo2 uhi2 u r (w : S) (m m' : mem S),
  fst u <> fst r -> fst r <> fst st -> fst r <> fst f ->
  (forall c, in_box [(lo0, hi0); (lo1, hi1); (lo2, hi2)] c -> in_box (CELL3d ulo0 ulo1 ulo2 uhi0 uhi1 uhi2 0) c) ->
  celljacobi3d lo0 hi0 lo1 hi1 lo2 hi2 n offset slo0 shi0 slo1 shi1 slo2 shi2 st flo0 fhi0 flo1 fhi1 flo2 fhi2 f ulo0 uhi0 ulo1 uhi1 ulo2 uhi2 u r w m = Some m' ->
  relaxed m m' (mkFa offset [(0, 2); (0, n - 1)]) (mkFa st ((0, n - 1) :: CELL3d slo0 slo1 slo2 shi0 shi1 shi2 0)) n w
    (mkFa f (CELL3d flo0 flo1 flo2 fhi0 fhi1 fhi2 0)) (mkFa u (CELL3d ulo0 ulo1 ulo2 uhi0 uhi1 uhi2 0)) (mkFa r (CELL3d lo0 lo1 lo2 hi0 hi1 hi2 0)) [(lo0, hi0); (lo1, hi1); (lo2, hi2)].
  Proof.
    intros lo0 hi0 lo1 hi1 lo2 hi2 n offset slo0 shi0 slo1 shi1 slo2 shi2 st flo0 fhi0 flo1 fhi1 flo2 fhi2 f ulo0 uhi0 ulo1 uhi1 ulo2 uhi2 u r w m m' Aur Ars Arf Hb E.
    assert (Hcells : forall c, In c (box_cells [(lo0, hi0); (lo1, hi1); (lo2, hi2)]) <-> in_box [(lo0, hi0); (lo1, hi1); (lo2, hi2)] c) by apply box_cells_in.
    assert (Hform : forall c, In c (box_cells [(lo0, hi0); (lo1, hi1); (lo2, hi2)]) -> c = [nth 0 c 0; nth 1 c 0; nth 2 c 0]).
    { intros c Hin. apply Hcells in Hin. exact (box3 _ _ _ c Hin). }
    apply (relaxed_cells (box_cells [(lo0, hi0); (lo1, hi1); (lo2, hi2)]) (do_ lo2 hi2 (fun k => do_ lo1 hi1 (fun j => do_ lo0 hi0 (fun i => fseq (fset (mkFa r (CELL3d lo0 lo1 lo2 hi0 hi1 hi2 0)) [i; j; k] (fel (mkFa f (CELL3d flo0 flo1 flo2 fhi0 fhi1 fhi2 0)) [i; j; k])) (fseq (do_ 0 (n - 1) (fun s => fint (mkFa offset [(0, 2); (0, n - 1)]) [0; s] (fun io => fint (mkFa offset [(0, 2); (0, n - 1)]) [1; s] (fun jo => fint (mkFa offset [(0, 2); (0, n - 1)]) [2; s] (fun ko => fset (mkFa r (CELL3d lo0 lo1 lo2 hi0 hi1 hi2 0)) [i; j; k] (fop ssub (fel (mkFa r (CELL3d lo0 lo1 lo2 hi0 hi1 hi2 0)) [i; j; k]) (fop smul (fel (mkFa st ((0, n - 1) :: CELL3d slo0 slo1 slo2 shi0 shi1 shi2 0)) [s; i; j; k]) (fel (mkFa u (CELL3d ulo0 ulo1 ulo2 uhi0 uhi1 uhi2 0)) [i + io; j + jo; k + ko])))))))) (fset (mkFa r (CELL3d lo0 lo1 lo2 hi0 hi1 hi2 0)) [i; j; k] (fop sdiv (fel (mkFa r (CELL3d lo0 lo1 lo2 hi0 hi1 hi2 0)) [i; j; k]) (fel (mkFa st ((0, n - 1) :: CELL3d slo0 slo1 slo2 shi0 shi1 shi2 0)) [0; i; j; k]))))))))
      (do_ lo2 hi2 (fun k => do_ lo1 hi1 (fun j => do_ lo0 hi0 (fun i => fset (mkFa u (CELL3d ulo0 ulo1 ulo2 uhi0 uhi1 uhi2 0)) [i; j; k] (fop sadd (fel (mkFa u (CELL3d ulo0 ulo1 ulo2 uhi0 uhi1 uhi2 0)) [i; j; k]) (fop smul (fsc w) (fel (mkFa r (CELL3d lo0 lo1 lo2 hi0 hi1 hi2 0)) [i; j; k])))))))
      (fun c => fseq (fset (mkFa r (CELL3d lo0 lo1 lo2 hi0 hi1 hi2 0)) [nth 0 c 0; nth 1 c 0; nth 2 c 0] (fel (mkFa f (CELL3d flo0 flo1 flo2 fhi0 fhi1 fhi2 0)) [nth 0 c 0; nth 1 c 0; nth 2 c 0])) (fseq (do_ 0 (n - 1) (fun s => fint (mkFa offset [(0, 2); (0, n - 1)]) [0; s] (fun io => fint (mkFa offset [(0, 2); (0, n - 1)]) [1; s] (fun jo => fint (mkFa offset [(0, 2); (0, n - 1)]) [2; s] (fun ko => fset (mkFa r (CELL3d lo0 lo1 lo2 hi0 hi1 hi2 0)) [nth 0 c 0; nth 1 c 0; nth 2 c 0] (fop ssub (fel (mkFa r (CELL3d lo0 lo1 lo2 hi0 hi1 hi2 0)) [nth 0 c 0; nth 1 c 0; nth 2 c 0]) (fop smul (fel (mkFa st ((0, n - 1) :: CELL3d slo0 slo1 slo2 shi0 shi1 shi2 0)) [s; nth 0 c 0; nth 1 c 0; nth 2 c 0]) (fel (mkFa u (CELL3d ulo0 ulo1 ulo2 uhi0 uhi1 uhi2 0)) [nth 0 c 0 + io; nth 1 c 0 + jo; nth 2 c 0 + ko])))))))) (fset (mkFa r (CELL3d lo0 lo1 lo2 hi0 hi1 hi2 0)) [nth 0 c 0; nth 1 c 0; nth 2 c 0] (fop sdiv (fel (mkFa r (CELL3d lo0 lo1 lo2 hi0 hi1 hi2 0)) [nth 0 c 0; nth 1 c 0; nth 2 c 0]) (fel (mkFa st ((0, n - 1) :: CELL3d slo0 slo1 slo2 shi0 shi1 shi2 0)) [0; nth 0 c 0; nth 1 c 0; nth 2 c 0])))))
      (fun c => fset (mkFa u (CELL3d ulo0 ulo1 ulo2 uhi0 uhi1 uhi2 0)) [nth 0 c 0; nth 1 c 0; nth 2 c 0] (fop sadd (fel (mkFa u (CELL3d ulo0 ulo1 ulo2 uhi0 uhi1 uhi2 0)) [nth 0 c 0; nth 1 c 0; nth 2 c 0]) (fop smul (fsc w) (fel (mkFa r (CELL3d lo0 lo1 lo2 hi0 hi1 hi2 0)) [nth 0 c 0; nth 1 c 0; nth 2 c 0]))))
      m m' (mkFa offset [(0, 2); (0, n - 1)]) (mkFa st ((0, n - 1) :: CELL3d slo0 slo1 slo2 shi0 shi1 shi2 0)) n w (mkFa f (CELL3d flo0 flo1 flo2 fhi0 fhi1 fhi2 0)) (mkFa u (CELL3d ulo0 ulo1 ulo2 uhi0 uhi1 uhi2 0)) (mkFa r (CELL3d lo0 lo1 lo2 hi0 hi1 hi2 0)) [(lo0, hi0); (lo1, hi1); (lo2, hi2)] (fun c s r => fint (mkFa offset [(0, 2); (0, n - 1)]) [0; s] (fun io => fint (mkFa offset [(0, 2); (0, n - 1)]) [1; s] (fun jo => fint (mkFa offset [(0, 2); (0, n - 1)]) [2; s] (fun ko => fop ssub (fsc r) (fop smul (fel (mkFa st ((0, n - 1) :: CELL3d slo0 slo1 slo2 shi0 shi1 shi2 0)) [s; nth 0 c 0; nth 1 c 0; nth 2 c 0]) (fel (mkFa u (CELL3d ulo0 ulo1 ulo2 uhi0 uhi1 uhi2 0)) [nth 0 c 0 + io; nth 1 c 0 + jo; nth 2 c 0 + ko]))))))).
    - intros m0. rewrite <- do3_cells. reflexivity.
    - intros m0. rewrite <- do3_cells. reflexivity.
    - intros c m0 Hin. rewrite (Hform c Hin). cbn [nth]. rewrite fseq_assoc.
      unfold fseq at 1. rewrite (acc_put (mkFa r (CELL3d lo0 lo1 lo2 hi0 hi1 hi2 0)) [nth 0 c 0; nth 1 c 0; nth 2 c 0] 0 (n - 1) _ _ ((fun c s r => fint (mkFa offset [(0, 2); (0, n - 1)]) [0; s] (fun io => fint (mkFa offset [(0, 2); (0, n - 1)]) [1; s] (fun jo => fint (mkFa offset [(0, 2); (0, n - 1)]) [2; s] (fun ko => fop ssub (fsc r) (fop smul (fel (mkFa st ((0, n - 1) :: CELL3d slo0 slo1 slo2 shi0 shi1 shi2 0)) [s; nth 0 c 0; nth 1 c 0; nth 2 c 0]) (fel (mkFa u (CELL3d ulo0 ulo1 ulo2 uhi0 uhi1 uhi2 0)) [nth 0 c 0 + io; nth 1 c 0 + jo; nth 2 c 0 + ko])))))) c)).
      + exact (fset_fset (mkFa r (CELL3d lo0 lo1 lo2 hi0 hi1 hi2 0)) [nth 0 c 0; nth 1 c 0; nth 2 c 0] (facc 0 (n - 1) (fel (mkFa f (CELL3d flo0 flo1 flo2 fhi0 fhi1 fhi2 0)) [nth 0 c 0; nth 1 c 0; nth 2 c 0]) ((fun c s r => fint (mkFa offset [(0, 2); (0, n - 1)]) [0; s] (fun io => fint (mkFa offset [(0, 2); (0, n - 1)]) [1; s] (fun jo => fint (mkFa offset [(0, 2); (0, n - 1)]) [2; s] (fun ko => fop ssub (fsc r) (fop smul (fel (mkFa st ((0, n - 1) :: CELL3d slo0 slo1 slo2 shi0 shi1 shi2 0)) [s; nth 0 c 0; nth 1 c 0; nth 2 c 0]) (fel (mkFa u (CELL3d ulo0 ulo1 ulo2 uhi0 uhi1 uhi2 0)) [nth 0 c 0 + io; nth 1 c 0 + jo; nth 2 c 0 + ko])))))) c)) _
          (fun v => fop sdiv (fsc v) (fel (mkFa st ((0, n - 1) :: CELL3d slo0 slo1 slo2 shi0 shi1 shi2 0)) [0; nth 0 c 0; nth 1 c 0; nth 2 c 0])) m0 ltac:(reflexivity) ltac:(intros; f_blind)).
      + acc_body.
      + intros; f_blind.
    - intros c m0 Hin. rewrite (Hform c Hin). cbn [nth]. reflexivity.
    - exact Hcells.
    - apply box_cells_nodup.
    - exact Hb.
    - intros c Hin. unfold in_box in *. inv_box. cbn [fa_dims fst snd] in *. repeat constructor; cbn [fst snd]; lia.
    - exact Aur.
    - exact Ars.
    - exact Arf.
    - intros; f_blind.
    - clear E. step_row @displaced3 Hform ltac:(ring).
    - exact E.
  Qed.
End Jacobi.
