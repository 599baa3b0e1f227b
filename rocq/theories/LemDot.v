(** * Stencil application: the library's dot product against the Fortran loops *)

From Coq Require Import Permutation.
From Verif Require Import Base ModelBounds ModelMatrix ModelIters ModelSpan Spec SpecIter ModelSched
  LemBase LemDomain LemExpr LemExec SpecAssign LemProps LemProps4
  FortranBase FortranLoops FortranSmooth Instances LemField LemKernel LemKernel2 LemStencil KernelNotations KernelsDot
  SpecRow SpecSmooth LemFortran LemSmooth.
Import ListNotations.
Open Scope Z_scope.

Lemma addr_dot1 p g i0 i1 w0 w1 pt z :
  addr (make_md_span_g p g [Ib i0 i1; Wb w0 w1]) (pset pt dW z) = faddr (mkFa p ((w0, w1) :: CELL1d i0 i1 g)) [z; pt dI].
Proof. k_addr. Qed.
Lemma addr_dot2 p g i0 i1 j0 j1 w0 w1 pt z :
  addr (make_md_span_g p g [Jb j0 j1; Ib i0 i1; Wb w0 w1]) (pset pt dW z) =
  faddr (mkFa p ((w0, w1) :: CELL2d i0 j0 i1 j1 g)) [z; pt dI; pt dJ].
Proof. k_addr. Qed.
Lemma addr_dot3 p g i0 i1 j0 j1 k0 k1 w0 w1 pt z :
  addr (make_md_span_g p g [Kb k0 k1; Jb j0 j1; Ib i0 i1; Wb w0 w1]) (pset pt dW z) =
  faddr (mkFa p ((w0, w1) :: CELL3d i0 j0 k0 i1 j1 k1 g)) [z; pt dI; pt dJ; pt dK].
Proof. k_addr. Qed.
Lemma addr_dot3' p i0 i1 j0 j1 k0 k1 w0 w1 pt z :
  addr (make_md_span p [Kb k0 k1; Jb j0 j1; Ib i0 i1; Wb w0 w1]) (pset pt dW z) =
  faddr (mkFa p ((w0, w1) :: CELL3d i0 j0 k0 i1 j1 k1 0)) [z; pt dI; pt dJ; pt dK].
Proof. k_addr. Qed.

(** Column [i] (counted from 0) of an offset table. *)
Lemma tab_addr o N n j i : faddr (mkFa o [(1, N); (1, n)]) [j; 1 + Z.of_nat i] = padd o (Z.of_nat i * N + (j - 1)).
Proof. unfold faddr. cbn [fa_ptr fa_dims foffset]. f_equal. ring. Qed.

(** The entries of a stencil array may be numbered from any index. *)
Lemma st_addr p w0 w1 ds k is :
  faddr (mkFa p ((w0, w1) :: ds)) (w0 + k :: is) = faddr (mkFa p ((1, w1 - w0 + 1) :: ds)) (1 + k :: is).
Proof. unfold faddr. cbn [fa_ptr fa_dims foffset]. f_equal. ring. Qed.

Section Dot.
  Context {S : Scalar} (L : field_laws S).
  Add Field SFd : (s_field S L) (morphism (lit_morph S L), constants [lit_cst]).

  (** Accumulating [a c x] onto [b f], against accumulating [c x] onto 0. *)
  Lemma acc_scale {A} (l : list A) (a : S) (tm : A -> option (S * S)) (f g : A -> S -> option S) r0 d0 y :
    (forall i r, f i r = (t <- tm i ;; Some (r + a * fst t * snd t)%T)) ->
    (forall i d, g i d = (t <- tm i ;; Some (d + fst t * snd t)%T)) ->
    r0 = (y + a * d0)%T ->
    forM l f r0 = (d <- forM l g d0 ;; Some (y + a * d)%T).
  Proof.
    intros Hf Hg. revert r0 d0. induction l as [|i l IH]; intros r0 d0 ->; cbn [forM].
    - reflexivity.
    - rewrite Hf, Hg. destruct (tm i) as [[c x]|]; cbn [bind fst snd]; [|reflexivity].
      apply IH. ring.
  Qed.

  Lemma facc_dot n (a : S) (e : fexp S) step g (tm : nat -> option (S * S)) m :
    (forall i r, step (1 + Z.of_nat i) r m = (t <- tm i ;; Some (r + a * fst t * snd t)%T)) ->
    (forall i d, g i d = (t <- tm i ;; Some (d + fst t * snd t)%T)) ->
    facc 1 n e step m = (y <- e m ;; d <- forM (seq 0 (Z.to_nat n)) g (lit 0) ;; Some (y + a * d)%T).
  Proof.
    intros Hf Hg. unfold facc, do_. apply bind_ext. intros y _. rewrite forM_map.
    replace (n - 1 + 1) with n by ring.
    apply (acc_scale _ a tm).
    - intros i r. apply Hf.
    - exact Hg.
    - ring.
  Qed.

  (** The coefficient and the value a term of the dot product multiplies. *)
  Definition tm1 (tab st u : farray) (pt : point) (m : mem S) (i : nat) : option (S * S) :=
    io <- loadi m (faddr tab [1; 1 + Z.of_nat i]) ;;
    c <- fel st [1 + Z.of_nat i; pt dI] m ;;
    x <- fel u [pt dI + io] m ;; Some (c, x).

  Definition tm2 (tab st u : farray) (pt : point) (m : mem S) (i : nat) : option (S * S) :=
    io <- loadi m (faddr tab [1; 1 + Z.of_nat i]) ;;
    jo <- loadi m (faddr tab [2; 1 + Z.of_nat i]) ;;
    c <- fel st [1 + Z.of_nat i; pt dI; pt dJ] m ;;
    x <- fel u [pt dI + io; pt dJ + jo] m ;; Some (c, x).

  Definition tm3 (tab st u : farray) (pt : point) (m : mem S) (i : nat) : option (S * S) :=
    io <- loadi m (faddr tab [1; 1 + Z.of_nat i]) ;;
    jo <- loadi m (faddr tab [2; 1 + Z.of_nat i]) ;;
    ko <- loadi m (faddr tab [3; 1 + Z.of_nat i]) ;;
    c <- fel st [1 + Z.of_nat i; pt dI; pt dJ; pt dK] m ;;
    x <- fel u [pt dI + io; pt dJ + jo; pt dK + ko] m ;; Some (c, x).

  (** The dot product an expression denotes, as a loop over its terms. *)
  Ltac dot_denote lem :=
    intros <-; cbn [denote]; cbv zeta; cbn [map make_md_span_g make_md_span sp_b length nth_error];
    repeat match goal with |- context [expand_bounds ?g (d_unit (Wb ?w0 ?w1))] =>
      change (expand_bounds g (d_unit (Wb w0 w1))) with (dW, Bnd w0 w1) end;
    cbv iota beta;
    match goal with |- context [Z.to_nat (extent (Bnd ?w0 ?w1))] =>
      replace (Z.to_nat (extent (Bnd w0 w1))) with (Z.to_nat (w1 - w0 + 1)) by (f_equal; unfold extent; cbn; unfold b_ub, b_lb; cbn; lia);
      change (b_lb (Bnd w0 w1)) with w0 end;
    apply bind_cong; [|reflexivity]; apply forM_ext_in; intros i res _; rewrite lem, st_addr;
    unfold displaced, tm1, tm2, tm3; cbn [seq forM nth xyz]; rewrite ?tab_addr;
    change (Z.of_nat 0) with 0; change (Z.of_nat 1) with 1; change (Z.of_nat 2) with 2; change (Z.of_nat 3) with 3;
    change (1 - 1) with 0; change (2 - 1) with 1; change (3 - 1) with 2;
    unfold fel;
    repeat match goal with |- context [loadi ?m ?p] => destruct (loadi m p); cbn [bind]; try reflexivity end;
    autorewrite with fa; k_idx;
    repeat match goal with |- context [load ?m ?p] => destruct (load m p); cbn [bind fst snd]; try reflexivity end.

  Lemma dot1_denote st sgcw u ugcw o i0 i1 w0 w1 n pt (m : mem S) : w1 - w0 + 1 = n ->
    denote (EDot (make_md_span_g st sgcw [Ib i0 i1; Wb w0 w1]) (make_md_span_g u ugcw [Ib i0 i1]) o) pt m =
    (d <- forM (seq 0 (Z.to_nat n)) (fun i d =>
       t <- tm1 (mkFa o [(1, 1); (1, n)]) (mkFa st ((1, n) :: CELL1d i0 i1 sgcw)) (mkFa u (CELL1d i0 i1 ugcw)) pt m i ;;
       Some (d + fst t * snd t)%T) (lit 0) ;; Some (VNum d)).
  Proof. dot_denote addr_dot1. Qed.

  Lemma dot2_denote st sgcw u ugcw o i0 i1 j0 j1 w0 w1 n pt (m : mem S) : w1 - w0 + 1 = n ->
    denote (EDot (make_md_span_g st sgcw [Jb j0 j1; Ib i0 i1; Wb w0 w1]) (make_md_span_g u ugcw [Jb j0 j1; Ib i0 i1]) o) pt m =
    (d <- forM (seq 0 (Z.to_nat n)) (fun i d =>
       t <- tm2 (mkFa o [(1, 2); (1, n)]) (mkFa st ((1, n) :: CELL2d i0 j0 i1 j1 sgcw)) (mkFa u (CELL2d i0 j0 i1 j1 ugcw)) pt m i ;;
       Some (d + fst t * snd t)%T) (lit 0) ;; Some (VNum d)).
  Proof. dot_denote addr_dot2. Qed.

  Lemma dot3_denote st sgcw u ugcw o i0 i1 j0 j1 k0 k1 w0 w1 n pt (m : mem S) : w1 - w0 + 1 = n ->
    denote (EDot (make_md_span_g st sgcw [Kb k0 k1; Jb j0 j1; Ib i0 i1; Wb w0 w1]) (make_md_span_g u ugcw [Kb k0 k1; Jb j0 j1; Ib i0 i1]) o) pt m =
    (d <- forM (seq 0 (Z.to_nat n)) (fun i d =>
       t <- tm3 (mkFa o [(1, 3); (1, n)]) (mkFa st ((1, n) :: CELL3d i0 j0 k0 i1 j1 k1 sgcw)) (mkFa u (CELL3d i0 j0 k0 i1 j1 k1 ugcw)) pt m i ;;
       Some (d + fst t * snd t)%T) (lit 0) ;; Some (VNum d)).
  Proof. dot_denote addr_dot3. Qed.

  Lemma at1_eq lo0 hi0 i n offsets st (a b : S) fgcw f ugcw u rgcw r (m : mem S) : fst r <> fst st -> fst r <> fst u ->
    applystencilatpoint1d lo0 hi0 i n offsets st a b fgcw f ugcw u rgcw r m =
    fset (mkFa r (CELL1d lo0 hi0 rgcw)) [i] (facc 1 n (fop smul (fsc b) (fel (mkFa f (CELL1d lo0 hi0 fgcw)) [i]))
      (fun s r => fint (mkFa offsets [(1, 1); (1, n)]) [1; s] (fun io =>
         fop sadd (fsc r) (fop smul (fop smul (fsc a) (fel (mkFa st ((1, n) :: CELL1d lo0 hi0 0)) [s; i]))
           (fel (mkFa u (CELL1d lo0 hi0 ugcw)) [i + io]))))) m.
  Proof.
    intros. unfold applystencilatpoint1d. apply acc_put.
    - acc_body.
    - intros. f_blind.
  Qed.

  Lemma at2_eq lo0 hi0 lo1 hi1 i j n offsets st (a b : S) fgcw f ugcw u rgcw r (m : mem S) : fst r <> fst st -> fst r <> fst u ->
    applystencilatpoint2d lo0 hi0 lo1 hi1 i j n offsets st a b fgcw f ugcw u rgcw r m =
    fset (mkFa r (CELL2d lo0 lo1 hi0 hi1 rgcw)) [i; j]
      (facc 1 n (fop smul (fsc b) (fel (mkFa f (CELL2d lo0 lo1 hi0 hi1 fgcw)) [i; j]))
      (fun s r => fint (mkFa offsets [(1, 2); (1, n)]) [1; s] (fun io => fint (mkFa offsets [(1, 2); (1, n)]) [2; s] (fun jo =>
         fop sadd (fsc r) (fop smul (fop smul (fsc a) (fel (mkFa st ((1, n) :: CELL2d lo0 lo1 hi0 hi1 0)) [s; i; j]))
           (fel (mkFa u (CELL2d lo0 lo1 hi0 hi1 ugcw)) [i + io; j + jo])))))) m.
  Proof.
    intros. unfold applystencilatpoint2d. apply acc_put.
    - acc_body.
    - intros. f_blind.
  Qed.

  Lemma at3_eq lo0 hi0 lo1 hi1 lo2 hi2 i j k n offsets st (a b : S) fgcw f ugcw u rgcw r (m : mem S) : fst r <> fst st -> fst r <> fst u ->
    applystencilatpoint3d lo0 hi0 lo1 hi1 lo2 hi2 i j k n offsets st a b fgcw f ugcw u rgcw r m =
    fset (mkFa r (CELL3d lo0 lo1 lo2 hi0 hi1 hi2 rgcw)) [i; j; k]
      (facc 1 n (fop smul (fsc b) (fel (mkFa f (CELL3d lo0 lo1 lo2 hi0 hi1 hi2 fgcw)) [i; j; k]))
      (fun s r => fint (mkFa offsets [(1, 3); (1, n)]) [1; s] (fun io => fint (mkFa offsets [(1, 3); (1, n)]) [2; s] (fun jo =>
        fint (mkFa offsets [(1, 3); (1, n)]) [3; s] (fun ko =>
         fop sadd (fsc r) (fop smul (fop smul (fsc a) (fel (mkFa st ((1, n) :: CELL3d lo0 lo1 lo2 hi0 hi1 hi2 0)) [s; i; j; k]))
           (fel (mkFa u (CELL3d lo0 lo1 lo2 hi0 hi1 hi2 ugcw)) [i + io; j + jo; k + ko]))))))) m.
  Proof.
    intros. unfold applystencilatpoint3d. apply acc_put.
    - acc_body.
    - intros. f_blind.
  Qed.

  Ltac dot_wf :=
    split; [k_span|split; [k_perm|cbv iota beta; cbn [wf_expr]]];
    repeat lazymatch goal with
    | |- _ /\ _ => split
    | |- wf_span _ => k_span
    | |- Permutation _ _ => k_perm
    | |- Forall _ _ => k_forall
    | |- rev _ = _ => reflexivity
    end;
    match goal with |- exists hd w wb, sp_b ?s = _ /\ _ =>
      let l := eval cbv [make_md_span_g make_md_span sp_b map] in (sp_b s) in
      exists (removelast l), dW; eexists; split; [reflexivity|k_perm] end.

  Lemma load_store_none (m : mem S) p x : load m p = None -> store m p x = None.
  Proof.
    intros H. destruct (store m p x) as [m'|] eqn:E; [|reflexivity].
    assert (exists w, load m p = Some w) as [w Hw] by (apply (store_Some m p x); eauto). congruence.
  Qed.

  Ltac dot_terms :=
    intros; unfold tm1, tm2, tm3, fint, fop, fel, fsc;
    repeat match goal with |- context [loadi ?m ?p] => destruct (loadi m p); cbn [bind fst snd]; try reflexivity end;
    repeat match goal with |- context [load ?m ?p] => destruct (load m p); cbn [bind fst snd]; try reflexivity end.
  Ltac dot_done :=
    autorewrite with fa; unfold fop, fsc, fel;
    match goal with |- context [forM ?l ?f ?x] => destruct (forM l f x) as [d|]; cbn [bind app_op num_op] end;
    match goal with |- context [load ?m ?p] => destruct (load m p) eqn:?; cbn [bind app_op num_op] end;
    try match goal with H : load _ _ = None |- _ => rewrite (load_store_none _ _ _ H) end; try reflexivity; f_equal; ring.

  Lemma dot_offset_1d_at st u ugcw v vgcw o i0 i1 w1 (m : mem S) : i0 <= i1 + 1 -> fst v <> fst st -> fst v <> fst u ->
    dot_offset_1d st 0 u ugcw v vgcw o i0 i1 w1 m =
    do_ i0 i1 (fun i => applystencilatpoint1d i0 i1 i w1 o st (lit 1) (lit 0) vgcw v ugcw u vgcw v) m.
  Proof.
    intros. unfold dot_offset_1d. cbv zeta.
    rewrite with_domain_points; [|k_dom|dot_wf]. rewrite (do_points1 dI).
    apply forM_ext_in. intros pt m' _. rewrite at1_eq by assumption.
    cbn [assign_point]. rewrite dot1_denote with (n := w1) by ring. unfold fset.
    erewrite (facc_dot w1 (lit 1) _ _ _
      (tm1 (mkFa o [(1, 1); (1, w1)]) (mkFa st ((1, w1) :: CELL1d i0 i1 0)) (mkFa u (CELL1d i0 i1 ugcw)) pt m')); [| |intros; reflexivity]; [dot_done|dot_terms].
  Qed.

  Lemma dot_offset_2d_at st u ugcw v vgcw o i0 i1 j0 j1 w1 (m : mem S) : i0 <= i1 + 1 -> j0 <= j1 + 1 -> fst v <> fst st -> fst v <> fst u ->
    dot_offset_2d st 0 u ugcw v vgcw o i0 i1 j0 j1 w1 m =
    do_ j0 j1 (fun j => do_ i0 i1 (fun i => applystencilatpoint2d i0 i1 j0 j1 i j w1 o st (lit 1) (lit 0) vgcw v ugcw u vgcw v)) m.
  Proof.
    intros. unfold dot_offset_2d. cbv zeta.
    rewrite with_domain_points; [|k_dom|dot_wf]. rewrite (do_points2 dJ dI) by discriminate.
    apply forM_ext_in. intros pt m' _. rewrite at2_eq by assumption.
    cbn [assign_point]. rewrite dot2_denote with (n := w1) by ring. unfold fset.
    erewrite (facc_dot w1 (lit 1) _ _ _
      (tm2 (mkFa o [(1, 2); (1, w1)]) (mkFa st ((1, w1) :: CELL2d i0 j0 i1 j1 0)) (mkFa u (CELL2d i0 j0 i1 j1 ugcw)) pt m')); [| |intros; reflexivity]; [dot_done|dot_terms].
  Qed.

  Lemma dot_offset_3d_at st u ugcw v vgcw o i0 i1 j0 j1 k0 k1 w1 (m : mem S) : i0 <= i1 + 1 -> j0 <= j1 + 1 -> k0 <= k1 + 1 -> fst v <> fst st -> fst v <> fst u ->
    dot_offset_3d st 0 u ugcw v vgcw o i0 i1 j0 j1 k0 k1 w1 m =
    do_ k0 k1 (fun k => do_ j0 j1 (fun j => do_ i0 i1 (fun i => applystencilatpoint3d i0 i1 j0 j1 k0 k1 i j k w1 o st (lit 1) (lit 0) vgcw v ugcw u vgcw v))) m.
  Proof.
    intros. unfold dot_offset_3d. cbv zeta.
    rewrite with_domain_points; [|k_dom|dot_wf]. rewrite (do_points3 dK dJ dI) by discriminate.
    apply forM_ext_in. intros pt m' _. rewrite at3_eq by assumption.
    cbn [assign_point]. rewrite dot3_denote with (n := w1) by ring. unfold fset.
    erewrite (facc_dot w1 (lit 1) _ _ _
      (tm3 (mkFa o [(1, 3); (1, w1)]) (mkFa st ((1, w1) :: CELL3d i0 j0 k0 i1 j1 k1 0)) (mkFa u (CELL3d i0 j0 k0 i1 j1 k1 ugcw)) pt m')); [| |intros; reflexivity]; [dot_done|dot_terms].
  Qed.

  Lemma dot3_denote' st u ugcw o i0 i1 j0 j1 k0 k1 n pt (m : mem S) :
    denote (EDot (make_md_span st [Kb k0 k1; Jb j0 j1; Ib i0 i1; Wb 1 n]) (make_md_span_g u ugcw [Kb k0 k1; Jb j0 j1; Ib i0 i1]) o) pt m =
    denote (EDot (make_md_span_g st 0 [Kb k0 k1; Jb j0 j1; Ib i0 i1; Wb 1 n]) (make_md_span_g u ugcw [Kb k0 k1; Jb j0 j1; Ib i0 i1]) o) pt m.
  Proof.
    cbn [denote]. cbv zeta. cbn [map make_md_span_g make_md_span sp_b length nth_error].
    change (expand_bounds 0 (d_unit (Wb 1 n))) with (dW, Bnd 1 n). change (d_unit (Wb 1 n)) with (dW, Bnd 1 n).
    cbv iota beta. apply bind_cong; [|reflexivity]. apply forM_ext_in. intros i res _. rewrite addr_dot3, addr_dot3'. reflexivity.
  Qed.

  Lemma ls_apply_at i0 i1 j0 j1 k0 k1 i j k n o st (a b : S) fgcw f ugcw u rgcw r (m : mem S) : fst r <> fst st -> fst r <> fst u ->
    ls_apply_st_3d_at_point i0 i1 j0 j1 k0 k1 i j k n o st a b fgcw f ugcw u rgcw r m =
    applystencilatpoint3d i0 i1 j0 j1 k0 k1 i j k n o st a b fgcw f ugcw u rgcw r m.
  Proof.
    intros. unfold ls_apply_st_3d_at_point. cbv zeta.
    rewrite with_domain_points; [|k_dom|dot_wf]. rewrite at3_eq by assumption.
    change (domain_points [Kb k k; Jb j j; Ib i i] origin) with
      (flat_map (fun z => flat_map (fun y => flat_map (fun x => [pset (pset (pset origin dK z) dJ y) dI x])
         (loop_values (Bnd i i))) (loop_values (Bnd j j))) (loop_values (Bnd k k))).
    rewrite !loop_Bnd.
    replace (Z.to_nat (k - k + 1)) with 1%nat by lia. replace (Z.to_nat (j - j + 1)) with 1%nat by lia.
    replace (Z.to_nat (i - i + 1)) with 1%nat by lia. cbn [seq map flat_map app forM].
    match goal with |- context [assign_point _ ?q m] => set (pt := q) end.
    assert (pt dI = i /\ pt dJ = j /\ pt dK = k) as (Ei & Ej & Ek) by (cbn; lia).
    rewrite <- Ei, <- Ej, <- Ek. clearbody pt.
    match goal with |- _ = ?R => assert (assign_point (AExpr (make_md_span_g r rgcw [Kb k0 k1; Jb j0 j1; Ib i0 i1])
      (ENumL OMul b (ESpan (make_md_span_g f fgcw [Kb k0 k1; Jb j0 j1; Ib i0 i1])) + ENumL OMul a (EDot (make_md_span st [Kb k0 k1; Jb j0 j1; Ib i0 i1; Wb 1 n])
         (make_md_span_g u ugcw [Kb k0 k1; Jb j0 j1; Ib i0 i1]) o))%E) pt m = R) as -> end.
    2:{ match goal with |- bind ?x _ = _ => destruct x; reflexivity end. }
    cbn [assign_point]. remember (EDot _ _ _) as dt. cbn [denote]. subst dt.
    rewrite dot3_denote', dot3_denote with (n := n) by ring. unfold fset.
    erewrite (facc_dot n a _ _ _
      (tm3 (mkFa o [(1, 3); (1, n)]) (mkFa st ((1, n) :: CELL3d i0 j0 k0 i1 j1 k1 0)) (mkFa u (CELL3d i0 j0 k0 i1 j1 k1 ugcw)) pt m));
      [| |intros; reflexivity]; [|dot_terms].
    autorewrite with fa. unfold fop, fsc, fel.
    destruct (load m (faddr (mkFa f _) _)); cbn [bind app_op num_op]; [|reflexivity].
    match goal with |- context [forM ?l ?g ?x] => destruct (forM l g x) as [d|]; cbn [bind app_op num_op] end; reflexivity.
  Qed.
End Dot.
