(** * Symmetry and row sums of the assembled matrix *)

From Coq Require Import Permutation Field.
From Verif Require Import Base ModelBounds ModelMatrix ModelIters ModelSpan ModelProxy Spec SpecIter ModelSched
  LemBase LemDomain LemExpr LemExec SpecAssign LemAssign LemProps LemProps4 SpecWindow LemWindow LemWindow2
  FortranBase SpecKernel Instances LemField LemKernel LemKernel2 LemBC LemHomog KernelNotations
  KernelsFlux KernelsApply KernelsStencil LemStencil LemRow LemValues1 LemValues2 LemValues3.
Import ListNotations.
Open Scope Z_scope.

(** Both coefficients as the same expression of the memory before. *)
Ltac k_sym :=
  repeat match goal with
  | H : _ /\ _ |- _ => destruct H
  | H : gets _ _ _ _ |- _ => destruct H as (? & ? & ?)
  end;
  unfold fel, fop, fsc, fneg in * ; cbv beta in * ;
  repeat match goal with
  | H : load ?mb ?p = load ?ma ?p |- context [load ?mb ?p] => rewrite H
  end;
  eexists; split; [eassumption|];
  match goal with H : load ?mm ?p = Some ?x |- load ?mm ?p = Some ?y => rewrite H end;
  congruence.

Section Symmetric.
  Context {S : Scalar} (L : field_laws S).
  Add Field SF : (s_field S L) (morphism (lit_morph S L), constants [lit_cst]).

  Lemma symmetric_v1_1d i0 i1 dx beta b0 alpha agcw a sgcw st (m ms : mem S) :
  i0 <= i1 + 1 -> 0 <= sgcw -> apart st [b0; a] ->
  (m' <- cd_stencil_1d_offdiag i0 i1 i0 i1 dx beta b0 sgcw st m ;;
   cd_stencil_1d_v1diag i0 i1 (i0 - agcw) (i1 + agcw) alpha a sgcw st m') = Some ms ->
  let st := mkFa st ((0, 2) :: CELL1d i0 i1 sgcw) in
  forall i, i0 <= i <= i1 ->
  (i + 1 <= i1 -> exists x, (st!(2, i))%F ms = Some x /\ (st!(1, i + 1))%F ms = Some x).
  Proof.
    intros. match goal with H : _ = Some ms |- _ => rename H into Es end.
    apply bind_Some_inv in Es as (m1 & Eo1 & Ed). k_apart.
    destruct (offdiag_1d_at i0 i1 i0 i1 dx beta b0 sgcw st m m1 ltac:(k_rapart L) ltac:(k_rapart L) ltac:(k_rapart L) Eo1) as (Vo & Fo).
    destruct (v1diag_1d_at L i0 i1 (i0 - agcw) (i1 + agcw) alpha a sgcw st m1 ms ltac:(k_rapart L) ltac:(k_rapart L) ltac:(k_rapart L) Ed) as (Vd & Fd). clear Eo1 Ed.
    intros. pose proof (Vo i ltac:(lia)) as V0. pose proof (Vo (i + 1) ltac:(lia)) as V1. pose proof (Vd i ltac:(lia)) as W0. pose proof (Vd (i + 1) ltac:(lia)) as W1.
      clear Vo Vd. subst_lets. k_sym.
  Qed.

  Lemma rowsum_v1_1d i0 i1 dx beta b0 alpha agcw a sgcw st (m ms : mem S) :
  i0 <= i1 + 1 -> 0 <= sgcw -> apart st [b0; a] ->
  (m' <- cd_stencil_1d_offdiag i0 i1 i0 i1 dx beta b0 sgcw st m ;;
   cd_stencil_1d_v1diag i0 i1 (i0 - agcw) (i1 + agcw) alpha a sgcw st m') = Some ms ->
  let st := mkFa st ((0, 2) :: CELL1d i0 i1 sgcw) in
  let a := mkFa a (CELL1d i0 i1 agcw) in
  forall i, i0 <= i <= i1 ->
  exists x, (st!(0, i) + st!(1, i) + st!(2, i))%F ms = Some x /\ ($alpha * a!(i))%F m = Some x.
  Proof.
    intros. match goal with H : _ = Some ms |- _ => rename H into Es end.
    apply bind_Some_inv in Es as (m1 & Eo1 & Ed). k_apart.
    destruct (offdiag_1d_at i0 i1 i0 i1 dx beta b0 sgcw st m m1 ltac:(k_rapart L) ltac:(k_rapart L) ltac:(k_rapart L) Eo1) as (Vo & Fo).
    destruct (v1diag_1d_at L i0 i1 (i0 - agcw) (i1 + agcw) alpha a sgcw st m1 ms ltac:(k_rapart L) ltac:(k_rapart L) ltac:(k_rapart L) Ed) as (Vd & Fd). clear Eo1 Ed.
    specialize (Vo i ltac:(lia)). specialize (Vd i ltac:(lia)). subst_lets. k_open. unfold fel, fop, fsc, fneg.
    eexists. split; [k_close L; reflexivity|k_close L; f_equal; ring].
  Qed.

  Lemma symmetric_v2_1d i0 i1 dx beta b0 alpha sgcw st (m ms : mem S) :
  i0 <= i1 + 1 -> 0 <= sgcw -> apart st [b0] ->
  (m' <- cd_stencil_1d_offdiag i0 i1 i0 i1 dx beta b0 sgcw st m ;;
   cd_stencil_1d_v2diag i0 i1 alpha sgcw st m') = Some ms ->
  let st := mkFa st ((0, 2) :: CELL1d i0 i1 sgcw) in
  forall i, i0 <= i <= i1 ->
  (i + 1 <= i1 -> exists x, (st!(2, i))%F ms = Some x /\ (st!(1, i + 1))%F ms = Some x).
  Proof.
    intros. match goal with H : _ = Some ms |- _ => rename H into Es end.
    apply bind_Some_inv in Es as (m1 & Eo1 & Ed). k_apart.
    destruct (offdiag_1d_at i0 i1 i0 i1 dx beta b0 sgcw st m m1 ltac:(k_rapart L) ltac:(k_rapart L) ltac:(k_rapart L) Eo1) as (Vo & Fo).
    destruct (v2diag_1d_at L i0 i1 alpha sgcw st m1 ms ltac:(k_rapart L) ltac:(k_rapart L) Ed) as (Vd & Fd). clear Eo1 Ed.
    intros. pose proof (Vo i ltac:(lia)) as V0. pose proof (Vo (i + 1) ltac:(lia)) as V1. pose proof (Vd i ltac:(lia)) as W0. pose proof (Vd (i + 1) ltac:(lia)) as W1.
      clear Vo Vd. subst_lets. k_sym.
  Qed.

  Lemma rowsum_v2_1d i0 i1 dx beta b0 alpha sgcw st (m ms : mem S) :
  i0 <= i1 + 1 -> 0 <= sgcw -> apart st [b0] ->
  (m' <- cd_stencil_1d_offdiag i0 i1 i0 i1 dx beta b0 sgcw st m ;;
   cd_stencil_1d_v2diag i0 i1 alpha sgcw st m') = Some ms ->
  let st := mkFa st ((0, 2) :: CELL1d i0 i1 sgcw) in
  forall i, i0 <= i <= i1 ->
  exists x, (st!(0, i) + st!(1, i) + st!(2, i))%F ms = Some x /\ x = alpha.
  Proof.
    intros. match goal with H : _ = Some ms |- _ => rename H into Es end.
    apply bind_Some_inv in Es as (m1 & Eo1 & Ed). k_apart.
    destruct (offdiag_1d_at i0 i1 i0 i1 dx beta b0 sgcw st m m1 ltac:(k_rapart L) ltac:(k_rapart L) ltac:(k_rapart L) Eo1) as (Vo & Fo).
    destruct (v2diag_1d_at L i0 i1 alpha sgcw st m1 ms ltac:(k_rapart L) ltac:(k_rapart L) Ed) as (Vd & Fd). clear Eo1 Ed.
    specialize (Vo i ltac:(lia)). specialize (Vd i ltac:(lia)). subst_lets. k_open. 
    eexists. split; [k_close L; reflexivity|ring].
  Qed.

  Lemma symmetric_poisson_1d i0 i1 dx beta sgcw st (m ms : mem S) :
  i0 <= i1 + 1 -> 0 <= sgcw ->
  (m' <- cd_stencil_1d_poisson_offdiag i0 i1 dx beta sgcw st m ;;
   cd_stencil_1d_poisson_diag i0 i1 sgcw st m') = Some ms ->
  let st := mkFa st ((0, 2) :: CELL1d i0 i1 sgcw) in
  forall i, i0 <= i <= i1 ->
  (i + 1 <= i1 -> exists x, (st!(2, i))%F ms = Some x /\ (st!(1, i + 1))%F ms = Some x).
  Proof.
    intros. match goal with H : _ = Some ms |- _ => rename H into Es end.
    apply bind_Some_inv in Es as (m1 & Eo1 & Ed). k_apart.
    destruct (poisson_offdiag_1d_at i0 i1 dx beta sgcw st m m1 ltac:(k_rapart L) ltac:(k_rapart L) Eo1) as (Vo & Fo).
    destruct (poisson_diag_1d_at L i0 i1 sgcw st m1 ms ltac:(k_rapart L) ltac:(k_rapart L) Ed) as (Vd & Fd). clear Eo1 Ed.
    intros. pose proof (Vo i ltac:(lia)) as V0. pose proof (Vo (i + 1) ltac:(lia)) as V1. pose proof (Vd i ltac:(lia)) as W0. pose proof (Vd (i + 1) ltac:(lia)) as W1.
      clear Vo Vd. subst_lets. k_sym.
  Qed.

  Lemma rowsum_poisson_1d i0 i1 dx beta sgcw st (m ms : mem S) :
  i0 <= i1 + 1 -> 0 <= sgcw ->
  (m' <- cd_stencil_1d_poisson_offdiag i0 i1 dx beta sgcw st m ;;
   cd_stencil_1d_poisson_diag i0 i1 sgcw st m') = Some ms ->
  let st := mkFa st ((0, 2) :: CELL1d i0 i1 sgcw) in
  forall i, i0 <= i <= i1 ->
  exists x, (st!(0, i) + st!(1, i) + st!(2, i))%F ms = Some x /\ x = lit 0.
  Proof.
    intros. match goal with H : _ = Some ms |- _ => rename H into Es end.
    apply bind_Some_inv in Es as (m1 & Eo1 & Ed). k_apart.
    destruct (poisson_offdiag_1d_at i0 i1 dx beta sgcw st m m1 ltac:(k_rapart L) ltac:(k_rapart L) Eo1) as (Vo & Fo).
    destruct (poisson_diag_1d_at L i0 i1 sgcw st m1 ms ltac:(k_rapart L) ltac:(k_rapart L) Ed) as (Vd & Fd). clear Eo1 Ed.
    specialize (Vo i ltac:(lia)). specialize (Vd i ltac:(lia)). subst_lets. k_open. 
    eexists. split; [k_close L; reflexivity|ring].
  Qed.

  Lemma symmetric_v1_2d i0 j0 i1 j1 dx beta b0 b1 alpha agcw a sgcw st (m ms : mem S) :
  i0 <= i1 + 1 -> j0 <= j1 + 1 -> 0 <= sgcw -> apart st [b0; b1; a] ->
  (m' <- cd_stencil_2d_offdiag i0 j0 i1 j1 i0 j0 i1 j1 dx beta b0 b1 sgcw st m ;;
   cd_stencil_2d_v1diag i0 j0 i1 j1 (i0 - agcw) (j0 - agcw) (i1 + agcw) (j1 + agcw) alpha a sgcw st m') = Some ms ->
  let st := mkFa st ((0, 4) :: CELL2d i0 j0 i1 j1 sgcw) in
  forall i j, i0 <= i <= i1 -> j0 <= j <= j1 ->
  (i + 1 <= i1 -> exists x, (st!(2, i, j))%F ms = Some x /\ (st!(1, i + 1, j))%F ms = Some x) /\
  (j + 1 <= j1 -> exists x, (st!(4, i, j))%F ms = Some x /\ (st!(3, i, j + 1))%F ms = Some x).
  Proof.
    intros. match goal with H : _ = Some ms |- _ => rename H into Es end.
    apply bind_Some_inv in Es as (m1 & Eo1 & Ed). k_apart.
    destruct (offdiag_2d_at i0 j0 i1 j1 i0 j0 i1 j1 dx beta b0 b1 sgcw st m m1 ltac:(k_rapart L) ltac:(k_rapart L) ltac:(k_rapart L) ltac:(k_rapart L) Eo1) as (Vo & Fo).
    destruct (v1diag_2d_at L i0 j0 i1 j1 (i0 - agcw) (j0 - agcw) (i1 + agcw) (j1 + agcw) alpha a sgcw st m1 ms ltac:(k_rapart L) ltac:(k_rapart L) ltac:(k_rapart L) ltac:(k_rapart L) Ed) as (Vd & Fd). clear Eo1 Ed.
    repeat match goal with |- _ /\ _ => split end.
    - intros. pose proof (Vo i j ltac:(lia) ltac:(lia)) as V0. pose proof (Vo (i + 1) j ltac:(lia) ltac:(lia)) as V1. pose proof (Vd i j ltac:(lia) ltac:(lia)) as W0. pose proof (Vd (i + 1) j ltac:(lia) ltac:(lia)) as W1.
      clear Vo Vd. subst_lets. k_sym.
    - intros. pose proof (Vo i j ltac:(lia) ltac:(lia)) as V0. pose proof (Vo i (j + 1) ltac:(lia) ltac:(lia)) as V1. pose proof (Vd i j ltac:(lia) ltac:(lia)) as W0. pose proof (Vd i (j + 1) ltac:(lia) ltac:(lia)) as W1.
      clear Vo Vd. subst_lets. k_sym.
  Qed.

  Lemma rowsum_v1_2d i0 j0 i1 j1 dx beta b0 b1 alpha agcw a sgcw st (m ms : mem S) :
  i0 <= i1 + 1 -> j0 <= j1 + 1 -> 0 <= sgcw -> apart st [b0; b1; a] ->
  (m' <- cd_stencil_2d_offdiag i0 j0 i1 j1 i0 j0 i1 j1 dx beta b0 b1 sgcw st m ;;
   cd_stencil_2d_v1diag i0 j0 i1 j1 (i0 - agcw) (j0 - agcw) (i1 + agcw) (j1 + agcw) alpha a sgcw st m') = Some ms ->
  let st := mkFa st ((0, 4) :: CELL2d i0 j0 i1 j1 sgcw) in
  let a := mkFa a (CELL2d i0 j0 i1 j1 agcw) in
  forall i j, i0 <= i <= i1 -> j0 <= j <= j1 ->
  exists x, (st!(0, i, j) + st!(1, i, j) + st!(2, i, j) + st!(3, i, j) + st!(4, i, j))%F ms = Some x /\ ($alpha * a!(i, j))%F m = Some x.
  Proof.
    intros. match goal with H : _ = Some ms |- _ => rename H into Es end.
    apply bind_Some_inv in Es as (m1 & Eo1 & Ed). k_apart.
    destruct (offdiag_2d_at i0 j0 i1 j1 i0 j0 i1 j1 dx beta b0 b1 sgcw st m m1 ltac:(k_rapart L) ltac:(k_rapart L) ltac:(k_rapart L) ltac:(k_rapart L) Eo1) as (Vo & Fo).
    destruct (v1diag_2d_at L i0 j0 i1 j1 (i0 - agcw) (j0 - agcw) (i1 + agcw) (j1 + agcw) alpha a sgcw st m1 ms ltac:(k_rapart L) ltac:(k_rapart L) ltac:(k_rapart L) ltac:(k_rapart L) Ed) as (Vd & Fd). clear Eo1 Ed.
    specialize (Vo i j ltac:(lia) ltac:(lia)). specialize (Vd i j ltac:(lia) ltac:(lia)). subst_lets. k_open. unfold fel, fop, fsc, fneg.
    eexists. split; [k_close L; reflexivity|k_close L; f_equal; ring].
  Qed.

  Lemma symmetric_v2_2d i0 j0 i1 j1 dx beta b0 b1 alpha sgcw st (m ms : mem S) :
  i0 <= i1 + 1 -> j0 <= j1 + 1 -> 0 <= sgcw -> apart st [b0; b1] ->
  (m' <- cd_stencil_2d_offdiag i0 j0 i1 j1 i0 j0 i1 j1 dx beta b0 b1 sgcw st m ;;
   cd_stencil_2d_v2diag i0 j0 i1 j1 alpha sgcw st m') = Some ms ->
  let st := mkFa st ((0, 4) :: CELL2d i0 j0 i1 j1 sgcw) in
  forall i j, i0 <= i <= i1 -> j0 <= j <= j1 ->
  (i + 1 <= i1 -> exists x, (st!(2, i, j))%F ms = Some x /\ (st!(1, i + 1, j))%F ms = Some x) /\
  (j + 1 <= j1 -> exists x, (st!(4, i, j))%F ms = Some x /\ (st!(3, i, j + 1))%F ms = Some x).
  Proof.
    intros. match goal with H : _ = Some ms |- _ => rename H into Es end.
    apply bind_Some_inv in Es as (m1 & Eo1 & Ed). k_apart.
    destruct (offdiag_2d_at i0 j0 i1 j1 i0 j0 i1 j1 dx beta b0 b1 sgcw st m m1 ltac:(k_rapart L) ltac:(k_rapart L) ltac:(k_rapart L) ltac:(k_rapart L) Eo1) as (Vo & Fo).
    destruct (v2diag_2d_at L i0 j0 i1 j1 alpha sgcw st m1 ms ltac:(k_rapart L) ltac:(k_rapart L) ltac:(k_rapart L) Ed) as (Vd & Fd). clear Eo1 Ed.
    repeat match goal with |- _ /\ _ => split end.
    - intros. pose proof (Vo i j ltac:(lia) ltac:(lia)) as V0. pose proof (Vo (i + 1) j ltac:(lia) ltac:(lia)) as V1. pose proof (Vd i j ltac:(lia) ltac:(lia)) as W0. pose proof (Vd (i + 1) j ltac:(lia) ltac:(lia)) as W1.
      clear Vo Vd. subst_lets. k_sym.
    - intros. pose proof (Vo i j ltac:(lia) ltac:(lia)) as V0. pose proof (Vo i (j + 1) ltac:(lia) ltac:(lia)) as V1. pose proof (Vd i j ltac:(lia) ltac:(lia)) as W0. pose proof (Vd i (j + 1) ltac:(lia) ltac:(lia)) as W1.
      clear Vo Vd. subst_lets. k_sym.
  Qed.

  Lemma rowsum_v2_2d i0 j0 i1 j1 dx beta b0 b1 alpha sgcw st (m ms : mem S) :
  i0 <= i1 + 1 -> j0 <= j1 + 1 -> 0 <= sgcw -> apart st [b0; b1] ->
  (m' <- cd_stencil_2d_offdiag i0 j0 i1 j1 i0 j0 i1 j1 dx beta b0 b1 sgcw st m ;;
   cd_stencil_2d_v2diag i0 j0 i1 j1 alpha sgcw st m') = Some ms ->
  let st := mkFa st ((0, 4) :: CELL2d i0 j0 i1 j1 sgcw) in
  forall i j, i0 <= i <= i1 -> j0 <= j <= j1 ->
  exists x, (st!(0, i, j) + st!(1, i, j) + st!(2, i, j) + st!(3, i, j) + st!(4, i, j))%F ms = Some x /\ x = alpha.
  Proof.
    intros. match goal with H : _ = Some ms |- _ => rename H into Es end.
    apply bind_Some_inv in Es as (m1 & Eo1 & Ed). k_apart.
    destruct (offdiag_2d_at i0 j0 i1 j1 i0 j0 i1 j1 dx beta b0 b1 sgcw st m m1 ltac:(k_rapart L) ltac:(k_rapart L) ltac:(k_rapart L) ltac:(k_rapart L) Eo1) as (Vo & Fo).
    destruct (v2diag_2d_at L i0 j0 i1 j1 alpha sgcw st m1 ms ltac:(k_rapart L) ltac:(k_rapart L) ltac:(k_rapart L) Ed) as (Vd & Fd). clear Eo1 Ed.
    specialize (Vo i j ltac:(lia) ltac:(lia)). specialize (Vd i j ltac:(lia) ltac:(lia)). subst_lets. k_open. 
    eexists. split; [k_close L; reflexivity|ring].
  Qed.

  Lemma symmetric_poisson_2d i0 j0 i1 j1 dx beta sgcw st (m ms : mem S) :
  i0 <= i1 + 1 -> j0 <= j1 + 1 -> 0 <= sgcw ->
  (m' <- cd_stencil_2d_poisson_offdiag i0 j0 i1 j1 dx beta sgcw st m ;;
   cd_stencil_2d_poisson_diag i0 j0 i1 j1 sgcw st m') = Some ms ->
  let st := mkFa st ((0, 4) :: CELL2d i0 j0 i1 j1 sgcw) in
  forall i j, i0 <= i <= i1 -> j0 <= j <= j1 ->
  (i + 1 <= i1 -> exists x, (st!(2, i, j))%F ms = Some x /\ (st!(1, i + 1, j))%F ms = Some x) /\
  (j + 1 <= j1 -> exists x, (st!(4, i, j))%F ms = Some x /\ (st!(3, i, j + 1))%F ms = Some x).
  Proof.
    intros. match goal with H : _ = Some ms |- _ => rename H into Es end.
    apply bind_Some_inv in Es as (m1 & Eo1 & Ed). k_apart.
    destruct (poisson_offdiag_2d_at i0 j0 i1 j1 dx beta sgcw st m m1 ltac:(k_rapart L) ltac:(k_rapart L) ltac:(k_rapart L) Eo1) as (Vo & Fo).
    destruct (poisson_diag_2d_at L i0 j0 i1 j1 sgcw st m1 ms ltac:(k_rapart L) ltac:(k_rapart L) ltac:(k_rapart L) Ed) as (Vd & Fd). clear Eo1 Ed.
    repeat match goal with |- _ /\ _ => split end.
    - intros. pose proof (Vo i j ltac:(lia) ltac:(lia)) as V0. pose proof (Vo (i + 1) j ltac:(lia) ltac:(lia)) as V1. pose proof (Vd i j ltac:(lia) ltac:(lia)) as W0. pose proof (Vd (i + 1) j ltac:(lia) ltac:(lia)) as W1.
      clear Vo Vd. subst_lets. k_sym.
    - intros. pose proof (Vo i j ltac:(lia) ltac:(lia)) as V0. pose proof (Vo i (j + 1) ltac:(lia) ltac:(lia)) as V1. pose proof (Vd i j ltac:(lia) ltac:(lia)) as W0. pose proof (Vd i (j + 1) ltac:(lia) ltac:(lia)) as W1.
      clear Vo Vd. subst_lets. k_sym.
  Qed.

  Lemma rowsum_poisson_2d i0 j0 i1 j1 dx beta sgcw st (m ms : mem S) :
  i0 <= i1 + 1 -> j0 <= j1 + 1 -> 0 <= sgcw ->
  (m' <- cd_stencil_2d_poisson_offdiag i0 j0 i1 j1 dx beta sgcw st m ;;
   cd_stencil_2d_poisson_diag i0 j0 i1 j1 sgcw st m') = Some ms ->
  let st := mkFa st ((0, 4) :: CELL2d i0 j0 i1 j1 sgcw) in
  forall i j, i0 <= i <= i1 -> j0 <= j <= j1 ->
  exists x, (st!(0, i, j) + st!(1, i, j) + st!(2, i, j) + st!(3, i, j) + st!(4, i, j))%F ms = Some x /\ x = lit 0.
  Proof.
    intros. match goal with H : _ = Some ms |- _ => rename H into Es end.
    apply bind_Some_inv in Es as (m1 & Eo1 & Ed). k_apart.
    destruct (poisson_offdiag_2d_at i0 j0 i1 j1 dx beta sgcw st m m1 ltac:(k_rapart L) ltac:(k_rapart L) ltac:(k_rapart L) Eo1) as (Vo & Fo).
    destruct (poisson_diag_2d_at L i0 j0 i1 j1 sgcw st m1 ms ltac:(k_rapart L) ltac:(k_rapart L) ltac:(k_rapart L) Ed) as (Vd & Fd). clear Eo1 Ed.
    specialize (Vo i j ltac:(lia) ltac:(lia)). specialize (Vd i j ltac:(lia) ltac:(lia)). subst_lets. k_open. 
    eexists. split; [k_close L; reflexivity|ring].
  Qed.

  Lemma symmetric_v1_3d i0 j0 k0 i1 j1 k1 dx beta b0 b1 b2 alpha agcw a sgcw st (m ms : mem S) :
  i0 <= i1 + 1 -> j0 <= j1 + 1 -> k0 <= k1 + 1 -> 0 <= sgcw -> apart st [b0; b1; b2; a] ->
  (m' <- cd_stencil_3d_offdiag i0 j0 k0 i1 j1 k1 i0 j0 k0 i1 j1 k1 dx beta b0 b1 b2 sgcw st m ;;
   cd_stencil_3d_v1diag i0 j0 k0 i1 j1 k1 (i0 - agcw) (j0 - agcw) (k0 - agcw) (i1 + agcw) (j1 + agcw) (k1 + agcw) alpha a sgcw st m') = Some ms ->
  let st := mkFa st ((0, 6) :: CELL3d i0 j0 k0 i1 j1 k1 sgcw) in
  forall i j k, i0 <= i <= i1 -> j0 <= j <= j1 -> k0 <= k <= k1 ->
  (i + 1 <= i1 -> exists x, (st!(2, i, j, k))%F ms = Some x /\ (st!(1, i + 1, j, k))%F ms = Some x) /\
  (j + 1 <= j1 -> exists x, (st!(4, i, j, k))%F ms = Some x /\ (st!(3, i, j + 1, k))%F ms = Some x) /\
  (k + 1 <= k1 -> exists x, (st!(6, i, j, k))%F ms = Some x /\ (st!(5, i, j, k + 1))%F ms = Some x).
  Proof.
    intros. match goal with H : _ = Some ms |- _ => rename H into Es end.
    apply bind_Some_inv in Es as (m1 & Eo1 & Ed). k_apart.
    destruct (offdiag_3d_at i0 j0 k0 i1 j1 k1 i0 j0 k0 i1 j1 k1 dx beta b0 b1 b2 sgcw st m m1 ltac:(k_rapart L) ltac:(k_rapart L) ltac:(k_rapart L) ltac:(k_rapart L) ltac:(k_rapart L) Eo1) as (Vo & Fo).
    destruct (v1diag_3d_at L i0 j0 k0 i1 j1 k1 (i0 - agcw) (j0 - agcw) (k0 - agcw) (i1 + agcw) (j1 + agcw) (k1 + agcw) alpha a sgcw st m1 ms ltac:(k_rapart L) ltac:(k_rapart L) ltac:(k_rapart L) ltac:(k_rapart L) ltac:(k_rapart L) Ed) as (Vd & Fd). clear Eo1 Ed.
    repeat match goal with |- _ /\ _ => split end.
    - intros. pose proof (Vo i j k ltac:(lia) ltac:(lia) ltac:(lia)) as V0. pose proof (Vo (i + 1) j k ltac:(lia) ltac:(lia) ltac:(lia)) as V1. pose proof (Vd i j k ltac:(lia) ltac:(lia) ltac:(lia)) as W0. pose proof (Vd (i + 1) j k ltac:(lia) ltac:(lia) ltac:(lia)) as W1.
      clear Vo Vd. subst_lets. k_sym.
    - intros. pose proof (Vo i j k ltac:(lia) ltac:(lia) ltac:(lia)) as V0. pose proof (Vo i (j + 1) k ltac:(lia) ltac:(lia) ltac:(lia)) as V1. pose proof (Vd i j k ltac:(lia) ltac:(lia) ltac:(lia)) as W0. pose proof (Vd i (j + 1) k ltac:(lia) ltac:(lia) ltac:(lia)) as W1.
      clear Vo Vd. subst_lets. k_sym.
    - intros. pose proof (Vo i j k ltac:(lia) ltac:(lia) ltac:(lia)) as V0. pose proof (Vo i j (k + 1) ltac:(lia) ltac:(lia) ltac:(lia)) as V1. pose proof (Vd i j k ltac:(lia) ltac:(lia) ltac:(lia)) as W0. pose proof (Vd i j (k + 1) ltac:(lia) ltac:(lia) ltac:(lia)) as W1.
      clear Vo Vd. subst_lets. k_sym.
  Qed.

  Lemma rowsum_v1_3d i0 j0 k0 i1 j1 k1 dx beta b0 b1 b2 alpha agcw a sgcw st (m ms : mem S) :
  i0 <= i1 + 1 -> j0 <= j1 + 1 -> k0 <= k1 + 1 -> 0 <= sgcw -> apart st [b0; b1; b2; a] ->
  (m' <- cd_stencil_3d_offdiag i0 j0 k0 i1 j1 k1 i0 j0 k0 i1 j1 k1 dx beta b0 b1 b2 sgcw st m ;;
   cd_stencil_3d_v1diag i0 j0 k0 i1 j1 k1 (i0 - agcw) (j0 - agcw) (k0 - agcw) (i1 + agcw) (j1 + agcw) (k1 + agcw) alpha a sgcw st m') = Some ms ->
  let st := mkFa st ((0, 6) :: CELL3d i0 j0 k0 i1 j1 k1 sgcw) in
  let a := mkFa a (CELL3d i0 j0 k0 i1 j1 k1 agcw) in
  forall i j k, i0 <= i <= i1 -> j0 <= j <= j1 -> k0 <= k <= k1 ->
  exists x, (st!(0, i, j, k) + st!(1, i, j, k) + st!(2, i, j, k) + st!(3, i, j, k) + st!(4, i, j, k) + st!(5, i, j, k) + st!(6, i, j, k))%F ms = Some x /\ ($alpha * a!(i, j, k))%F m = Some x.
  Proof.
    intros. match goal with H : _ = Some ms |- _ => rename H into Es end.
    apply bind_Some_inv in Es as (m1 & Eo1 & Ed). k_apart.
    destruct (offdiag_3d_at i0 j0 k0 i1 j1 k1 i0 j0 k0 i1 j1 k1 dx beta b0 b1 b2 sgcw st m m1 ltac:(k_rapart L) ltac:(k_rapart L) ltac:(k_rapart L) ltac:(k_rapart L) ltac:(k_rapart L) Eo1) as (Vo & Fo).
    destruct (v1diag_3d_at L i0 j0 k0 i1 j1 k1 (i0 - agcw) (j0 - agcw) (k0 - agcw) (i1 + agcw) (j1 + agcw) (k1 + agcw) alpha a sgcw st m1 ms ltac:(k_rapart L) ltac:(k_rapart L) ltac:(k_rapart L) ltac:(k_rapart L) ltac:(k_rapart L) Ed) as (Vd & Fd). clear Eo1 Ed.
    specialize (Vo i j k ltac:(lia) ltac:(lia) ltac:(lia)). specialize (Vd i j k ltac:(lia) ltac:(lia) ltac:(lia)). subst_lets. k_open. unfold fel, fop, fsc, fneg.
    eexists. split; [k_close L; reflexivity|k_close L; f_equal; ring].
  Qed.

  Lemma symmetric_v2_3d i0 j0 k0 i1 j1 k1 dx beta b0 b1 b2 alpha sgcw st (m ms : mem S) :
  i0 <= i1 + 1 -> j0 <= j1 + 1 -> k0 <= k1 + 1 -> 0 <= sgcw -> apart st [b0; b1; b2] ->
  (m' <- cd_stencil_3d_offdiag i0 j0 k0 i1 j1 k1 i0 j0 k0 i1 j1 k1 dx beta b0 b1 b2 sgcw st m ;;
   cd_stencil_3d_v2diag i0 j0 k0 i1 j1 k1 alpha sgcw st m') = Some ms ->
  let st := mkFa st ((0, 6) :: CELL3d i0 j0 k0 i1 j1 k1 sgcw) in
  forall i j k, i0 <= i <= i1 -> j0 <= j <= j1 -> k0 <= k <= k1 ->
  (i + 1 <= i1 -> exists x, (st!(2, i, j, k))%F ms = Some x /\ (st!(1, i + 1, j, k))%F ms = Some x) /\
  (j + 1 <= j1 -> exists x, (st!(4, i, j, k))%F ms = Some x /\ (st!(3, i, j + 1, k))%F ms = Some x) /\
  (k + 1 <= k1 -> exists x, (st!(6, i, j, k))%F ms = Some x /\ (st!(5, i, j, k + 1))%F ms = Some x).
  Proof.
    intros. match goal with H : _ = Some ms |- _ => rename H into Es end.
    apply bind_Some_inv in Es as (m1 & Eo1 & Ed). k_apart.
    destruct (offdiag_3d_at i0 j0 k0 i1 j1 k1 i0 j0 k0 i1 j1 k1 dx beta b0 b1 b2 sgcw st m m1 ltac:(k_rapart L) ltac:(k_rapart L) ltac:(k_rapart L) ltac:(k_rapart L) ltac:(k_rapart L) Eo1) as (Vo & Fo).
    destruct (v2diag_3d_at L i0 j0 k0 i1 j1 k1 alpha sgcw st m1 ms ltac:(k_rapart L) ltac:(k_rapart L) ltac:(k_rapart L) ltac:(k_rapart L) Ed) as (Vd & Fd). clear Eo1 Ed.
    repeat match goal with |- _ /\ _ => split end.
    - intros. pose proof (Vo i j k ltac:(lia) ltac:(lia) ltac:(lia)) as V0. pose proof (Vo (i + 1) j k ltac:(lia) ltac:(lia) ltac:(lia)) as V1. pose proof (Vd i j k ltac:(lia) ltac:(lia) ltac:(lia)) as W0. pose proof (Vd (i + 1) j k ltac:(lia) ltac:(lia) ltac:(lia)) as W1.
      clear Vo Vd. subst_lets. k_sym.
    - intros. pose proof (Vo i j k ltac:(lia) ltac:(lia) ltac:(lia)) as V0. pose proof (Vo i (j + 1) k ltac:(lia) ltac:(lia) ltac:(lia)) as V1. pose proof (Vd i j k ltac:(lia) ltac:(lia) ltac:(lia)) as W0. pose proof (Vd i (j + 1) k ltac:(lia) ltac:(lia) ltac:(lia)) as W1.
      clear Vo Vd. subst_lets. k_sym.
    - intros. pose proof (Vo i j k ltac:(lia) ltac:(lia) ltac:(lia)) as V0. pose proof (Vo i j (k + 1) ltac:(lia) ltac:(lia) ltac:(lia)) as V1. pose proof (Vd i j k ltac:(lia) ltac:(lia) ltac:(lia)) as W0. pose proof (Vd i j (k + 1) ltac:(lia) ltac:(lia) ltac:(lia)) as W1.
      clear Vo Vd. subst_lets. k_sym.
  Qed.

  Lemma rowsum_v2_3d i0 j0 k0 i1 j1 k1 dx beta b0 b1 b2 alpha sgcw st (m ms : mem S) :
  i0 <= i1 + 1 -> j0 <= j1 + 1 -> k0 <= k1 + 1 -> 0 <= sgcw -> apart st [b0; b1; b2] ->
  (m' <- cd_stencil_3d_offdiag i0 j0 k0 i1 j1 k1 i0 j0 k0 i1 j1 k1 dx beta b0 b1 b2 sgcw st m ;;
   cd_stencil_3d_v2diag i0 j0 k0 i1 j1 k1 alpha sgcw st m') = Some ms ->
  let st := mkFa st ((0, 6) :: CELL3d i0 j0 k0 i1 j1 k1 sgcw) in
  forall i j k, i0 <= i <= i1 -> j0 <= j <= j1 -> k0 <= k <= k1 ->
  exists x, (st!(0, i, j, k) + st!(1, i, j, k) + st!(2, i, j, k) + st!(3, i, j, k) + st!(4, i, j, k) + st!(5, i, j, k) + st!(6, i, j, k))%F ms = Some x /\ x = alpha.
  Proof.
    intros. match goal with H : _ = Some ms |- _ => rename H into Es end.
    apply bind_Some_inv in Es as (m1 & Eo1 & Ed). k_apart.
    destruct (offdiag_3d_at i0 j0 k0 i1 j1 k1 i0 j0 k0 i1 j1 k1 dx beta b0 b1 b2 sgcw st m m1 ltac:(k_rapart L) ltac:(k_rapart L) ltac:(k_rapart L) ltac:(k_rapart L) ltac:(k_rapart L) Eo1) as (Vo & Fo).
    destruct (v2diag_3d_at L i0 j0 k0 i1 j1 k1 alpha sgcw st m1 ms ltac:(k_rapart L) ltac:(k_rapart L) ltac:(k_rapart L) ltac:(k_rapart L) Ed) as (Vd & Fd). clear Eo1 Ed.
    specialize (Vo i j k ltac:(lia) ltac:(lia) ltac:(lia)). specialize (Vd i j k ltac:(lia) ltac:(lia) ltac:(lia)). subst_lets. k_open. 
    eexists. split; [k_close L; reflexivity|ring].
  Qed.

  Lemma symmetric_poisson_3d i0 j0 k0 i1 j1 k1 dx beta sgcw st (m ms : mem S) :
  i0 <= i1 + 1 -> j0 <= j1 + 1 -> k0 <= k1 + 1 -> 0 <= sgcw ->
  (m' <- cd_stencil_3d_poisson_offdiag i0 j0 k0 i1 j1 k1 dx beta sgcw st m ;;
   cd_stencil_3d_poisson_diag i0 j0 k0 i1 j1 k1 sgcw st m') = Some ms ->
  let st := mkFa st ((0, 6) :: CELL3d i0 j0 k0 i1 j1 k1 sgcw) in
  forall i j k, i0 <= i <= i1 -> j0 <= j <= j1 -> k0 <= k <= k1 ->
  (i + 1 <= i1 -> exists x, (st!(2, i, j, k))%F ms = Some x /\ (st!(1, i + 1, j, k))%F ms = Some x) /\
  (j + 1 <= j1 -> exists x, (st!(4, i, j, k))%F ms = Some x /\ (st!(3, i, j + 1, k))%F ms = Some x) /\
  (k + 1 <= k1 -> exists x, (st!(6, i, j, k))%F ms = Some x /\ (st!(5, i, j, k + 1))%F ms = Some x).
  Proof.
    intros. match goal with H : _ = Some ms |- _ => rename H into Es end.
    apply bind_Some_inv in Es as (m1 & Eo1 & Ed). k_apart.
    destruct (poisson_offdiag_3d_at i0 j0 k0 i1 j1 k1 dx beta sgcw st m m1 ltac:(k_rapart L) ltac:(k_rapart L) ltac:(k_rapart L) ltac:(k_rapart L) Eo1) as (Vo & Fo).
    destruct (poisson_diag_3d_at L i0 j0 k0 i1 j1 k1 sgcw st m1 ms ltac:(k_rapart L) ltac:(k_rapart L) ltac:(k_rapart L) ltac:(k_rapart L) Ed) as (Vd & Fd). clear Eo1 Ed.
    repeat match goal with |- _ /\ _ => split end.
    - intros. pose proof (Vo i j k ltac:(lia) ltac:(lia) ltac:(lia)) as V0. pose proof (Vo (i + 1) j k ltac:(lia) ltac:(lia) ltac:(lia)) as V1. pose proof (Vd i j k ltac:(lia) ltac:(lia) ltac:(lia)) as W0. pose proof (Vd (i + 1) j k ltac:(lia) ltac:(lia) ltac:(lia)) as W1.
      clear Vo Vd. subst_lets. k_sym.
    - intros. pose proof (Vo i j k ltac:(lia) ltac:(lia) ltac:(lia)) as V0. pose proof (Vo i (j + 1) k ltac:(lia) ltac:(lia) ltac:(lia)) as V1. pose proof (Vd i j k ltac:(lia) ltac:(lia) ltac:(lia)) as W0. pose proof (Vd i (j + 1) k ltac:(lia) ltac:(lia) ltac:(lia)) as W1.
      clear Vo Vd. subst_lets. k_sym.
    - intros. pose proof (Vo i j k ltac:(lia) ltac:(lia) ltac:(lia)) as V0. pose proof (Vo i j (k + 1) ltac:(lia) ltac:(lia) ltac:(lia)) as V1. pose proof (Vd i j k ltac:(lia) ltac:(lia) ltac:(lia)) as W0. pose proof (Vd i j (k + 1) ltac:(lia) ltac:(lia) ltac:(lia)) as W1.
      clear Vo Vd. subst_lets. k_sym.
  Qed.

  Lemma rowsum_poisson_3d i0 j0 k0 i1 j1 k1 dx beta sgcw st (m ms : mem S) :
  i0 <= i1 + 1 -> j0 <= j1 + 1 -> k0 <= k1 + 1 -> 0 <= sgcw ->
  (m' <- cd_stencil_3d_poisson_offdiag i0 j0 k0 i1 j1 k1 dx beta sgcw st m ;;
   cd_stencil_3d_poisson_diag i0 j0 k0 i1 j1 k1 sgcw st m') = Some ms ->
  let st := mkFa st ((0, 6) :: CELL3d i0 j0 k0 i1 j1 k1 sgcw) in
  forall i j k, i0 <= i <= i1 -> j0 <= j <= j1 -> k0 <= k <= k1 ->
  exists x, (st!(0, i, j, k) + st!(1, i, j, k) + st!(2, i, j, k) + st!(3, i, j, k) + st!(4, i, j, k) + st!(5, i, j, k) + st!(6, i, j, k))%F ms = Some x /\ x = lit 0.
  Proof.
    intros. match goal with H : _ = Some ms |- _ => rename H into Es end.
    apply bind_Some_inv in Es as (m1 & Eo1 & Ed). k_apart.
    destruct (poisson_offdiag_3d_at i0 j0 k0 i1 j1 k1 dx beta sgcw st m m1 ltac:(k_rapart L) ltac:(k_rapart L) ltac:(k_rapart L) ltac:(k_rapart L) Eo1) as (Vo & Fo).
    destruct (poisson_diag_3d_at L i0 j0 k0 i1 j1 k1 sgcw st m1 ms ltac:(k_rapart L) ltac:(k_rapart L) ltac:(k_rapart L) ltac:(k_rapart L) Ed) as (Vd & Fd). clear Eo1 Ed.
    specialize (Vo i j k ltac:(lia) ltac:(lia) ltac:(lia)). specialize (Vd i j k ltac:(lia) ltac:(lia) ltac:(lia)). subst_lets. k_open. 
    eexists. split; [k_close L; reflexivity|ring].
  Qed.
End Symmetric.
