(** * The boundary kernels compute what the Fortran subroutines compute *)

From Coq Require Import Permutation.
From Verif Require Import Base ModelBounds ModelMatrix ModelIters ModelSpan Spec SpecIter ModelSched
  LemBase LemDomain LemExpr LemExec SpecAssign LemProps LemProps4
  FortranBase SpecKernel Instances LemField LemKernel LemKernel2 KernelNotations KernelsBC FortranBC.
Import ListNotations.
Open Scope Z_scope.

(** ** Face arrays with ghost layers *)

Lemma fa_gface1 p g i0 i1 pt :
  addr (make_md_span_g p g [d_plus (Ib i0 i1) 1]) pt = faddr (mkFa p (FACE1d i0 i1 g)) [pt dI].
Proof. k_addr. Qed.
Lemma fa_gface20 p g i0 i1 j0 j1 pt :
  addr (make_md_span_g p g [Jb j0 j1; d_plus (Ib i0 i1) 1]) pt = faddr (mkFa p (FACE2d0 i0 j0 i1 j1 g)) [pt dI; pt dJ].
Proof. k_addr. Qed.
Lemma fa_gface21 p g i0 i1 j0 j1 pt :
  addr (make_md_span_g p g [Ib i0 i1; d_plus (Jb j0 j1) 1]) pt = faddr (mkFa p (FACE2d1 i0 j0 i1 j1 g)) [pt dJ; pt dI].
Proof. k_addr. Qed.
Lemma fa_gface30 p g i0 i1 j0 j1 k0 k1 pt :
  addr (make_md_span_g p g [Kb k0 k1; Jb j0 j1; d_plus (Ib i0 i1) 1]) pt =
  faddr (mkFa p (FACE3d0 i0 j0 k0 i1 j1 k1 g)) [pt dI; pt dJ; pt dK].
Proof. k_addr. Qed.
Lemma fa_gface31 p g i0 i1 j0 j1 k0 k1 pt :
  addr (make_md_span_g p g [Ib i0 i1; Kb k0 k1; d_plus (Jb j0 j1) 1]) pt =
  faddr (mkFa p (FACE3d1 i0 j0 k0 i1 j1 k1 g)) [pt dJ; pt dK; pt dI].
Proof. k_addr. Qed.
Lemma fa_gface32 p g i0 i1 j0 j1 k0 k1 pt :
  addr (make_md_span_g p g [Jb j0 j1; Ib i0 i1; d_plus (Kb k0 k1) 1]) pt =
  faddr (mkFa p (FACE3d2 i0 j0 k0 i1 j1 k1 g)) [pt dK; pt dI; pt dJ].
Proof. k_addr. Qed.
Global Hint Rewrite fa_gface1 fa_gface20 fa_gface21 fa_gface30 fa_gface31 fa_gface32 : fa.

Lemma do_skip {M} lo hi (f : Z -> M -> option M) m :
  (forall x m', f x m' = Some m') -> do_ lo hi f m = Some m.
Proof.
  intros H. unfold do_. induction (map _ _) as [|x l IH]; cbn [forM]; [reflexivity|].
  rewrite H. exact IH.
Qed.

Lemma add_cst a c1 c2 c : c1 + c2 = c -> a + c1 + c2 = a + c. Proof. lia. Qed.

(** Bring indices to the form [x] or [x + c]. *)
Ltac k_cst :=
  unfold Z.sub; cbn [Z.opp];
  repeat match goal with
  | |- context [?a + ?c1 + ?c2] =>
      match isZcst c1 with true => idtac end;
      match isZcst c2 with true => idtac end;
      let c := eval compute in (c1 + c2) in rewrite (add_cst a c1 c2 c eq_refl)
  | |- context [?a + 0] => rewrite (Z.add_0_r a)
  end.

(** Case on the integer parameters of a kernel. *)
Ltac k_switch :=
  repeat match goal with
  | |- context [?x =? ?c] =>
      is_var x; match isZcst c with true => idtac end;
      destruct (Z.eqb_spec x c) as [->|]; cbn [Z.eqb Pos.eqb orb negb]
  end.

(** A segment inside the patch is not clamped; otherwise both sides clamp it. *)
Ltac k_clamp :=
  repeat match goal with
  | |- context [Z.max ?a ?b] => rewrite (Z.max_l a b) by lia
  | |- context [Z.min ?a ?b] => rewrite (Z.min_l a b) by lia
  end.

(** Scalars computed before a loop. *)
Lemma fop_cst {S : Scalar} o (a b : S) : fop o (fun _ => Some a) (fun _ => Some b) = fun _ => Some (o a b).
Proof. reflexivity. Qed.
Ltac k_scalars := repeat (progress (rewrite ?fop_cst; cbn [bind])).

(** Both loop nests are the same: compare one iteration. *)
Ltac k_nest :=
  rewrite ?points_kji, ?points_ji, ?points_i;
  repeat (rewrite ?do_single; lazymatch goal with
          | |- do_ _ _ _ _ = do_ _ _ _ _ => apply do_ext; intros ? ? ? end);
  rewrite ?do_single.

(** Make the divisors on both sides the same. *)
Ltac k_dens :=
  repeat match goal with
  | |- context [sdiv (lit 1) ?h1] =>
      match goal with
      | |- context [sdiv (lit 1) ?h2] =>
          tryif constr_eq h1 h2 then fail else (replace h2 with h1 by ring)
      end
  end.

Ltac k_store L := f_equal; k_div L; try ring; k_dens; ring.

(** Compare the stores of one iteration. *)
Ltac k_elem L :=
  unfold fset, fel, fsc, fop, fneg; cbn [assign_point denote shift shift_xy shift_xz shift_yz bind];
  autorewrite with fa; k_pt; k_cst;
  k_loads; cbn [bind app_op num_op]; try reflexivity; k_store L.

Section BC.
  Context {S : Scalar} (L : field_laws S).
  Add Field SF : (s_field S L) (morphism (lit_morph S L), constants [lit_cst]).

  Ltac k_leaf :=
    first
    [ reflexivity
    | rewrite with_domain_points; [|k_dom|k_assign]; k_scalars; k_nest; k_elem L
    | symmetry; repeat (apply do_skip; intros ? ?); reflexivity ].

  Ltac k_bc :=
    cbv beta zeta; unfold flet, fseq, fskip, fsc, shift_xy, shift_xz, shift_yz; cbn [bind]; k_switch; k_clamp; k_leaf.

  Lemma cd_1d_set_bc_eq i0 i1 dx dgcw d0 ugcw u bLo bHi exOrder face btype alpha beta (m : mem S) :
    cd_1d_set_bc i0 i1 dx dgcw d0 ugcw u bLo bHi exOrder face btype alpha beta m =
    cellsetcorrectionbc1d i0 i1 dx dgcw d0 ugcw u bLo bHi exOrder face btype alpha beta m.
  Proof.
    unfold cd_1d_set_bc, cellsetcorrectionbc1d.
    k_bc.
  Qed.

  Lemma cd_1d_set_poisson_bc_eq i0 i1 dx ugcw u bLo bHi exOrder face btype alpha beta (m : mem S) :
    cd_1d_set_poisson_bc i0 i1 dx ugcw u bLo bHi exOrder face btype alpha beta m =
    cellsetpoissoncorrectionbc1d i0 i1 dx ugcw u bLo bHi exOrder face btype alpha beta m.
  Proof. unfold cd_1d_set_poisson_bc, cellsetpoissoncorrectionbc1d. k_bc. Qed.

  Lemma cd_2d_set_bc_eq i0 i1 j0 j1 dx dgcw d0 d1 ugcw u bLo bHi exOrder face type btype alpha beta (m : mem S) :
    (type = 1 -> face = 0 \/ face = 1 -> seg_within j0 j1 (bLo 1) (bHi 1)) ->
    (type = 1 -> face = 2 \/ face = 3 -> seg_within i0 i1 (bLo 0) (bHi 0)) ->
    cd_2d_set_bc i0 i1 j0 j1 dx dgcw d0 d1 ugcw u bLo bHi exOrder face type btype alpha beta m =
    cellsetcorrectionbc2d i0 i1 j0 j1 dx dgcw d0 d1 ugcw u bLo bHi exOrder face type btype alpha beta m.
  Proof.
    unfold seg_within. intros Hj Hi. unfold cd_2d_set_bc, cellsetcorrectionbc2d. k_bc.
  Qed.

  Lemma cd_2d_set_poisson_bc_eq i0 i1 j0 j1 dx ugcw u bLo bHi exOrder face type btype alpha beta (m : mem S) :
    (type = 1 -> face = 0 \/ face = 1 -> seg_within j0 j1 (bLo 1) (bHi 1)) ->
    (type = 1 -> face = 2 \/ face = 3 -> seg_within i0 i1 (bLo 0) (bHi 0)) ->
    cd_2d_set_poisson_bc i0 i1 j0 j1 dx ugcw u bLo bHi exOrder face type btype alpha beta m =
    cellsetpoissoncorrectionbc2d i0 i1 j0 j1 dx ugcw u bLo bHi exOrder face type btype alpha beta m.
  Proof.
    unfold seg_within. intros Hj Hi. unfold cd_2d_set_poisson_bc, cellsetpoissoncorrectionbc2d. k_bc.
  Qed.

  Lemma cd_2d_set_corner_bc_eq i0 i1 j0 j1 gcw dx d0 d1 u bLo bHi exOrder face type btype (m : mem S) :
    cd_2d_set_corner_bc i0 i1 j0 j1 gcw dx d0 d1 u bLo bHi exOrder face type btype m =
    cellsetinteriorcornerbc2d i0 i1 j0 j1 gcw dx d0 d1 u bLo bHi exOrder face type btype m.
  Proof. unfold cd_2d_set_corner_bc, cellsetinteriorcornerbc2d. k_bc. Qed.

  Lemma cd_3d_set_bc_eq i0 i1 j0 j1 k0 k1 dx dgcw d0 d1 d2 ugcw u bLo bHi exOrder face type btype alpha beta (m : mem S) :
    (type = 1 -> face = 0 \/ face = 1 -> seg_meets j0 j1 (bLo 1) (bHi 1) /\ seg_meets k0 k1 (bLo 2) (bHi 2)) ->
    (type = 1 -> face = 2 \/ face = 3 -> seg_meets i0 i1 (bLo 0) (bHi 0) /\ seg_meets k0 k1 (bLo 2) (bHi 2)) ->
    (type = 1 -> face = 4 \/ face = 5 -> seg_meets i0 i1 (bLo 0) (bHi 0) /\ seg_meets j0 j1 (bLo 1) (bHi 1)) ->
    (type = 2 -> 0 <= face < 4 -> seg_within k0 k1 (bLo 2) (bHi 2)) ->
    (type = 2 -> 4 <= face < 8 -> seg_within j0 j1 (bLo 1) (bHi 1)) ->
    (type = 2 -> 8 <= face < 12 -> seg_within i0 i1 (bLo 0) (bHi 0)) ->
    cd_3d_set_bc i0 i1 j0 j1 k0 k1 dx dgcw d0 d1 d2 ugcw u bLo bHi exOrder face type btype alpha beta m =
    cellsetcorrectionbc3d i0 i1 j0 j1 k0 k1 dx dgcw d0 d1 d2 ugcw u bLo bHi exOrder face type btype alpha beta m.
  Proof.
    unfold seg_within, seg_meets. intros F0 F2 F4 E0 E4 E8. unfold cd_3d_set_bc, cellsetcorrectionbc3d.
    rewrite (Z.max_comm i0 (bLo 0)), (Z.max_comm j0 (bLo 1)), (Z.max_comm k0 (bLo 2)),
      (Z.min_comm i1 (bHi 0)), (Z.min_comm j1 (bHi 1)), (Z.min_comm k1 (bHi 2)).
    k_bc.
  Qed.

  Lemma cd_3d_set_poisson_bc_eq i0 i1 j0 j1 k0 k1 dx ugcw u bLo bHi exOrder face type btype alpha beta (m : mem S) :
    (type = 1 -> face = 0 \/ face = 1 -> seg_within j0 j1 (bLo 1) (bHi 1) /\ seg_within k0 k1 (bLo 2) (bHi 2)) ->
    (type = 1 -> face = 2 \/ face = 3 -> seg_within i0 i1 (bLo 0) (bHi 0) /\ seg_within k0 k1 (bLo 2) (bHi 2)) ->
    (type = 1 -> face = 4 \/ face = 5 -> seg_within i0 i1 (bLo 0) (bHi 0) /\ seg_within j0 j1 (bLo 1) (bHi 1)) ->
    (type = 2 -> 0 <= face < 4 -> seg_within k0 k1 (bLo 2) (bHi 2)) ->
    (type = 2 -> 4 <= face < 8 -> seg_within j0 j1 (bLo 1) (bHi 1)) ->
    (type = 2 -> 8 <= face < 12 -> seg_within i0 i1 (bLo 0) (bHi 0)) ->
    cd_3d_set_poisson_bc i0 i1 j0 j1 k0 k1 dx ugcw u bLo bHi exOrder face type btype alpha beta m =
    cellsetpoissoncorrectionbc3d i0 i1 j0 j1 k0 k1 dx ugcw u bLo bHi exOrder face type btype alpha beta m.
  Proof.
    unfold seg_within. intros F0 F2 F4 E0 E4 E8. unfold cd_3d_set_poisson_bc, cellsetpoissoncorrectionbc3d.
    k_bc.
  Qed.
End BC.
