(** * The stencil coefficient kernels compute what the Fortran subroutines compute

    Common lemmas and the kernels in 1D. *)

From Coq Require Import Permutation Field.
From Verif Require Import Base ModelBounds ModelMatrix ModelIters ModelSpan ModelProxy Spec SpecIter ModelSched
  LemBase LemDomain LemExpr LemExec SpecAssign LemProps LemProps4 SpecWindow LemWindow
  FortranBase SpecKernel Instances LemField LemKernel LemKernel2 LemBC KernelNotations KernelsStencil FortranStencil1.
Import ListNotations.
Open Scope Z_scope.

(** ** Entries of the stencil array *)

Ltac k_entry :=
  intros; unfold entry_at; cbn -[addr pset faddr]; unfold addr, faddr; cbn [sp_ptr fa_ptr fa_dims map sp_b make_md_span_g];
  f_equal; unfold CELL1d, CELL2d, CELL3d;
  cbn; unfold cells_of, extent, b_ub, b_lb, prodZ; cbn; ring.

Lemma fa_st1 p g i0 i1 n pt w :
  entry_at (make_md_span_g p g [Ib i0 i1; Wb 0 n]) pt w = faddr (mkFa p ((0, n) :: CELL1d i0 i1 g)) [w; pt dI].
Proof. k_entry. Qed.
Lemma fa_st2 p g i0 i1 j0 j1 n pt w :
  entry_at (make_md_span_g p g [Jb j0 j1; Ib i0 i1; Wb 0 n]) pt w =
  faddr (mkFa p ((0, n) :: CELL2d i0 j0 i1 j1 g)) [w; pt dI; pt dJ].
Proof. k_entry. Qed.
Lemma fa_st3 p g i0 i1 j0 j1 k0 k1 n pt w :
  entry_at (make_md_span_g p g [Kb k0 k1; Jb j0 j1; Ib i0 i1; Wb 0 n]) pt w =
  faddr (mkFa p ((0, n) :: CELL3d i0 j0 k0 i1 j1 k1 g)) [w; pt dI; pt dJ; pt dK].
Proof. k_entry. Qed.
Lemma fa_ncell1 p i0 i1 pt :
  addr (make_md_span p [Ib i0 i1]) pt = faddr (mkFa p (CELL1d i0 i1 0)) [pt dI].
Proof. k_addr. Qed.
Lemma fa_ncell2 p i0 i1 j0 j1 pt :
  addr (make_md_span p [Jb j0 j1; Ib i0 i1]) pt = faddr (mkFa p (CELL2d i0 j0 i1 j1 0)) [pt dI; pt dJ].
Proof. k_addr. Qed.
Lemma fa_ncell3 p i0 i1 j0 j1 k0 k1 pt :
  addr (make_md_span p [Kb k0 k1; Jb j0 j1; Ib i0 i1]) pt =
  faddr (mkFa p (CELL3d i0 j0 k0 i1 j1 k1 0)) [pt dI; pt dJ; pt dK].
Proof. k_addr. Qed.
Global Hint Rewrite fa_st1 fa_st2 fa_st3 fa_ncell1 fa_ncell2 fa_ncell3 : fa.

(** A store to another allocation. *)
Lemma load_other {S : Scalar} (m m' : mem S) (a b : farray) is is' v :
  store m (faddr a is) v = Some m' -> fst (fa_ptr a) <> fst (fa_ptr b) ->
  load m' (faddr b is') = load m (faddr b is').
Proof.
  intros H N. rewrite (load_store _ _ _ _ _ H). destruct (ptr_dec _ _) as [E|]; [|reflexivity].
  exfalso. apply N. apply (f_equal fst) in E. exact E.
Qed.

Lemma bind_some {A} (x : option A) : bind x (fun y => Some y) = x.
Proof. destruct x; reflexivity. Qed.

(** ** Tactics *)

Ltac k_zcst :=
  repeat match goal with
  | |- context [Z.add ?a ?b] =>
      match isZcst a with true => idtac end; match isZcst b with true => idtac end;
      let c := eval compute in (a + b) in change (a + b) with c
  | |- context [Z.sub ?a ?b] =>
      match isZcst a with true => idtac end; match isZcst b with true => idtac end;
      let c := eval compute in (a - b) in change (a - b) with c
  | |- context [Z.mul ?a ?b] =>
      match isZcst a with true => idtac end; match isZcst b with true => idtac end;
      let c := eval compute in (a * b) in change (a * b) with c
  end.

Ltac k_wok :=
  split; [k_dom|split; [k_span|split; [
    match goal with
    | |- context [sp_b (make_md_span_g ?p ?g [?x; ?w])] =>
        exists (sp_b (make_md_span_g p g [x])), dW, (snd (expand_bounds g (d_unit w)))
    | |- context [sp_b (make_md_span_g ?p ?g [?x; ?y; ?w])] =>
        exists (sp_b (make_md_span_g p g [x; y])), dW, (snd (expand_bounds g (d_unit w)))
    | |- context [sp_b (make_md_span_g ?p ?g [?x; ?y; ?z; ?w])] =>
        exists (sp_b (make_md_span_g p g [x; y; z])), dW, (snd (expand_bounds g (d_unit w)))
    end; split; [reflexivity|k_perm]
  |split; [
    repeat first [apply Forall_nil|apply Forall_cons];
    cbn [wa_ok rhs_ok compiles is_proxy andb orb supported_proxy pvecs app];
    repeat first [exact Logic.I|reflexivity|left; reflexivity|solve [k_span]|solve [k_perm]|split]
  |split; [
    repeat first [apply Forall_nil|apply Forall_cons]; cbn [wa_vecs pvecs app];
    repeat first [apply Forall_nil|apply Forall_cons]; k_expr
  | first [ solve [left; repeat first [apply Forall_nil|apply Forall_cons; [reflexivity|]]]
          | solve [right; left; repeat first [apply Forall_nil|apply Forall_cons; [reflexivity|]]]
          | solve [right; right; repeat first [apply Forall_nil|apply Forall_cons; [split; [reflexivity|exact Logic.I]|]]] ]]]]]].

Ltac k_windep :=
  split;
  [ repeat first [apply FOP_nil|apply FOP_cons];
    repeat first [apply Forall_nil|apply Forall_cons]; right; cbn; repeat split; assumption
  | repeat first [apply Forall_nil|apply Forall_cons; [first [exact Logic.I|left; reflexivity]|]] ].

Ltac k_wdiv := repeat first [apply Forall_nil|apply Forall_cons; [apply Z.divide_1_l|]].

(** Values of the same element on both sides. *)
Ltac k_value L :=
  first [ reflexivity
        | solve [k_div L; ring]
        | solve [k_div L; k_dens; ring]
        | solve [field; repeat split; first [assumption|apply (lit_ne _ L); discriminate]] ].

(** Loads of other allocations go back to the memory before the stores. *)
Ltac k_back :=
  repeat match goal with
  | E : store ?m (faddr ?a ?is) ?v = Some ?m1 |- context [load ?m1 (faddr ?b ?is')] =>
      rewrite (load_other m m1 a b is is' v E) by (cbn [fa_ptr]; congruence)
  end.

Ltac k_bind := repeat (progress (cbn [bind app_op num_op]; rewrite ?bind_assoc, ?bind_some)).

Ltac k_step L :=
  k_bind;
  lazymatch goal with
  | |- ?x = ?x => reflexivity
  | |- context [bind (load ?m ?p) _] =>
      match goal with
      | H : load m p = _ |- _ => rewrite H
      | _ => let H := fresh "H" in destruct (load m p) as [?|] eqn:H
      end
  | |- bind (store ?m ?p ?x) _ = bind (store ?m ?p ?y) _ =>
      replace y with x by k_value L;
      let E := fresh "E" in destruct (store m p x) eqn:E; k_bind; k_back
  | |- store ?m ?p ?x = store ?m ?p ?y => f_equal; k_value L
  | |- None = bind (store ?m ?p ?x) _ => let E := fresh "E" in destruct (store m p x) eqn:E; k_bind; k_back
  | |- bind (store ?m ?p ?x) _ = None => let E := fresh "E" in destruct (store m p x) eqn:E; k_bind; k_back
  end.

Ltac k_welem L :=
  unfold flet, fseq, fskip, fset, fel, fsc, fop, fneg, point_spec, PNeg;
  cbn [forM wassign_at pvalue denote shift app_op num_op bind]; change (0 <=? up) with true; cbv iota;
  autorewrite with fa; k_pt; k_cst; 
  repeat k_step L.

(** The kernel against the subroutine: case on the parameters, then compare the
    loop nests. *)
Ltac k_leaf L :=
  first
  [ reflexivity
  | solve [symmetry; repeat (apply do_skip; intros ? ?); reflexivity]
  | solve [symmetry; match goal with |- bind (do_ ?a ?b ?f ?m) _ = _ =>
                       rewrite (do_skip a b f m) by (intros ? ?; repeat (apply do_skip; intros ? ?); reflexivity) end; reflexivity]
  | rewrite with_window_spec; [|k_wok|k_windep|k_wdiv]; unfold window_spec; k_nest; k_welem L ].

Ltac k_stencil L :=
  cbv beta zeta; unfold flet, fseq, fskip, fsc, fneg; k_scalars; cbn [bind Z.eqb Pos.eqb]; k_switch; cbn [andb negb bind]; rewrite ?bind_some; k_zcst; k_leaf L.

Section Stencil1.
  Context {S : Scalar} (L : field_laws S).
  Add Field SF : (s_field S L) (morphism (lit_morph S L), constants [lit_cst]).

  Lemma cd_stencil_1d_offdiag_eq i0 i1 bi0 bi1 dx beta b0 sgcw st (m : mem S) :
    i0 <= i1 + 1 -> apart st [b0] ->
    cd_stencil_1d_offdiag i0 i1 bi0 bi1 dx beta b0 sgcw st m =
    celldiffusionoffdiag1d i0 i1 bi0 bi1 dx beta b0 sgcw st m.
  Proof. intros Hi HA. k_apart. unfold cd_stencil_1d_offdiag, celldiffusionoffdiag1d. k_stencil L. Qed.

  Lemma cd_stencil_1d_poisson_offdiag_eq i0 i1 dx beta sgcw st (m : mem S) : i0 <= i1 + 1 ->
    cd_stencil_1d_poisson_offdiag i0 i1 dx beta sgcw st m = cellpoissonoffdiag1d i0 i1 dx beta sgcw st m.
  Proof. intros Hi. unfold cd_stencil_1d_poisson_offdiag, cellpoissonoffdiag1d. k_stencil L. Qed.

  Lemma cd_stencil_1d_v1diag_eq i0 i1 ai0 ai1 alpha a sgcw st (m : mem S) : i0 <= i1 + 1 ->
    cd_stencil_1d_v1diag i0 i1 ai0 ai1 alpha a sgcw st m = celldiffusionv1diag1d i0 i1 ai0 ai1 alpha a sgcw st m.
  Proof. intros Hi. unfold cd_stencil_1d_v1diag, celldiffusionv1diag1d. k_stencil L. Qed.

  Lemma cd_stencil_1d_v2diag_eq i0 i1 alpha sgcw st (m : mem S) : i0 <= i1 + 1 ->
    cd_stencil_1d_v2diag i0 i1 alpha sgcw st m = celldiffusionv2diag1d i0 i1 alpha sgcw st m.
  Proof. intros Hi. unfold cd_stencil_1d_v2diag, celldiffusionv2diag1d. k_stencil L. Qed.

  Lemma cd_stencil_1d_poisson_diag_eq i0 i1 sgcw st (m : mem S) : i0 <= i1 + 1 ->
    cd_stencil_1d_poisson_diag i0 i1 sgcw st m = cellpoissondiag1d i0 i1 sgcw st m.
  Proof. intros Hi. unfold cd_stencil_1d_poisson_diag, cellpoissondiag1d. k_stencil L. Qed.

  Lemma cd_stencil_1d_adj_diag_eq i0 i1 pi0 pi1 side btype exOrder dx beta b0 sgcw st (m : mem S) :
    side = 0 \/ side = 1 ->
    cd_stencil_1d_adj_diag i0 i1 pi0 pi1 side btype exOrder dx beta b0 sgcw st m =
    adjcelldiffusiondiag1d i0 i1 pi0 pi1 side btype exOrder dx beta b0 sgcw st m.
  Proof. intros [-> | ->]; unfold cd_stencil_1d_adj_diag, adjcelldiffusiondiag1d; k_stencil L. Qed.

  Lemma cd_stencil_1d_adj_poisson_diag_eq i0 i1 pi0 pi1 side btype exOrder dx beta sgcw st (m : mem S) :
    side = 0 \/ side = 1 ->
    cd_stencil_1d_adj_poisson_diag i0 i1 pi0 pi1 side btype exOrder dx beta sgcw st m =
    adjcellpoissondiag1d i0 i1 pi0 pi1 side btype exOrder dx beta sgcw st m.
  Proof. intros [-> | ->]; unfold cd_stencil_1d_adj_poisson_diag, adjcellpoissondiag1d; k_stencil L. Qed.

  Lemma cd_stencil_1d_adj_cf_diag_eq i0 i1 pi0 pi1 r side intOrder dx beta b0 sgcw st (m : mem S) :
    side = 0 \/ side = 1 -> dx 0 <> lit 0 ->
    cd_stencil_1d_adj_cf_diag i0 i1 pi0 pi1 r side intOrder dx beta b0 sgcw st m =
    adjcelldiffusioncfdiag1d i0 i1 pi0 pi1 r side intOrder dx beta b0 sgcw st m.
  Proof. intros [-> | ->] Hh; unfold cd_stencil_1d_adj_cf_diag, adjcelldiffusioncfdiag1d; k_stencil L. Qed.

  Lemma cd_stencil_1d_adj_poisson_cf_diag_eq i0 i1 pi0 pi1 r side intOrder dx beta sgcw st (m : mem S) :
    side = 0 \/ side = 1 -> dx 0 <> lit 0 ->
    cd_stencil_1d_adj_poisson_cf_diag i0 i1 pi0 pi1 r side intOrder dx beta sgcw st m =
    adjcellpoissoncfdiag1d i0 i1 pi0 pi1 r side intOrder dx beta sgcw st m.
  Proof. intros [-> | ->] Hh; unfold cd_stencil_1d_adj_poisson_cf_diag, adjcellpoissoncfdiag1d; k_stencil L. Qed.

  Lemma cd_stencil_1d_adj_offdiag_eq i0 i1 pi0 pi1 side btype exOrder dx dirf neuf beta b0 sgcw st (m : mem S) :
    side = 0 \/ side = 1 -> apart st [b0] ->
    cd_stencil_1d_adj_offdiag i0 i1 pi0 pi1 side btype exOrder dx dirf neuf beta b0 sgcw st m =
    adjcelldiffusionoffdiag1d i0 i1 pi0 pi1 side btype exOrder dx dirf neuf beta b0 sgcw st m.
  Proof. intros [-> | ->] HA; k_apart; unfold cd_stencil_1d_adj_offdiag, adjcelldiffusionoffdiag1d; k_stencil L. Qed.

  Lemma cd_stencil_1d_adj_poisson_offdiag_eq i0 i1 pi0 pi1 side btype exOrder dx dirf neuf beta sgcw st (m : mem S) :
    side = 0 \/ side = 1 ->
    cd_stencil_1d_adj_poisson_offdiag i0 i1 pi0 pi1 side btype exOrder dx dirf neuf beta sgcw st m =
    adjcellpoissonoffdiag1d i0 i1 pi0 pi1 side btype exOrder dx dirf neuf beta sgcw st m.
  Proof. intros [-> | ->]; unfold cd_stencil_1d_adj_poisson_offdiag, adjcellpoissonoffdiag1d; k_stencil L. Qed.

  Lemma cd_stencil_1d_adj_cf_offdiag_eq i0 i1 ci0 ci1 r side intOrder sgcw st (m : mem S) :
    side = 0 \/ side = 1 ->
    cd_stencil_1d_adj_cf_offdiag i0 i1 ci0 ci1 r side intOrder sgcw st m =
    adjcelldiffusioncfoffdiag1d i0 i1 ci0 ci1 r side intOrder sgcw st m.
  Proof. intros [-> | ->]; unfold cd_stencil_1d_adj_cf_offdiag, adjcelldiffusioncfoffdiag1d; k_stencil L. Qed.

  Lemma cd_stencil_1d_readj_offdiag_eq i0 i1 pi0 pi1 side sgcw st (m : mem S) :
    side = 0 \/ side = 1 ->
    cd_stencil_1d_readj_offdiag i0 i1 pi0 pi1 side sgcw st m =
    readjcelldiffusionoffdiag1d i0 i1 pi0 pi1 side sgcw st m.
  Proof. intros [-> | ->]; unfold cd_stencil_1d_readj_offdiag, readjcelldiffusionoffdiag1d; k_stencil L. Qed.

  Lemma cd_stencil_1d_adj_cf_bdryrhs_eq i0 i1 pi0 pi1 side sgcw st gcw u rhs (m : mem S) :
    side = 0 \/ side = 1 ->
    cd_stencil_1d_adj_cf_bdryrhs i0 i1 pi0 pi1 side sgcw st gcw u rhs m =
    adjcelldiffusioncfbdryrhs1d i0 i1 pi0 pi1 side sgcw st gcw u rhs m.
  Proof. intros [-> | ->]; unfold cd_stencil_1d_adj_cf_bdryrhs, adjcelldiffusioncfbdryrhs1d; k_stencil L. Qed.
End Stencil1.
