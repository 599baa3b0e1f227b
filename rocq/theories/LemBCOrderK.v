(** * The boundary kernels read and write where the order theorems need it *)

From Coq Require Import Bool Permutation.
From Verif Require Import Base ModelBounds ModelMatrix ModelIters ModelSpan Spec SpecIter ModelSched
  LemBase LemDomain LemExpr LemExec LemSched SpecAssign LemAssign LemProps LemProps4
  FortranBase SpecKernel SpecBoundary SpecBCOrder LemKernel LemKernel2 KernelNotations KernelsBC LemBC LemBoundary LemBCOrder.
Import ListNotations.
Open Scope Z_scope.

Lemma inside_0 lo hi q d : lo d <= q d <= hi d -> beyond lo hi q d = 0.
Proof. intros H. unfold beyond. destruct (Z.leb_spec (lo d) (q d)), (Z.leb_spec (q d) (hi d)); cbn; lia. Qed.
Lemma beyond_le lo hi q d : 0 <= beyond lo hi q d <= 1.
Proof. unfold beyond. destruct (_ && _)%bool; lia. Qed.

Lemma launch_confined {S : Scalar} n lo hi (u : span) (c : bcall S) dom (a : @assign S) :
  1 <= n <= 3 -> (forall d, 0 <= d < n -> In (axis d) (sp_order u)) -> placed n lo hi c -> lhs_of a = u ->
  wf_dom dom -> wf_assign dom a ->
  (forall pt, In pt (domain_points dom origin) -> in_bounds (sp_b u) pt /\ covers n lo hi c (zc pt)) ->
  (forall pt I p, In pt (domain_points dom origin) -> In p (assign_reads a pt I) -> Rset n lo hi u c p) ->
  confined (Rset n lo hi u c) (Wset n lo hi u c) (with_domain dom [a]).
Proof.
  intros Hn Hu Hp El Hd Ha Hc Hr. apply confined_assign; auto.
  - intros p Hw. apply (writes_reads n lo hi Hn u Hu c c p Hp); [lia|exact Hw].
  - intros pt Hpt. rewrite El. destruct (Hc pt Hpt). exists pt. auto.
Qed.

Lemma clamped a b c d x : Z.max a b <= x <= Z.min c d -> a <= x /\ b <= x /\ x <= c /\ x <= d.
Proof. lia. Qed.

Ltac b_coords Hpt :=
  match type of Hpt with In ?pt (domain_points ?dom _) =>
    try (match dom with context [Ib ?a ?b] => pose proof (dom_coord dom pt dI a b ltac:(k_nodup) Hpt ltac:(k_in) ltac:(lia)) end);
    try (match dom with context [Jb ?a ?b] => pose proof (dom_coord dom pt dJ a b ltac:(k_nodup) Hpt ltac:(k_in) ltac:(lia)) end);
    try (match dom with context [Kb ?a ?b] => pose proof (dom_coord dom pt dK a b ltac:(k_nodup) Hpt ltac:(k_in) ltac:(lia)) end)
  end;
  repeat match goal with H : Z.max _ _ <= _ <= Z.min _ _ |- _ => apply clamped in H as (? & ? & ? & ?) end;
  clear Hpt; repeat match goal with H : context [Z.max _ _] |- _ => clear H end.

Ltac b_bounds := unfold in_bounds; cbn [sp_b make_md_span_g map]; repeat (apply Forall_cons || apply Forall_nil); unfold pmove, pset, b_lb, b_ub; cbn; lia.

(** The place of the call in each direction, as equations. *)
Ltac b_dir Hp d :=
  let H := fresh "P" in pose proof (Hp d ltac:(lia)) as H; cbv zeta in H; cbn [c_type c_face c_lo c_hi] in H;
  match type of H with context [side ?n ?t ?f ?e] => let v := eval compute in (side n t f e) in change (side n t f e) with v in H end;
  cbn [Z.eqb Pos.eqb] in H; unfold seg_meets in H.

Ltac b_each d := intros d ?;
  first [ assert (d = 0) as -> by lia
        | assert (d = 0 \/ d = 1) as [->| ->] by lia
        | assert (d = 0 \/ d = 1 \/ d = 2) as [->|[->| ->]] by lia ].

Ltac b_covers :=
  let d := fresh "d" in b_each d; cbn [c_type c_face c_lo c_hi];
  (match goal with |- context [side ?n ?t ?f ?e] => let v := eval compute in (side n t f e) in change (side n t f e) with v end);
  unfold zc, axis; cbn [Z.eqb Pos.eqb]; lia.

Ltac b_read :=
  right; eexists; split; [|split; [reflexivity|]]; [b_bounds|];
  cbn [c_type]; unfold outside; cbn [Z.ltb Z.compare Pos.compare Pos.compare_cont];
  repeat match goal with |- context [beyond ?lo ?hi ?q ?d] =>
    first [ rewrite (inside_0 lo hi q d) by (unfold zc, axis; cbn [Z.eqb Pos.eqb]; unfold pmove, pset; cbn; lia)
          | pose proof (beyond_le lo hi q d); generalize dependent (beyond lo hi q d); intros ] end;
  lia.

Ltac b_reads :=
  let pt := fresh "pt" in let J := fresh "J" in let p := fresh "p" in let Hpt := fresh "Hpt" in let Hin := fresh "Hin" in
  intros pt J p Hpt Hin; b_coords Hpt; cbn [assign_reads reads shift] in Hin;
  rewrite ?in_app_iff in Hin; cbn [In] in Hin;
  repeat match goal with H : _ \/ _ |- _ => destruct H as [H|H] end; try contradiction; subst p;
  first [ left; cbn; congruence | b_read ].

Ltac b_launch Hp :=
  lazymatch goal with
  | |- confined _ _ (fun m => Some m) => apply confined_none; intros p Hw; eapply writes_reads; [| |exact Hp| |exact Hw]; [lia|b_order|lia]
  | |- confined _ _ (fun m => with_domain ?dom [?a] m) =>
      apply (launch_confined _ _ _ _ _ dom a); [lia|b_order|exact Hp|reflexivity|k_dom|unfold shift_xy, shift_xz, shift_yz; k_assign| |unfold shift_xy, shift_xz, shift_yz; b_reads];
      let pt := fresh "pt" in let Hpt := fresh "Hpt" in intros pt Hpt; b_coords Hpt; split; [b_bounds|b_covers]
  end
with b_order := let d := fresh "d" in b_each d; cbn; tauto.


Ltac b_leaf eo bt :=
  repeat match goal with
  | |- context [bt =? ?k] => destruct (Z.eqb_spec bt k) as [->|]; cbn [Z.eqb Pos.eqb negb]
  | |- context [eo =? ?k] => destruct (Z.eqb_spec eo k) as [->|]; cbn [Z.eqb Pos.eqb]
  end.

(** All regions of the type, all kinds of condition. *)
Ltac b_kernel Hp type face bt eo Hf Hpl Hth :=
  enum type 3; unfold regions in Hf; cbn in Hf; try lia;
  unfold thick in Hth; cbn [c_type c_face c_btype c_order] in Hth;
  enum face 12; cbn [Z.eqb Pos.eqb orb];
  b_dir Hpl 0; try b_dir Hpl 1; try b_dir Hpl 2;
  try specialize (Hth eq_refl);
  try (match type of Hth with context [?a / ?b] => let v := eval compute in (a / b) in change (a / b) with v in Hth end);
  b_leaf eo bt; unfold depth in Hth; cbn in Hth; b_launch Hp.

Ltac b_open c Hp Hf Hpl Ht type face bt eo :=
  pose proof (placed_type _ _ _ c Hp) as Ht; pose proof Hp as [Hf Hpl];
  let bl := fresh "bl" in let bh := fresh "bh" in let al := fresh "al" in let be := fresh "be" in
  destruct c as [type face bl bh bt eo al be];
  cbn [c_type c_face c_lo c_hi c_btype c_order c_alpha c_beta] in * .

Section Kernels.
  Context {S : Scalar}.

  Lemma cd_1d_set_bc_confined lo hi (dx : Z -> S) dgcw d0 ugcw u c :
    lo 0 <= hi 0 -> 1 <= ugcw -> apart u [d0] -> placed 1 lo hi c -> thick lo hi c ->
    let us := make_md_span_g u ugcw [Ib (lo 0) (hi 0)] in
    confined (Rset 1 lo hi us c) (Wset 1 lo hi us c)
      (cd_1d_set_bc (lo 0) (hi 0) dx dgcw d0 ugcw u (c_lo c) (c_hi c) (c_order c) (c_face c) (c_btype c) (c_alpha c) (c_beta c)).
  Proof.
    intros. k_apart. match goal with H : placed _ _ _ c |- _ => rename H into Hp end. match goal with H : thick _ _ c |- _ => rename H into Hth end.
    b_open c Hp Hf Hpl Ht type face bt eo. unfold cd_1d_set_bc. cbv zeta. unfold us; clear us.
    b_kernel Hp type face bt eo Hf Hpl Hth.
  Qed.

  Lemma cd_1d_set_poisson_bc_confined lo hi (dx : Z -> S) ugcw u c :
    lo 0 <= hi 0 -> 1 <= ugcw -> placed 1 lo hi c -> thick lo hi c ->
    let us := make_md_span_g u ugcw [Ib (lo 0) (hi 0)] in
    confined (Rset 1 lo hi us c) (Wset 1 lo hi us c)
      (cd_1d_set_poisson_bc (lo 0) (hi 0) dx ugcw u (c_lo c) (c_hi c) (c_order c) (c_face c) (c_btype c) (c_alpha c) (c_beta c)).
  Proof.
    intros. k_apart. match goal with H : placed _ _ _ c |- _ => rename H into Hp end. match goal with H : thick _ _ c |- _ => rename H into Hth end.
    b_open c Hp Hf Hpl Ht type face bt eo. unfold cd_1d_set_poisson_bc. cbv zeta. unfold us; clear us.
    b_kernel Hp type face bt eo Hf Hpl Hth.
  Qed.

  Lemma cd_2d_set_bc_confined lo hi (dx : Z -> S) dgcw d0 d1 ugcw u c :
    lo 0 <= hi 0 -> lo 1 <= hi 1 -> 1 <= ugcw -> apart u [d0; d1] -> placed 2 lo hi c -> thick lo hi c ->
    let us := make_md_span_g u ugcw [Jb (lo 1) (hi 1); Ib (lo 0) (hi 0)] in
    confined (Rset 2 lo hi us c) (Wset 2 lo hi us c)
      (cd_2d_set_bc (lo 0) (hi 0) (lo 1) (hi 1) dx dgcw d0 d1 ugcw u (c_lo c) (c_hi c) (c_order c) (c_face c) (c_type c) (c_btype c) (c_alpha c) (c_beta c)).
  Proof.
    intros. k_apart. match goal with H : placed _ _ _ c |- _ => rename H into Hp end. match goal with H : thick _ _ c |- _ => rename H into Hth end.
    b_open c Hp Hf Hpl Ht type face bt eo. unfold cd_2d_set_bc. cbv zeta. unfold us; clear us.
    b_kernel Hp type face bt eo Hf Hpl Hth.
  Qed.

  Lemma cd_2d_set_poisson_bc_confined lo hi (dx : Z -> S) ugcw u c :
    lo 0 <= hi 0 -> lo 1 <= hi 1 -> 1 <= ugcw -> placed 2 lo hi c -> thick lo hi c ->
    let us := make_md_span_g u ugcw [Jb (lo 1) (hi 1); Ib (lo 0) (hi 0)] in
    confined (Rset 2 lo hi us c) (Wset 2 lo hi us c)
      (cd_2d_set_poisson_bc (lo 0) (hi 0) (lo 1) (hi 1) dx ugcw u (c_lo c) (c_hi c) (c_order c) (c_face c) (c_type c) (c_btype c) (c_alpha c) (c_beta c)).
  Proof.
    intros. k_apart. match goal with H : placed _ _ _ c |- _ => rename H into Hp end. match goal with H : thick _ _ c |- _ => rename H into Hth end.
    b_open c Hp Hf Hpl Ht type face bt eo. unfold cd_2d_set_poisson_bc. cbv zeta. unfold us; clear us.
    b_kernel Hp type face bt eo Hf Hpl Hth.
  Qed.

  Lemma cd_2d_set_corner_bc_confined lo hi (dx : Z -> S) d0 d1 gcw u (c : bcall S) :
    lo 0 <= hi 0 -> lo 1 <= hi 1 -> 1 <= gcw -> placed 2 lo hi c -> thick lo hi c -> c_type c = 2 ->
    let us := make_md_span_g u gcw [Jb (lo 1) (hi 1); Ib (lo 0) (hi 0)] in
    confined (Rset 2 lo hi us c) (Wset 2 lo hi us c)
      (cd_2d_set_corner_bc (lo 0) (hi 0) (lo 1) (hi 1) gcw dx d0 d1 u (c_lo c) (c_hi c) (c_order c) (c_face c) (c_type c) (c_btype c)).
  Proof.
    intros. k_apart. match goal with H : placed _ _ _ c |- _ => rename H into Hp end. match goal with H : thick _ _ c |- _ => rename H into Hth end.
    b_open c Hp Hf Hpl Ht type face bt eo. unfold cd_2d_set_corner_bc. cbv zeta. unfold us; clear us.
    b_kernel Hp type face bt eo Hf Hpl Hth.
  Qed.
End Kernels.
