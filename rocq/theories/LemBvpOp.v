(** * The operator with the ghost cells given by the conditions on the faces *)

From Coq Require Import Field QArith Qcanon.
From Verif Require Import Base FortranBase SpecKernel SpecBoundary SpecBCOrder SpecSolve Instances LemEnergy LemSolve LemSolveOp SpecBvp LemBvp LemBvpFill.
Import ListNotations.
Open Scope Z_scope.

Lemma ghost_le (k l M e : Qc) : (k + l <= 1 -> 0 <= l -> l = 0 \/ e <= M -> 0 < M -> k * M + l * e <= M)%Qc.
Proof.
  intros H Hl He HM. apply Qcle_trans with ((k + l) * M)%Qc.
  - replace ((k + l) * M)%Qc with (k * M + l * M)%Qc by ring. apply Qcplus_le_compat; [apply Qcle_refl|].
    destruct He as [->|He]; [rewrite !Qcmult_0_l; apply Qcle_refl|]. rewrite (Qcmult_comm l e), (Qcmult_comm l M). now apply Qcmult_le_compat_r.
  - replace M with (1 * M)%Qc at 2 by ring. apply Qcmult_le_compat_r; [exact H|now apply Qclt_le_weak].
Qed.
Lemma ghost_lt (k l M e : Qc) : (k + l < 1 -> 0 <= l -> l = 0 \/ e <= M -> 0 < M -> k * M + l * e < M)%Qc.
Proof.
  intros H Hl He HM. apply Qcle_lt_trans with ((k + l) * M)%Qc.
  - replace ((k + l) * M)%Qc with (k * M + l * M)%Qc by ring. apply Qcplus_le_compat; [apply Qcle_refl|].
    destruct He as [->|He]; [rewrite !Qcmult_0_l; apply Qcle_refl|]. rewrite (Qcmult_comm l e), (Qcmult_comm l M). now apply Qcmult_le_compat_r.
  - replace M with (1 * M)%Qc at 2 by ring. now apply Qcmult_lt_compat_r.
Qed.
Lemma down_term (beta h vp vm e ep em rest : Qc) :
  (0 < beta -> h <> 0 -> 0 <= vp -> 0 < vm -> ep <= e -> em <= e -> 0 <= rest ->
  - beta * ((vp * ((ep - e) / h) - vm * ((e - em) / h)) / h) + rest <= 0 -> em = e)%Qc.
Proof.
  intros Hb Hh Hp Hm Lp Lm Hr H. apply (edge_term beta h vm vp e em ep rest Hb Hh Hm Hp Lm Lp Hr).
  match goal with |- (?x <= 0)%Qc => match type of H with (?y <= 0)%Qc => replace x with y; [exact H|] end end. unfold Qcdiv. ring.
Qed.
Lemma ll_depth b : ll b = 0%Qc \/ depth (b_kind b) (b_order b) = 2.
Proof.
  unfold ll, depth. destruct (Z.eqb_spec (b_kind b) 0) as [->|]; [|now left]. cbn [andb]. destruct (b_order b =? 2); [now right|now left].
Qed.
Lemma Qc_lt_ne (x y : Qc) : (x < y)%Qc -> x <> y.
Proof. intros H E. subst. exact (Qclt_not_eq _ _ H eq_refl). Qed.


Section Dim1.
  Context (i0 i1 : Z) (dx : Z -> Qc) (beta : Qc) (a v0 : Z -> Qc) (bc : Z -> bcond QcS).

  (** The operator; diffusion coefficients [v], reaction [a]. *)
  Definition op1 (w : Z -> Qc) : Z -> Qc := fun i =>
    (- beta * ((v0 (i + 1)%Z * ((w (i + 1)%Z - w i) / dx 0%Z) - v0 i * ((w i - w (i - 1)%Z) / dx 0%Z)) / dx 0%Z) + a i * w i)%Qc.

  (** The values in the patch, and those the conditions give next to its faces. *)
  Definition ext1 (w : Z -> Qc) : Z -> Qc := fun i =>
    if i <? i0 then (kk (bc 0) (dx 0%Z) (v0 i0) * w i0 + ll (bc 0) * w (i0 + 1)%Z)%Qc
    else if i1 <? i then (kk (bc 1) (dx 0%Z) (v0 (i1 + 1)%Z) * w i1 + ll (bc 1) * w (i1 - 1)%Z)%Qc
    else w i.

  Lemma op1_lin x y w z i : op1 (fun i => x * w i + y * z i)%Qc i = (x * op1 w i + y * op1 z i)%Qc.
  Proof. unfold op1, Qcdiv. ring. Qed.
  Lemma op1_near w z i : patch1 i0 i1 i -> (forall i, near1 i0 i1 i -> w i = z i) -> op1 w i = op1 z i.
  Proof.
    intros Ip E. unfold op1. rewrite (E i ltac:(k_near)). rewrite (E (i + 1)%Z ltac:(k_near)). rewrite (E (i - 1)%Z ltac:(k_near)). reflexivity.
  Qed.
  Lemma ext1_lin x y w z i : ext1 (fun i => x * w i + y * z i)%Qc i = (x * ext1 w i + y * ext1 z i)%Qc.
  Proof. unfold ext1. repeat (match goal with |- context [if ?b then _ else _] => destruct b end; [ring|]). reflexivity. Qed.
  Lemma ext1_ext w z i : (forall i, w i = z i) -> ext1 w i = ext1 z i.
  Proof. intros E. unfold ext1. rewrite !E. reflexivity. Qed.
  Lemma ext1_in w i : patch1 i0 i1 i -> ext1 w i = w i.
  Proof.
    intros Ip. unfold ext1. destruct (Z.ltb_spec i i0); [k_near|]. destruct (Z.ltb_spec i1 i); [k_near|]. reflexivity.
  Qed.

  Lemma ext1_face0 w : i0 <= i1 -> ext1 w (i0 - 1)%Z = (kk (bc 0) (dx 0%Z) (v0 i0) * w i0 + ll (bc 0) * w (i0 + 1)%Z)%Qc.
  Proof. intros. unfold ext1. destruct (Z.ltb_spec (i0 - 1) i0); [reflexivity|lia]. Qed.

  Lemma ext1_face1 w : i0 <= i1 -> ext1 w (i1 + 1)%Z = (kk (bc 1) (dx 0%Z) (v0 (i1 + 1)%Z) * w i1 + ll (bc 1) * w (i1 - 1)%Z)%Qc.
  Proof. intros. unfold ext1. destruct (Z.ltb_spec (i1 + 1) i0); [lia|]. destruct (Z.ltb_spec i1 (i1 + 1)); [reflexivity|lia]. Qed.

  Context (rob : bool) (Hb : (0 < beta)%Qc) (Hdx : forall d, 0 <= d < 1 -> (0 < dx d)%Qc).
  Context (Ha : forall i, patch1 i0 i1 i -> (0 <= a i)%Qc).
  Context (Hv0 : forall i, i0 <= i <= i1 + 1 -> (0 < v0 i)%Qc).
  Context (Hs : forall f, 0 <= f < 2 -> sound rob (bc f)) (Ro : roomy 1 (ends1 i0) (ends1 i1) bc).

  Lemma up1 e : (forall i, patch1 i0 i1 i -> (op1 (ext1 e) i <= 0)%Qc) -> b_kind (bc 1) <> 1 ->
    forall i, patch1 i0 i1 i -> (e i <= 0)%Qc.
  Proof.
    intros Hr Nk i Ip.
    apply (walk (cells1 i0 i1) e (fun i => i + 1) (fun i => Z.to_nat (i1 - i))) with (p := i); [clear i Ip|now apply in_cells1].
    intros i Ip Mx Pe. cbn [fst snd] in *. apply in_cells1 in Ip.
    assert (Up0 : (ext1 e (i + 1)%Z <= ext1 e i)%Qc).
    { destruct (patch_dec1 i0 i1 (i + 1)%Z) as [Y|N].
      - rewrite !(ext1_in e) by assumption. apply (Mx ((i + 1)%Z)). now apply in_cells1.
      - assert (i = i1) as -> by k_near. rewrite (ext1_face1 e ltac:(k_near)), (ext1_in e) by k_near.
        apply ghost_le; [apply (kl_le rob); [apply Hs; lia|apply Hdx; lia|apply Qclt_le_weak, Hv0; k_near]|apply ll_pos| |exact Pe].
        destruct (ll_depth (bc 1)) as [|D2]; [now left|right]. pose proof (Ro 1 ltac:(lia)) as R. rewrite D2 in R. change (1 / 2) with 0 in R. cbv [ends1 ends2 ends3] in R. cbn [Z.eqb Pos.eqb] in R. apply (Mx ((i1 - 1)%Z)). apply in_cells1. clear - R Ip. k_near. }
    assert (Dn0 : (ext1 e (i - 1)%Z <= ext1 e i)%Qc).
    { destruct (patch_dec1 i0 i1 (i - 1)%Z) as [Y|N].
      - rewrite !(ext1_in e) by assumption. apply (Mx ((i - 1)%Z)). now apply in_cells1.
      - assert (i = i0) as -> by k_near. rewrite (ext1_face0 e ltac:(k_near)), (ext1_in e) by k_near.
        apply ghost_le; [apply (kl_le rob); [apply Hs; lia|apply Hdx; lia|apply Qclt_le_weak, Hv0; k_near]|apply ll_pos| |exact Pe].
        destruct (ll_depth (bc 0)) as [|D2]; [now left|right]. pose proof (Ro 0 ltac:(lia)) as R. rewrite D2 in R. change (0 / 2) with 0 in R. cbv [ends1 ends2 ends3] in R. cbn [Z.eqb Pos.eqb] in R. apply (Mx ((i0 + 1)%Z)). apply in_cells1. clear - R Ip. k_near. }
    specialize (Hr i Ip). unfold op1 in Hr. pose proof Pe as Pe'. rewrite <- (ext1_in e i Ip) in Pe'. 
    assert (Eq : ext1 e (i + 1)%Z = ext1 e i).
    { refine (edge_term beta (dx 0) (v0 (i + 1)%Z) (v0 i) (ext1 e i) (ext1 e (i + 1)%Z) (ext1 e (i - 1)%Z) _ Hb (Qc_ne_0 _ (Hdx 0 ltac:(lia))) (Hv0 (i + 1)%Z ltac:(k_near)) (Qclt_le_weak _ _ (Hv0 i ltac:(k_near))) Up0 Dn0 (Qc_mul _ _ (Ha i Ip) (Qclt_le_weak _ _ Pe')) _).
      rewrite ?Qcplus_assoc in *. exact Hr. }
    assert (In1 : patch1 i0 i1 (i + 1)%Z).
    { destruct (patch_dec1 i0 i1 (i + 1)%Z) as [Y|N]; [exact Y|exfalso].
      revert Eq. apply Qc_lt_ne. clear Hr Pe' Up0 Dn0. assert (i = i1) as -> by k_near. rewrite (ext1_face1 e ltac:(k_near)), (ext1_in e) by k_near.
      apply ghost_lt; [apply (kl_strict rob); [apply Hs; lia|apply Hdx; lia|apply Qclt_le_weak, Hv0; k_near|exact Nk]|apply ll_pos| |exact Pe].
      destruct (ll_depth (bc 1)) as [|D2]; [now left|right]. pose proof (Ro 1 ltac:(lia)) as R. rewrite D2 in R. change (1 / 2) with 0 in R. cbv [ends1 ends2 ends3] in R. cbn [Z.eqb Pos.eqb] in R. apply (Mx ((i1 - 1)%Z)). apply in_cells1. clear - R Ip. k_near. }
    split; [now apply in_cells1|]. split; [rewrite !(ext1_in e) in Eq by assumption; exact Eq|k_near].
  Qed.

  Lemma down1 e : (forall i, patch1 i0 i1 i -> (op1 (ext1 e) i <= 0)%Qc) -> b_kind (bc 0) <> 1 ->
    forall i, patch1 i0 i1 i -> (e i <= 0)%Qc.
  Proof.
    intros Hr Nk i Ip.
    apply (walk (cells1 i0 i1) e (fun i => i - 1) (fun i => Z.to_nat (i - i0))) with (p := i); [clear i Ip|now apply in_cells1].
    intros i Ip Mx Pe. cbn [fst snd] in *. apply in_cells1 in Ip.
    assert (Up0 : (ext1 e (i + 1)%Z <= ext1 e i)%Qc).
    { destruct (patch_dec1 i0 i1 (i + 1)%Z) as [Y|N].
      - rewrite !(ext1_in e) by assumption. apply (Mx ((i + 1)%Z)). now apply in_cells1.
      - assert (i = i1) as -> by k_near. rewrite (ext1_face1 e ltac:(k_near)), (ext1_in e) by k_near.
        apply ghost_le; [apply (kl_le rob); [apply Hs; lia|apply Hdx; lia|apply Qclt_le_weak, Hv0; k_near]|apply ll_pos| |exact Pe].
        destruct (ll_depth (bc 1)) as [|D2]; [now left|right]. pose proof (Ro 1 ltac:(lia)) as R. rewrite D2 in R. change (1 / 2) with 0 in R. cbv [ends1 ends2 ends3] in R. cbn [Z.eqb Pos.eqb] in R. apply (Mx ((i1 - 1)%Z)). apply in_cells1. clear - R Ip. k_near. }
    assert (Dn0 : (ext1 e (i - 1)%Z <= ext1 e i)%Qc).
    { destruct (patch_dec1 i0 i1 (i - 1)%Z) as [Y|N].
      - rewrite !(ext1_in e) by assumption. apply (Mx ((i - 1)%Z)). now apply in_cells1.
      - assert (i = i0) as -> by k_near. rewrite (ext1_face0 e ltac:(k_near)), (ext1_in e) by k_near.
        apply ghost_le; [apply (kl_le rob); [apply Hs; lia|apply Hdx; lia|apply Qclt_le_weak, Hv0; k_near]|apply ll_pos| |exact Pe].
        destruct (ll_depth (bc 0)) as [|D2]; [now left|right]. pose proof (Ro 0 ltac:(lia)) as R. rewrite D2 in R. change (0 / 2) with 0 in R. cbv [ends1 ends2 ends3] in R. cbn [Z.eqb Pos.eqb] in R. apply (Mx ((i0 + 1)%Z)). apply in_cells1. clear - R Ip. k_near. }
    specialize (Hr i Ip). unfold op1 in Hr. pose proof Pe as Pe'. rewrite <- (ext1_in e i Ip) in Pe'. 
    assert (Eq : ext1 e (i - 1)%Z = ext1 e i).
    { refine (down_term beta (dx 0) (v0 (i + 1)%Z) (v0 i) (ext1 e i) (ext1 e (i + 1)%Z) (ext1 e (i - 1)%Z) _ Hb (Qc_ne_0 _ (Hdx 0 ltac:(lia))) (Qclt_le_weak _ _ (Hv0 (i + 1)%Z ltac:(k_near))) (Hv0 i ltac:(k_near)) Up0 Dn0 (Qc_mul _ _ (Ha i Ip) (Qclt_le_weak _ _ Pe')) _).
      rewrite ?Qcplus_assoc in *. exact Hr. }
    assert (In1 : patch1 i0 i1 (i - 1)%Z).
    { destruct (patch_dec1 i0 i1 (i - 1)%Z) as [Y|N]; [exact Y|exfalso].
      revert Eq. apply Qc_lt_ne. clear Hr Pe' Up0 Dn0. assert (i = i0) as -> by k_near. rewrite (ext1_face0 e ltac:(k_near)), (ext1_in e) by k_near.
      apply ghost_lt; [apply (kl_strict rob); [apply Hs; lia|apply Hdx; lia|apply Qclt_le_weak, Hv0; k_near|exact Nk]|apply ll_pos| |exact Pe].
      destruct (ll_depth (bc 0)) as [|D2]; [now left|right]. pose proof (Ro 0 ltac:(lia)) as R. rewrite D2 in R. change (0 / 2) with 0 in R. cbv [ends1 ends2 ends3] in R. cbn [Z.eqb Pos.eqb] in R. apply (Mx ((i0 + 1)%Z)). apply in_cells1. clear - R Ip. k_near. }
    split; [now apply in_cells1|]. split; [rewrite !(ext1_in e) in Eq by assumption; exact Eq|k_near].
  Qed.

  Lemma react1 e : (forall i, patch1 i0 i1 i -> (op1 (ext1 e) i <= 0)%Qc) -> (forall i, patch1 i0 i1 i -> (0 < a i)%Qc) ->
    forall i, patch1 i0 i1 i -> (e i <= 0)%Qc.
  Proof.
    intros Hr Sa i Ip.
    apply (walk (cells1 i0 i1) e (fun p => p) (fun _ => O)) with (p := i); [clear i Ip|now apply in_cells1].
    intros i Ip Mx Pe. cbn [fst snd] in *. apply in_cells1 in Ip.
    assert (Up0 : (ext1 e (i + 1)%Z <= ext1 e i)%Qc).
    { destruct (patch_dec1 i0 i1 (i + 1)%Z) as [Y|N].
      - rewrite !(ext1_in e) by assumption. apply (Mx ((i + 1)%Z)). now apply in_cells1.
      - assert (i = i1) as -> by k_near. rewrite (ext1_face1 e ltac:(k_near)), (ext1_in e) by k_near.
        apply ghost_le; [apply (kl_le rob); [apply Hs; lia|apply Hdx; lia|apply Qclt_le_weak, Hv0; k_near]|apply ll_pos| |exact Pe].
        destruct (ll_depth (bc 1)) as [|D2]; [now left|right]. pose proof (Ro 1 ltac:(lia)) as R. rewrite D2 in R. change (1 / 2) with 0 in R. cbv [ends1 ends2 ends3] in R. cbn [Z.eqb Pos.eqb] in R. apply (Mx ((i1 - 1)%Z)). apply in_cells1. clear - R Ip. k_near. }
    assert (Dn0 : (ext1 e (i - 1)%Z <= ext1 e i)%Qc).
    { destruct (patch_dec1 i0 i1 (i - 1)%Z) as [Y|N].
      - rewrite !(ext1_in e) by assumption. apply (Mx ((i - 1)%Z)). now apply in_cells1.
      - assert (i = i0) as -> by k_near. rewrite (ext1_face0 e ltac:(k_near)), (ext1_in e) by k_near.
        apply ghost_le; [apply (kl_le rob); [apply Hs; lia|apply Hdx; lia|apply Qclt_le_weak, Hv0; k_near]|apply ll_pos| |exact Pe].
        destruct (ll_depth (bc 0)) as [|D2]; [now left|right]. pose proof (Ro 0 ltac:(lia)) as R. rewrite D2 in R. change (0 / 2) with 0 in R. cbv [ends1 ends2 ends3] in R. cbn [Z.eqb Pos.eqb] in R. apply (Mx ((i0 + 1)%Z)). apply in_cells1. clear - R Ip. k_near. }
    specialize (Hr i Ip). unfold op1 in Hr. pose proof Pe as Pe'. rewrite <- (ext1_in e i Ip) in Pe'. 
    exfalso. apply (Qclt_not_le _ _ (Qc_pos_mul _ _ (Sa i Ip) Pe')). refine (Qcle_trans _ _ _ _ Hr).
    pose proof (other_term beta (dx 0) (v0 (i + 1)%Z) (v0 i) (ext1 e i) (ext1 e (i + 1)%Z) (ext1 e (i - 1)%Z) (Qclt_le_weak _ _ Hb) (Qclt_le_weak _ _ (Hv0 (i + 1)%Z ltac:(k_near))) (Qclt_le_weak _ _ (Hv0 i ltac:(k_near))) Up0 Dn0) as F. apply Qc_nonneg_sub. match type of F with (0 <= ?t)%Qc => match goal with |- (0 <= ?g)%Qc => replace g with t by ring end end. exact F.
  Qed.

  Context (Hh : b_kind (bc 0) <> 1 \/ b_kind (bc 1) <> 1 \/ (forall i, patch1 i0 i1 i -> (0 < a i)%Qc)).

  Lemma neg1 e : (forall i, patch1 i0 i1 i -> (op1 (ext1 e) i <= 0)%Qc) -> forall i, patch1 i0 i1 i -> (e i <= 0)%Qc.
  Proof.
    intros Hr. destruct Hh as [H|[H|H]]; [exact (down1 e Hr H)|exact (up1 e Hr H)|exact (react1 e Hr H)].
  Qed.

  Lemma bvp1_lin x y w z i : patch1 i0 i1 i ->
    op1 (ext1 (fun i => x * w i + y * z i)%Qc) i = (x * op1 (ext1 w) i + y * op1 (ext1 z) i)%Qc.
  Proof. intros Ip. rewrite <- op1_lin. apply op1_near; [exact Ip|]. intros. apply ext1_lin. Qed.

  Lemma bvp1_compare (w z r s : Z -> Qc) :
    (forall i, patch1 i0 i1 i -> r i = op1 (ext1 w) i) -> (forall i, patch1 i0 i1 i -> s i = op1 (ext1 z) i) ->
    (forall i, patch1 i0 i1 i -> (r i <= s i)%Qc) -> forall i, patch1 i0 i1 i -> (w i <= z i)%Qc.
  Proof.
    intros Ew Ez Le i Ip. apply Qc_nonneg_sub.
    replace (z i - w i)%Qc with (- (1 * w i + (- (1)) * z i))%Qc by ring. apply (Qcopp_le_compat _ 0).
    revert i Ip. apply (neg1 (fun i => 1 * w i + (- (1)) * z i)%Qc).
    intros i Ip. rewrite bvp1_lin by exact Ip. rewrite <- Ew, <- Ez by exact Ip.
    pose proof (Qc_sub_nonneg _ _ (Le i Ip)) as G. apply Qcopp_le_compat in G.
    replace (- 0)%Qc with 0%Qc in G by ring. replace (1 * r i + (- (1)) * s i)%Qc with (- (s i - r i))%Qc by ring. exact G.
  Qed.

  Lemma bvp1_exists (r : Z -> Qc) : exists w : Z -> Qc, forall i, patch1 i0 i1 i -> op1 (ext1 w) i = r i.
  Proof.
    destruct (@solvable (Z) Z.eq_dec (fun w => (op1 (ext1 (fun i => w i)))) (cells1 i0 i1) (nodup_cells1 i0 i1)) with (g := fun _ : Z => 0%Qc) (r := r) as (w & Hw & Tw).
    - intros x y w z i Ip. cbn [fst snd]. apply in_cells1 in Ip. apply (bvp1_lin x y (fun i => w i) (fun i => z i) i Ip).
    - intros w Out Z. assert (Z' : forall i, patch1 i0 i1 i -> 0%Qc = op1 (ext1 (fun i => w i)) i).
      { intros i Ip. symmetry. exact (Z i (proj2 (in_cells1 i0 i1 i) Ip)). }
      assert (Z0 : forall i, patch1 i0 i1 i -> 0%Qc = op1 (ext1 (fun _ => 0%Qc)) i).
      { intros i Ip. transitivity (0 * op1 (ext1 (fun i => w i)) i + 0 * op1 (ext1 (fun i => w i)) i)%Qc; [ring|].
        rewrite <- bvp1_lin by exact Ip. apply op1_near; [exact Ip|]. intros. apply ext1_ext. intros. ring. }
      intros i Ip. apply in_cells1 in Ip. apply Qcle_antisym.
      + apply (bvp1_compare _ _ _ _ Z' Z0 (fun _ _ => Qcle_refl 0%Qc) i Ip).
      + apply (bvp1_compare _ _ _ _ Z0 Z' (fun _ _ => Qcle_refl 0%Qc) i Ip).
    - intros w z i Ip E. cbn [fst snd]. apply in_cells1 in Ip. apply op1_near; [exact Ip|]. intros. apply ext1_ext. intros. apply E.
    - exists (fun i => w i). intros i Ip. apply (Tw i). now apply in_cells1.
  Qed.
End Dim1.


Section Dim2.
  Context (i0 j0 i1 j1 : Z) (dx : Z -> Qc) (beta : Qc) (a v0 v1 : Z -> Z -> Qc) (bc : Z -> bcond QcS).

  (** The operator; diffusion coefficients [v], reaction [a]. *)
  Definition op2 (w : Z -> Z -> Qc) : Z -> Z -> Qc := fun i j =>
    (- beta * ((v0 (i + 1)%Z j * ((w (i + 1)%Z j - w i j) / dx 0%Z) - v0 i j * ((w i j - w (i - 1)%Z j) / dx 0%Z)) / dx 0%Z) + - beta * ((v1 i (j + 1)%Z * ((w i (j + 1)%Z - w i j) / dx 1%Z) - v1 i j * ((w i j - w i (j - 1)%Z) / dx 1%Z)) / dx 1%Z) + a i j * w i j)%Qc.

  (** The values in the patch, and those the conditions give next to its faces. *)
  Definition ext2 (w : Z -> Z -> Qc) : Z -> Z -> Qc := fun i j =>
    if i <? i0 then (kk (bc 0) (dx 0%Z) (v0 i0 j) * w i0 j + ll (bc 0) * w (i0 + 1)%Z j)%Qc
    else if i1 <? i then (kk (bc 1) (dx 0%Z) (v0 (i1 + 1)%Z j) * w i1 j + ll (bc 1) * w (i1 - 1)%Z j)%Qc
    else if j <? j0 then (kk (bc 2) (dx 1%Z) (v1 i j0) * w i j0 + ll (bc 2) * w i (j0 + 1)%Z)%Qc
    else if j1 <? j then (kk (bc 3) (dx 1%Z) (v1 i (j1 + 1)%Z) * w i j1 + ll (bc 3) * w i (j1 - 1)%Z)%Qc
    else w i j.

  Lemma op2_lin x y w z i j : op2 (fun i j => x * w i j + y * z i j)%Qc i j = (x * op2 w i j + y * op2 z i j)%Qc.
  Proof. unfold op2, Qcdiv. ring. Qed.
  Lemma op2_near w z i j : patch2 i0 j0 i1 j1 i j -> (forall i j, near2 i0 j0 i1 j1 i j -> w i j = z i j) -> op2 w i j = op2 z i j.
  Proof.
    intros Ip E. unfold op2. rewrite (E i j ltac:(k_near)). rewrite (E (i + 1)%Z j ltac:(k_near)). rewrite (E (i - 1)%Z j ltac:(k_near)). rewrite (E i (j + 1)%Z ltac:(k_near)). rewrite (E i (j - 1)%Z ltac:(k_near)). reflexivity.
  Qed.
  Lemma ext2_lin x y w z i j : ext2 (fun i j => x * w i j + y * z i j)%Qc i j = (x * ext2 w i j + y * ext2 z i j)%Qc.
  Proof. unfold ext2. repeat (match goal with |- context [if ?b then _ else _] => destruct b end; [ring|]). reflexivity. Qed.
  Lemma ext2_ext w z i j : (forall i j, w i j = z i j) -> ext2 w i j = ext2 z i j.
  Proof. intros E. unfold ext2. rewrite !E. reflexivity. Qed.
  Lemma ext2_in w i j : patch2 i0 j0 i1 j1 i j -> ext2 w i j = w i j.
  Proof.
    intros Ip. unfold ext2. destruct (Z.ltb_spec i i0); [k_near|]. destruct (Z.ltb_spec i1 i); [k_near|]. destruct (Z.ltb_spec j j0); [k_near|]. destruct (Z.ltb_spec j1 j); [k_near|]. reflexivity.
  Qed.

  Lemma ext2_face0 w : i0 <= i1 -> forall j, j0 <= j <= j1 -> ext2 w (i0 - 1)%Z j = (kk (bc 0) (dx 0%Z) (v0 i0 j) * w i0 j + ll (bc 0) * w (i0 + 1)%Z j)%Qc.
  Proof. intros. unfold ext2. destruct (Z.ltb_spec (i0 - 1) i0); [reflexivity|lia]. Qed.

  Lemma ext2_face1 w : i0 <= i1 -> forall j, j0 <= j <= j1 -> ext2 w (i1 + 1)%Z j = (kk (bc 1) (dx 0%Z) (v0 (i1 + 1)%Z j) * w i1 j + ll (bc 1) * w (i1 - 1)%Z j)%Qc.
  Proof. intros. unfold ext2. destruct (Z.ltb_spec (i1 + 1) i0); [lia|]. destruct (Z.ltb_spec i1 (i1 + 1)); [reflexivity|lia]. Qed.

  Lemma ext2_face2 w : j0 <= j1 -> forall i, i0 <= i <= i1 -> ext2 w i (j0 - 1)%Z = (kk (bc 2) (dx 1%Z) (v1 i j0) * w i j0 + ll (bc 2) * w i (j0 + 1)%Z)%Qc.
  Proof. intros. unfold ext2. destruct (Z.ltb_spec i i0); [lia|]. destruct (Z.ltb_spec i1 i); [lia|]. destruct (Z.ltb_spec (j0 - 1) j0); [reflexivity|lia]. Qed.

  Lemma ext2_face3 w : j0 <= j1 -> forall i, i0 <= i <= i1 -> ext2 w i (j1 + 1)%Z = (kk (bc 3) (dx 1%Z) (v1 i (j1 + 1)%Z) * w i j1 + ll (bc 3) * w i (j1 - 1)%Z)%Qc.
  Proof. intros. unfold ext2. destruct (Z.ltb_spec i i0); [lia|]. destruct (Z.ltb_spec i1 i); [lia|]. destruct (Z.ltb_spec (j1 + 1) j0); [lia|]. destruct (Z.ltb_spec j1 (j1 + 1)); [reflexivity|lia]. Qed.

  Context (rob : bool) (Hb : (0 < beta)%Qc) (Hdx : forall d, 0 <= d < 2 -> (0 < dx d)%Qc).
  Context (Ha : forall i j, patch2 i0 j0 i1 j1 i j -> (0 <= a i j)%Qc).
  Context (Hv0 : forall i j, i0 <= i <= i1 + 1 -> j0 <= j <= j1 -> (0 < v0 i j)%Qc).
  Context (Hv1 : forall i j, i0 <= i <= i1 -> j0 <= j <= j1 + 1 -> (0 <= v1 i j)%Qc).
  Context (Hs : forall f, 0 <= f < 4 -> sound rob (bc f)) (Ro : roomy 2 (ends2 i0 j0) (ends2 i1 j1) bc).

  Lemma up2 e : (forall i j, patch2 i0 j0 i1 j1 i j -> (op2 (ext2 e) i j <= 0)%Qc) -> b_kind (bc 1) <> 1 ->
    forall i j, patch2 i0 j0 i1 j1 i j -> (e i j <= 0)%Qc.
  Proof.
    intros Hr Nk i j Ip.
    apply (walk (cells2 i0 j0 i1 j1) (fun p : Z * Z => e (fst p) (snd p)) (fun p : Z * Z => (fst p + 1, snd p)) (fun p : Z * Z => Z.to_nat (i1 - fst p))) with (p := (i, j)); [clear i j Ip|now apply in_cells2].
    intros [i j] Ip Mx Pe. cbn [fst snd] in *. apply in_cells2 in Ip.
    assert (Up0 : (ext2 e (i + 1)%Z j <= ext2 e i j)%Qc).
    { destruct (patch_dec2 i0 j0 i1 j1 (i + 1)%Z j) as [Y|N].
      - rewrite !(ext2_in e) by assumption. apply (Mx ((i + 1)%Z, j)). now apply in_cells2.
      - assert (i = i1) as -> by k_near. rewrite (ext2_face1 e ltac:(k_near) j ltac:(k_near)), (ext2_in e) by k_near.
        apply ghost_le; [apply (kl_le rob); [apply Hs; lia|apply Hdx; lia|apply Qclt_le_weak, Hv0; k_near]|apply ll_pos| |exact Pe].
        destruct (ll_depth (bc 1)) as [|D2]; [now left|right]. pose proof (Ro 1 ltac:(lia)) as R. rewrite D2 in R. change (1 / 2) with 0 in R. cbv [ends1 ends2 ends3] in R. cbn [Z.eqb Pos.eqb] in R. apply (Mx ((i1 - 1)%Z, j)). apply in_cells2. clear - R Ip. k_near. }
    assert (Dn0 : (ext2 e (i - 1)%Z j <= ext2 e i j)%Qc).
    { destruct (patch_dec2 i0 j0 i1 j1 (i - 1)%Z j) as [Y|N].
      - rewrite !(ext2_in e) by assumption. apply (Mx ((i - 1)%Z, j)). now apply in_cells2.
      - assert (i = i0) as -> by k_near. rewrite (ext2_face0 e ltac:(k_near) j ltac:(k_near)), (ext2_in e) by k_near.
        apply ghost_le; [apply (kl_le rob); [apply Hs; lia|apply Hdx; lia|apply Qclt_le_weak, Hv0; k_near]|apply ll_pos| |exact Pe].
        destruct (ll_depth (bc 0)) as [|D2]; [now left|right]. pose proof (Ro 0 ltac:(lia)) as R. rewrite D2 in R. change (0 / 2) with 0 in R. cbv [ends1 ends2 ends3] in R. cbn [Z.eqb Pos.eqb] in R. apply (Mx ((i0 + 1)%Z, j)). apply in_cells2. clear - R Ip. k_near. }
    assert (Up1 : (ext2 e i (j + 1)%Z <= ext2 e i j)%Qc).
    { destruct (patch_dec2 i0 j0 i1 j1 i (j + 1)%Z) as [Y|N].
      - rewrite !(ext2_in e) by assumption. apply (Mx (i, (j + 1)%Z)). now apply in_cells2.
      - assert (j = j1) as -> by k_near. rewrite (ext2_face3 e ltac:(k_near) i ltac:(k_near)), (ext2_in e) by k_near.
        apply ghost_le; [apply (kl_le rob); [apply Hs; lia|apply Hdx; lia|apply Hv1; k_near]|apply ll_pos| |exact Pe].
        destruct (ll_depth (bc 3)) as [|D2]; [now left|right]. pose proof (Ro 3 ltac:(lia)) as R. rewrite D2 in R. change (3 / 2) with 1 in R. cbv [ends1 ends2 ends3] in R. cbn [Z.eqb Pos.eqb] in R. apply (Mx (i, (j1 - 1)%Z)). apply in_cells2. clear - R Ip. k_near. }
    assert (Dn1 : (ext2 e i (j - 1)%Z <= ext2 e i j)%Qc).
    { destruct (patch_dec2 i0 j0 i1 j1 i (j - 1)%Z) as [Y|N].
      - rewrite !(ext2_in e) by assumption. apply (Mx (i, (j - 1)%Z)). now apply in_cells2.
      - assert (j = j0) as -> by k_near. rewrite (ext2_face2 e ltac:(k_near) i ltac:(k_near)), (ext2_in e) by k_near.
        apply ghost_le; [apply (kl_le rob); [apply Hs; lia|apply Hdx; lia|apply Hv1; k_near]|apply ll_pos| |exact Pe].
        destruct (ll_depth (bc 2)) as [|D2]; [now left|right]. pose proof (Ro 2 ltac:(lia)) as R. rewrite D2 in R. change (2 / 2) with 1 in R. cbv [ends1 ends2 ends3] in R. cbn [Z.eqb Pos.eqb] in R. apply (Mx (i, (j0 + 1)%Z)). apply in_cells2. clear - R Ip. k_near. }
    specialize (Hr i j Ip). unfold op2 in Hr. pose proof Pe as Pe'. rewrite <- (ext2_in e i j Ip) in Pe'. 
    assert (Eq : ext2 e (i + 1)%Z j = ext2 e i j).
    { refine (edge_term beta (dx 0) (v0 (i + 1)%Z j) (v0 i j) (ext2 e i j) (ext2 e (i + 1)%Z j) (ext2 e (i - 1)%Z j) _ Hb (Qc_ne_0 _ (Hdx 0 ltac:(lia))) (Hv0 (i + 1)%Z j ltac:(k_near) ltac:(k_near)) (Qclt_le_weak _ _ (Hv0 i j ltac:(k_near) ltac:(k_near))) Up0 Dn0 (Qc_add _ _ (other_term beta (dx 1) (v1 i (j + 1)%Z) (v1 i j) (ext2 e i j) (ext2 e i (j + 1)%Z) (ext2 e i (j - 1)%Z) (Qclt_le_weak _ _ Hb) (Hv1 i (j + 1)%Z ltac:(k_near) ltac:(k_near)) (Hv1 i j ltac:(k_near) ltac:(k_near)) Up1 Dn1) (Qc_mul _ _ (Ha i j Ip) (Qclt_le_weak _ _ Pe'))) _).
      rewrite ?Qcplus_assoc in *. exact Hr. }
    assert (In1 : patch2 i0 j0 i1 j1 (i + 1)%Z j).
    { destruct (patch_dec2 i0 j0 i1 j1 (i + 1)%Z j) as [Y|N]; [exact Y|exfalso].
      revert Eq. apply Qc_lt_ne. clear Hr Pe' Up0 Dn0 Up1 Dn1. assert (i = i1) as -> by k_near. rewrite (ext2_face1 e ltac:(k_near) j ltac:(k_near)), (ext2_in e) by k_near.
      apply ghost_lt; [apply (kl_strict rob); [apply Hs; lia|apply Hdx; lia|apply Qclt_le_weak, Hv0; k_near|exact Nk]|apply ll_pos| |exact Pe].
      destruct (ll_depth (bc 1)) as [|D2]; [now left|right]. pose proof (Ro 1 ltac:(lia)) as R. rewrite D2 in R. change (1 / 2) with 0 in R. cbv [ends1 ends2 ends3] in R. cbn [Z.eqb Pos.eqb] in R. apply (Mx ((i1 - 1)%Z, j)). apply in_cells2. clear - R Ip. k_near. }
    split; [now apply in_cells2|]. split; [rewrite !(ext2_in e) in Eq by assumption; exact Eq|k_near].
  Qed.

  Lemma down2 e : (forall i j, patch2 i0 j0 i1 j1 i j -> (op2 (ext2 e) i j <= 0)%Qc) -> b_kind (bc 0) <> 1 ->
    forall i j, patch2 i0 j0 i1 j1 i j -> (e i j <= 0)%Qc.
  Proof.
    intros Hr Nk i j Ip.
    apply (walk (cells2 i0 j0 i1 j1) (fun p : Z * Z => e (fst p) (snd p)) (fun p : Z * Z => (fst p - 1, snd p)) (fun p : Z * Z => Z.to_nat (fst p - i0))) with (p := (i, j)); [clear i j Ip|now apply in_cells2].
    intros [i j] Ip Mx Pe. cbn [fst snd] in *. apply in_cells2 in Ip.
    assert (Up0 : (ext2 e (i + 1)%Z j <= ext2 e i j)%Qc).
    { destruct (patch_dec2 i0 j0 i1 j1 (i + 1)%Z j) as [Y|N].
      - rewrite !(ext2_in e) by assumption. apply (Mx ((i + 1)%Z, j)). now apply in_cells2.
      - assert (i = i1) as -> by k_near. rewrite (ext2_face1 e ltac:(k_near) j ltac:(k_near)), (ext2_in e) by k_near.
        apply ghost_le; [apply (kl_le rob); [apply Hs; lia|apply Hdx; lia|apply Qclt_le_weak, Hv0; k_near]|apply ll_pos| |exact Pe].
        destruct (ll_depth (bc 1)) as [|D2]; [now left|right]. pose proof (Ro 1 ltac:(lia)) as R. rewrite D2 in R. change (1 / 2) with 0 in R. cbv [ends1 ends2 ends3] in R. cbn [Z.eqb Pos.eqb] in R. apply (Mx ((i1 - 1)%Z, j)). apply in_cells2. clear - R Ip. k_near. }
    assert (Dn0 : (ext2 e (i - 1)%Z j <= ext2 e i j)%Qc).
    { destruct (patch_dec2 i0 j0 i1 j1 (i - 1)%Z j) as [Y|N].
      - rewrite !(ext2_in e) by assumption. apply (Mx ((i - 1)%Z, j)). now apply in_cells2.
      - assert (i = i0) as -> by k_near. rewrite (ext2_face0 e ltac:(k_near) j ltac:(k_near)), (ext2_in e) by k_near.
        apply ghost_le; [apply (kl_le rob); [apply Hs; lia|apply Hdx; lia|apply Qclt_le_weak, Hv0; k_near]|apply ll_pos| |exact Pe].
        destruct (ll_depth (bc 0)) as [|D2]; [now left|right]. pose proof (Ro 0 ltac:(lia)) as R. rewrite D2 in R. change (0 / 2) with 0 in R. cbv [ends1 ends2 ends3] in R. cbn [Z.eqb Pos.eqb] in R. apply (Mx ((i0 + 1)%Z, j)). apply in_cells2. clear - R Ip. k_near. }
    assert (Up1 : (ext2 e i (j + 1)%Z <= ext2 e i j)%Qc).
    { destruct (patch_dec2 i0 j0 i1 j1 i (j + 1)%Z) as [Y|N].
      - rewrite !(ext2_in e) by assumption. apply (Mx (i, (j + 1)%Z)). now apply in_cells2.
      - assert (j = j1) as -> by k_near. rewrite (ext2_face3 e ltac:(k_near) i ltac:(k_near)), (ext2_in e) by k_near.
        apply ghost_le; [apply (kl_le rob); [apply Hs; lia|apply Hdx; lia|apply Hv1; k_near]|apply ll_pos| |exact Pe].
        destruct (ll_depth (bc 3)) as [|D2]; [now left|right]. pose proof (Ro 3 ltac:(lia)) as R. rewrite D2 in R. change (3 / 2) with 1 in R. cbv [ends1 ends2 ends3] in R. cbn [Z.eqb Pos.eqb] in R. apply (Mx (i, (j1 - 1)%Z)). apply in_cells2. clear - R Ip. k_near. }
    assert (Dn1 : (ext2 e i (j - 1)%Z <= ext2 e i j)%Qc).
    { destruct (patch_dec2 i0 j0 i1 j1 i (j - 1)%Z) as [Y|N].
      - rewrite !(ext2_in e) by assumption. apply (Mx (i, (j - 1)%Z)). now apply in_cells2.
      - assert (j = j0) as -> by k_near. rewrite (ext2_face2 e ltac:(k_near) i ltac:(k_near)), (ext2_in e) by k_near.
        apply ghost_le; [apply (kl_le rob); [apply Hs; lia|apply Hdx; lia|apply Hv1; k_near]|apply ll_pos| |exact Pe].
        destruct (ll_depth (bc 2)) as [|D2]; [now left|right]. pose proof (Ro 2 ltac:(lia)) as R. rewrite D2 in R. change (2 / 2) with 1 in R. cbv [ends1 ends2 ends3] in R. cbn [Z.eqb Pos.eqb] in R. apply (Mx (i, (j0 + 1)%Z)). apply in_cells2. clear - R Ip. k_near. }
    specialize (Hr i j Ip). unfold op2 in Hr. pose proof Pe as Pe'. rewrite <- (ext2_in e i j Ip) in Pe'. 
    assert (Eq : ext2 e (i - 1)%Z j = ext2 e i j).
    { refine (down_term beta (dx 0) (v0 (i + 1)%Z j) (v0 i j) (ext2 e i j) (ext2 e (i + 1)%Z j) (ext2 e (i - 1)%Z j) _ Hb (Qc_ne_0 _ (Hdx 0 ltac:(lia))) (Qclt_le_weak _ _ (Hv0 (i + 1)%Z j ltac:(k_near) ltac:(k_near))) (Hv0 i j ltac:(k_near) ltac:(k_near)) Up0 Dn0 (Qc_add _ _ (other_term beta (dx 1) (v1 i (j + 1)%Z) (v1 i j) (ext2 e i j) (ext2 e i (j + 1)%Z) (ext2 e i (j - 1)%Z) (Qclt_le_weak _ _ Hb) (Hv1 i (j + 1)%Z ltac:(k_near) ltac:(k_near)) (Hv1 i j ltac:(k_near) ltac:(k_near)) Up1 Dn1) (Qc_mul _ _ (Ha i j Ip) (Qclt_le_weak _ _ Pe'))) _).
      rewrite ?Qcplus_assoc in *. exact Hr. }
    assert (In1 : patch2 i0 j0 i1 j1 (i - 1)%Z j).
    { destruct (patch_dec2 i0 j0 i1 j1 (i - 1)%Z j) as [Y|N]; [exact Y|exfalso].
      revert Eq. apply Qc_lt_ne. clear Hr Pe' Up0 Dn0 Up1 Dn1. assert (i = i0) as -> by k_near. rewrite (ext2_face0 e ltac:(k_near) j ltac:(k_near)), (ext2_in e) by k_near.
      apply ghost_lt; [apply (kl_strict rob); [apply Hs; lia|apply Hdx; lia|apply Qclt_le_weak, Hv0; k_near|exact Nk]|apply ll_pos| |exact Pe].
      destruct (ll_depth (bc 0)) as [|D2]; [now left|right]. pose proof (Ro 0 ltac:(lia)) as R. rewrite D2 in R. change (0 / 2) with 0 in R. cbv [ends1 ends2 ends3] in R. cbn [Z.eqb Pos.eqb] in R. apply (Mx ((i0 + 1)%Z, j)). apply in_cells2. clear - R Ip. k_near. }
    split; [now apply in_cells2|]. split; [rewrite !(ext2_in e) in Eq by assumption; exact Eq|k_near].
  Qed.

  Lemma react2 e : (forall i j, patch2 i0 j0 i1 j1 i j -> (op2 (ext2 e) i j <= 0)%Qc) -> (forall i j, patch2 i0 j0 i1 j1 i j -> (0 < a i j)%Qc) ->
    forall i j, patch2 i0 j0 i1 j1 i j -> (e i j <= 0)%Qc.
  Proof.
    intros Hr Sa i j Ip.
    apply (walk (cells2 i0 j0 i1 j1) (fun p : Z * Z => e (fst p) (snd p)) (fun p => p) (fun _ => O)) with (p := (i, j)); [clear i j Ip|now apply in_cells2].
    intros [i j] Ip Mx Pe. cbn [fst snd] in *. apply in_cells2 in Ip.
    assert (Up0 : (ext2 e (i + 1)%Z j <= ext2 e i j)%Qc).
    { destruct (patch_dec2 i0 j0 i1 j1 (i + 1)%Z j) as [Y|N].
      - rewrite !(ext2_in e) by assumption. apply (Mx ((i + 1)%Z, j)). now apply in_cells2.
      - assert (i = i1) as -> by k_near. rewrite (ext2_face1 e ltac:(k_near) j ltac:(k_near)), (ext2_in e) by k_near.
        apply ghost_le; [apply (kl_le rob); [apply Hs; lia|apply Hdx; lia|apply Qclt_le_weak, Hv0; k_near]|apply ll_pos| |exact Pe].
        destruct (ll_depth (bc 1)) as [|D2]; [now left|right]. pose proof (Ro 1 ltac:(lia)) as R. rewrite D2 in R. change (1 / 2) with 0 in R. cbv [ends1 ends2 ends3] in R. cbn [Z.eqb Pos.eqb] in R. apply (Mx ((i1 - 1)%Z, j)). apply in_cells2. clear - R Ip. k_near. }
    assert (Dn0 : (ext2 e (i - 1)%Z j <= ext2 e i j)%Qc).
    { destruct (patch_dec2 i0 j0 i1 j1 (i - 1)%Z j) as [Y|N].
      - rewrite !(ext2_in e) by assumption. apply (Mx ((i - 1)%Z, j)). now apply in_cells2.
      - assert (i = i0) as -> by k_near. rewrite (ext2_face0 e ltac:(k_near) j ltac:(k_near)), (ext2_in e) by k_near.
        apply ghost_le; [apply (kl_le rob); [apply Hs; lia|apply Hdx; lia|apply Qclt_le_weak, Hv0; k_near]|apply ll_pos| |exact Pe].
        destruct (ll_depth (bc 0)) as [|D2]; [now left|right]. pose proof (Ro 0 ltac:(lia)) as R. rewrite D2 in R. change (0 / 2) with 0 in R. cbv [ends1 ends2 ends3] in R. cbn [Z.eqb Pos.eqb] in R. apply (Mx ((i0 + 1)%Z, j)). apply in_cells2. clear - R Ip. k_near. }
    assert (Up1 : (ext2 e i (j + 1)%Z <= ext2 e i j)%Qc).
    { destruct (patch_dec2 i0 j0 i1 j1 i (j + 1)%Z) as [Y|N].
      - rewrite !(ext2_in e) by assumption. apply (Mx (i, (j + 1)%Z)). now apply in_cells2.
      - assert (j = j1) as -> by k_near. rewrite (ext2_face3 e ltac:(k_near) i ltac:(k_near)), (ext2_in e) by k_near.
        apply ghost_le; [apply (kl_le rob); [apply Hs; lia|apply Hdx; lia|apply Hv1; k_near]|apply ll_pos| |exact Pe].
        destruct (ll_depth (bc 3)) as [|D2]; [now left|right]. pose proof (Ro 3 ltac:(lia)) as R. rewrite D2 in R. change (3 / 2) with 1 in R. cbv [ends1 ends2 ends3] in R. cbn [Z.eqb Pos.eqb] in R. apply (Mx (i, (j1 - 1)%Z)). apply in_cells2. clear - R Ip. k_near. }
    assert (Dn1 : (ext2 e i (j - 1)%Z <= ext2 e i j)%Qc).
    { destruct (patch_dec2 i0 j0 i1 j1 i (j - 1)%Z) as [Y|N].
      - rewrite !(ext2_in e) by assumption. apply (Mx (i, (j - 1)%Z)). now apply in_cells2.
      - assert (j = j0) as -> by k_near. rewrite (ext2_face2 e ltac:(k_near) i ltac:(k_near)), (ext2_in e) by k_near.
        apply ghost_le; [apply (kl_le rob); [apply Hs; lia|apply Hdx; lia|apply Hv1; k_near]|apply ll_pos| |exact Pe].
        destruct (ll_depth (bc 2)) as [|D2]; [now left|right]. pose proof (Ro 2 ltac:(lia)) as R. rewrite D2 in R. change (2 / 2) with 1 in R. cbv [ends1 ends2 ends3] in R. cbn [Z.eqb Pos.eqb] in R. apply (Mx (i, (j0 + 1)%Z)). apply in_cells2. clear - R Ip. k_near. }
    specialize (Hr i j Ip). unfold op2 in Hr. pose proof Pe as Pe'. rewrite <- (ext2_in e i j Ip) in Pe'. 
    exfalso. apply (Qclt_not_le _ _ (Qc_pos_mul _ _ (Sa i j Ip) Pe')). refine (Qcle_trans _ _ _ _ Hr).
    pose proof (Qc_add _ _ (other_term beta (dx 0) (v0 (i + 1)%Z j) (v0 i j) (ext2 e i j) (ext2 e (i + 1)%Z j) (ext2 e (i - 1)%Z j) (Qclt_le_weak _ _ Hb) (Qclt_le_weak _ _ (Hv0 (i + 1)%Z j ltac:(k_near) ltac:(k_near))) (Qclt_le_weak _ _ (Hv0 i j ltac:(k_near) ltac:(k_near))) Up0 Dn0) (other_term beta (dx 1) (v1 i (j + 1)%Z) (v1 i j) (ext2 e i j) (ext2 e i (j + 1)%Z) (ext2 e i (j - 1)%Z) (Qclt_le_weak _ _ Hb) (Hv1 i (j + 1)%Z ltac:(k_near) ltac:(k_near)) (Hv1 i j ltac:(k_near) ltac:(k_near)) Up1 Dn1)) as F. apply Qc_nonneg_sub. match type of F with (0 <= ?t)%Qc => match goal with |- (0 <= ?g)%Qc => replace g with t by ring end end. exact F.
  Qed.

  Context (Hh : b_kind (bc 0) <> 1 \/ b_kind (bc 1) <> 1 \/ (forall i j, patch2 i0 j0 i1 j1 i j -> (0 < a i j)%Qc)).

  Lemma neg2 e : (forall i j, patch2 i0 j0 i1 j1 i j -> (op2 (ext2 e) i j <= 0)%Qc) -> forall i j, patch2 i0 j0 i1 j1 i j -> (e i j <= 0)%Qc.
  Proof.
    intros Hr. destruct Hh as [H|[H|H]]; [exact (down2 e Hr H)|exact (up2 e Hr H)|exact (react2 e Hr H)].
  Qed.

  Lemma bvp2_lin x y w z i j : patch2 i0 j0 i1 j1 i j ->
    op2 (ext2 (fun i j => x * w i j + y * z i j)%Qc) i j = (x * op2 (ext2 w) i j + y * op2 (ext2 z) i j)%Qc.
  Proof. intros Ip. rewrite <- op2_lin. apply op2_near; [exact Ip|]. intros. apply ext2_lin. Qed.

  Lemma bvp2_compare (w z r s : Z -> Z -> Qc) :
    (forall i j, patch2 i0 j0 i1 j1 i j -> r i j = op2 (ext2 w) i j) -> (forall i j, patch2 i0 j0 i1 j1 i j -> s i j = op2 (ext2 z) i j) ->
    (forall i j, patch2 i0 j0 i1 j1 i j -> (r i j <= s i j)%Qc) -> forall i j, patch2 i0 j0 i1 j1 i j -> (w i j <= z i j)%Qc.
  Proof.
    intros Ew Ez Le i j Ip. apply Qc_nonneg_sub.
    replace (z i j - w i j)%Qc with (- (1 * w i j + (- (1)) * z i j))%Qc by ring. apply (Qcopp_le_compat _ 0).
    revert i j Ip. apply (neg2 (fun i j => 1 * w i j + (- (1)) * z i j)%Qc).
    intros i j Ip. rewrite bvp2_lin by exact Ip. rewrite <- Ew, <- Ez by exact Ip.
    pose proof (Qc_sub_nonneg _ _ (Le i j Ip)) as G. apply Qcopp_le_compat in G.
    replace (- 0)%Qc with 0%Qc in G by ring. replace (1 * r i j + (- (1)) * s i j)%Qc with (- (s i j - r i j))%Qc by ring. exact G.
  Qed.

  Lemma bvp2_exists (r : Z -> Z -> Qc) : exists w : Z -> Z -> Qc, forall i j, patch2 i0 j0 i1 j1 i j -> op2 (ext2 w) i j = r i j.
  Proof.
    destruct (@solvable (Z * Z) dec2 (fun w => (fun p : Z * Z => (op2 (ext2 (fun i j => w (i, j)))) (fst p) (snd p))) (cells2 i0 j0 i1 j1) (nodup_cells2 i0 j0 i1 j1)) with (g := fun _ : Z * Z => 0%Qc) (r := (fun p : Z * Z => r (fst p) (snd p))) as (w & Hw & Tw).
    - intros x y w z [i j] Ip. cbn [fst snd]. apply in_cells2 in Ip. apply (bvp2_lin x y (fun i j => w (i, j)) (fun i j => z (i, j)) i j Ip).
    - intros w Out Z. assert (Z' : forall i j, patch2 i0 j0 i1 j1 i j -> 0%Qc = op2 (ext2 (fun i j => w (i, j))) i j).
      { intros i j Ip. symmetry. exact (Z (i, j) (proj2 (in_cells2 i0 j0 i1 j1 i j) Ip)). }
      assert (Z0 : forall i j, patch2 i0 j0 i1 j1 i j -> 0%Qc = op2 (ext2 (fun _ _ => 0%Qc)) i j).
      { intros i j Ip. transitivity (0 * op2 (ext2 (fun i j => w (i, j))) i j + 0 * op2 (ext2 (fun i j => w (i, j))) i j)%Qc; [ring|].
        rewrite <- bvp2_lin by exact Ip. apply op2_near; [exact Ip|]. intros. apply ext2_ext. intros. ring. }
      intros [i j] Ip. apply in_cells2 in Ip. apply Qcle_antisym.
      + apply (bvp2_compare _ _ _ _ Z' Z0 (fun _ _ _ => Qcle_refl 0%Qc) i j Ip).
      + apply (bvp2_compare _ _ _ _ Z0 Z' (fun _ _ _ => Qcle_refl 0%Qc) i j Ip).
    - intros w z [i j] Ip E. cbn [fst snd]. apply in_cells2 in Ip. apply op2_near; [exact Ip|]. intros. apply ext2_ext. intros. apply E.
    - exists (fun i j => w (i, j)). intros i j Ip. apply (Tw (i, j)). now apply in_cells2.
  Qed.
End Dim2.


Section Dim3.
  Context (i0 j0 k0 i1 j1 k1 : Z) (dx : Z -> Qc) (beta : Qc) (a v0 v1 v2 : Z -> Z -> Z -> Qc) (bc : Z -> bcond QcS).

  (** The operator; diffusion coefficients [v], reaction [a]. *)
  Definition op3 (w : Z -> Z -> Z -> Qc) : Z -> Z -> Z -> Qc := fun i j k =>
    (- beta * ((v0 (i + 1)%Z j k * ((w (i + 1)%Z j k - w i j k) / dx 0%Z) - v0 i j k * ((w i j k - w (i - 1)%Z j k) / dx 0%Z)) / dx 0%Z) + - beta * ((v1 i (j + 1)%Z k * ((w i (j + 1)%Z k - w i j k) / dx 1%Z) - v1 i j k * ((w i j k - w i (j - 1)%Z k) / dx 1%Z)) / dx 1%Z) + - beta * ((v2 i j (k + 1)%Z * ((w i j (k + 1)%Z - w i j k) / dx 2%Z) - v2 i j k * ((w i j k - w i j (k - 1)%Z) / dx 2%Z)) / dx 2%Z) + a i j k * w i j k)%Qc.

  (** The values in the patch, and those the conditions give next to its faces. *)
  Definition ext3 (w : Z -> Z -> Z -> Qc) : Z -> Z -> Z -> Qc := fun i j k =>
    if i <? i0 then (kk (bc 0) (dx 0%Z) (v0 i0 j k) * w i0 j k + ll (bc 0) * w (i0 + 1)%Z j k)%Qc
    else if i1 <? i then (kk (bc 1) (dx 0%Z) (v0 (i1 + 1)%Z j k) * w i1 j k + ll (bc 1) * w (i1 - 1)%Z j k)%Qc
    else if j <? j0 then (kk (bc 2) (dx 1%Z) (v1 i j0 k) * w i j0 k + ll (bc 2) * w i (j0 + 1)%Z k)%Qc
    else if j1 <? j then (kk (bc 3) (dx 1%Z) (v1 i (j1 + 1)%Z k) * w i j1 k + ll (bc 3) * w i (j1 - 1)%Z k)%Qc
    else if k <? k0 then (kk (bc 4) (dx 2%Z) (v2 i j k0) * w i j k0 + ll (bc 4) * w i j (k0 + 1)%Z)%Qc
    else if k1 <? k then (kk (bc 5) (dx 2%Z) (v2 i j (k1 + 1)%Z) * w i j k1 + ll (bc 5) * w i j (k1 - 1)%Z)%Qc
    else w i j k.

  Lemma op3_lin x y w z i j k : op3 (fun i j k => x * w i j k + y * z i j k)%Qc i j k = (x * op3 w i j k + y * op3 z i j k)%Qc.
  Proof. unfold op3, Qcdiv. ring. Qed.
  Lemma op3_near w z i j k : patch3 i0 j0 k0 i1 j1 k1 i j k -> (forall i j k, near3 i0 j0 k0 i1 j1 k1 i j k -> w i j k = z i j k) -> op3 w i j k = op3 z i j k.
  Proof.
    intros Ip E. unfold op3. rewrite (E i j k ltac:(k_near)). rewrite (E (i + 1)%Z j k ltac:(k_near)). rewrite (E (i - 1)%Z j k ltac:(k_near)). rewrite (E i (j + 1)%Z k ltac:(k_near)). rewrite (E i (j - 1)%Z k ltac:(k_near)). rewrite (E i j (k + 1)%Z ltac:(k_near)). rewrite (E i j (k - 1)%Z ltac:(k_near)). reflexivity.
  Qed.
  Lemma ext3_lin x y w z i j k : ext3 (fun i j k => x * w i j k + y * z i j k)%Qc i j k = (x * ext3 w i j k + y * ext3 z i j k)%Qc.
  Proof. unfold ext3. repeat (match goal with |- context [if ?b then _ else _] => destruct b end; [ring|]). reflexivity. Qed.
  Lemma ext3_ext w z i j k : (forall i j k, w i j k = z i j k) -> ext3 w i j k = ext3 z i j k.
  Proof. intros E. unfold ext3. rewrite !E. reflexivity. Qed.
  Lemma ext3_in w i j k : patch3 i0 j0 k0 i1 j1 k1 i j k -> ext3 w i j k = w i j k.
  Proof.
    intros Ip. unfold ext3. destruct (Z.ltb_spec i i0); [k_near|]. destruct (Z.ltb_spec i1 i); [k_near|]. destruct (Z.ltb_spec j j0); [k_near|]. destruct (Z.ltb_spec j1 j); [k_near|]. destruct (Z.ltb_spec k k0); [k_near|]. destruct (Z.ltb_spec k1 k); [k_near|]. reflexivity.
  Qed.

  Lemma ext3_face0 w : i0 <= i1 -> forall j k, j0 <= j <= j1 -> k0 <= k <= k1 -> ext3 w (i0 - 1)%Z j k = (kk (bc 0) (dx 0%Z) (v0 i0 j k) * w i0 j k + ll (bc 0) * w (i0 + 1)%Z j k)%Qc.
  Proof. intros. unfold ext3. destruct (Z.ltb_spec (i0 - 1) i0); [reflexivity|lia]. Qed.

  Lemma ext3_face1 w : i0 <= i1 -> forall j k, j0 <= j <= j1 -> k0 <= k <= k1 -> ext3 w (i1 + 1)%Z j k = (kk (bc 1) (dx 0%Z) (v0 (i1 + 1)%Z j k) * w i1 j k + ll (bc 1) * w (i1 - 1)%Z j k)%Qc.
  Proof. intros. unfold ext3. destruct (Z.ltb_spec (i1 + 1) i0); [lia|]. destruct (Z.ltb_spec i1 (i1 + 1)); [reflexivity|lia]. Qed.

  Lemma ext3_face2 w : j0 <= j1 -> forall i k, i0 <= i <= i1 -> k0 <= k <= k1 -> ext3 w i (j0 - 1)%Z k = (kk (bc 2) (dx 1%Z) (v1 i j0 k) * w i j0 k + ll (bc 2) * w i (j0 + 1)%Z k)%Qc.
  Proof. intros. unfold ext3. destruct (Z.ltb_spec i i0); [lia|]. destruct (Z.ltb_spec i1 i); [lia|]. destruct (Z.ltb_spec (j0 - 1) j0); [reflexivity|lia]. Qed.

  Lemma ext3_face3 w : j0 <= j1 -> forall i k, i0 <= i <= i1 -> k0 <= k <= k1 -> ext3 w i (j1 + 1)%Z k = (kk (bc 3) (dx 1%Z) (v1 i (j1 + 1)%Z k) * w i j1 k + ll (bc 3) * w i (j1 - 1)%Z k)%Qc.
  Proof. intros. unfold ext3. destruct (Z.ltb_spec i i0); [lia|]. destruct (Z.ltb_spec i1 i); [lia|]. destruct (Z.ltb_spec (j1 + 1) j0); [lia|]. destruct (Z.ltb_spec j1 (j1 + 1)); [reflexivity|lia]. Qed.

  Lemma ext3_face4 w : k0 <= k1 -> forall i j, i0 <= i <= i1 -> j0 <= j <= j1 -> ext3 w i j (k0 - 1)%Z = (kk (bc 4) (dx 2%Z) (v2 i j k0) * w i j k0 + ll (bc 4) * w i j (k0 + 1)%Z)%Qc.
  Proof. intros. unfold ext3. destruct (Z.ltb_spec i i0); [lia|]. destruct (Z.ltb_spec i1 i); [lia|]. destruct (Z.ltb_spec j j0); [lia|]. destruct (Z.ltb_spec j1 j); [lia|]. destruct (Z.ltb_spec (k0 - 1) k0); [reflexivity|lia]. Qed.

  Lemma ext3_face5 w : k0 <= k1 -> forall i j, i0 <= i <= i1 -> j0 <= j <= j1 -> ext3 w i j (k1 + 1)%Z = (kk (bc 5) (dx 2%Z) (v2 i j (k1 + 1)%Z) * w i j k1 + ll (bc 5) * w i j (k1 - 1)%Z)%Qc.
  Proof. intros. unfold ext3. destruct (Z.ltb_spec i i0); [lia|]. destruct (Z.ltb_spec i1 i); [lia|]. destruct (Z.ltb_spec j j0); [lia|]. destruct (Z.ltb_spec j1 j); [lia|]. destruct (Z.ltb_spec (k1 + 1) k0); [lia|]. destruct (Z.ltb_spec k1 (k1 + 1)); [reflexivity|lia]. Qed.

  Context (rob : bool) (Hb : (0 < beta)%Qc) (Hdx : forall d, 0 <= d < 3 -> (0 < dx d)%Qc).
  Context (Ha : forall i j k, patch3 i0 j0 k0 i1 j1 k1 i j k -> (0 <= a i j k)%Qc).
  Context (Hv0 : forall i j k, i0 <= i <= i1 + 1 -> j0 <= j <= j1 -> k0 <= k <= k1 -> (0 < v0 i j k)%Qc).
  Context (Hv1 : forall i j k, i0 <= i <= i1 -> j0 <= j <= j1 + 1 -> k0 <= k <= k1 -> (0 <= v1 i j k)%Qc).
  Context (Hv2 : forall i j k, i0 <= i <= i1 -> j0 <= j <= j1 -> k0 <= k <= k1 + 1 -> (0 <= v2 i j k)%Qc).
  Context (Hs : forall f, 0 <= f < 6 -> sound rob (bc f)) (Ro : roomy 3 (ends3 i0 j0 k0) (ends3 i1 j1 k1) bc).

  Lemma up3 e : (forall i j k, patch3 i0 j0 k0 i1 j1 k1 i j k -> (op3 (ext3 e) i j k <= 0)%Qc) -> b_kind (bc 1) <> 1 ->
    forall i j k, patch3 i0 j0 k0 i1 j1 k1 i j k -> (e i j k <= 0)%Qc.
  Proof.
    intros Hr Nk i j k Ip.
    apply (walk (cells3 i0 j0 k0 i1 j1 k1) (fun p : Z * Z * Z => e (fst (fst p)) (snd (fst p)) (snd p)) (fun p : Z * Z * Z => (fst (fst p) + 1, snd (fst p), snd p)) (fun p : Z * Z * Z => Z.to_nat (i1 - fst (fst p)))) with (p := (i, j, k)); [clear i j k Ip|now apply in_cells3].
    intros [[i j] k] Ip Mx Pe. cbn [fst snd] in *. apply in_cells3 in Ip.
    assert (Up0 : (ext3 e (i + 1)%Z j k <= ext3 e i j k)%Qc).
    { destruct (patch_dec3 i0 j0 k0 i1 j1 k1 (i + 1)%Z j k) as [Y|N].
      - rewrite !(ext3_in e) by assumption. apply (Mx ((i + 1)%Z, j, k)). now apply in_cells3.
      - assert (i = i1) as -> by k_near. rewrite (ext3_face1 e ltac:(k_near) j k ltac:(k_near) ltac:(k_near)), (ext3_in e) by k_near.
        apply ghost_le; [apply (kl_le rob); [apply Hs; lia|apply Hdx; lia|apply Qclt_le_weak, Hv0; k_near]|apply ll_pos| |exact Pe].
        destruct (ll_depth (bc 1)) as [|D2]; [now left|right]. pose proof (Ro 1 ltac:(lia)) as R. rewrite D2 in R. change (1 / 2) with 0 in R. cbv [ends1 ends2 ends3] in R. cbn [Z.eqb Pos.eqb] in R. apply (Mx ((i1 - 1)%Z, j, k)). apply in_cells3. clear - R Ip. k_near. }
    assert (Dn0 : (ext3 e (i - 1)%Z j k <= ext3 e i j k)%Qc).
    { destruct (patch_dec3 i0 j0 k0 i1 j1 k1 (i - 1)%Z j k) as [Y|N].
      - rewrite !(ext3_in e) by assumption. apply (Mx ((i - 1)%Z, j, k)). now apply in_cells3.
      - assert (i = i0) as -> by k_near. rewrite (ext3_face0 e ltac:(k_near) j k ltac:(k_near) ltac:(k_near)), (ext3_in e) by k_near.
        apply ghost_le; [apply (kl_le rob); [apply Hs; lia|apply Hdx; lia|apply Qclt_le_weak, Hv0; k_near]|apply ll_pos| |exact Pe].
        destruct (ll_depth (bc 0)) as [|D2]; [now left|right]. pose proof (Ro 0 ltac:(lia)) as R. rewrite D2 in R. change (0 / 2) with 0 in R. cbv [ends1 ends2 ends3] in R. cbn [Z.eqb Pos.eqb] in R. apply (Mx ((i0 + 1)%Z, j, k)). apply in_cells3. clear - R Ip. k_near. }
    assert (Up1 : (ext3 e i (j + 1)%Z k <= ext3 e i j k)%Qc).
    { destruct (patch_dec3 i0 j0 k0 i1 j1 k1 i (j + 1)%Z k) as [Y|N].
      - rewrite !(ext3_in e) by assumption. apply (Mx (i, (j + 1)%Z, k)). now apply in_cells3.
      - assert (j = j1) as -> by k_near. rewrite (ext3_face3 e ltac:(k_near) i k ltac:(k_near) ltac:(k_near)), (ext3_in e) by k_near.
        apply ghost_le; [apply (kl_le rob); [apply Hs; lia|apply Hdx; lia|apply Hv1; k_near]|apply ll_pos| |exact Pe].
        destruct (ll_depth (bc 3)) as [|D2]; [now left|right]. pose proof (Ro 3 ltac:(lia)) as R. rewrite D2 in R. change (3 / 2) with 1 in R. cbv [ends1 ends2 ends3] in R. cbn [Z.eqb Pos.eqb] in R. apply (Mx (i, (j1 - 1)%Z, k)). apply in_cells3. clear - R Ip. k_near. }
    assert (Dn1 : (ext3 e i (j - 1)%Z k <= ext3 e i j k)%Qc).
    { destruct (patch_dec3 i0 j0 k0 i1 j1 k1 i (j - 1)%Z k) as [Y|N].
      - rewrite !(ext3_in e) by assumption. apply (Mx (i, (j - 1)%Z, k)). now apply in_cells3.
      - assert (j = j0) as -> by k_near. rewrite (ext3_face2 e ltac:(k_near) i k ltac:(k_near) ltac:(k_near)), (ext3_in e) by k_near.
        apply ghost_le; [apply (kl_le rob); [apply Hs; lia|apply Hdx; lia|apply Hv1; k_near]|apply ll_pos| |exact Pe].
        destruct (ll_depth (bc 2)) as [|D2]; [now left|right]. pose proof (Ro 2 ltac:(lia)) as R. rewrite D2 in R. change (2 / 2) with 1 in R. cbv [ends1 ends2 ends3] in R. cbn [Z.eqb Pos.eqb] in R. apply (Mx (i, (j0 + 1)%Z, k)). apply in_cells3. clear - R Ip. k_near. }
    assert (Up2 : (ext3 e i j (k + 1)%Z <= ext3 e i j k)%Qc).
    { destruct (patch_dec3 i0 j0 k0 i1 j1 k1 i j (k + 1)%Z) as [Y|N].
      - rewrite !(ext3_in e) by assumption. apply (Mx (i, j, (k + 1)%Z)). now apply in_cells3.
      - assert (k = k1) as -> by k_near. rewrite (ext3_face5 e ltac:(k_near) i j ltac:(k_near) ltac:(k_near)), (ext3_in e) by k_near.
        apply ghost_le; [apply (kl_le rob); [apply Hs; lia|apply Hdx; lia|apply Hv2; k_near]|apply ll_pos| |exact Pe].
        destruct (ll_depth (bc 5)) as [|D2]; [now left|right]. pose proof (Ro 5 ltac:(lia)) as R. rewrite D2 in R. change (5 / 2) with 2 in R. cbv [ends1 ends2 ends3] in R. cbn [Z.eqb Pos.eqb] in R. apply (Mx (i, j, (k1 - 1)%Z)). apply in_cells3. clear - R Ip. k_near. }
    assert (Dn2 : (ext3 e i j (k - 1)%Z <= ext3 e i j k)%Qc).
    { destruct (patch_dec3 i0 j0 k0 i1 j1 k1 i j (k - 1)%Z) as [Y|N].
      - rewrite !(ext3_in e) by assumption. apply (Mx (i, j, (k - 1)%Z)). now apply in_cells3.
      - assert (k = k0) as -> by k_near. rewrite (ext3_face4 e ltac:(k_near) i j ltac:(k_near) ltac:(k_near)), (ext3_in e) by k_near.
        apply ghost_le; [apply (kl_le rob); [apply Hs; lia|apply Hdx; lia|apply Hv2; k_near]|apply ll_pos| |exact Pe].
        destruct (ll_depth (bc 4)) as [|D2]; [now left|right]. pose proof (Ro 4 ltac:(lia)) as R. rewrite D2 in R. change (4 / 2) with 2 in R. cbv [ends1 ends2 ends3] in R. cbn [Z.eqb Pos.eqb] in R. apply (Mx (i, j, (k0 + 1)%Z)). apply in_cells3. clear - R Ip. k_near. }
    specialize (Hr i j k Ip). unfold op3 in Hr. pose proof Pe as Pe'. rewrite <- (ext3_in e i j k Ip) in Pe'. 
    assert (Eq : ext3 e (i + 1)%Z j k = ext3 e i j k).
    { refine (edge_term beta (dx 0) (v0 (i + 1)%Z j k) (v0 i j k) (ext3 e i j k) (ext3 e (i + 1)%Z j k) (ext3 e (i - 1)%Z j k) _ Hb (Qc_ne_0 _ (Hdx 0 ltac:(lia))) (Hv0 (i + 1)%Z j k ltac:(k_near) ltac:(k_near) ltac:(k_near)) (Qclt_le_weak _ _ (Hv0 i j k ltac:(k_near) ltac:(k_near) ltac:(k_near))) Up0 Dn0 (Qc_add _ _ (Qc_add _ _ (other_term beta (dx 1) (v1 i (j + 1)%Z k) (v1 i j k) (ext3 e i j k) (ext3 e i (j + 1)%Z k) (ext3 e i (j - 1)%Z k) (Qclt_le_weak _ _ Hb) (Hv1 i (j + 1)%Z k ltac:(k_near) ltac:(k_near) ltac:(k_near)) (Hv1 i j k ltac:(k_near) ltac:(k_near) ltac:(k_near)) Up1 Dn1) (other_term beta (dx 2) (v2 i j (k + 1)%Z) (v2 i j k) (ext3 e i j k) (ext3 e i j (k + 1)%Z) (ext3 e i j (k - 1)%Z) (Qclt_le_weak _ _ Hb) (Hv2 i j (k + 1)%Z ltac:(k_near) ltac:(k_near) ltac:(k_near)) (Hv2 i j k ltac:(k_near) ltac:(k_near) ltac:(k_near)) Up2 Dn2)) (Qc_mul _ _ (Ha i j k Ip) (Qclt_le_weak _ _ Pe'))) _).
      rewrite ?Qcplus_assoc in *. exact Hr. }
    assert (In1 : patch3 i0 j0 k0 i1 j1 k1 (i + 1)%Z j k).
    { destruct (patch_dec3 i0 j0 k0 i1 j1 k1 (i + 1)%Z j k) as [Y|N]; [exact Y|exfalso].
      revert Eq. apply Qc_lt_ne. clear Hr Pe' Up0 Dn0 Up1 Dn1 Up2 Dn2. assert (i = i1) as -> by k_near. rewrite (ext3_face1 e ltac:(k_near) j k ltac:(k_near) ltac:(k_near)), (ext3_in e) by k_near.
      apply ghost_lt; [apply (kl_strict rob); [apply Hs; lia|apply Hdx; lia|apply Qclt_le_weak, Hv0; k_near|exact Nk]|apply ll_pos| |exact Pe].
      destruct (ll_depth (bc 1)) as [|D2]; [now left|right]. pose proof (Ro 1 ltac:(lia)) as R. rewrite D2 in R. change (1 / 2) with 0 in R. cbv [ends1 ends2 ends3] in R. cbn [Z.eqb Pos.eqb] in R. apply (Mx ((i1 - 1)%Z, j, k)). apply in_cells3. clear - R Ip. k_near. }
    split; [now apply in_cells3|]. split; [rewrite !(ext3_in e) in Eq by assumption; exact Eq|k_near].
  Qed.

  Lemma down3 e : (forall i j k, patch3 i0 j0 k0 i1 j1 k1 i j k -> (op3 (ext3 e) i j k <= 0)%Qc) -> b_kind (bc 0) <> 1 ->
    forall i j k, patch3 i0 j0 k0 i1 j1 k1 i j k -> (e i j k <= 0)%Qc.
  Proof.
    intros Hr Nk i j k Ip.
    apply (walk (cells3 i0 j0 k0 i1 j1 k1) (fun p : Z * Z * Z => e (fst (fst p)) (snd (fst p)) (snd p)) (fun p : Z * Z * Z => (fst (fst p) - 1, snd (fst p), snd p)) (fun p : Z * Z * Z => Z.to_nat (fst (fst p) - i0))) with (p := (i, j, k)); [clear i j k Ip|now apply in_cells3].
    intros [[i j] k] Ip Mx Pe. cbn [fst snd] in *. apply in_cells3 in Ip.
    assert (Up0 : (ext3 e (i + 1)%Z j k <= ext3 e i j k)%Qc).
    { destruct (patch_dec3 i0 j0 k0 i1 j1 k1 (i + 1)%Z j k) as [Y|N].
      - rewrite !(ext3_in e) by assumption. apply (Mx ((i + 1)%Z, j, k)). now apply in_cells3.
      - assert (i = i1) as -> by k_near. rewrite (ext3_face1 e ltac:(k_near) j k ltac:(k_near) ltac:(k_near)), (ext3_in e) by k_near.
        apply ghost_le; [apply (kl_le rob); [apply Hs; lia|apply Hdx; lia|apply Qclt_le_weak, Hv0; k_near]|apply ll_pos| |exact Pe].
        destruct (ll_depth (bc 1)) as [|D2]; [now left|right]. pose proof (Ro 1 ltac:(lia)) as R. rewrite D2 in R. change (1 / 2) with 0 in R. cbv [ends1 ends2 ends3] in R. cbn [Z.eqb Pos.eqb] in R. apply (Mx ((i1 - 1)%Z, j, k)). apply in_cells3. clear - R Ip. k_near. }
    assert (Dn0 : (ext3 e (i - 1)%Z j k <= ext3 e i j k)%Qc).
    { destruct (patch_dec3 i0 j0 k0 i1 j1 k1 (i - 1)%Z j k) as [Y|N].
      - rewrite !(ext3_in e) by assumption. apply (Mx ((i - 1)%Z, j, k)). now apply in_cells3.
      - assert (i = i0) as -> by k_near. rewrite (ext3_face0 e ltac:(k_near) j k ltac:(k_near) ltac:(k_near)), (ext3_in e) by k_near.
        apply ghost_le; [apply (kl_le rob); [apply Hs; lia|apply Hdx; lia|apply Qclt_le_weak, Hv0; k_near]|apply ll_pos| |exact Pe].
        destruct (ll_depth (bc 0)) as [|D2]; [now left|right]. pose proof (Ro 0 ltac:(lia)) as R. rewrite D2 in R. change (0 / 2) with 0 in R. cbv [ends1 ends2 ends3] in R. cbn [Z.eqb Pos.eqb] in R. apply (Mx ((i0 + 1)%Z, j, k)). apply in_cells3. clear - R Ip. k_near. }
    assert (Up1 : (ext3 e i (j + 1)%Z k <= ext3 e i j k)%Qc).
    { destruct (patch_dec3 i0 j0 k0 i1 j1 k1 i (j + 1)%Z k) as [Y|N].
      - rewrite !(ext3_in e) by assumption. apply (Mx (i, (j + 1)%Z, k)). now apply in_cells3.
      - assert (j = j1) as -> by k_near. rewrite (ext3_face3 e ltac:(k_near) i k ltac:(k_near) ltac:(k_near)), (ext3_in e) by k_near.
        apply ghost_le; [apply (kl_le rob); [apply Hs; lia|apply Hdx; lia|apply Hv1; k_near]|apply ll_pos| |exact Pe].
        destruct (ll_depth (bc 3)) as [|D2]; [now left|right]. pose proof (Ro 3 ltac:(lia)) as R. rewrite D2 in R. change (3 / 2) with 1 in R. cbv [ends1 ends2 ends3] in R. cbn [Z.eqb Pos.eqb] in R. apply (Mx (i, (j1 - 1)%Z, k)). apply in_cells3. clear - R Ip. k_near. }
    assert (Dn1 : (ext3 e i (j - 1)%Z k <= ext3 e i j k)%Qc).
    { destruct (patch_dec3 i0 j0 k0 i1 j1 k1 i (j - 1)%Z k) as [Y|N].
      - rewrite !(ext3_in e) by assumption. apply (Mx (i, (j - 1)%Z, k)). now apply in_cells3.
      - assert (j = j0) as -> by k_near. rewrite (ext3_face2 e ltac:(k_near) i k ltac:(k_near) ltac:(k_near)), (ext3_in e) by k_near.
        apply ghost_le; [apply (kl_le rob); [apply Hs; lia|apply Hdx; lia|apply Hv1; k_near]|apply ll_pos| |exact Pe].
        destruct (ll_depth (bc 2)) as [|D2]; [now left|right]. pose proof (Ro 2 ltac:(lia)) as R. rewrite D2 in R. change (2 / 2) with 1 in R. cbv [ends1 ends2 ends3] in R. cbn [Z.eqb Pos.eqb] in R. apply (Mx (i, (j0 + 1)%Z, k)). apply in_cells3. clear - R Ip. k_near. }
    assert (Up2 : (ext3 e i j (k + 1)%Z <= ext3 e i j k)%Qc).
    { destruct (patch_dec3 i0 j0 k0 i1 j1 k1 i j (k + 1)%Z) as [Y|N].
      - rewrite !(ext3_in e) by assumption. apply (Mx (i, j, (k + 1)%Z)). now apply in_cells3.
      - assert (k = k1) as -> by k_near. rewrite (ext3_face5 e ltac:(k_near) i j ltac:(k_near) ltac:(k_near)), (ext3_in e) by k_near.
        apply ghost_le; [apply (kl_le rob); [apply Hs; lia|apply Hdx; lia|apply Hv2; k_near]|apply ll_pos| |exact Pe].
        destruct (ll_depth (bc 5)) as [|D2]; [now left|right]. pose proof (Ro 5 ltac:(lia)) as R. rewrite D2 in R. change (5 / 2) with 2 in R. cbv [ends1 ends2 ends3] in R. cbn [Z.eqb Pos.eqb] in R. apply (Mx (i, j, (k1 - 1)%Z)). apply in_cells3. clear - R Ip. k_near. }
    assert (Dn2 : (ext3 e i j (k - 1)%Z <= ext3 e i j k)%Qc).
    { destruct (patch_dec3 i0 j0 k0 i1 j1 k1 i j (k - 1)%Z) as [Y|N].
      - rewrite !(ext3_in e) by assumption. apply (Mx (i, j, (k - 1)%Z)). now apply in_cells3.
      - assert (k = k0) as -> by k_near. rewrite (ext3_face4 e ltac:(k_near) i j ltac:(k_near) ltac:(k_near)), (ext3_in e) by k_near.
        apply ghost_le; [apply (kl_le rob); [apply Hs; lia|apply Hdx; lia|apply Hv2; k_near]|apply ll_pos| |exact Pe].
        destruct (ll_depth (bc 4)) as [|D2]; [now left|right]. pose proof (Ro 4 ltac:(lia)) as R. rewrite D2 in R. change (4 / 2) with 2 in R. cbv [ends1 ends2 ends3] in R. cbn [Z.eqb Pos.eqb] in R. apply (Mx (i, j, (k0 + 1)%Z)). apply in_cells3. clear - R Ip. k_near. }
    specialize (Hr i j k Ip). unfold op3 in Hr. pose proof Pe as Pe'. rewrite <- (ext3_in e i j k Ip) in Pe'. 
    assert (Eq : ext3 e (i - 1)%Z j k = ext3 e i j k).
    { refine (down_term beta (dx 0) (v0 (i + 1)%Z j k) (v0 i j k) (ext3 e i j k) (ext3 e (i + 1)%Z j k) (ext3 e (i - 1)%Z j k) _ Hb (Qc_ne_0 _ (Hdx 0 ltac:(lia))) (Qclt_le_weak _ _ (Hv0 (i + 1)%Z j k ltac:(k_near) ltac:(k_near) ltac:(k_near))) (Hv0 i j k ltac:(k_near) ltac:(k_near) ltac:(k_near)) Up0 Dn0 (Qc_add _ _ (Qc_add _ _ (other_term beta (dx 1) (v1 i (j + 1)%Z k) (v1 i j k) (ext3 e i j k) (ext3 e i (j + 1)%Z k) (ext3 e i (j - 1)%Z k) (Qclt_le_weak _ _ Hb) (Hv1 i (j + 1)%Z k ltac:(k_near) ltac:(k_near) ltac:(k_near)) (Hv1 i j k ltac:(k_near) ltac:(k_near) ltac:(k_near)) Up1 Dn1) (other_term beta (dx 2) (v2 i j (k + 1)%Z) (v2 i j k) (ext3 e i j k) (ext3 e i j (k + 1)%Z) (ext3 e i j (k - 1)%Z) (Qclt_le_weak _ _ Hb) (Hv2 i j (k + 1)%Z ltac:(k_near) ltac:(k_near) ltac:(k_near)) (Hv2 i j k ltac:(k_near) ltac:(k_near) ltac:(k_near)) Up2 Dn2)) (Qc_mul _ _ (Ha i j k Ip) (Qclt_le_weak _ _ Pe'))) _).
      rewrite ?Qcplus_assoc in *. exact Hr. }
    assert (In1 : patch3 i0 j0 k0 i1 j1 k1 (i - 1)%Z j k).
    { destruct (patch_dec3 i0 j0 k0 i1 j1 k1 (i - 1)%Z j k) as [Y|N]; [exact Y|exfalso].
      revert Eq. apply Qc_lt_ne. clear Hr Pe' Up0 Dn0 Up1 Dn1 Up2 Dn2. assert (i = i0) as -> by k_near. rewrite (ext3_face0 e ltac:(k_near) j k ltac:(k_near) ltac:(k_near)), (ext3_in e) by k_near.
      apply ghost_lt; [apply (kl_strict rob); [apply Hs; lia|apply Hdx; lia|apply Qclt_le_weak, Hv0; k_near|exact Nk]|apply ll_pos| |exact Pe].
      destruct (ll_depth (bc 0)) as [|D2]; [now left|right]. pose proof (Ro 0 ltac:(lia)) as R. rewrite D2 in R. change (0 / 2) with 0 in R. cbv [ends1 ends2 ends3] in R. cbn [Z.eqb Pos.eqb] in R. apply (Mx ((i0 + 1)%Z, j, k)). apply in_cells3. clear - R Ip. k_near. }
    split; [now apply in_cells3|]. split; [rewrite !(ext3_in e) in Eq by assumption; exact Eq|k_near].
  Qed.

  Lemma react3 e : (forall i j k, patch3 i0 j0 k0 i1 j1 k1 i j k -> (op3 (ext3 e) i j k <= 0)%Qc) -> (forall i j k, patch3 i0 j0 k0 i1 j1 k1 i j k -> (0 < a i j k)%Qc) ->
    forall i j k, patch3 i0 j0 k0 i1 j1 k1 i j k -> (e i j k <= 0)%Qc.
  Proof.
    intros Hr Sa i j k Ip.
    apply (walk (cells3 i0 j0 k0 i1 j1 k1) (fun p : Z * Z * Z => e (fst (fst p)) (snd (fst p)) (snd p)) (fun p => p) (fun _ => O)) with (p := (i, j, k)); [clear i j k Ip|now apply in_cells3].
    intros [[i j] k] Ip Mx Pe. cbn [fst snd] in *. apply in_cells3 in Ip.
    assert (Up0 : (ext3 e (i + 1)%Z j k <= ext3 e i j k)%Qc).
    { destruct (patch_dec3 i0 j0 k0 i1 j1 k1 (i + 1)%Z j k) as [Y|N].
      - rewrite !(ext3_in e) by assumption. apply (Mx ((i + 1)%Z, j, k)). now apply in_cells3.
      - assert (i = i1) as -> by k_near. rewrite (ext3_face1 e ltac:(k_near) j k ltac:(k_near) ltac:(k_near)), (ext3_in e) by k_near.
        apply ghost_le; [apply (kl_le rob); [apply Hs; lia|apply Hdx; lia|apply Qclt_le_weak, Hv0; k_near]|apply ll_pos| |exact Pe].
        destruct (ll_depth (bc 1)) as [|D2]; [now left|right]. pose proof (Ro 1 ltac:(lia)) as R. rewrite D2 in R. change (1 / 2) with 0 in R. cbv [ends1 ends2 ends3] in R. cbn [Z.eqb Pos.eqb] in R. apply (Mx ((i1 - 1)%Z, j, k)). apply in_cells3. clear - R Ip. k_near. }
    assert (Dn0 : (ext3 e (i - 1)%Z j k <= ext3 e i j k)%Qc).
    { destruct (patch_dec3 i0 j0 k0 i1 j1 k1 (i - 1)%Z j k) as [Y|N].
      - rewrite !(ext3_in e) by assumption. apply (Mx ((i - 1)%Z, j, k)). now apply in_cells3.
      - assert (i = i0) as -> by k_near. rewrite (ext3_face0 e ltac:(k_near) j k ltac:(k_near) ltac:(k_near)), (ext3_in e) by k_near.
        apply ghost_le; [apply (kl_le rob); [apply Hs; lia|apply Hdx; lia|apply Qclt_le_weak, Hv0; k_near]|apply ll_pos| |exact Pe].
        destruct (ll_depth (bc 0)) as [|D2]; [now left|right]. pose proof (Ro 0 ltac:(lia)) as R. rewrite D2 in R. change (0 / 2) with 0 in R. cbv [ends1 ends2 ends3] in R. cbn [Z.eqb Pos.eqb] in R. apply (Mx ((i0 + 1)%Z, j, k)). apply in_cells3. clear - R Ip. k_near. }
    assert (Up1 : (ext3 e i (j + 1)%Z k <= ext3 e i j k)%Qc).
    { destruct (patch_dec3 i0 j0 k0 i1 j1 k1 i (j + 1)%Z k) as [Y|N].
      - rewrite !(ext3_in e) by assumption. apply (Mx (i, (j + 1)%Z, k)). now apply in_cells3.
      - assert (j = j1) as -> by k_near. rewrite (ext3_face3 e ltac:(k_near) i k ltac:(k_near) ltac:(k_near)), (ext3_in e) by k_near.
        apply ghost_le; [apply (kl_le rob); [apply Hs; lia|apply Hdx; lia|apply Hv1; k_near]|apply ll_pos| |exact Pe].
        destruct (ll_depth (bc 3)) as [|D2]; [now left|right]. pose proof (Ro 3 ltac:(lia)) as R. rewrite D2 in R. change (3 / 2) with 1 in R. cbv [ends1 ends2 ends3] in R. cbn [Z.eqb Pos.eqb] in R. apply (Mx (i, (j1 - 1)%Z, k)). apply in_cells3. clear - R Ip. k_near. }
    assert (Dn1 : (ext3 e i (j - 1)%Z k <= ext3 e i j k)%Qc).
    { destruct (patch_dec3 i0 j0 k0 i1 j1 k1 i (j - 1)%Z k) as [Y|N].
      - rewrite !(ext3_in e) by assumption. apply (Mx (i, (j - 1)%Z, k)). now apply in_cells3.
      - assert (j = j0) as -> by k_near. rewrite (ext3_face2 e ltac:(k_near) i k ltac:(k_near) ltac:(k_near)), (ext3_in e) by k_near.
        apply ghost_le; [apply (kl_le rob); [apply Hs; lia|apply Hdx; lia|apply Hv1; k_near]|apply ll_pos| |exact Pe].
        destruct (ll_depth (bc 2)) as [|D2]; [now left|right]. pose proof (Ro 2 ltac:(lia)) as R. rewrite D2 in R. change (2 / 2) with 1 in R. cbv [ends1 ends2 ends3] in R. cbn [Z.eqb Pos.eqb] in R. apply (Mx (i, (j0 + 1)%Z, k)). apply in_cells3. clear - R Ip. k_near. }
    assert (Up2 : (ext3 e i j (k + 1)%Z <= ext3 e i j k)%Qc).
    { destruct (patch_dec3 i0 j0 k0 i1 j1 k1 i j (k + 1)%Z) as [Y|N].
      - rewrite !(ext3_in e) by assumption. apply (Mx (i, j, (k + 1)%Z)). now apply in_cells3.
      - assert (k = k1) as -> by k_near. rewrite (ext3_face5 e ltac:(k_near) i j ltac:(k_near) ltac:(k_near)), (ext3_in e) by k_near.
        apply ghost_le; [apply (kl_le rob); [apply Hs; lia|apply Hdx; lia|apply Hv2; k_near]|apply ll_pos| |exact Pe].
        destruct (ll_depth (bc 5)) as [|D2]; [now left|right]. pose proof (Ro 5 ltac:(lia)) as R. rewrite D2 in R. change (5 / 2) with 2 in R. cbv [ends1 ends2 ends3] in R. cbn [Z.eqb Pos.eqb] in R. apply (Mx (i, j, (k1 - 1)%Z)). apply in_cells3. clear - R Ip. k_near. }
    assert (Dn2 : (ext3 e i j (k - 1)%Z <= ext3 e i j k)%Qc).
    { destruct (patch_dec3 i0 j0 k0 i1 j1 k1 i j (k - 1)%Z) as [Y|N].
      - rewrite !(ext3_in e) by assumption. apply (Mx (i, j, (k - 1)%Z)). now apply in_cells3.
      - assert (k = k0) as -> by k_near. rewrite (ext3_face4 e ltac:(k_near) i j ltac:(k_near) ltac:(k_near)), (ext3_in e) by k_near.
        apply ghost_le; [apply (kl_le rob); [apply Hs; lia|apply Hdx; lia|apply Hv2; k_near]|apply ll_pos| |exact Pe].
        destruct (ll_depth (bc 4)) as [|D2]; [now left|right]. pose proof (Ro 4 ltac:(lia)) as R. rewrite D2 in R. change (4 / 2) with 2 in R. cbv [ends1 ends2 ends3] in R. cbn [Z.eqb Pos.eqb] in R. apply (Mx (i, j, (k0 + 1)%Z)). apply in_cells3. clear - R Ip. k_near. }
    specialize (Hr i j k Ip). unfold op3 in Hr. pose proof Pe as Pe'. rewrite <- (ext3_in e i j k Ip) in Pe'. 
    exfalso. apply (Qclt_not_le _ _ (Qc_pos_mul _ _ (Sa i j k Ip) Pe')). refine (Qcle_trans _ _ _ _ Hr).
    pose proof (Qc_add _ _ (Qc_add _ _ (other_term beta (dx 0) (v0 (i + 1)%Z j k) (v0 i j k) (ext3 e i j k) (ext3 e (i + 1)%Z j k) (ext3 e (i - 1)%Z j k) (Qclt_le_weak _ _ Hb) (Qclt_le_weak _ _ (Hv0 (i + 1)%Z j k ltac:(k_near) ltac:(k_near) ltac:(k_near))) (Qclt_le_weak _ _ (Hv0 i j k ltac:(k_near) ltac:(k_near) ltac:(k_near))) Up0 Dn0) (other_term beta (dx 1) (v1 i (j + 1)%Z k) (v1 i j k) (ext3 e i j k) (ext3 e i (j + 1)%Z k) (ext3 e i (j - 1)%Z k) (Qclt_le_weak _ _ Hb) (Hv1 i (j + 1)%Z k ltac:(k_near) ltac:(k_near) ltac:(k_near)) (Hv1 i j k ltac:(k_near) ltac:(k_near) ltac:(k_near)) Up1 Dn1)) (other_term beta (dx 2) (v2 i j (k + 1)%Z) (v2 i j k) (ext3 e i j k) (ext3 e i j (k + 1)%Z) (ext3 e i j (k - 1)%Z) (Qclt_le_weak _ _ Hb) (Hv2 i j (k + 1)%Z ltac:(k_near) ltac:(k_near) ltac:(k_near)) (Hv2 i j k ltac:(k_near) ltac:(k_near) ltac:(k_near)) Up2 Dn2)) as F. apply Qc_nonneg_sub. match type of F with (0 <= ?t)%Qc => match goal with |- (0 <= ?g)%Qc => replace g with t by ring end end. exact F.
  Qed.

  Context (Hh : b_kind (bc 0) <> 1 \/ b_kind (bc 1) <> 1 \/ (forall i j k, patch3 i0 j0 k0 i1 j1 k1 i j k -> (0 < a i j k)%Qc)).

  Lemma neg3 e : (forall i j k, patch3 i0 j0 k0 i1 j1 k1 i j k -> (op3 (ext3 e) i j k <= 0)%Qc) -> forall i j k, patch3 i0 j0 k0 i1 j1 k1 i j k -> (e i j k <= 0)%Qc.
  Proof.
    intros Hr. destruct Hh as [H|[H|H]]; [exact (down3 e Hr H)|exact (up3 e Hr H)|exact (react3 e Hr H)].
  Qed.

  Lemma bvp3_lin x y w z i j k : patch3 i0 j0 k0 i1 j1 k1 i j k ->
    op3 (ext3 (fun i j k => x * w i j k + y * z i j k)%Qc) i j k = (x * op3 (ext3 w) i j k + y * op3 (ext3 z) i j k)%Qc.
  Proof. intros Ip. rewrite <- op3_lin. apply op3_near; [exact Ip|]. intros. apply ext3_lin. Qed.

  Lemma bvp3_compare (w z r s : Z -> Z -> Z -> Qc) :
    (forall i j k, patch3 i0 j0 k0 i1 j1 k1 i j k -> r i j k = op3 (ext3 w) i j k) -> (forall i j k, patch3 i0 j0 k0 i1 j1 k1 i j k -> s i j k = op3 (ext3 z) i j k) ->
    (forall i j k, patch3 i0 j0 k0 i1 j1 k1 i j k -> (r i j k <= s i j k)%Qc) -> forall i j k, patch3 i0 j0 k0 i1 j1 k1 i j k -> (w i j k <= z i j k)%Qc.
  Proof.
    intros Ew Ez Le i j k Ip. apply Qc_nonneg_sub.
    replace (z i j k - w i j k)%Qc with (- (1 * w i j k + (- (1)) * z i j k))%Qc by ring. apply (Qcopp_le_compat _ 0).
    revert i j k Ip. apply (neg3 (fun i j k => 1 * w i j k + (- (1)) * z i j k)%Qc).
    intros i j k Ip. rewrite bvp3_lin by exact Ip. rewrite <- Ew, <- Ez by exact Ip.
    pose proof (Qc_sub_nonneg _ _ (Le i j k Ip)) as G. apply Qcopp_le_compat in G.
    replace (- 0)%Qc with 0%Qc in G by ring. replace (1 * r i j k + (- (1)) * s i j k)%Qc with (- (s i j k - r i j k))%Qc by ring. exact G.
  Qed.

  Lemma bvp3_exists (r : Z -> Z -> Z -> Qc) : exists w : Z -> Z -> Z -> Qc, forall i j k, patch3 i0 j0 k0 i1 j1 k1 i j k -> op3 (ext3 w) i j k = r i j k.
  Proof.
    destruct (@solvable (Z * Z * Z) dec3 (fun w => (fun p : Z * Z * Z => (op3 (ext3 (fun i j k => w (i, j, k)))) (fst (fst p)) (snd (fst p)) (snd p))) (cells3 i0 j0 k0 i1 j1 k1) (nodup_cells3 i0 j0 k0 i1 j1 k1)) with (g := fun _ : Z * Z * Z => 0%Qc) (r := (fun p : Z * Z * Z => r (fst (fst p)) (snd (fst p)) (snd p))) as (w & Hw & Tw).
    - intros x y w z [[i j] k] Ip. cbn [fst snd]. apply in_cells3 in Ip. apply (bvp3_lin x y (fun i j k => w (i, j, k)) (fun i j k => z (i, j, k)) i j k Ip).
    - intros w Out Z. assert (Z' : forall i j k, patch3 i0 j0 k0 i1 j1 k1 i j k -> 0%Qc = op3 (ext3 (fun i j k => w (i, j, k))) i j k).
      { intros i j k Ip. symmetry. exact (Z (i, j, k) (proj2 (in_cells3 i0 j0 k0 i1 j1 k1 i j k) Ip)). }
      assert (Z0 : forall i j k, patch3 i0 j0 k0 i1 j1 k1 i j k -> 0%Qc = op3 (ext3 (fun _ _ _ => 0%Qc)) i j k).
      { intros i j k Ip. transitivity (0 * op3 (ext3 (fun i j k => w (i, j, k))) i j k + 0 * op3 (ext3 (fun i j k => w (i, j, k))) i j k)%Qc; [ring|].
        rewrite <- bvp3_lin by exact Ip. apply op3_near; [exact Ip|]. intros. apply ext3_ext. intros. ring. }
      intros [[i j] k] Ip. apply in_cells3 in Ip. apply Qcle_antisym.
      + apply (bvp3_compare _ _ _ _ Z' Z0 (fun _ _ _ _ => Qcle_refl 0%Qc) i j k Ip).
      + apply (bvp3_compare _ _ _ _ Z0 Z' (fun _ _ _ _ => Qcle_refl 0%Qc) i j k Ip).
    - intros w z [[i j] k] Ip E. cbn [fst snd]. apply in_cells3 in Ip. apply op3_near; [exact Ip|]. intros. apply ext3_ext. intros. apply E.
    - exists (fun i j k => w (i, j, k)). intros i j k Ip. apply (Tw (i, j, k)). now apply in_cells3.
  Qed.
End Dim3.
