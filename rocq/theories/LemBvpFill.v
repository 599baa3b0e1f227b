(** * The values in the ghost cells after filling them *)

From Coq Require Import Field QArith Qcanon.
From Verif Require Import Base ModelBounds ModelMatrix ModelIters ModelSpan Spec LemBase FortranBase SpecKernel LemKernel LemKernel2
  SpecBoundary SpecBCOrder SpecBCCalls KernelsBC LemBCOrder LemBCOrderK LemBCCalls LemBoundary LemBoundary3 SpecSolve LemSolve LemEnergy Instances SpecBvp LemBvp.
Import ListNotations.
Open Scope Z_scope.

Lemma low_mod f : low f = (f mod 2 =? 0).
Proof. unfold low. rewrite Zmod_even. destruct (Z.even f); reflexivity. Qed.

Lemma depth_le kd o : 1 <= depth kd o <= 2.
Proof. unfold depth. destruct (_ && _)%bool; lia. Qed.

Section Geo.
  Context (n : nat) (lo hi : Z -> Z) (bc : Z -> bcond QcS) (Ro : roomy n lo hi bc).
  Notation N := (Z.of_nat n).

  Lemma inward_inside f q k : 0 <= f < 2 * N -> facing n lo hi f q -> 1 <= k <= depth (b_kind (bc f)) (b_order (bc f)) -> inside n lo hi (inward f k q).
  Proof.
    intros Hf Hq Hk d Hd. pose proof (Ro f Hf) as R. specialize (Hq d Hd). unfold inward. rewrite low_mod. unfold dir.
    destruct (Z.eqb_spec d (f / 2)) as [E|]; [|exact Hq]. rewrite <- E in R. destruct (f mod 2 =? 0); lia.
  Qed.
  Lemma facing_ghost f q : 0 <= f < 2 * N -> facing n lo hi f q -> ghost_cell N f lo hi (c_lo (face_call lo hi bc f)) (c_hi (face_call lo hi bc f)) q.
  Proof.
    intros Hf Hq d Hd. specialize (Hq d Hd). cbn [c_lo c_hi face_call]. rewrite low_mod. unfold dir.
    destruct (Z.eqb_spec d (f / 2)) as [E|]; [destruct (f mod 2 =? 0); exact Hq|lia].
  Qed.
  Lemma facing_array f q g : 0 <= f < 2 * N -> 1 <= g -> facing n lo hi f q -> in_array N g lo hi q.
  Proof.
    intros Hf Hg Hq d Hd. pose proof (roomy_le _ _ _ _ Ro d Hd). specialize (Hq d Hd).
    destruct (Z.eqb_spec d (f / 2)) as [E|]; [destruct (f mod 2 =? 0); lia|lia].
  Qed.
  Lemma inside_array q g : 0 <= g -> inside n lo hi q -> in_array N g lo hi q.
  Proof. intros Hg Hq d Hd. specialize (Hq d Hd). lia. Qed.
End Geo.

(** The point with given coordinates. *)
Definition ptq (q : Z -> Z) : point := fun d => if Nat.eqb d dI then q 0 else if Nat.eqb d dJ then q 1 else q 2.

Ltac b_axis e := first [assert (e = 0) as -> by lia|assert (e = 0 \/ e = 1) as [->| ->] by lia|assert (e = 0 \/ e = 1 \/ e = 2) as [->|[->| ->]] by lia];
  cbn; try tauto.
Ltac g_bounds := unfold in_bounds; cbn [sp_b make_md_span_g map]; repeat (apply Forall_cons || apply Forall_nil); unfold b_lb, b_ub, ptq; cbn; lia.
Lemma bounds_1 lo hi g u q : in_array 1 g lo hi q -> in_bounds (sp_b (make_md_span_g u g [Ib (lo 0) (hi 0)])) (ptq q).
Proof. intros A. pose proof (A 0 ltac:(lia)). g_bounds. Qed.
Lemma bounds_2 lo hi g u q : in_array 2 g lo hi q -> in_bounds (sp_b (make_md_span_g u g [Jb (lo 1) (hi 1); Ib (lo 0) (hi 0)])) (ptq q).
Proof. intros A. pose proof (A 0 ltac:(lia)). pose proof (A 1 ltac:(lia)). g_bounds. Qed.
Lemma bounds_3 lo hi g u q : in_array 3 g lo hi q -> in_bounds (sp_b (make_md_span_g u g [Kb (lo 2) (hi 2); Jb (lo 1) (hi 1); Ib (lo 0) (hi 0)])) (ptq q).
Proof. intros A. pose proof (A 0 ltac:(lia)). pose proof (A 1 ltac:(lia)). pose proof (A 2 ltac:(lia)). g_bounds. Qed.

Lemma kk_kind (b b' : bcond QcS) h v v' : b_kind b = b_kind b' -> b_order b = b_order b' -> b_kind b' = 0 \/ b_kind b' = 1 -> kk b h v = kk b' h v'.
Proof. intros E O [K|K]; unfold kk; rewrite E, O, K; reflexivity. Qed.
Lemma sound_plain (b : bcond QcS) x y : sound false b -> sound false (mkBc (b_kind b) (b_order b) x y).
Proof. intros [H|[H|[H _]]]; [left; exact H|right; left; exact H|discriminate]. Qed.

Lemma kept_set_bc_1d lo hi (dx : Z -> QcS) d0 gcw u bc (m m' : mem QcS) :
  1 <= gcw ->  apart u [d0] -> roomy 1 lo hi bc ->
  forM (face_calls 1 lo hi bc) (call_set_bc_1d lo hi dx 0 d0 gcw u) m = Some m' ->
  shape m' = shape m /\ ints m' = ints m /\
  (forall q, inside 1 lo hi q -> fel (mkFa u (CELL1d (lo 0) (hi 0) gcw)) (map q [0]) m' = fel (mkFa u (CELL1d (lo 0) (hi 0) gcw)) (map q [0]) m) /\
  (forall p, fst p <> fst u -> load m' p = load m p).
Proof.
  intros Hg Ap Ro E.
  destruct (fill_kept 1 lo hi ltac:(lia) (make_md_span_g u gcw [Ib (lo 0) (hi 0)]) ltac:(b_order) (call_set_bc_1d lo hi dx 0 d0 gcw u) (set_bc_1d_confined lo hi (S := QcS) dx 0 d0 gcw u (roomy_le 1 lo hi bc Ro) Hg Ap) bc Ro m m' E) as (Sm & Im & Km & Om).
  split; [exact Sm|]. split; [exact Im|]. split; [|exact Om].
  intros q Hq. unfold fel. change (map q [0]) with [ptq q dI]. rewrite <- fa_cell1.
  apply Km; [|intros e He; specialize (Hq e He); unfold zc, ptq, axis; revert Hq; b_axis e].
  apply bounds_1, (inside_array 1 lo hi q gcw); [lia|exact Hq].
Qed.

Lemma value_set_bc_1d lo hi (dx : Z -> QcS) d0 gcw u bc (m m' : mem QcS) (W : (Z -> Z) -> Qc) :
  1 <= gcw ->
  apart u [d0] ->
  roomy 1 lo hi bc -> (forall f, 0 <= f < 2 -> sound true (bc f)) -> (forall d, 0 <= d < 1 -> (0 < dx d)%Qc) ->
  (forall q, inside 1 lo hi q -> fel (mkFa u (CELL1d (lo 0) (hi 0) gcw)) (map q [0]) m = Some (W q : QcS)) ->
  forM (face_calls 1 lo hi bc) (call_set_bc_1d lo hi dx 0 d0 gcw u) m = Some m' ->
  forall f q (v : Qc), 0 <= f < 2 -> facing 1 lo hi f q -> coef1 (mkFa d0 (FACE1d (lo 0) (hi 0) 0)) f q m = Some (v : QcS) -> (0 <= v)%Qc ->
  fel (mkFa u (CELL1d (lo 0) (hi 0) gcw)) (map q [0]) m' = Some ((kk (bc f) (dx (f / 2)%Z) v * W (inward f 1 q) + ll (bc f) * W (inward f 2 q))%Qc : QcS).
Proof.
  intros Hg Ap Ro Hs Hdx HW E f q v Hf Hq Hc Hv.
  destruct (fill_face 1 lo hi ltac:(lia) (make_md_span_g u gcw [Ib (lo 0) (hi 0)]) ltac:(b_order) (call_set_bc_1d lo hi dx 0 d0 gcw u) (set_bc_1d_confined lo hi (S := QcS) dx 0 d0 gcw u (roomy_le 1 lo hi bc Ro) Hg Ap) bc Ro f m m' Hf E) as (ma & mb & E1 & Ka & Oa & Kb).
  assert (Pa : forall q, inside 1 lo hi q -> fel (mkFa u (CELL1d (lo 0) (hi 0) gcw)) (map q [0]) ma = fel (mkFa u (CELL1d (lo 0) (hi 0) gcw)) (map q [0]) m).
  { intros p Hp. unfold fel. change (map p [0]) with [ptq p dI]. rewrite <- fa_cell1.
    apply Ka; [|intros e He; specialize (Hp e He); unfold zc, ptq, axis; revert Hp; b_axis e].
    apply bounds_1, (inside_array 1 lo hi p gcw); [lia|exact Hp]. }
  assert (Pb : fel (mkFa u (CELL1d (lo 0) (hi 0) gcw)) (map q [0]) m' = fel (mkFa u (CELL1d (lo 0) (hi 0) gcw)) (map q [0]) mb).
  { unfold fel. change (map q [0]) with [ptq q dI]. rewrite <- fa_cell1.
    apply Kb; [|intros e He; specialize (Hq e He); unfold zc, ptq, axis; revert Hq; b_axis e].
    apply bounds_1. exact (facing_array 1 lo hi bc Ro f q gcw Hf Hg Hq). }
  rewrite Pb. clear Pb Kb.
  assert (Hh : (0 < dx (f / 2)%Z)%Qc) by (apply Hdx; split; [apply Z.div_pos; lia|apply Z.div_lt_upper_bound; lia]).
  destruct (ghost_poly true (bc f) (dx (f / 2)%Z) v (W (inward f 1 q)) (W (inward f 2 q)) (Hs f Hf) Hh Hv) as (cs & Bc & Or & Rs & P1 & P2 & Pg).
  assert (Us : forall k, 1 <= k <= depth (b_kind (bc f)) (b_order (bc f)) -> fel (mkFa u (CELL1d (lo 0) (hi 0) gcw)) (map (inward f k q) [0]) ma = Some (peval cs (centre_x k (dx (f / 2)%Z)))).
  { intros k Hk. pose proof (inward_inside 1 lo hi bc Ro f q k Hf Hq Hk) as I. rewrite (Pa _ I), (HW _ I). f_equal. symmetry.
    pose proof (depth_le (b_kind (bc f)) (b_order (bc f))). assert (k = 1 \/ k = 2) as [->| ->] by lia; [exact P1|apply P2; cbn [b_kind b_order]; lia]. }
  apply (f_equal Some) in Pg. etransitivity; [|exact Pg].
  refine (cd_1d_set_bc_exact QcS_laws lo hi dx 0 d0 gcw u _ _ _ f _ _ _ ma mb q cs v Hf _ Ap (facing_ghost 1 lo hi bc f q Hf Hq) (facing_array 1 lo hi bc Ro f q gcw Hf Hg Hq) _ Bc Or Rs _ _ Us E1); [lia|apply (inside_array 1 lo hi _ gcw); [lia|]; apply (inward_inside 1 lo hi bc Ro f q); [exact Hf|exact Hq|cbn [b_kind b_order c_btype c_order face_call]; pose proof (depth_le (b_kind (bc f)) (b_order (bc f))); lia]|intros _; rewrite <- Hc; unfold coef1, fel; apply Oa; cbn; apply (proj1 (Forall_forall _ _) Ap); cbn; tauto|cbn; intros K4 O2; exfalso; destruct (Hs f Hf) as [[? _]|[?|(_ & _ & ? & _)]]; lia].
Qed.

Lemma kept_set_poisson_bc_1d lo hi (dx : Z -> QcS) gcw u bc (m m' : mem QcS) :
  1 <= gcw -> roomy 1 lo hi bc ->
  forM (face_calls 1 lo hi bc) (call_set_poisson_bc_1d lo hi dx gcw u) m = Some m' ->
  shape m' = shape m /\ ints m' = ints m /\
  (forall q, inside 1 lo hi q -> fel (mkFa u (CELL1d (lo 0) (hi 0) gcw)) (map q [0]) m' = fel (mkFa u (CELL1d (lo 0) (hi 0) gcw)) (map q [0]) m) /\
  (forall p, fst p <> fst u -> load m' p = load m p).
Proof.
  intros Hg Ro E.
  destruct (fill_kept 1 lo hi ltac:(lia) (make_md_span_g u gcw [Ib (lo 0) (hi 0)]) ltac:(b_order) (call_set_poisson_bc_1d lo hi dx gcw u) (set_poisson_bc_1d_confined lo hi (S := QcS) dx gcw u (roomy_le 1 lo hi bc Ro) Hg) bc Ro m m' E) as (Sm & Im & Km & Om).
  split; [exact Sm|]. split; [exact Im|]. split; [|exact Om].
  intros q Hq. unfold fel. change (map q [0]) with [ptq q dI]. rewrite <- fa_cell1.
  apply Km; [|intros e He; specialize (Hq e He); unfold zc, ptq, axis; revert Hq; b_axis e].
  apply bounds_1, (inside_array 1 lo hi q gcw); [lia|exact Hq].
Qed.

Lemma value_set_poisson_bc_1d lo hi (dx : Z -> QcS) gcw u bc (m m' : mem QcS) (W : (Z -> Z) -> Qc) :
  1 <= gcw ->
  roomy 1 lo hi bc -> (forall f, 0 <= f < 2 -> sound false (bc f)) -> (forall d, 0 <= d < 1 -> (0 < dx d)%Qc) ->
  (forall q, inside 1 lo hi q -> fel (mkFa u (CELL1d (lo 0) (hi 0) gcw)) (map q [0]) m = Some (W q : QcS)) ->
  forM (face_calls 1 lo hi bc) (call_set_poisson_bc_1d lo hi dx gcw u) m = Some m' ->
  forall f q (v : Qc), 0 <= f < 2 -> facing 1 lo hi f q -> (0 <= v)%Qc ->
  fel (mkFa u (CELL1d (lo 0) (hi 0) gcw)) (map q [0]) m' = Some ((kk (bc f) (dx (f / 2)%Z) v * W (inward f 1 q) + ll (bc f) * W (inward f 2 q))%Qc : QcS).
Proof.
  intros Hg Ro Hs Hdx HW E f q v Hf Hq Hv.
  destruct (fill_face 1 lo hi ltac:(lia) (make_md_span_g u gcw [Ib (lo 0) (hi 0)]) ltac:(b_order) (call_set_poisson_bc_1d lo hi dx gcw u) (set_poisson_bc_1d_confined lo hi (S := QcS) dx gcw u (roomy_le 1 lo hi bc Ro) Hg) bc Ro f m m' Hf E) as (ma & mb & E1 & Ka & Oa & Kb).
  assert (Pa : forall q, inside 1 lo hi q -> fel (mkFa u (CELL1d (lo 0) (hi 0) gcw)) (map q [0]) ma = fel (mkFa u (CELL1d (lo 0) (hi 0) gcw)) (map q [0]) m).
  { intros p Hp. unfold fel. change (map p [0]) with [ptq p dI]. rewrite <- fa_cell1.
    apply Ka; [|intros e He; specialize (Hp e He); unfold zc, ptq, axis; revert Hp; b_axis e].
    apply bounds_1, (inside_array 1 lo hi p gcw); [lia|exact Hp]. }
  assert (Pb : fel (mkFa u (CELL1d (lo 0) (hi 0) gcw)) (map q [0]) m' = fel (mkFa u (CELL1d (lo 0) (hi 0) gcw)) (map q [0]) mb).
  { unfold fel. change (map q [0]) with [ptq q dI]. rewrite <- fa_cell1.
    apply Kb; [|intros e He; specialize (Hq e He); unfold zc, ptq, axis; revert Hq; b_axis e].
    apply bounds_1. exact (facing_array 1 lo hi bc Ro f q gcw Hf Hg Hq). }
  rewrite Pb. clear Pb Kb.
  assert (Hh : (0 < dx (f / 2)%Z)%Qc) by (apply Hdx; split; [apply Z.div_pos; lia|apply Z.div_lt_upper_bound; lia]).
  destruct (ghost_poly false (mkBc (S := QcS) (b_kind (bc f)) (b_order (bc f)) (lit 2) (lit 1)) (dx (f / 2)%Z) 1%Qc (W (inward f 1 q)) (W (inward f 2 q)) (sound_plain _ _ _ (Hs f Hf)) Hh ltac:(discriminate)) as (cs & Bc & Or & Rs & P1 & P2 & Pg).
  assert (Kd : b_kind (bc f) = 0 \/ b_kind (bc f) = 1) by (destruct (Hs f Hf) as [[? _]|[?|[? _]]]; [auto|auto|discriminate]).
  rewrite (kk_kind (mkBc (S := QcS) (b_kind (bc f)) (b_order (bc f)) (lit 2) (lit 1)) (bc f) _ 1%Qc v eq_refl eq_refl Kd) in Pg.
  assert (Us : forall k, 1 <= k <= depth (b_kind (bc f)) (b_order (bc f)) -> fel (mkFa u (CELL1d (lo 0) (hi 0) gcw)) (map (inward f k q) [0]) ma = Some (peval cs (centre_x k (dx (f / 2)%Z)))).
  { intros k Hk. pose proof (inward_inside 1 lo hi bc Ro f q k Hf Hq Hk) as I. rewrite (Pa _ I), (HW _ I). f_equal. symmetry.
    pose proof (depth_le (b_kind (bc f)) (b_order (bc f))). assert (k = 1 \/ k = 2) as [->| ->] by lia; [exact P1|apply P2; cbn [b_kind b_order]; lia]. }
  apply (f_equal Some) in Pg. etransitivity; [|exact Pg].
  refine (cd_1d_set_poisson_bc_exact QcS_laws lo hi dx gcw u _ _ _ f _ _ _ ma mb q cs  Hf _  (facing_ghost 1 lo hi bc f q Hf Hq) (facing_array 1 lo hi bc Ro f q gcw Hf Hg Hq) _ Bc Or Rs  Us E1); [lia|apply (inside_array 1 lo hi _ gcw); [lia|]; apply (inward_inside 1 lo hi bc Ro f q); [exact Hf|exact Hq|cbn [b_kind b_order c_btype c_order face_call]; pose proof (depth_le (b_kind (bc f)) (b_order (bc f))); lia]].
Qed.

Lemma kept_set_bc_2d lo hi (dx : Z -> QcS) d0 d1 gcw u bc (m m' : mem QcS) :
  1 <= gcw ->  apart u [d0; d1] -> roomy 2 lo hi bc ->
  forM (face_calls 2 lo hi bc) (call_set_bc_2d lo hi dx 0 d0 d1 gcw u) m = Some m' ->
  shape m' = shape m /\ ints m' = ints m /\
  (forall q, inside 2 lo hi q -> fel (mkFa u (CELL2d (lo 0) (lo 1) (hi 0) (hi 1) gcw)) (map q [0; 1]) m' = fel (mkFa u (CELL2d (lo 0) (lo 1) (hi 0) (hi 1) gcw)) (map q [0; 1]) m) /\
  (forall p, fst p <> fst u -> load m' p = load m p).
Proof.
  intros Hg Ap Ro E.
  destruct (fill_kept 2 lo hi ltac:(lia) (make_md_span_g u gcw [Jb (lo 1) (hi 1); Ib (lo 0) (hi 0)]) ltac:(b_order) (call_set_bc_2d lo hi dx 0 d0 d1 gcw u) (set_bc_2d_confined lo hi (S := QcS) dx 0 d0 d1 gcw u (roomy_le 2 lo hi bc Ro) Hg Ap) bc Ro m m' E) as (Sm & Im & Km & Om).
  split; [exact Sm|]. split; [exact Im|]. split; [|exact Om].
  intros q Hq. unfold fel. change (map q [0; 1]) with [ptq q dI; ptq q dJ]. rewrite <- fa_cell2.
  apply Km; [|intros e He; specialize (Hq e He); unfold zc, ptq, axis; revert Hq; b_axis e].
  apply bounds_2, (inside_array 2 lo hi q gcw); [lia|exact Hq].
Qed.

Lemma value_set_bc_2d lo hi (dx : Z -> QcS) d0 d1 gcw u bc (m m' : mem QcS) (W : (Z -> Z) -> Qc) :
  1 <= gcw ->
  apart u [d0; d1] ->
  roomy 2 lo hi bc -> (forall f, 0 <= f < 4 -> sound true (bc f)) -> (forall d, 0 <= d < 2 -> (0 < dx d)%Qc) ->
  (forall q, inside 2 lo hi q -> fel (mkFa u (CELL2d (lo 0) (lo 1) (hi 0) (hi 1) gcw)) (map q [0; 1]) m = Some (W q : QcS)) ->
  forM (face_calls 2 lo hi bc) (call_set_bc_2d lo hi dx 0 d0 d1 gcw u) m = Some m' ->
  forall f q (v : Qc), 0 <= f < 4 -> facing 2 lo hi f q -> coef2 (mkFa d0 (FACE2d0 (lo 0) (lo 1) (hi 0) (hi 1) 0)) (mkFa d1 (FACE2d1 (lo 0) (lo 1) (hi 0) (hi 1) 0)) f q m = Some (v : QcS) -> (0 <= v)%Qc ->
  fel (mkFa u (CELL2d (lo 0) (lo 1) (hi 0) (hi 1) gcw)) (map q [0; 1]) m' = Some ((kk (bc f) (dx (f / 2)%Z) v * W (inward f 1 q) + ll (bc f) * W (inward f 2 q))%Qc : QcS).
Proof.
  intros Hg Ap Ro Hs Hdx HW E f q v Hf Hq Hc Hv.
  destruct (fill_face 2 lo hi ltac:(lia) (make_md_span_g u gcw [Jb (lo 1) (hi 1); Ib (lo 0) (hi 0)]) ltac:(b_order) (call_set_bc_2d lo hi dx 0 d0 d1 gcw u) (set_bc_2d_confined lo hi (S := QcS) dx 0 d0 d1 gcw u (roomy_le 2 lo hi bc Ro) Hg Ap) bc Ro f m m' Hf E) as (ma & mb & E1 & Ka & Oa & Kb).
  assert (Pa : forall q, inside 2 lo hi q -> fel (mkFa u (CELL2d (lo 0) (lo 1) (hi 0) (hi 1) gcw)) (map q [0; 1]) ma = fel (mkFa u (CELL2d (lo 0) (lo 1) (hi 0) (hi 1) gcw)) (map q [0; 1]) m).
  { intros p Hp. unfold fel. change (map p [0; 1]) with [ptq p dI; ptq p dJ]. rewrite <- fa_cell2.
    apply Ka; [|intros e He; specialize (Hp e He); unfold zc, ptq, axis; revert Hp; b_axis e].
    apply bounds_2, (inside_array 2 lo hi p gcw); [lia|exact Hp]. }
  assert (Pb : fel (mkFa u (CELL2d (lo 0) (lo 1) (hi 0) (hi 1) gcw)) (map q [0; 1]) m' = fel (mkFa u (CELL2d (lo 0) (lo 1) (hi 0) (hi 1) gcw)) (map q [0; 1]) mb).
  { unfold fel. change (map q [0; 1]) with [ptq q dI; ptq q dJ]. rewrite <- fa_cell2.
    apply Kb; [|intros e He; specialize (Hq e He); unfold zc, ptq, axis; revert Hq; b_axis e].
    apply bounds_2. exact (facing_array 2 lo hi bc Ro f q gcw Hf Hg Hq). }
  rewrite Pb. clear Pb Kb.
  assert (Hh : (0 < dx (f / 2)%Z)%Qc) by (apply Hdx; split; [apply Z.div_pos; lia|apply Z.div_lt_upper_bound; lia]).
  destruct (ghost_poly true (bc f) (dx (f / 2)%Z) v (W (inward f 1 q)) (W (inward f 2 q)) (Hs f Hf) Hh Hv) as (cs & Bc & Or & Rs & P1 & P2 & Pg).
  assert (Us : forall k, 1 <= k <= depth (b_kind (bc f)) (b_order (bc f)) -> fel (mkFa u (CELL2d (lo 0) (lo 1) (hi 0) (hi 1) gcw)) (map (inward f k q) [0; 1]) ma = Some (peval cs (centre_x k (dx (f / 2)%Z)))).
  { intros k Hk. pose proof (inward_inside 2 lo hi bc Ro f q k Hf Hq Hk) as I. rewrite (Pa _ I), (HW _ I). f_equal. symmetry.
    pose proof (depth_le (b_kind (bc f)) (b_order (bc f))). assert (k = 1 \/ k = 2) as [->| ->] by lia; [exact P1|apply P2; cbn [b_kind b_order]; lia]. }
  apply (f_equal Some) in Pg. etransitivity; [|exact Pg].
  refine (cd_2d_set_bc_exact QcS_laws lo hi dx 0 d0 d1 gcw u _ _ _ f _ _ _ ma mb q cs v Hf _ Ap (facing_ghost 2 lo hi bc f q Hf Hq) (facing_array 2 lo hi bc Ro f q gcw Hf Hg Hq) _ Bc Or Rs _ _ Us E1); [lia|apply (inside_array 2 lo hi _ gcw); [lia|]; apply (inward_inside 2 lo hi bc Ro f q); [exact Hf|exact Hq|cbn [b_kind b_order c_btype c_order face_call]; pose proof (depth_le (b_kind (bc f)) (b_order (bc f))); lia]|intros _; rewrite <- Hc; unfold coef2, fel; destruct (dir f =? 0); apply Oa; cbn; apply (proj1 (Forall_forall _ _) Ap); cbn; tauto|cbn; intros K4 O2; exfalso; destruct (Hs f Hf) as [[? _]|[?|(_ & _ & ? & _)]]; lia].
Qed.

Lemma kept_set_poisson_bc_2d lo hi (dx : Z -> QcS) gcw u bc (m m' : mem QcS) :
  1 <= gcw -> roomy 2 lo hi bc ->
  forM (face_calls 2 lo hi bc) (call_set_poisson_bc_2d lo hi dx gcw u) m = Some m' ->
  shape m' = shape m /\ ints m' = ints m /\
  (forall q, inside 2 lo hi q -> fel (mkFa u (CELL2d (lo 0) (lo 1) (hi 0) (hi 1) gcw)) (map q [0; 1]) m' = fel (mkFa u (CELL2d (lo 0) (lo 1) (hi 0) (hi 1) gcw)) (map q [0; 1]) m) /\
  (forall p, fst p <> fst u -> load m' p = load m p).
Proof.
  intros Hg Ro E.
  destruct (fill_kept 2 lo hi ltac:(lia) (make_md_span_g u gcw [Jb (lo 1) (hi 1); Ib (lo 0) (hi 0)]) ltac:(b_order) (call_set_poisson_bc_2d lo hi dx gcw u) (set_poisson_bc_2d_confined lo hi (S := QcS) dx gcw u (roomy_le 2 lo hi bc Ro) Hg) bc Ro m m' E) as (Sm & Im & Km & Om).
  split; [exact Sm|]. split; [exact Im|]. split; [|exact Om].
  intros q Hq. unfold fel. change (map q [0; 1]) with [ptq q dI; ptq q dJ]. rewrite <- fa_cell2.
  apply Km; [|intros e He; specialize (Hq e He); unfold zc, ptq, axis; revert Hq; b_axis e].
  apply bounds_2, (inside_array 2 lo hi q gcw); [lia|exact Hq].
Qed.

Lemma value_set_poisson_bc_2d lo hi (dx : Z -> QcS) gcw u bc (m m' : mem QcS) (W : (Z -> Z) -> Qc) :
  1 <= gcw ->
  roomy 2 lo hi bc -> (forall f, 0 <= f < 4 -> sound false (bc f)) -> (forall d, 0 <= d < 2 -> (0 < dx d)%Qc) ->
  (forall q, inside 2 lo hi q -> fel (mkFa u (CELL2d (lo 0) (lo 1) (hi 0) (hi 1) gcw)) (map q [0; 1]) m = Some (W q : QcS)) ->
  forM (face_calls 2 lo hi bc) (call_set_poisson_bc_2d lo hi dx gcw u) m = Some m' ->
  forall f q (v : Qc), 0 <= f < 4 -> facing 2 lo hi f q -> (0 <= v)%Qc ->
  fel (mkFa u (CELL2d (lo 0) (lo 1) (hi 0) (hi 1) gcw)) (map q [0; 1]) m' = Some ((kk (bc f) (dx (f / 2)%Z) v * W (inward f 1 q) + ll (bc f) * W (inward f 2 q))%Qc : QcS).
Proof.
  intros Hg Ro Hs Hdx HW E f q v Hf Hq Hv.
  destruct (fill_face 2 lo hi ltac:(lia) (make_md_span_g u gcw [Jb (lo 1) (hi 1); Ib (lo 0) (hi 0)]) ltac:(b_order) (call_set_poisson_bc_2d lo hi dx gcw u) (set_poisson_bc_2d_confined lo hi (S := QcS) dx gcw u (roomy_le 2 lo hi bc Ro) Hg) bc Ro f m m' Hf E) as (ma & mb & E1 & Ka & Oa & Kb).
  assert (Pa : forall q, inside 2 lo hi q -> fel (mkFa u (CELL2d (lo 0) (lo 1) (hi 0) (hi 1) gcw)) (map q [0; 1]) ma = fel (mkFa u (CELL2d (lo 0) (lo 1) (hi 0) (hi 1) gcw)) (map q [0; 1]) m).
  { intros p Hp. unfold fel. change (map p [0; 1]) with [ptq p dI; ptq p dJ]. rewrite <- fa_cell2.
    apply Ka; [|intros e He; specialize (Hp e He); unfold zc, ptq, axis; revert Hp; b_axis e].
    apply bounds_2, (inside_array 2 lo hi p gcw); [lia|exact Hp]. }
  assert (Pb : fel (mkFa u (CELL2d (lo 0) (lo 1) (hi 0) (hi 1) gcw)) (map q [0; 1]) m' = fel (mkFa u (CELL2d (lo 0) (lo 1) (hi 0) (hi 1) gcw)) (map q [0; 1]) mb).
  { unfold fel. change (map q [0; 1]) with [ptq q dI; ptq q dJ]. rewrite <- fa_cell2.
    apply Kb; [|intros e He; specialize (Hq e He); unfold zc, ptq, axis; revert Hq; b_axis e].
    apply bounds_2. exact (facing_array 2 lo hi bc Ro f q gcw Hf Hg Hq). }
  rewrite Pb. clear Pb Kb.
  assert (Hh : (0 < dx (f / 2)%Z)%Qc) by (apply Hdx; split; [apply Z.div_pos; lia|apply Z.div_lt_upper_bound; lia]).
  destruct (ghost_poly false (bc f) (dx (f / 2)%Z) 1%Qc (W (inward f 1 q)) (W (inward f 2 q)) (Hs f Hf) Hh ltac:(discriminate)) as (cs & Bc & Or & Rs & P1 & P2 & Pg).
  assert (Kd : b_kind (bc f) = 0 \/ b_kind (bc f) = 1) by (destruct (Hs f Hf) as [[? _]|[?|[? _]]]; [auto|auto|discriminate]).
  rewrite (kk_kind (bc f) (bc f) _ 1%Qc v eq_refl eq_refl Kd) in Pg.
  assert (Us : forall k, 1 <= k <= depth (b_kind (bc f)) (b_order (bc f)) -> fel (mkFa u (CELL2d (lo 0) (lo 1) (hi 0) (hi 1) gcw)) (map (inward f k q) [0; 1]) ma = Some (peval cs (centre_x k (dx (f / 2)%Z)))).
  { intros k Hk. pose proof (inward_inside 2 lo hi bc Ro f q k Hf Hq Hk) as I. rewrite (Pa _ I), (HW _ I). f_equal. symmetry.
    pose proof (depth_le (b_kind (bc f)) (b_order (bc f))). assert (k = 1 \/ k = 2) as [->| ->] by lia; [exact P1|apply P2; cbn [b_kind b_order]; lia]. }
  apply (f_equal Some) in Pg. etransitivity; [|exact Pg].
  refine (cd_2d_set_poisson_bc_exact QcS_laws lo hi dx gcw u _ _ _ f _ _ _ ma mb q cs  Hf _  (facing_ghost 2 lo hi bc f q Hf Hq) (facing_array 2 lo hi bc Ro f q gcw Hf Hg Hq) _ Bc Or Rs _ _ Us E1); [lia|apply (inside_array 2 lo hi _ gcw); [lia|]; apply (inward_inside 2 lo hi bc Ro f q); [exact Hf|exact Hq|cbn [b_kind b_order c_btype c_order face_call]; pose proof (depth_le (b_kind (bc f)) (b_order (bc f))); lia]|cbn [c_btype c_order b_kind face_call]; intros; exfalso; lia|cbn [c_btype c_order b_kind face_call]; intros; exfalso; lia].
Qed.

Lemma kept_set_bc_3d lo hi (dx : Z -> QcS) d0 d1 d2 gcw u bc (m m' : mem QcS) :
  1 <= gcw ->  apart u [d0; d1; d2] -> roomy 3 lo hi bc ->
  forM (face_calls 3 lo hi bc) (call_set_bc_3d lo hi dx 0 d0 d1 d2 gcw u) m = Some m' ->
  shape m' = shape m /\ ints m' = ints m /\
  (forall q, inside 3 lo hi q -> fel (mkFa u (CELL3d (lo 0) (lo 1) (lo 2) (hi 0) (hi 1) (hi 2) gcw)) (map q [0; 1; 2]) m' = fel (mkFa u (CELL3d (lo 0) (lo 1) (lo 2) (hi 0) (hi 1) (hi 2) gcw)) (map q [0; 1; 2]) m) /\
  (forall p, fst p <> fst u -> load m' p = load m p).
Proof.
  intros Hg Ap Ro E.
  destruct (fill_kept 3 lo hi ltac:(lia) (make_md_span_g u gcw [Kb (lo 2) (hi 2); Jb (lo 1) (hi 1); Ib (lo 0) (hi 0)]) ltac:(b_order) (call_set_bc_3d lo hi dx 0 d0 d1 d2 gcw u) (set_bc_3d_confined lo hi (S := QcS) dx 0 d0 d1 d2 gcw u (roomy_le 3 lo hi bc Ro) Hg Ap) bc Ro m m' E) as (Sm & Im & Km & Om).
  split; [exact Sm|]. split; [exact Im|]. split; [|exact Om].
  intros q Hq. unfold fel. change (map q [0; 1; 2]) with [ptq q dI; ptq q dJ; ptq q dK]. rewrite <- fa_cell3.
  apply Km; [|intros e He; specialize (Hq e He); unfold zc, ptq, axis; revert Hq; b_axis e].
  apply bounds_3, (inside_array 3 lo hi q gcw); [lia|exact Hq].
Qed.

Lemma value_set_bc_3d lo hi (dx : Z -> QcS) d0 d1 d2 gcw u bc (m m' : mem QcS) (W : (Z -> Z) -> Qc) :
  1 <= gcw ->
  apart u [d0; d1; d2] ->
  roomy 3 lo hi bc -> (forall f, 0 <= f < 6 -> sound true (bc f)) -> (forall d, 0 <= d < 3 -> (0 < dx d)%Qc) ->
  (forall q, inside 3 lo hi q -> fel (mkFa u (CELL3d (lo 0) (lo 1) (lo 2) (hi 0) (hi 1) (hi 2) gcw)) (map q [0; 1; 2]) m = Some (W q : QcS)) ->
  forM (face_calls 3 lo hi bc) (call_set_bc_3d lo hi dx 0 d0 d1 d2 gcw u) m = Some m' ->
  forall f q (v : Qc), 0 <= f < 6 -> facing 3 lo hi f q -> coef3 (mkFa d0 (FACE3d0 (lo 0) (lo 1) (lo 2) (hi 0) (hi 1) (hi 2) 0)) (mkFa d1 (FACE3d1 (lo 0) (lo 1) (lo 2) (hi 0) (hi 1) (hi 2) 0)) (mkFa d2 (FACE3d2 (lo 0) (lo 1) (lo 2) (hi 0) (hi 1) (hi 2) 0)) f q m = Some (v : QcS) -> (0 <= v)%Qc ->
  fel (mkFa u (CELL3d (lo 0) (lo 1) (lo 2) (hi 0) (hi 1) (hi 2) gcw)) (map q [0; 1; 2]) m' = Some ((kk (bc f) (dx (f / 2)%Z) v * W (inward f 1 q) + ll (bc f) * W (inward f 2 q))%Qc : QcS).
Proof.
  intros Hg Ap Ro Hs Hdx HW E f q v Hf Hq Hc Hv.
  destruct (fill_face 3 lo hi ltac:(lia) (make_md_span_g u gcw [Kb (lo 2) (hi 2); Jb (lo 1) (hi 1); Ib (lo 0) (hi 0)]) ltac:(b_order) (call_set_bc_3d lo hi dx 0 d0 d1 d2 gcw u) (set_bc_3d_confined lo hi (S := QcS) dx 0 d0 d1 d2 gcw u (roomy_le 3 lo hi bc Ro) Hg Ap) bc Ro f m m' Hf E) as (ma & mb & E1 & Ka & Oa & Kb).
  assert (Pa : forall q, inside 3 lo hi q -> fel (mkFa u (CELL3d (lo 0) (lo 1) (lo 2) (hi 0) (hi 1) (hi 2) gcw)) (map q [0; 1; 2]) ma = fel (mkFa u (CELL3d (lo 0) (lo 1) (lo 2) (hi 0) (hi 1) (hi 2) gcw)) (map q [0; 1; 2]) m).
  { intros p Hp. unfold fel. change (map p [0; 1; 2]) with [ptq p dI; ptq p dJ; ptq p dK]. rewrite <- fa_cell3.
    apply Ka; [|intros e He; specialize (Hp e He); unfold zc, ptq, axis; revert Hp; b_axis e].
    apply bounds_3, (inside_array 3 lo hi p gcw); [lia|exact Hp]. }
  assert (Pb : fel (mkFa u (CELL3d (lo 0) (lo 1) (lo 2) (hi 0) (hi 1) (hi 2) gcw)) (map q [0; 1; 2]) m' = fel (mkFa u (CELL3d (lo 0) (lo 1) (lo 2) (hi 0) (hi 1) (hi 2) gcw)) (map q [0; 1; 2]) mb).
  { unfold fel. change (map q [0; 1; 2]) with [ptq q dI; ptq q dJ; ptq q dK]. rewrite <- fa_cell3.
    apply Kb; [|intros e He; specialize (Hq e He); unfold zc, ptq, axis; revert Hq; b_axis e].
    apply bounds_3. exact (facing_array 3 lo hi bc Ro f q gcw Hf Hg Hq). }
  rewrite Pb. clear Pb Kb.
  assert (Hh : (0 < dx (f / 2)%Z)%Qc) by (apply Hdx; split; [apply Z.div_pos; lia|apply Z.div_lt_upper_bound; lia]).
  destruct (ghost_poly true (bc f) (dx (f / 2)%Z) v (W (inward f 1 q)) (W (inward f 2 q)) (Hs f Hf) Hh Hv) as (cs & Bc & Or & Rs & P1 & P2 & Pg).
  assert (Us : forall k, 1 <= k <= depth (b_kind (bc f)) (b_order (bc f)) -> fel (mkFa u (CELL3d (lo 0) (lo 1) (lo 2) (hi 0) (hi 1) (hi 2) gcw)) (map (inward f k q) [0; 1; 2]) ma = Some (peval cs (centre_x k (dx (f / 2)%Z)))).
  { intros k Hk. pose proof (inward_inside 3 lo hi bc Ro f q k Hf Hq Hk) as I. rewrite (Pa _ I), (HW _ I). f_equal. symmetry.
    pose proof (depth_le (b_kind (bc f)) (b_order (bc f))). assert (k = 1 \/ k = 2) as [->| ->] by lia; [exact P1|apply P2; cbn [b_kind b_order]; lia]. }
  apply (f_equal Some) in Pg. etransitivity; [|exact Pg].
  refine (cd_3d_set_bc_exact QcS_laws lo hi dx 0 d0 d1 d2 gcw u _ _ _ f _ _ _ ma mb q cs v Hf _ Ap (facing_ghost 3 lo hi bc f q Hf Hq) (facing_array 3 lo hi bc Ro f q gcw Hf Hg Hq) _ Bc Or Rs _ _ Us E1); [lia|apply (inside_array 3 lo hi _ gcw); [lia|]; apply (inward_inside 3 lo hi bc Ro f q); [exact Hf|exact Hq|cbn [b_kind b_order c_btype c_order face_call]; pose proof (depth_le (b_kind (bc f)) (b_order (bc f))); lia]|intros _; rewrite <- Hc; unfold coef3, fel; destruct (dir f =? 0); [|destruct (dir f =? 1)]; apply Oa; cbn; apply (proj1 (Forall_forall _ _) Ap); cbn; tauto|cbn; intros K4 O2; exfalso; destruct (Hs f Hf) as [[? _]|[?|(_ & _ & ? & _)]]; lia].
Qed.

Lemma kept_set_poisson_bc_3d lo hi (dx : Z -> QcS) gcw u bc (m m' : mem QcS) :
  1 <= gcw -> roomy 3 lo hi bc ->
  forM (face_calls 3 lo hi bc) (call_set_poisson_bc_3d lo hi dx gcw u) m = Some m' ->
  shape m' = shape m /\ ints m' = ints m /\
  (forall q, inside 3 lo hi q -> fel (mkFa u (CELL3d (lo 0) (lo 1) (lo 2) (hi 0) (hi 1) (hi 2) gcw)) (map q [0; 1; 2]) m' = fel (mkFa u (CELL3d (lo 0) (lo 1) (lo 2) (hi 0) (hi 1) (hi 2) gcw)) (map q [0; 1; 2]) m) /\
  (forall p, fst p <> fst u -> load m' p = load m p).
Proof.
  intros Hg Ro E.
  destruct (fill_kept 3 lo hi ltac:(lia) (make_md_span_g u gcw [Kb (lo 2) (hi 2); Jb (lo 1) (hi 1); Ib (lo 0) (hi 0)]) ltac:(b_order) (call_set_poisson_bc_3d lo hi dx gcw u) (set_poisson_bc_3d_confined lo hi (S := QcS) dx gcw u (roomy_le 3 lo hi bc Ro) Hg) bc Ro m m' E) as (Sm & Im & Km & Om).
  split; [exact Sm|]. split; [exact Im|]. split; [|exact Om].
  intros q Hq. unfold fel. change (map q [0; 1; 2]) with [ptq q dI; ptq q dJ; ptq q dK]. rewrite <- fa_cell3.
  apply Km; [|intros e He; specialize (Hq e He); unfold zc, ptq, axis; revert Hq; b_axis e].
  apply bounds_3, (inside_array 3 lo hi q gcw); [lia|exact Hq].
Qed.

Lemma value_set_poisson_bc_3d lo hi (dx : Z -> QcS) gcw u bc (m m' : mem QcS) (W : (Z -> Z) -> Qc) :
  1 <= gcw ->
  roomy 3 lo hi bc -> (forall f, 0 <= f < 6 -> sound false (bc f)) -> (forall d, 0 <= d < 3 -> (0 < dx d)%Qc) ->
  (forall q, inside 3 lo hi q -> fel (mkFa u (CELL3d (lo 0) (lo 1) (lo 2) (hi 0) (hi 1) (hi 2) gcw)) (map q [0; 1; 2]) m = Some (W q : QcS)) ->
  forM (face_calls 3 lo hi bc) (call_set_poisson_bc_3d lo hi dx gcw u) m = Some m' ->
  forall f q (v : Qc), 0 <= f < 6 -> facing 3 lo hi f q -> (0 <= v)%Qc ->
  fel (mkFa u (CELL3d (lo 0) (lo 1) (lo 2) (hi 0) (hi 1) (hi 2) gcw)) (map q [0; 1; 2]) m' = Some ((kk (bc f) (dx (f / 2)%Z) v * W (inward f 1 q) + ll (bc f) * W (inward f 2 q))%Qc : QcS).
Proof.
  intros Hg Ro Hs Hdx HW E f q v Hf Hq Hv.
  destruct (fill_face 3 lo hi ltac:(lia) (make_md_span_g u gcw [Kb (lo 2) (hi 2); Jb (lo 1) (hi 1); Ib (lo 0) (hi 0)]) ltac:(b_order) (call_set_poisson_bc_3d lo hi dx gcw u) (set_poisson_bc_3d_confined lo hi (S := QcS) dx gcw u (roomy_le 3 lo hi bc Ro) Hg) bc Ro f m m' Hf E) as (ma & mb & E1 & Ka & Oa & Kb).
  assert (Pa : forall q, inside 3 lo hi q -> fel (mkFa u (CELL3d (lo 0) (lo 1) (lo 2) (hi 0) (hi 1) (hi 2) gcw)) (map q [0; 1; 2]) ma = fel (mkFa u (CELL3d (lo 0) (lo 1) (lo 2) (hi 0) (hi 1) (hi 2) gcw)) (map q [0; 1; 2]) m).
  { intros p Hp. unfold fel. change (map p [0; 1; 2]) with [ptq p dI; ptq p dJ; ptq p dK]. rewrite <- fa_cell3.
    apply Ka; [|intros e He; specialize (Hp e He); unfold zc, ptq, axis; revert Hp; b_axis e].
    apply bounds_3, (inside_array 3 lo hi p gcw); [lia|exact Hp]. }
  assert (Pb : fel (mkFa u (CELL3d (lo 0) (lo 1) (lo 2) (hi 0) (hi 1) (hi 2) gcw)) (map q [0; 1; 2]) m' = fel (mkFa u (CELL3d (lo 0) (lo 1) (lo 2) (hi 0) (hi 1) (hi 2) gcw)) (map q [0; 1; 2]) mb).
  { unfold fel. change (map q [0; 1; 2]) with [ptq q dI; ptq q dJ; ptq q dK]. rewrite <- fa_cell3.
    apply Kb; [|intros e He; specialize (Hq e He); unfold zc, ptq, axis; revert Hq; b_axis e].
    apply bounds_3. exact (facing_array 3 lo hi bc Ro f q gcw Hf Hg Hq). }
  rewrite Pb. clear Pb Kb.
  assert (Hh : (0 < dx (f / 2)%Z)%Qc) by (apply Hdx; split; [apply Z.div_pos; lia|apply Z.div_lt_upper_bound; lia]).
  destruct (ghost_poly false (bc f) (dx (f / 2)%Z) 1%Qc (W (inward f 1 q)) (W (inward f 2 q)) (Hs f Hf) Hh ltac:(discriminate)) as (cs & Bc & Or & Rs & P1 & P2 & Pg).
  assert (Kd : b_kind (bc f) = 0 \/ b_kind (bc f) = 1) by (destruct (Hs f Hf) as [[? _]|[?|[? _]]]; [auto|auto|discriminate]).
  rewrite (kk_kind (bc f) (bc f) _ 1%Qc v eq_refl eq_refl Kd) in Pg.
  assert (Us : forall k, 1 <= k <= depth (b_kind (bc f)) (b_order (bc f)) -> fel (mkFa u (CELL3d (lo 0) (lo 1) (lo 2) (hi 0) (hi 1) (hi 2) gcw)) (map (inward f k q) [0; 1; 2]) ma = Some (peval cs (centre_x k (dx (f / 2)%Z)))).
  { intros k Hk. pose proof (inward_inside 3 lo hi bc Ro f q k Hf Hq Hk) as I. rewrite (Pa _ I), (HW _ I). f_equal. symmetry.
    pose proof (depth_le (b_kind (bc f)) (b_order (bc f))). assert (k = 1 \/ k = 2) as [->| ->] by lia; [exact P1|apply P2; cbn [b_kind b_order]; lia]. }
  apply (f_equal Some) in Pg. etransitivity; [|exact Pg].
  refine (cd_3d_set_poisson_bc_exact QcS_laws lo hi dx gcw u _ _ _ f _ _ _ ma mb q cs  Hf _  (facing_ghost 3 lo hi bc f q Hf Hq) (facing_array 3 lo hi bc Ro f q gcw Hf Hg Hq) _ Bc Or Rs _ Us E1); [lia|apply (inside_array 3 lo hi _ gcw); [lia|]; apply (inward_inside 3 lo hi bc Ro f q); [exact Hf|exact Hq|cbn [b_kind b_order c_btype c_order face_call]; pose proof (depth_le (b_kind (bc f)) (b_order (bc f))); lia]|cbn [c_btype c_order b_kind face_call]; intros; exfalso; lia].
Qed.
