(** * Calls of the boundary kernels may be permuted and repeated *)

From Coq Require Import Permutation.
From Verif Require Import Base ModelBounds ModelSpan FortranBase SpecKernel SpecBoundary SpecBCOrder KernelsBC SpecBCCalls
  LemKernel2 LemBCOrder LemBCOrderK LemBCOrderK3 LemBCOrderK3p.
Import ListNotations.
Open Scope Z_scope.

Section Calls.
  Context {S : Scalar} (lo hi : Z -> Z).

  Lemma set_bc_1d_confined (dx : Z -> S) (dgcw : Z) (d0 : ptr) (ugcw : Z) (u : ptr) :
    (forall d, 0 <= d < 1 -> lo d <= hi d) -> 1 <= ugcw -> apart u [d0] -> forall c, placed 1 lo hi c -> thick lo hi c ->
    confined (Rset 1 lo hi (make_md_span_g u ugcw [Ib (lo 0) (hi 0)]) c) (Wset 1 lo hi (make_md_span_g u ugcw [Ib (lo 0) (hi 0)]) c)
      (call_set_bc_1d lo hi dx dgcw d0 ugcw u c).
  Proof. intros H Hg Hap . intros c Hp Ht. apply cd_1d_set_bc_confined; solve [assumption|apply H; lia]. Qed.

  Lemma set_bc_1d_order (dx : Z -> S) (dgcw : Z) (d0 : ptr) (ugcw : Z) (u : ptr) cs cs' (m : mem S) :
    (forall d, 0 <= d < 1 -> lo d <= hi d) -> 1 <= ugcw -> apart u [d0] -> 
    by_kind cs -> Forall (placed 1 lo hi) cs -> Forall (thick lo hi) cs -> ForallOrdPairs (separate 1 lo hi) cs ->
    Permutation cs cs' -> by_kind cs' ->
    forM cs (call_set_bc_1d lo hi dx dgcw d0 ugcw u) m = forM cs' (call_set_bc_1d lo hi dx dgcw d0 ugcw u) m.
  Proof.
    intros H Hg Hap HS Hp Ht Hs HP HS'. apply (calls_order 1 lo hi ltac:(lia) (make_md_span_g u ugcw [Ib (lo 0) (hi 0)])); try assumption.
    - b_order.
    - apply set_bc_1d_confined; assumption.
  Qed.

  Lemma set_bc_1d_again (dx : Z -> S) (dgcw : Z) (d0 : ptr) (ugcw : Z) (u : ptr) cs (m m' : mem S) :
    (forall d, 0 <= d < 1 -> lo d <= hi d) -> 1 <= ugcw -> apart u [d0] -> 
    by_kind cs -> Forall (placed 1 lo hi) cs -> Forall (thick lo hi) cs -> ForallOrdPairs (separate 1 lo hi) cs ->
    forM cs (call_set_bc_1d lo hi dx dgcw d0 ugcw u) m = Some m' -> forM cs (call_set_bc_1d lo hi dx dgcw d0 ugcw u) m' = Some m'.
  Proof.
    intros H Hg Hap HS Hp Ht Hs. apply (calls_again 1 lo hi ltac:(lia) (make_md_span_g u ugcw [Ib (lo 0) (hi 0)])); try assumption.
    - b_order.
    - apply set_bc_1d_confined; assumption.
  Qed.

  Lemma set_poisson_bc_1d_confined (dx : Z -> S) (ugcw : Z) (u : ptr) :
    (forall d, 0 <= d < 1 -> lo d <= hi d) -> 1 <= ugcw -> forall c, placed 1 lo hi c -> thick lo hi c ->
    confined (Rset 1 lo hi (make_md_span_g u ugcw [Ib (lo 0) (hi 0)]) c) (Wset 1 lo hi (make_md_span_g u ugcw [Ib (lo 0) (hi 0)]) c)
      (call_set_poisson_bc_1d lo hi dx ugcw u c).
  Proof. intros H Hg . intros c Hp Ht. apply cd_1d_set_poisson_bc_confined; solve [assumption|apply H; lia]. Qed.

  Lemma set_poisson_bc_1d_order (dx : Z -> S) (ugcw : Z) (u : ptr) cs cs' (m : mem S) :
    (forall d, 0 <= d < 1 -> lo d <= hi d) -> 1 <= ugcw -> 
    by_kind cs -> Forall (placed 1 lo hi) cs -> Forall (thick lo hi) cs -> ForallOrdPairs (separate 1 lo hi) cs ->
    Permutation cs cs' -> by_kind cs' ->
    forM cs (call_set_poisson_bc_1d lo hi dx ugcw u) m = forM cs' (call_set_poisson_bc_1d lo hi dx ugcw u) m.
  Proof.
    intros H Hg HS Hp Ht Hs HP HS'. apply (calls_order 1 lo hi ltac:(lia) (make_md_span_g u ugcw [Ib (lo 0) (hi 0)])); try assumption.
    - b_order.
    - apply set_poisson_bc_1d_confined; assumption.
  Qed.

  Lemma set_poisson_bc_1d_again (dx : Z -> S) (ugcw : Z) (u : ptr) cs (m m' : mem S) :
    (forall d, 0 <= d < 1 -> lo d <= hi d) -> 1 <= ugcw -> 
    by_kind cs -> Forall (placed 1 lo hi) cs -> Forall (thick lo hi) cs -> ForallOrdPairs (separate 1 lo hi) cs ->
    forM cs (call_set_poisson_bc_1d lo hi dx ugcw u) m = Some m' -> forM cs (call_set_poisson_bc_1d lo hi dx ugcw u) m' = Some m'.
  Proof.
    intros H Hg HS Hp Ht Hs. apply (calls_again 1 lo hi ltac:(lia) (make_md_span_g u ugcw [Ib (lo 0) (hi 0)])); try assumption.
    - b_order.
    - apply set_poisson_bc_1d_confined; assumption.
  Qed.

  Lemma set_bc_2d_confined (dx : Z -> S) (dgcw : Z) (d0 d1 : ptr) (ugcw : Z) (u : ptr) :
    (forall d, 0 <= d < 2 -> lo d <= hi d) -> 1 <= ugcw -> apart u [d0; d1] -> forall c, placed 2 lo hi c -> thick lo hi c ->
    confined (Rset 2 lo hi (make_md_span_g u ugcw [Jb (lo 1) (hi 1); Ib (lo 0) (hi 0)]) c) (Wset 2 lo hi (make_md_span_g u ugcw [Jb (lo 1) (hi 1); Ib (lo 0) (hi 0)]) c)
      (call_set_bc_2d lo hi dx dgcw d0 d1 ugcw u c).
  Proof. intros H Hg Hap . intros c Hp Ht. apply cd_2d_set_bc_confined; solve [assumption|apply H; lia]. Qed.

  Lemma set_bc_2d_order (dx : Z -> S) (dgcw : Z) (d0 d1 : ptr) (ugcw : Z) (u : ptr) cs cs' (m : mem S) :
    (forall d, 0 <= d < 2 -> lo d <= hi d) -> 1 <= ugcw -> apart u [d0; d1] -> 
    by_kind cs -> Forall (placed 2 lo hi) cs -> Forall (thick lo hi) cs -> ForallOrdPairs (separate 2 lo hi) cs ->
    Permutation cs cs' -> by_kind cs' ->
    forM cs (call_set_bc_2d lo hi dx dgcw d0 d1 ugcw u) m = forM cs' (call_set_bc_2d lo hi dx dgcw d0 d1 ugcw u) m.
  Proof.
    intros H Hg Hap HS Hp Ht Hs HP HS'. apply (calls_order 2 lo hi ltac:(lia) (make_md_span_g u ugcw [Jb (lo 1) (hi 1); Ib (lo 0) (hi 0)])); try assumption.
    - b_order.
    - apply set_bc_2d_confined; assumption.
  Qed.

  Lemma set_bc_2d_again (dx : Z -> S) (dgcw : Z) (d0 d1 : ptr) (ugcw : Z) (u : ptr) cs (m m' : mem S) :
    (forall d, 0 <= d < 2 -> lo d <= hi d) -> 1 <= ugcw -> apart u [d0; d1] -> 
    by_kind cs -> Forall (placed 2 lo hi) cs -> Forall (thick lo hi) cs -> ForallOrdPairs (separate 2 lo hi) cs ->
    forM cs (call_set_bc_2d lo hi dx dgcw d0 d1 ugcw u) m = Some m' -> forM cs (call_set_bc_2d lo hi dx dgcw d0 d1 ugcw u) m' = Some m'.
  Proof.
    intros H Hg Hap HS Hp Ht Hs. apply (calls_again 2 lo hi ltac:(lia) (make_md_span_g u ugcw [Jb (lo 1) (hi 1); Ib (lo 0) (hi 0)])); try assumption.
    - b_order.
    - apply set_bc_2d_confined; assumption.
  Qed.

  Lemma set_poisson_bc_2d_confined (dx : Z -> S) (ugcw : Z) (u : ptr) :
    (forall d, 0 <= d < 2 -> lo d <= hi d) -> 1 <= ugcw -> forall c, placed 2 lo hi c -> thick lo hi c ->
    confined (Rset 2 lo hi (make_md_span_g u ugcw [Jb (lo 1) (hi 1); Ib (lo 0) (hi 0)]) c) (Wset 2 lo hi (make_md_span_g u ugcw [Jb (lo 1) (hi 1); Ib (lo 0) (hi 0)]) c)
      (call_set_poisson_bc_2d lo hi dx ugcw u c).
  Proof. intros H Hg . intros c Hp Ht. apply cd_2d_set_poisson_bc_confined; solve [assumption|apply H; lia]. Qed.

  Lemma set_poisson_bc_2d_order (dx : Z -> S) (ugcw : Z) (u : ptr) cs cs' (m : mem S) :
    (forall d, 0 <= d < 2 -> lo d <= hi d) -> 1 <= ugcw -> 
    by_kind cs -> Forall (placed 2 lo hi) cs -> Forall (thick lo hi) cs -> ForallOrdPairs (separate 2 lo hi) cs ->
    Permutation cs cs' -> by_kind cs' ->
    forM cs (call_set_poisson_bc_2d lo hi dx ugcw u) m = forM cs' (call_set_poisson_bc_2d lo hi dx ugcw u) m.
  Proof.
    intros H Hg HS Hp Ht Hs HP HS'. apply (calls_order 2 lo hi ltac:(lia) (make_md_span_g u ugcw [Jb (lo 1) (hi 1); Ib (lo 0) (hi 0)])); try assumption.
    - b_order.
    - apply set_poisson_bc_2d_confined; assumption.
  Qed.

  Lemma set_poisson_bc_2d_again (dx : Z -> S) (ugcw : Z) (u : ptr) cs (m m' : mem S) :
    (forall d, 0 <= d < 2 -> lo d <= hi d) -> 1 <= ugcw -> 
    by_kind cs -> Forall (placed 2 lo hi) cs -> Forall (thick lo hi) cs -> ForallOrdPairs (separate 2 lo hi) cs ->
    forM cs (call_set_poisson_bc_2d lo hi dx ugcw u) m = Some m' -> forM cs (call_set_poisson_bc_2d lo hi dx ugcw u) m' = Some m'.
  Proof.
    intros H Hg HS Hp Ht Hs. apply (calls_again 2 lo hi ltac:(lia) (make_md_span_g u ugcw [Jb (lo 1) (hi 1); Ib (lo 0) (hi 0)])); try assumption.
    - b_order.
    - apply set_poisson_bc_2d_confined; assumption.
  Qed.

  Lemma corner_bc_2d_confined (dx : Z -> S) (dgcw : Z) (d0 d1 : ptr) (ugcw : Z) (u : ptr) :
    (forall d, 0 <= d < 2 -> lo d <= hi d) -> 1 <= ugcw -> apart u [d0; d1] -> forall c, placed 2 lo hi c -> thick lo hi c ->
    confined (Rset 2 lo hi (make_md_span_g u ugcw [Jb (lo 1) (hi 1); Ib (lo 0) (hi 0)]) c) (Wset 2 lo hi (make_md_span_g u ugcw [Jb (lo 1) (hi 1); Ib (lo 0) (hi 0)]) c)
      (call_corner_bc_2d lo hi dx dgcw d0 d1 ugcw u c).
  Proof. intros H Hg Hap . intros c Hp Ht. unfold call_corner_bc_2d. destruct (Z.eqb_spec (c_type c) 2) as [E|E]; [apply cd_2d_set_corner_bc_confined|apply cd_2d_set_bc_confined]; solve [assumption|apply H; lia]. Qed.

  Lemma corner_bc_2d_order (dx : Z -> S) (dgcw : Z) (d0 d1 : ptr) (ugcw : Z) (u : ptr) cs cs' (m : mem S) :
    (forall d, 0 <= d < 2 -> lo d <= hi d) -> 1 <= ugcw -> apart u [d0; d1] -> 
    by_kind cs -> Forall (placed 2 lo hi) cs -> Forall (thick lo hi) cs -> ForallOrdPairs (separate 2 lo hi) cs ->
    Permutation cs cs' -> by_kind cs' ->
    forM cs (call_corner_bc_2d lo hi dx dgcw d0 d1 ugcw u) m = forM cs' (call_corner_bc_2d lo hi dx dgcw d0 d1 ugcw u) m.
  Proof.
    intros H Hg Hap HS Hp Ht Hs HP HS'. apply (calls_order 2 lo hi ltac:(lia) (make_md_span_g u ugcw [Jb (lo 1) (hi 1); Ib (lo 0) (hi 0)])); try assumption.
    - b_order.
    - apply corner_bc_2d_confined; assumption.
  Qed.

  Lemma corner_bc_2d_again (dx : Z -> S) (dgcw : Z) (d0 d1 : ptr) (ugcw : Z) (u : ptr) cs (m m' : mem S) :
    (forall d, 0 <= d < 2 -> lo d <= hi d) -> 1 <= ugcw -> apart u [d0; d1] -> 
    by_kind cs -> Forall (placed 2 lo hi) cs -> Forall (thick lo hi) cs -> ForallOrdPairs (separate 2 lo hi) cs ->
    forM cs (call_corner_bc_2d lo hi dx dgcw d0 d1 ugcw u) m = Some m' -> forM cs (call_corner_bc_2d lo hi dx dgcw d0 d1 ugcw u) m' = Some m'.
  Proof.
    intros H Hg Hap HS Hp Ht Hs. apply (calls_again 2 lo hi ltac:(lia) (make_md_span_g u ugcw [Jb (lo 1) (hi 1); Ib (lo 0) (hi 0)])); try assumption.
    - b_order.
    - apply corner_bc_2d_confined; assumption.
  Qed.

  Lemma set_bc_3d_confined (dx : Z -> S) (dgcw : Z) (d0 d1 d2 : ptr) (ugcw : Z) (u : ptr) :
    (forall d, 0 <= d < 3 -> lo d <= hi d) -> 1 <= ugcw -> apart u [d0; d1; d2] -> forall c, placed 3 lo hi c -> thick lo hi c ->
    confined (Rset 3 lo hi (make_md_span_g u ugcw [Kb (lo 2) (hi 2); Jb (lo 1) (hi 1); Ib (lo 0) (hi 0)]) c) (Wset 3 lo hi (make_md_span_g u ugcw [Kb (lo 2) (hi 2); Jb (lo 1) (hi 1); Ib (lo 0) (hi 0)]) c)
      (call_set_bc_3d lo hi dx dgcw d0 d1 d2 ugcw u c).
  Proof. intros H Hg Hap . intros c Hp Ht. apply cd_3d_set_bc_confined; solve [assumption|apply H; lia]. Qed.

  Lemma set_bc_3d_order (dx : Z -> S) (dgcw : Z) (d0 d1 d2 : ptr) (ugcw : Z) (u : ptr) cs cs' (m : mem S) :
    (forall d, 0 <= d < 3 -> lo d <= hi d) -> 1 <= ugcw -> apart u [d0; d1; d2] -> 
    by_kind cs -> Forall (placed 3 lo hi) cs -> Forall (thick lo hi) cs -> ForallOrdPairs (separate 3 lo hi) cs ->
    Permutation cs cs' -> by_kind cs' ->
    forM cs (call_set_bc_3d lo hi dx dgcw d0 d1 d2 ugcw u) m = forM cs' (call_set_bc_3d lo hi dx dgcw d0 d1 d2 ugcw u) m.
  Proof.
    intros H Hg Hap HS Hp Ht Hs HP HS'. apply (calls_order 3 lo hi ltac:(lia) (make_md_span_g u ugcw [Kb (lo 2) (hi 2); Jb (lo 1) (hi 1); Ib (lo 0) (hi 0)])); try assumption.
    - b_order.
    - apply set_bc_3d_confined; assumption.
  Qed.

  Lemma set_bc_3d_again (dx : Z -> S) (dgcw : Z) (d0 d1 d2 : ptr) (ugcw : Z) (u : ptr) cs (m m' : mem S) :
    (forall d, 0 <= d < 3 -> lo d <= hi d) -> 1 <= ugcw -> apart u [d0; d1; d2] -> 
    by_kind cs -> Forall (placed 3 lo hi) cs -> Forall (thick lo hi) cs -> ForallOrdPairs (separate 3 lo hi) cs ->
    forM cs (call_set_bc_3d lo hi dx dgcw d0 d1 d2 ugcw u) m = Some m' -> forM cs (call_set_bc_3d lo hi dx dgcw d0 d1 d2 ugcw u) m' = Some m'.
  Proof.
    intros H Hg Hap HS Hp Ht Hs. apply (calls_again 3 lo hi ltac:(lia) (make_md_span_g u ugcw [Kb (lo 2) (hi 2); Jb (lo 1) (hi 1); Ib (lo 0) (hi 0)])); try assumption.
    - b_order.
    - apply set_bc_3d_confined; assumption.
  Qed.

  Lemma set_poisson_bc_3d_confined (dx : Z -> S) (ugcw : Z) (u : ptr) :
    (forall d, 0 <= d < 3 -> lo d <= hi d) -> 1 <= ugcw -> forall c, placed 3 lo hi c -> thick lo hi c ->
    confined (Rset 3 lo hi (make_md_span_g u ugcw [Kb (lo 2) (hi 2); Jb (lo 1) (hi 1); Ib (lo 0) (hi 0)]) c) (Wset 3 lo hi (make_md_span_g u ugcw [Kb (lo 2) (hi 2); Jb (lo 1) (hi 1); Ib (lo 0) (hi 0)]) c)
      (call_set_poisson_bc_3d lo hi dx ugcw u c).
  Proof. intros H Hg . intros c Hp Ht. apply cd_3d_set_poisson_bc_confined; solve [assumption|apply H; lia]. Qed.

  Lemma set_poisson_bc_3d_order (dx : Z -> S) (ugcw : Z) (u : ptr) cs cs' (m : mem S) :
    (forall d, 0 <= d < 3 -> lo d <= hi d) -> 1 <= ugcw -> 
    by_kind cs -> Forall (placed 3 lo hi) cs -> Forall (thick lo hi) cs -> ForallOrdPairs (separate 3 lo hi) cs ->
    Permutation cs cs' -> by_kind cs' ->
    forM cs (call_set_poisson_bc_3d lo hi dx ugcw u) m = forM cs' (call_set_poisson_bc_3d lo hi dx ugcw u) m.
  Proof.
    intros H Hg HS Hp Ht Hs HP HS'. apply (calls_order 3 lo hi ltac:(lia) (make_md_span_g u ugcw [Kb (lo 2) (hi 2); Jb (lo 1) (hi 1); Ib (lo 0) (hi 0)])); try assumption.
    - b_order.
    - apply set_poisson_bc_3d_confined; assumption.
  Qed.

  Lemma set_poisson_bc_3d_again (dx : Z -> S) (ugcw : Z) (u : ptr) cs (m m' : mem S) :
    (forall d, 0 <= d < 3 -> lo d <= hi d) -> 1 <= ugcw -> 
    by_kind cs -> Forall (placed 3 lo hi) cs -> Forall (thick lo hi) cs -> ForallOrdPairs (separate 3 lo hi) cs ->
    forM cs (call_set_poisson_bc_3d lo hi dx ugcw u) m = Some m' -> forM cs (call_set_poisson_bc_3d lo hi dx ugcw u) m' = Some m'.
  Proof.
    intros H Hg HS Hp Ht Hs. apply (calls_again 3 lo hi ltac:(lia) (make_md_span_g u ugcw [Kb (lo 2) (hi 2); Jb (lo 1) (hi 1); Ib (lo 0) (hi 0)])); try assumption.
    - b_order.
    - apply set_poisson_bc_3d_confined; assumption.
  Qed.
End Calls.
