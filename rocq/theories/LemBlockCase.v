(** * Cases for block relaxation and for adjusting a right-hand side *)

From Coq Require Import QArith Qcanon.
From Verif Require Import Base FortranBase FortranLoops FortranSmooth Instances SpecRow SpecSmooth SpecBlock SpecAdjust LemBase LemSmooth LemNodeRefute LemSmoothFinal LemSmoothRefute.
Import ListNotations.
Open Scope Z_scope.

(** ** Tables *)
Section Tables.
  Context {S : Scalar}.

  Lemma table_columns (m : mem S) tab cols n bs : table_is m tab cols -> NoDup cols -> Forall (fun col => length col = length bs) cols ->
    nth_error cols 0 = Some (repeat 0 (length bs)) -> n <= Z.of_nat (length cols) -> columns_distinct m tab n bs.
  Proof.
    intros T Nd Hl H0 Hn c Hc. assert (Hlc : length bs = length c) by exact (in_box_len bs c Hc). rewrite Forall_forall in Hl. split.
    - apply (table_diagonal _ _ cols c T). rewrite <- Hlc. exact H0.
    - intros s s' c' Hs Hs' D D'.
      destruct (nth_error cols (Z.to_nat s)) as [col|] eqn:E; [|apply nth_error_None in E; lia].
      destruct (nth_error cols (Z.to_nat s')) as [col'|] eqn:E'; [|apply nth_error_None in E'; lia].
      pose proof (Hl col (nth_error_In _ _ E)) as L1. pose proof (Hl col' (nth_error_In _ _ E')) as L2.
      apply (table_displaced m tab cols s col c c' T E ltac:(lia) ltac:(lia)) in D.
      apply (table_displaced m tab cols s' col' c c' T E' ltac:(lia) ltac:(lia)) in D'.
      assert (col = col') as <-.
      { apply nth_ext with (d := 0) (d' := 0); [lia|]. intros k Hk. destruct D as [_ D], D' as [_ D']. specialize (D k ltac:(lia)). specialize (D' k ltac:(lia)). lia. }
      assert (Z.to_nat s = Z.to_nat s') as Eq; [|lia].
      apply (proj1 (NoDup_nth_error cols) Nd); [|congruence]. apply nth_error_Some. congruence.
  Qed.

  Lemma table_leads_out (m : mem S) tab cols s bs col : table_is m tab cols -> nth_error cols (Z.to_nat s) = Some col -> 0 <= s ->
    length col = length bs -> (exists k, (k < length bs)%nat /\ snd (nth k bs (0, 0)) - fst (nth k bs (0, 0)) < nth k col 0) -> leads_out m tab s bs.
  Proof.
    intros T E Hs Hl (k & Hk & Hf) c c' Hc D Hc'. assert (Hlc : length bs = length c) by exact (in_box_len bs c Hc).
    apply (table_displaced m tab cols s col c c' T E Hs ltac:(lia)) in D. destruct D as [Hl' D]. specialize (D k ltac:(lia)).
    assert (B : forall x, in_box bs x -> fst (nth k bs (0, 0)) <= nth k x 0 <= snd (nth k bs (0, 0))).
    { clear -Hk. revert k Hk. induction bs as [|b bs IH]; intros k Hk x H; [cbn in Hk; lia|]. inversion H; subst.
      destruct k as [|k]; cbn [nth]; [assumption|]. apply IH; [cbn in Hk; lia|assumption]. }
    pose proof (B c Hc). pose proof (B c' Hc'). lia.
  Qed.

  Lemma table_near (m : mem S) tab cols d : table_is m tab cols ->
    Forall (fun col => Z.of_nat (length col) = d /\ Forall (fun o => -1 <= o <= 1) col) cols -> near m tab (Z.of_nat (length cols)) d.
  Proof.
    intros T Hc s k o Hs Hk E. rewrite Forall_forall in Hc.
    destruct (nth_error cols (Z.to_nat s)) as [col|] eqn:Es; [|apply nth_error_None in Es; lia].
    destruct (Hc col (nth_error_In _ _ Es)) as [Hl Ho]. rewrite Forall_forall in Ho.
    destruct (nth_error col (Z.to_nat k)) as [o'|] eqn:Ek; [|apply nth_error_None in Ek; lia].
    specialize (T _ _ Es _ _ Ek). rewrite !Z2Nat.id in T by lia. rewrite T in E. injection E as <-. apply Ho, (nth_error_In _ _ Ek).
  Qed.
End Tables.

(** ** Runs *)

(** Rational memories: matrix, right-hand sides, unknowns with unequal entries. *)
Definition block_mem : mem QcS :=
  mkMem [map (fun i => lit (Z.of_nat i + 1) : QcS) (seq 0 40); rampc; map (fun i => lit (3 * Z.of_nat i - 7) : QcS) (seq 0 40);
         repeat (lit 0 : QcS) 40; repeat (lit 1 : QcS) 40] [].

Definition rampd : list QcS := map (fun i => lit (Z.of_nat i + 3) : QcS) (seq 0 100).

Definition eqQ (x y : option QcS) : bool :=
  match x, y with Some a, Some b => QArith_base.Qeq_bool (this a) (this b) | _, _ => false end.

(** The two values of allocation [k] at [i]. *)
Definition moved_at (s : mem QcS -> option (mem QcS)) (k : nat) (i : Z) (m : mem QcS) : bool :=
  match s m with Some m' => negb (eqQ (load m' (k, i)) (load m (k, i))) | None => false end.

(** A table of seven columns followed by one that leads far away. *)
Definition cols_far : list (list Z) := cols3 ++ [[9; 0; 0]].

Lemma far_table : table_is (sys cols_far (lit 0) rampc) (mkFa (p 0) [(0, 2); (0, 6)]) cols_far.
Proof. exact (sys_table cols_far (lit 0) rampc 3 ltac:(repeat constructor) ltac:(vm_compute; reflexivity)). Qed.

(** The patch 0..1 by 0..0: the loops run over the cells (0,0) and (0,1). *)
Definition oblong_mem (k : nat) : mem ZS := mkMem [repeat (1 : ZS) k; repeat (1 : ZS) 40; ramp 40 3] [[0; 0]].

Lemma oblong_fails : celladjustsystemrhspatch2d (S := ZS) 0 0 1 0 1 (p 0) 1 (p 0) 1 (p 1) 1 (p 2) (oblong_mem 2) = None.
Proof. vm_compute. reflexivity. Qed.

Lemma oblong_skips : exists m', celladjustsystemrhspatch2d (S := ZS) 0 0 1 0 1 (p 0) 1 (p 0) 1 (p 1) 1 (p 2) (oblong_mem 4) = Some m' /\
  ~ increased (oblong_mem 4) m' (mkFa (p 0) [(1, 2); (1, 1)]) (mkFa (p 0) ((1, 1) :: CELL2d 0 0 1 0 0)) 1
      (mkFa (p 1) (CELL2d 0 0 1 0 1)) (mkFa (p 2) (CELL2d 0 0 1 0 1)) [(0, 1); (0, 0)].
Proof.
  destruct (celladjustsystemrhspatch2d (S := ZS) 0 0 1 0 1 (p 0) 1 (p 0) 1 (p 1) 1 (p 2) (oblong_mem 4)) as [m'|] eqn:E;
    [|vm_compute in E; discriminate].
  exists m'. split; [reflexivity|]. intros (V & _).
  destruct (V [1; 0]) as (y & d & Ey & (cf & x & H & ->) & Ey').
  { constructor; [cbn; lia|]. constructor; [cbn; lia|constructor]. }
  destruct (H 1 ltac:(lia)) as (H1 & c' & (Hl & Hd) & H2).
  assert (c' = [1; 0]) as ->.
  { destruct c' as [|a [|b [|? ?]]]; try discriminate. pose proof (Hd 0%nat ltac:(cbn; lia)) as D0. pose proof (Hd 1%nat ltac:(cbn; lia)) as D1.
    vm_compute in D0, D1. injection D0 as D0. injection D1 as D1.
    assert (a = 1) by (destruct a as [|[]|]; try discriminate; auto). assert (b = 0) by (destruct b as [|[]|]; try discriminate; auto). subst. reflexivity. }
  assert (F : fel (mkFa (p 2) (CELL2d 0 0 1 0 1)) [1; 0] m' = fel (mkFa (p 2) (CELL2d 0 0 1 0 1)) [1; 0] (oblong_mem 4)).
  { assert (G : match celladjustsystemrhspatch2d (S := ZS) 0 0 1 0 1 (p 0) 1 (p 0) 1 (p 1) 1 (p 2) (oblong_mem 4) with
      | Some m1 => fel (mkFa (p 2) (CELL2d 0 0 1 0 1)) [1; 0] m1 = fel (mkFa (p 2) (CELL2d 0 0 1 0 1)) [1; 0] (oblong_mem 4) | None => False end) by (vm_compute; reflexivity).
    rewrite E in G. exact G. }
  rewrite F, Ey in Ey'. vm_compute in H1, H2. injection H1 as H1. injection H2 as H2. injection Ey' as Ey'.
  unfold total in Ey'. change (Z.to_nat (1 - 1 + 1)) with 1%nat in Ey'. cbn [seq fold_right] in Ey'. change (1 + Z.of_nat 0) with 1 in Ey'.
  rewrite <- H1, <- H2 in Ey'. change (y = y + (1 * 1 + 0)) in Ey'. lia.
Qed.
