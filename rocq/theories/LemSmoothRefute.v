(** * Cases for the point smoothers *)

From Coq Require Import QArith Qcanon.
From Verif Require Import Base FortranBase FortranSmooth Instances SpecNode SpecRow SpecSmooth LemNodeRefute LemSmoothFinal.
Import ListNotations.
Open Scope Z_scope.

(** ** Departures *)

(** A stencil of ones, a right-hand side and unknowns with unequal entries; the
    tables of the three entry stencil in one dimension and the five entry stencil in two.
    Division by the diagonal is exact. *)
Definition smooth_mem : mem ZS := mkMem [repeat (1 : ZS) 200; ramp 100 7; ramp 100 3]
  [[0; -1; 1]; [0; 0; -1; 0; 1; 0; 0; -1; 0; 1]].

Lemma cellgs1d_differs :
  disagree (cellgs1d 0 0 3 (p 0) 0 0 (p 0) 0 0 (p 1) (-1) 1 (p 2)) (cellrbgs1d 0 0 0 3 (p 0) 0 0 (p 0) 0 0 (p 1) (-1) 1 (p 2)) smooth_mem.
Proof. apply differs_ok. vm_compute. reflexivity. Qed.

Definition again (s : mem ZS -> option (mem ZS)) (m : mem ZS) : bool :=
  match s m with
  | Some m1 => match s m1 with
               | Some m2 => if list_eq_dec (list_eq_dec Z.eq_dec) (cells m2) (cells m1) then false else true
               | None => false
               end
  | None => false
  end.

Lemma again_ok s m : again s m = true -> exists m1 m2, s m = Some m1 /\ s m1 = Some m2 /\ cells m2 <> cells m1.
Proof.
  unfold again. destruct (s m) as [m1|]; [|discriminate]. destruct (s m1) as [m2|] eqn:E; [|discriminate].
  destruct (list_eq_dec _ _ _) as [_|N]; [discriminate|]. intros _. exists m1, m2. auto.
Qed.

Definition changes_at (s : mem ZS -> option (mem ZS)) (a : farray) (c : list Z) (m : mem ZS) : bool :=
  match s m with
  | Some m1 => match fel a c m1, fel a c m with Some x, Some y => negb (x =? y) | _, _ => false end
  | None => false
  end.

Lemma changes_at_ok s a c m : changes_at s a c m = true -> exists m', s m = Some m' /\ fel a c m' <> fel a c m.
Proof.
  unfold changes_at. destruct (s m) as [m1|]; [|discriminate]. intros H. exists m1. split; [reflexivity|]. intros E. rewrite E in H.
  destruct (fel a c m) as [x|]; [|discriminate]. rewrite Z.eqb_refl in H. discriminate.
Qed.

Lemma cellrbgs2d_outside : exists m',
  cellrbgs2d 0 1 (-1) (-1) 0 5 (p 1) (-1) 1 (-1) (-1) (p 0) (-1) 1 (-1) (-1) (p 1) (-2) 2 (-2) 0 (p 2) smooth_mem = Some m' /\
  fel (mkFa (p 2) (CELL2d (-2) (-2) 2 0 0)) [-1; -1] m' <> fel (mkFa (p 2) (CELL2d (-2) (-2) 2 0 0)) [-1; -1] smooth_mem.
Proof. apply (changes_at_ok (cellrbgs2d 0 1 (-1) (-1) 0 5 (p 1) (-1) 1 (-1) (-1) (p 0) (-1) 1 (-1) (-1) (p 1) (-2) 2 (-2) 0 (p 2))). vm_compute. reflexivity. Qed.

Lemma cells9rbgs2d_again : exists m1 m2,
  cells9rbgs2d 0 2 0 2 0 0 2 0 2 (p 0) 0 2 0 2 (p 1) (-1) 3 (-1) 3 (p 2) smooth_mem = Some m1 /\
  cells9rbgs2d 0 2 0 2 0 0 2 0 2 (p 0) 0 2 0 2 (p 1) (-1) 3 (-1) 3 (p 2) m1 = Some m2 /\
  cells m2 <> cells m1.
Proof. apply (again_ok (cells9rbgs2d 0 2 0 2 0 0 2 0 2 (p 0) 0 2 0 2 (p 1) (-1) 3 (-1) 3 (p 2))). vm_compute. reflexivity. Qed.

(** ** Systems that meet the hypotheses *)

Definition cols1 : list (list Z) := [[0]; [-1]; [1]].
Definition cols2 : list (list Z) := [[0; 0]; [-1; 0]; [1; 0]; [0; -1]; [0; 1]].
Definition cols3 : list (list Z) := [[0; 0; 0]; [-1; 0; 0]; [1; 0; 0]; [0; -1; 0]; [0; 1; 0]; [0; 0; -1]; [0; 0; 1]].

(** All entries of the matrix are 2; the unknowns [v]; the right-hand side [b]; a
    scratch array. *)
Definition sys (cols : list (list Z)) (b : QcS) (v : list QcS) : mem QcS :=
  mkMem [repeat (lit 2 : QcS) 300; repeat b 60; v; repeat (lit 0 : QcS) 60] [List.concat cols].
Definition rampc : list QcS := map (fun i => lit (Z.of_nat i * Z.of_nat i) : QcS) (seq 0 100).
Definition ones : list QcS := repeat (lit 1 : QcS) 100.

Ltac cases_of_box H := unfold coloured in H; cbn [fst] in H; try (let H2 := fresh in destruct H as [H H2]);
  repeat match goal with H : in_box (_ :: _) _ |- _ => inversion_clear H; cbn [fst snd] in *
    | H : Forall2 _ (_ :: _) _ |- _ => inversion_clear H; cbn [fst snd] in *
    | H : in_box [] _ |- _ => inversion_clear H | H : Forall2 _ [] _ |- _ => inversion_clear H end;
  repeat match goal with H : ?a <= ?x <= ?b |- _ => is_var x;
    let D := fresh in assert (D : x = 0 \/ x = 1) by lia; clear H; destruct D; subst x end.

Lemma sys_table cols b v d : Forall (fun col => length col = d) cols -> forallb (fun s => forallb (fun n =>
    match loadi (sys cols b v) (faddr (mkFa (p 0) [(0, Z.of_nat d - 1); (0, Z.of_nat (length cols) - 1)]) [Z.of_nat n; Z.of_nat s]) with
    | Some o => o =? nth n (nth s cols []) 0 | None => false end) (seq 0 d)) (seq 0 (length cols)) = true ->
  table_is (sys cols b v) (mkFa (p 0) [(0, Z.of_nat d - 1); (0, Z.of_nat (length cols) - 1)]) cols.
Proof.
  intros Hd Hb s col Es n o En. rewrite forallb_forall in Hb. rewrite Forall_forall in Hd.
  assert (s < length cols)%nat by (apply nth_error_Some; congruence).
  assert (n < length col)%nat by (apply nth_error_Some; congruence).
  rewrite (Hd col (nth_error_In _ _ Es)) in *.
  specialize (Hb s ltac:(apply in_seq; lia)). rewrite forallb_forall in Hb. specialize (Hb n ltac:(apply in_seq; lia)).
  destruct (loadi _ _) as [o'|]; [|discriminate]. apply Z.eqb_eq in Hb. rewrite (nth_error_nth _ _ _ Es) in Hb. rewrite (nth_error_nth _ _ _ En) in Hb. subst. reflexivity.
Qed.

Lemma sys_diagonal cols b v st c : fst (fa_ptr st) = 0%nat -> fel st c (sys cols b v) <> Some (lit 0).
Proof.
  intros H E. unfold fel, load in E. destruct (faddr st c) as [k a] eqn:F. unfold faddr, padd in F. cbn [fst snd] in *.
  assert (k = 0%nat) as -> by (injection F; congruence). cbn [sys cells nth_error bind fst snd] in E.
  unfold nthZ in E. destruct (a <? 0); [discriminate|]. apply nth_error_In, repeat_spec in E. apply (f_equal this) in E. vm_compute in E. discriminate.
Qed.

(** Unknowns 1 solve the equations with the right-hand side [2 n]. *)
Definition rhs (n : Z) : QcS := total 0 (n - 1) (fun _ => (lit 2 * lit 1 : QcS)%T).

Definition shifted (c col : list Z) : list Z := map (fun q => fst q + snd q) (combine c col).

Lemma sys_solves cols tab st f u c : table_is (sys cols (rhs (Z.of_nat (length cols))) ones) tab cols ->
  Forall (fun col => length col = length c) cols ->
  (forall s, In s (seq 0 (length cols)) -> fel st (Z.of_nat s :: c) (sys cols (rhs (Z.of_nat (length cols))) ones) = Some (lit 2) /\
     fel u (shifted c (nth s cols [])) (sys cols (rhs (Z.of_nat (length cols))) ones) = Some (lit 1)) ->
  fel f c (sys cols (rhs (Z.of_nat (length cols))) ones) = Some (rhs (Z.of_nat (length cols))) ->
  solves (sys cols (rhs (Z.of_nat (length cols))) ones) tab st (Z.of_nat (length cols)) f u c.
Proof.
  intros T Hl Hs Hf. exists (rhs (Z.of_nat (length cols))). split; [exact Hf|].
  exists (fun _ => lit 2), (fun _ => lit 1). split; [|reflexivity].
  intros s Hb. destruct (Hs (Z.to_nat s) ltac:(apply in_seq; lia)) as [H1 H2]. rewrite Z2Nat.id in H1 by lia.
  split; [exact H1|]. exists (shifted c (nth (Z.to_nat s) cols [])). split; [|exact H2].
  destruct (nth_error cols (Z.to_nat s)) as [col|] eqn:E; [|apply nth_error_None in E; lia].
  rewrite Forall_forall in Hl. pose proof (Hl col (nth_error_In _ _ E)) as Hc.
  rewrite (nth_error_nth _ _ _ E).
  apply (table_displaced _ _ cols s col c _ T E ltac:(lia) Hc). unfold shifted. split.
  - rewrite map_length, combine_length. lia.
  - intros k Hk. change 0 with ((fun q => fst q + snd q) (0, 0)) at 1. rewrite map_nth, combine_nth by congruence. reflexivity.
Qed.
