(** * A diagonally dominant system *)

From Coq Require Import QArith Qcanon Qcabs.
From Verif Require Import Base FortranBase FortranSmooth Instances SpecRow SpecSmooth SpecConverge LemBase LemStencil LemSmooth LemCells LemNodeRefute LemSmoothFinal LemSmoothRefute LemConverge5.
Import ListNotations.
Open Scope Z_scope.

(** The diagonal entries are [2 N], the [N] other entries -1, the right-hand sides [N];
    the cells of [u] in the list [z] hold 0, the others 1.  The solution is 1. *)
Definition dsys (cols : list (list Z)) (z : list nat) : mem QcS :=
  let N := Z.of_nat (length cols) - 1 in
  mkMem [List.concat (repeat ((lit (2 * N) : QcS) :: repeat (lit (-1) : QcS) (Z.to_nat N)) 20); repeat (lit N : QcS) 70;
         map (fun i => if existsb (Nat.eqb i) z then lit 0 : QcS else lit 1 : QcS) (seq 0 64); repeat (lit 0 : QcS) 60] [List.concat cols].

Lemma dsys_table cols z d : Forall (fun col => length col = d) cols -> forallb (fun s => forallb (fun n =>
    match loadi (dsys cols z) (faddr (mkFa (p 0) [(0, Z.of_nat d - 1); (0, Z.of_nat (length cols) - 1)]) [Z.of_nat n; Z.of_nat s]) with
    | Some o => o =? nth n (nth s cols []) 0 | None => false end) (seq 0 d)) (seq 0 (length cols)) = true ->
  table_is (dsys cols z) (mkFa (p 0) [(0, Z.of_nat d - 1); (0, Z.of_nat (length cols) - 1)]) cols.
Proof.
  intros Hd Hb s col Es n o En. rewrite forallb_forall in Hb. rewrite Forall_forall in Hd.
  assert (s < length cols)%nat by (apply nth_error_Some; congruence).
  assert (n < length col)%nat by (apply nth_error_Some; congruence).
  rewrite (Hd col (nth_error_In _ _ Es)) in *.
  specialize (Hb s ltac:(apply in_seq; lia)). rewrite forallb_forall in Hb. specialize (Hb n ltac:(apply in_seq; lia)).
  destruct (loadi _ _) as [o'|]; [|discriminate]. apply Z.eqb_eq in Hb. rewrite (nth_error_nth _ _ _ Es) in Hb. rewrite (nth_error_nth _ _ _ En) in Hb. subst. reflexivity.
Qed.

Lemma table_shifted (m : mem QcS) tab cols s col c : table_is m tab cols -> nth_error cols (Z.to_nat s) = Some col -> 0 <= s -> length col = length c ->
  displaced_cell m tab 0 s c (shifted c col).
Proof.
  intros T E Hs Hc. apply (table_displaced _ _ cols s col c _ T E ltac:(lia) Hc). unfold shifted. split.
  - rewrite map_length, combine_length. lia.
  - intros k Hk. change 0 with ((fun q => fst q + snd q) (0, 0)) at 1. rewrite map_nth, combine_nth by congruence. reflexivity.
Qed.

(** The sum of a row. *)
Lemma table_row (m : mem QcS) tab st cols c (cf : Z -> Qc) : table_is m tab cols -> Forall (fun col => length col = length c) cols ->
  (forall s, In s (seq 0 (length cols)) -> fel st (Z.of_nat s :: c) m = Some (cf (Z.of_nat s) : QcS)) ->
  row_sum m tab st 0 0 (Z.of_nat (length cols) - 1) c (fun _ => Some (1%Qc : QcS)) (total (S := QcS) 0 (Z.of_nat (length cols) - 1) (fun s => (cf s * 1)%Qc)).
Proof.
  intros T Hl Hs. exists cf, (fun _ => 1%Qc). split; [|reflexivity]. intros s Hb.
  specialize (Hs (Z.to_nat s) ltac:(apply in_seq; lia)). rewrite Z2Nat.id in Hs by lia. split; [exact Hs|].
  destruct (nth_error cols (Z.to_nat s)) as [col|] eqn:E; [|apply nth_error_None in E; lia].
  rewrite Forall_forall in Hl. exists (shifted c col). split; [|reflexivity].
  apply (table_shifted m tab cols s col c T E ltac:(lia)). apply Hl. exact (nth_error_In _ _ E).
Qed.

Ltac small_box H := repeat match goal with H : in_box _ _ |- _ => inversion_clear H | H : Forall2 _ _ _ |- _ => inversion_clear H end; cbn [fst snd] in * .

(** All hypotheses of [converges] and [keeps_bounds], for the patch 0..1 in every
    direction inside -1..2. *)
Definition dsys_ok (m : mem QcS) (tab st : farray) (n : Z) (f u : farray) (bs : list (Z * Z)) : Prop :=
  fits m tab n u bs /\ dominant m st n (Q2Qc (Qmake 1 2)) (in_box bs) /\ solution m tab st n f (fun _ => 1%Qc) (in_box bs) /\
  equals m u (fun _ => 1%Qc) (around u bs) /\ within m u (fun _ => 1%Qc) 1 (in_box bs) /\
  z_matrix m st n (in_box bs) /\ subsolution m tab st n f (fun _ => 0%Qc) (in_box bs) /\ supersolution m tab st n f (fun _ => 1%Qc) (in_box bs) /\
  at_least m u (fun _ => 0%Qc) (in_box (fa_dims u)) /\ at_most m u (fun _ => 1%Qc) (in_box (fa_dims u)).

Ltac four_cases := repeat match goal with H : ?a <= ?x <= ?b |- _ => is_var x;
    let D := fresh in assert (D : x = -1 \/ x = 0 \/ x = 1 \/ x = 2) by lia; clear H; destruct D as [D|[D|[D|D]]]; subst x end.
Ltac each_entry Hs := cbn in Hs; repeat (destruct Hs as [<-|Hs]; [reflexivity|]); destruct Hs.

Lemma entry_index s n : 1 <= s <= Z.of_nat n - 1 -> exists k, In k (seq 0 n) /\ s = Z.of_nat k.
Proof. intros H. exists (Z.to_nat s). split; [apply in_seq|]; lia. Qed.

Ltac dsys_case cols z d bs tab st :=
  match goal with |- dsys_ok ?m _ _ _ _ ?u _ =>
  let T := fresh "T" in
  assert (T : table_is m tab cols) by (apply (dsys_table cols z d); [repeat constructor|vm_compute; reflexivity]);
  let N := fresh "N" in
  pose (N := Z.of_nat (length cols) - 1);
  pose (cf := fun s : Z => if s =? 0 then (lit (2 * N) : QcS) : Qc else (lit (-1) : QcS) : Qc);
  let R := fresh "R" in
  assert (R : forall c, in_box bs c -> row_sum m tab st 0 0 N c (fun _ => Some (1%Qc : QcS)) (total (S := QcS) 0 N (fun s => (cf s * 1)%Qc)));
  [intros c Hc; apply (table_row m tab st cols c cf T); [apply in_box_len in Hc; rewrite <- Hc; repeat constructor|
     intros s Hs; cases_of_box Hc; each_entry Hs]|];
  assert (V : forall c, in_box (fa_dims u) c -> fel u c m = Some (lit 1) \/ (in_box bs c /\ fel u c m = Some (lit 0)));
  [intros c Hc; cbn [fa_dims CELL1d CELL2d CELL3d] in Hc; small_box Hc; rewrite ?Z.sub_0_r, ?Z.add_0_r in * ; four_cases;
     first [left; reflexivity | right; split; [repeat constructor; cbn; lia|reflexivity]]|];
  assert (I : forall c, in_box bs c -> in_box (fa_dims u) c);
  [intros c Hc; cbn [fa_dims CELL1d CELL2d CELL3d]; small_box Hc; repeat constructor; cbn [fst snd]; lia|];
  unfold dsys_ok; repeat match goal with |- _ /\ _ => split end;
  [ split; [lia|]; split; [exact I|]; split;
    [apply (table_stays m tab cols 1 bs (in_box bs) T); [repeat constructor; cbn; lia|intros c Hc; exact Hc]
    |intros c Hc; apply in_box_len in Hc; apply (table_diagonal m tab cols c T); rewrite <- Hc; reflexivity]
  | intros c Hc; exists (cf 0), cf; split; [cases_of_box Hc; reflexivity|]; split; [discriminate|]; split;
    [intros s Hs; cases_of_box Hc; destruct (entry_index s (length cols) Hs) as (k & Hs' & ->); clear Hs; each_entry Hs'
    |vm_compute; discriminate]
  | intros c Hc; exists (lit N : QcS), (lit N : QcS); split; [cases_of_box Hc; reflexivity|]; split; [|reflexivity];
    replace (lit N : QcS) with (1 * total (S := QcS) 0 N (fun s => (cf s * 1)%Qc) : QcS)%Qc by (apply Qc_is_canon; vm_compute; reflexivity);
    apply constant_row, R; exact Hc
  | intros c [Hc Nc]; destruct (V c Hc) as [E|[K _]]; [exact E|contradiction]
  | intros c Hc; destruct (V c (I c Hc)) as [E|[_ E]]; eexists; (split; [exact E|vm_compute; discriminate])
  | intros c Hc; exists (cf 0), cf; split; [cases_of_box Hc; reflexivity|]; split; [reflexivity|];
    intros s Hs; assert (s =? 0 = false) as E0 by (apply Z.eqb_neq; lia); split; [|unfold cf; rewrite E0; vm_compute; discriminate];
    cases_of_box Hc; clear E0; destruct (entry_index s (length cols) Hs) as (k & Hs' & ->); clear Hs; each_entry Hs'
  | apply constant_sub; intros c Hc; exists (lit N : QcS), (total (S := QcS) 0 N (fun s => (cf s * 1)%Qc)); split; [cases_of_box Hc; reflexivity|]; split; [apply R; exact Hc|vm_compute; discriminate]
  | apply constant_super; intros c Hc; exists (lit N : QcS), (total (S := QcS) 0 N (fun s => (cf s * 1)%Qc)); split; [cases_of_box Hc; reflexivity|]; split; [apply R; exact Hc|vm_compute; discriminate]
  | intros c Hc; destruct (V c Hc) as [E|[_ E]]; eexists; (split; [exact E|vm_compute; discriminate])
  | intros c Hc; destruct (V c Hc) as [E|[_ E]]; eexists; (split; [exact E|vm_compute; discriminate])]
  end.

Definition inner1 : list nat := [1; 2]%nat.
Definition inner2 : list nat := [5; 6; 9; 10]%nat.
Definition inner3 : list nat := [21; 22; 25; 26; 37; 38; 41; 42]%nat.

Lemma dsys1_ok : dsys_ok (dsys cols1 inner1) (mkFa (p 0) [(0, 0); (0, 3 - 1)]) (mkFa (p 0) ((0, 3 - 1) :: CELL1d 0 1 0)) 3
  (mkFa (p 1) (CELL1d (-1) 2 0)) (mkFa (p 2) (CELL1d (-1) 2 0)) [(0, 1)].
Proof. dsys_case cols1 inner1 1%nat ((0, 1) :: @nil (Z * Z)) (mkFa (p 0) [(0, 0); (0, 3 - 1)]) (mkFa (p 0) ((0, 3 - 1) :: CELL1d 0 1 0)). Qed.

Lemma dsys2_ok : dsys_ok (dsys cols2 inner2) (mkFa (p 0) [(0, 1); (0, 5 - 1)]) (mkFa (p 0) ((0, 5 - 1) :: CELL2d 0 0 1 1 0)) 5
  (mkFa (p 1) (CELL2d 0 0 1 1 0)) (mkFa (p 2) (CELL2d (-1) (-1) 2 2 0)) [(0, 1); (0, 1)].
Proof. dsys_case cols2 inner2 2%nat [(0, 1); (0, 1)] (mkFa (p 0) [(0, 1); (0, 5 - 1)]) (mkFa (p 0) ((0, 5 - 1) :: CELL2d 0 0 1 1 0)). Qed.

Lemma dsys3_ok : dsys_ok (dsys cols3 inner3) (mkFa (p 0) [(0, 2); (0, 7 - 1)]) (mkFa (p 0) ((0, 7 - 1) :: CELL3d 0 0 0 1 1 1 0)) 7
  (mkFa (p 1) (CELL3d 0 0 0 1 1 1 0)) (mkFa (p 2) (CELL3d (-1) (-1) (-1) 2 2 2 0)) [(0, 1); (0, 1); (0, 1)].
Proof. dsys_case cols3 inner3 3%nat [(0, 1); (0, 1); (0, 1)] (mkFa (p 0) [(0, 2); (0, 7 - 1)]) (mkFa (p 0) ((0, 7 - 1) :: CELL3d 0 0 0 1 1 1 0)). Qed.
