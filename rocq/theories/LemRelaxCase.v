(** * For the examples of PropertiesRelax *)

From Coq Require Import QArith Qcanon Qcabs.
From Verif Require Import Base LemCells FortranBase FortranSmooth SpecKernel Instances KernelsFlux KernelsApply KernelsStencil
  SpecRow SpecSmooth SpecConverge SpecSolve LemSolve LemSolveOp LemSolveMem LemSolveCase SpecRelax.
Import ListNotations.
Open Scope Z_scope.

(** The arrays of [ex_so] with zeros in the elements [inner] of [u]; besides, room for
    the matrix, the right-hand side, and scratch. *)
Definition rx_mem (n : nat) (inner : list Z) (r : list Qc) (cols : list (list Z)) : mem QcS :=
  mkMem (cells (ex_so n (fun t => if existsb (Z.eqb t) inner then 0 else ex_any t)) ++ [repeat (lit 0 : QcS) 40; r; repeat (lit 0 : QcS) 60]) [List.concat cols].

Lemma rx_table (m : mem QcS) tab cols :
  forallb (fun s => forallb (fun n => match loadi m (faddr tab [Z.of_nat n; Z.of_nat s]) with
    | Some o => o =? nth n (nth s cols []) 0 | None => false end) (seq 0 (length (nth s cols [])))) (seq 0 (length cols)) = true ->
  table_is m tab cols.
Proof.
  intros Hb s col Es n o En. rewrite forallb_forall in Hb.
  assert (s < length cols)%nat by (apply nth_error_Some; congruence).
  assert (n < length col)%nat by (apply nth_error_Some; congruence).
  specialize (Hb s ltac:(apply in_seq; lia)). rewrite (nth_error_nth _ _ _ Es) in Hb. rewrite forallb_forall in Hb. specialize (Hb n ltac:(apply in_seq; lia)).
  destruct (loadi _ _) as [o'|]; [|discriminate]. apply Z.eqb_eq in Hb. rewrite (nth_error_nth _ _ _ En) in Hb. subst. reflexivity.
Qed.

Ltac rx_cell H := repeat match goal with H : in_box _ _ |- _ => inversion_clear H | H : Forall2 _ _ _ |- _ => inversion_clear H end; cbn [fst snd] in * .

Definition rx_v1_1d : mem QcS := rx_mem 4 [1; 2] (map (fun i => r_v1_1d ex_any i) (LemSolveOp.zr (-1) 2)) [[0]; [-1]; [1]].
Definition rxo_v1_1d : option (mem QcS) := (m' <- cd_stencil_1d_offdiag (S := QcS) 0 1 0 1 ex_h (ex_q 2) (0%nat, 0) 0 (10%nat, 0) rx_v1_1d ;;
   cd_stencil_1d_v1diag (S := QcS) 0 1 (0 - 0) (1 + 0) (ex_q 3) (3%nat, 0) 0 (10%nat, 0) m').
Lemma rx_case_v1_1d :
  is_v1_1d ex_any /\
  assembled_v1_1d 0 1 ex_h (ex_q 2) (0%nat, 0) (ex_q 3) 0 (3%nat, 0) 0 (10%nat, 0) (0%nat, 0) 1 (11%nat, 0) (out rxo_v1_1d) (r_v1_1d ex_any) c_v1_1d v0_v1_1d /\
  (forall i, 0 <= i <= 1 + 1 -> (0 <= v0_v1_1d i)%Qc /\ (v0_v1_1d i <= ex_q 2)%Qc) /\
  (forall i, 0 <= i <= 1 -> (ex_q 3 <= ex_q 3 * c_v1_1d i)%Qc) /\
  equals (out rxo_v1_1d) (mkFa (4%nat, 0) (CELL1d 0 1 1)) (at1 (w_v1_1d ex_any)) (around (mkFa (4%nat, 0) (CELL1d 0 1 1)) [(0, 1)]) /\
  within (out rxo_v1_1d) (mkFa (4%nat, 0) (CELL1d 0 1 1)) (at1 (w_v1_1d ex_any)) (ex_q 3) (in_box [(0, 1)]) /\
  (exists m, repeated 2 (cellgs1d 0 1 3 (0%nat, 0) (0 - 0) (1 + 0) (10%nat, 0) (0 - 1) (1 + 1) (11%nat, 0) (0 - 1) (1 + 1) (4%nat, 0)) (out rxo_v1_1d) = Some m) /\
  (exists m, repeated 2 (twice (cellrbgs1d 0 1 0 3 (0%nat, 0) (0 - 0) (1 + 0) (10%nat, 0) (0 - 1) (1 + 1) (11%nat, 0) (0 - 1) (1 + 1) (4%nat, 0))
     (cellrbgs1d 0 1 1 3 (0%nat, 0) (0 - 0) (1 + 0) (10%nat, 0) (0 - 1) (1 + 1) (11%nat, 0) (0 - 1) (1 + 1) (4%nat, 0))) (out rxo_v1_1d) = Some m) /\
  (exists m, repeated 2 (celljacobi1d 0 1 3 (0%nat, 0) (0 - 0) (1 + 0) (10%nat, 0) (0 - 1) (1 + 1) (11%nat, 0) (0 - 1) (1 + 1) (4%nat, 0) (12%nat, 0)) (out rxo_v1_1d) = Some m).
Proof.
  split; [exact ex_any_v1_1d|].
  split.
  { unfold assembled_v1_1d. split; [lia|]. split; [k_apart|]. exists rx_v1_1d.
    split; [intros i Ii; apply num; exact (all1 (fun i => is_num rx_v1_1d (faddr (mkFa (0%nat, 0) (FACE1d 0 1 0)) [i]) (v0_v1_1d i)) 0 2 ltac:(vm_compute; reflexivity) i Ii)|].
    split; [intros i Ii; apply num; exact (all1 (fun i => is_num rx_v1_1d (faddr (mkFa (3%nat, 0) (CELL1d 0 1 0)) [i]) (c_v1_1d i)) 0 1 ltac:(vm_compute; reflexivity) i Ii)|].
    split; [exact (ran rxo_v1_1d ltac:(vm_compute; reflexivity))|].
    split; [apply rx_table; vm_compute; reflexivity|].
    intros i Ii; apply num; exact (all1 (fun i => is_num (out rxo_v1_1d) (faddr (mkFa (11%nat, 0) (CELL1d 0 1 1)) [i]) (r_v1_1d ex_any i)) 0 1 ltac:(vm_compute; reflexivity) i Ii). }
  split; [intros i Ii; split; apply le; [exact (all1 (fun i => is_le (Q2Qc 0) (v0_v1_1d i)) 0 2 ltac:(vm_compute; reflexivity) i Ii)|exact (all1 (fun i => is_le (v0_v1_1d i) (ex_q 2)) 0 2 ltac:(vm_compute; reflexivity) i Ii)]|].
  split; [intros i Ii; apply le; exact (all1 (fun i => is_le (ex_q 3) (ex_q 3 * c_v1_1d i)%Qc) 0 1 ltac:(vm_compute; reflexivity) i Ii)|].
  split.
  { intros cell [Hc Nc]. unfold CELL1d in Hc. cbn [fa_dims] in Hc. revert Nc. rx_cell Hc. intros Nc. apply num.
    match goal with |- context [at1 _ (?pi ::  nil)] => rename pi into i; idtac end.
    assert (Hn := all1 (fun i => (((0 <=? i) && (i <=? 1))) || is_num (out rxo_v1_1d) (faddr (mkFa (4%nat, 0) (CELL1d 0 1 1)) [i]) (w_v1_1d ex_any i)) (-1) 2 ltac:(vm_compute; reflexivity) i ltac:(lia)). cbv beta in Hn. apply orb_true_iff in Hn. destruct Hn as [Hn|Hn]; [|exact Hn].
    exfalso. apply Nc. rewrite ?andb_true_iff, ?Z.leb_le in Hn. repeat constructor; cbn [fst snd]; lia. }
  split.
  { intros cell Hc. rx_cell Hc. exists 0%Qc. match goal with |- context [at1 _ (?pi ::  nil)] => rename pi into i; idtac end.
    split; [apply num; exact (all1 (fun i => is_num (out rxo_v1_1d) (faddr (mkFa (4%nat, 0) (CELL1d 0 1 1)) [i]) (Q2Qc 0)) 0 1 ltac:(vm_compute; reflexivity) i ltac:(lia))|apply le; exact (all1 (fun i => is_le (Qcabs (0 - w_v1_1d ex_any i))%Qc (ex_q 3)) 0 1 ltac:(vm_compute; reflexivity) i ltac:(lia))]. }
  split; [|split]; eexists; apply ran; vm_compute; reflexivity.
Qed.

Definition rx_v2_1d : mem QcS := rx_mem 4 [1; 2] (map (fun i => r_v2_1d ex_any i) (LemSolveOp.zr (-1) 2)) [[0]; [-1]; [1]].
Definition rxo_v2_1d : option (mem QcS) := (m' <- cd_stencil_1d_offdiag (S := QcS) 0 1 0 1 ex_h (ex_q 2) (0%nat, 0) 0 (10%nat, 0) rx_v2_1d ;;
   cd_stencil_1d_v2diag (S := QcS) 0 1 (ex_q 3) 0 (10%nat, 0) m').
Lemma rx_case_v2_1d :
  is_v2_1d ex_any /\
  assembled_v2_1d 0 1 ex_h (ex_q 2) (0%nat, 0) (ex_q 3) 0 (10%nat, 0) (0%nat, 0) 1 (11%nat, 0) (out rxo_v2_1d) (r_v2_1d ex_any) v0_v2_1d /\
  (forall i, 0 <= i <= 1 + 1 -> (0 <= v0_v2_1d i)%Qc /\ (v0_v2_1d i <= ex_q 2)%Qc) /\
  (ex_q 3 <= ex_q 3)%Qc /\
  equals (out rxo_v2_1d) (mkFa (4%nat, 0) (CELL1d 0 1 1)) (at1 (w_v2_1d ex_any)) (around (mkFa (4%nat, 0) (CELL1d 0 1 1)) [(0, 1)]) /\
  within (out rxo_v2_1d) (mkFa (4%nat, 0) (CELL1d 0 1 1)) (at1 (w_v2_1d ex_any)) (ex_q 3) (in_box [(0, 1)]) /\
  (exists m, repeated 2 (cellgs1d 0 1 3 (0%nat, 0) (0 - 0) (1 + 0) (10%nat, 0) (0 - 1) (1 + 1) (11%nat, 0) (0 - 1) (1 + 1) (4%nat, 0)) (out rxo_v2_1d) = Some m) /\
  (exists m, repeated 2 (twice (cellrbgs1d 0 1 0 3 (0%nat, 0) (0 - 0) (1 + 0) (10%nat, 0) (0 - 1) (1 + 1) (11%nat, 0) (0 - 1) (1 + 1) (4%nat, 0))
     (cellrbgs1d 0 1 1 3 (0%nat, 0) (0 - 0) (1 + 0) (10%nat, 0) (0 - 1) (1 + 1) (11%nat, 0) (0 - 1) (1 + 1) (4%nat, 0))) (out rxo_v2_1d) = Some m) /\
  (exists m, repeated 2 (celljacobi1d 0 1 3 (0%nat, 0) (0 - 0) (1 + 0) (10%nat, 0) (0 - 1) (1 + 1) (11%nat, 0) (0 - 1) (1 + 1) (4%nat, 0) (12%nat, 0)) (out rxo_v2_1d) = Some m).
Proof.
  split; [exact ex_any_v2_1d|].
  split.
  { unfold assembled_v2_1d. split; [lia|]. split; [k_apart|]. exists rx_v2_1d.
    split; [intros i Ii; apply num; exact (all1 (fun i => is_num rx_v2_1d (faddr (mkFa (0%nat, 0) (FACE1d 0 1 0)) [i]) (v0_v2_1d i)) 0 2 ltac:(vm_compute; reflexivity) i Ii)|].
    split; [exact (ran rxo_v2_1d ltac:(vm_compute; reflexivity))|].
    split; [apply rx_table; vm_compute; reflexivity|].
    intros i Ii; apply num; exact (all1 (fun i => is_num (out rxo_v2_1d) (faddr (mkFa (11%nat, 0) (CELL1d 0 1 1)) [i]) (r_v2_1d ex_any i)) 0 1 ltac:(vm_compute; reflexivity) i Ii). }
  split; [intros i Ii; split; apply le; [exact (all1 (fun i => is_le (Q2Qc 0) (v0_v2_1d i)) 0 2 ltac:(vm_compute; reflexivity) i Ii)|exact (all1 (fun i => is_le (v0_v2_1d i) (ex_q 2)) 0 2 ltac:(vm_compute; reflexivity) i Ii)]|].
  split; [apply Qcle_refl|].
  split.
  { intros cell [Hc Nc]. unfold CELL1d in Hc. cbn [fa_dims] in Hc. revert Nc. rx_cell Hc. intros Nc. apply num.
    match goal with |- context [at1 _ (?pi ::  nil)] => rename pi into i; idtac end.
    assert (Hn := all1 (fun i => (((0 <=? i) && (i <=? 1))) || is_num (out rxo_v2_1d) (faddr (mkFa (4%nat, 0) (CELL1d 0 1 1)) [i]) (w_v2_1d ex_any i)) (-1) 2 ltac:(vm_compute; reflexivity) i ltac:(lia)). cbv beta in Hn. apply orb_true_iff in Hn. destruct Hn as [Hn|Hn]; [|exact Hn].
    exfalso. apply Nc. rewrite ?andb_true_iff, ?Z.leb_le in Hn. repeat constructor; cbn [fst snd]; lia. }
  split.
  { intros cell Hc. rx_cell Hc. exists 0%Qc. match goal with |- context [at1 _ (?pi ::  nil)] => rename pi into i; idtac end.
    split; [apply num; exact (all1 (fun i => is_num (out rxo_v2_1d) (faddr (mkFa (4%nat, 0) (CELL1d 0 1 1)) [i]) (Q2Qc 0)) 0 1 ltac:(vm_compute; reflexivity) i ltac:(lia))|apply le; exact (all1 (fun i => is_le (Qcabs (0 - w_v2_1d ex_any i))%Qc (ex_q 3)) 0 1 ltac:(vm_compute; reflexivity) i ltac:(lia))]. }
  split; [|split]; eexists; apply ran; vm_compute; reflexivity.
Qed.

Definition rx_v1_2d : mem QcS := rx_mem 16 [5; 6; 9; 10] (flat_map (fun j => map (fun i => r_v1_2d ex_any i j) (LemSolveOp.zr (-1) 2)) (LemSolveOp.zr (-1) 2)) [[0; 0]; [-1; 0]; [1; 0]; [0; -1]; [0; 1]].
Definition rxo_v1_2d : option (mem QcS) := (m' <- cd_stencil_2d_offdiag (S := QcS) 0 0 1 1 0 0 1 1 ex_h (ex_q 2) (0%nat, 0) (1%nat, 0) 0 (10%nat, 0) rx_v1_2d ;;
   cd_stencil_2d_v1diag (S := QcS) 0 0 1 1 (0 - 0) (0 - 0) (1 + 0) (1 + 0) (ex_q 3) (3%nat, 0) 0 (10%nat, 0) m').
Lemma rx_case_v1_2d :
  is_v1_2d ex_any /\
  assembled_v1_2d 0 0 1 1 ex_h (ex_q 2) (0%nat, 0) (1%nat, 0) (ex_q 3) 0 (3%nat, 0) 0 (10%nat, 0) (0%nat, 0) 1 (11%nat, 0) (out rxo_v1_2d) (r_v1_2d ex_any) c_v1_2d v0_v1_2d v1_v1_2d /\
  (forall i j, 0 <= i <= 1 + 1 -> 0 <= j <= 1 -> (0 <= v0_v1_2d i j)%Qc /\ (v0_v1_2d i j <= ex_q 2)%Qc) /\
  (forall i j, 0 <= i <= 1 -> 0 <= j <= 1 + 1 -> (0 <= v1_v1_2d i j)%Qc /\ (v1_v1_2d i j <= ex_q 2)%Qc) /\
  (forall i j, 0 <= i <= 1 -> 0 <= j <= 1 -> (ex_q 3 <= ex_q 3 * c_v1_2d i j)%Qc) /\
  equals (out rxo_v1_2d) (mkFa (4%nat, 0) (CELL2d 0 0 1 1 1)) (at2 (w_v1_2d ex_any)) (around (mkFa (4%nat, 0) (CELL2d 0 0 1 1 1)) [(0, 1); (0, 1)]) /\
  within (out rxo_v1_2d) (mkFa (4%nat, 0) (CELL2d 0 0 1 1 1)) (at2 (w_v1_2d ex_any)) (ex_q 3) (in_box [(0, 1); (0, 1)]) /\
  (exists m, repeated 2 (cellgs2d 0 1 0 1 5 (0%nat, 0) (0 - 0) (1 + 0) (0 - 0) (1 + 0) (10%nat, 0) (0 - 1) (1 + 1) (0 - 1) (1 + 1) (11%nat, 0) (0 - 1) (1 + 1) (0 - 1) (1 + 1) (4%nat, 0)) (out rxo_v1_2d) = Some m) /\
  (exists m, repeated 2 (twice (cellrbgs2d 0 1 0 1 0 5 (0%nat, 0) (0 - 0) (1 + 0) (0 - 0) (1 + 0) (10%nat, 0) (0 - 1) (1 + 1) (0 - 1) (1 + 1) (11%nat, 0) (0 - 1) (1 + 1) (0 - 1) (1 + 1) (4%nat, 0))
     (cellrbgs2d 0 1 0 1 1 5 (0%nat, 0) (0 - 0) (1 + 0) (0 - 0) (1 + 0) (10%nat, 0) (0 - 1) (1 + 1) (0 - 1) (1 + 1) (11%nat, 0) (0 - 1) (1 + 1) (0 - 1) (1 + 1) (4%nat, 0))) (out rxo_v1_2d) = Some m) /\
  (exists m, repeated 2 (twice (cells5rbgs2d 0 1 0 1 0 (0 - 0) (1 + 0) (0 - 0) (1 + 0) (10%nat, 0) (0 - 1) (1 + 1) (0 - 1) (1 + 1) (11%nat, 0) (0 - 1) (1 + 1) (0 - 1) (1 + 1) (4%nat, 0))
     (cells5rbgs2d 0 1 0 1 1 (0 - 0) (1 + 0) (0 - 0) (1 + 0) (10%nat, 0) (0 - 1) (1 + 1) (0 - 1) (1 + 1) (11%nat, 0) (0 - 1) (1 + 1) (0 - 1) (1 + 1) (4%nat, 0))) (out rxo_v1_2d) = Some m) /\
  (exists m, repeated 2 (celljacobi2d 0 1 0 1 5 (0%nat, 0) (0 - 0) (1 + 0) (0 - 0) (1 + 0) (10%nat, 0) (0 - 1) (1 + 1) (0 - 1) (1 + 1) (11%nat, 0) (0 - 1) (1 + 1) (0 - 1) (1 + 1) (4%nat, 0) (12%nat, 0) (ex_q 1 : QcS)) (out rxo_v1_2d) = Some m).
Proof.
  split; [exact ex_any_v1_2d|].
  split.
  { unfold assembled_v1_2d. split; [lia|]. split; [k_apart|]. exists rx_v1_2d.
    split; [intros i j Ii Ij; apply num; exact (all2 (fun i j => is_num rx_v1_2d (faddr (mkFa (0%nat, 0) (FACE2d0 0 0 1 1 0)) [i; j]) (v0_v1_2d i j)) 0 0 2 1 ltac:(vm_compute; reflexivity) i j Ii Ij)|].
    split; [intros i j Ii Ij; apply num; exact (all2 (fun i j => is_num rx_v1_2d (faddr (mkFa (1%nat, 0) (FACE2d1 0 0 1 1 0)) [j; i]) (v1_v1_2d i j)) 0 0 1 2 ltac:(vm_compute; reflexivity) i j Ii Ij)|].
    split; [intros i j Ii Ij; apply num; exact (all2 (fun i j => is_num rx_v1_2d (faddr (mkFa (3%nat, 0) (CELL2d 0 0 1 1 0)) [i; j]) (c_v1_2d i j)) 0 0 1 1 ltac:(vm_compute; reflexivity) i j Ii Ij)|].
    split; [exact (ran rxo_v1_2d ltac:(vm_compute; reflexivity))|].
    split; [apply rx_table; vm_compute; reflexivity|].
    intros i j Ii Ij; apply num; exact (all2 (fun i j => is_num (out rxo_v1_2d) (faddr (mkFa (11%nat, 0) (CELL2d 0 0 1 1 1)) [i; j]) (r_v1_2d ex_any i j)) 0 0 1 1 ltac:(vm_compute; reflexivity) i j Ii Ij). }
  split; [intros i j Ii Ij; split; apply le; [exact (all2 (fun i j => is_le (Q2Qc 0) (v0_v1_2d i j)) 0 0 2 1 ltac:(vm_compute; reflexivity) i j Ii Ij)|exact (all2 (fun i j => is_le (v0_v1_2d i j) (ex_q 2)) 0 0 2 1 ltac:(vm_compute; reflexivity) i j Ii Ij)]|].
  split; [intros i j Ii Ij; split; apply le; [exact (all2 (fun i j => is_le (Q2Qc 0) (v1_v1_2d i j)) 0 0 1 2 ltac:(vm_compute; reflexivity) i j Ii Ij)|exact (all2 (fun i j => is_le (v1_v1_2d i j) (ex_q 2)) 0 0 1 2 ltac:(vm_compute; reflexivity) i j Ii Ij)]|].
  split; [intros i j Ii Ij; apply le; exact (all2 (fun i j => is_le (ex_q 3) (ex_q 3 * c_v1_2d i j)%Qc) 0 0 1 1 ltac:(vm_compute; reflexivity) i j Ii Ij)|].
  split.
  { intros cell [Hc Nc]. unfold CELL2d in Hc. cbn [fa_dims] in Hc. revert Nc. rx_cell Hc. intros Nc. apply num.
    match goal with |- context [at2 _ (?pi :: ?pj ::  nil)] => rename pi into i; rename pj into j; idtac end.
    assert (Hn := all2 (fun i j => (((0 <=? i) && (i <=? 1)) && ((0 <=? j) && (j <=? 1))) || is_num (out rxo_v1_2d) (faddr (mkFa (4%nat, 0) (CELL2d 0 0 1 1 1)) [i; j]) (w_v1_2d ex_any i j)) (-1) (-1) 2 2 ltac:(vm_compute; reflexivity) i j ltac:(lia) ltac:(lia)). cbv beta in Hn. apply orb_true_iff in Hn. destruct Hn as [Hn|Hn]; [|exact Hn].
    exfalso. apply Nc. rewrite ?andb_true_iff, ?Z.leb_le in Hn. repeat constructor; cbn [fst snd]; lia. }
  split.
  { intros cell Hc. rx_cell Hc. exists 0%Qc. match goal with |- context [at2 _ (?pi :: ?pj ::  nil)] => rename pi into i; rename pj into j; idtac end.
    split; [apply num; exact (all2 (fun i j => is_num (out rxo_v1_2d) (faddr (mkFa (4%nat, 0) (CELL2d 0 0 1 1 1)) [i; j]) (Q2Qc 0)) 0 0 1 1 ltac:(vm_compute; reflexivity) i j ltac:(lia) ltac:(lia))|apply le; exact (all2 (fun i j => is_le (Qcabs (0 - w_v1_2d ex_any i j))%Qc (ex_q 3)) 0 0 1 1 ltac:(vm_compute; reflexivity) i j ltac:(lia) ltac:(lia))]. }
  split; [|split; [|split]]; eexists; apply ran; vm_compute; reflexivity.
Qed.

Definition rx_v2_2d : mem QcS := rx_mem 16 [5; 6; 9; 10] (flat_map (fun j => map (fun i => r_v2_2d ex_any i j) (LemSolveOp.zr (-1) 2)) (LemSolveOp.zr (-1) 2)) [[0; 0]; [-1; 0]; [1; 0]; [0; -1]; [0; 1]].
Definition rxo_v2_2d : option (mem QcS) := (m' <- cd_stencil_2d_offdiag (S := QcS) 0 0 1 1 0 0 1 1 ex_h (ex_q 2) (0%nat, 0) (1%nat, 0) 0 (10%nat, 0) rx_v2_2d ;;
   cd_stencil_2d_v2diag (S := QcS) 0 0 1 1 (ex_q 3) 0 (10%nat, 0) m').
Lemma rx_case_v2_2d :
  is_v2_2d ex_any /\
  assembled_v2_2d 0 0 1 1 ex_h (ex_q 2) (0%nat, 0) (1%nat, 0) (ex_q 3) 0 (10%nat, 0) (0%nat, 0) 1 (11%nat, 0) (out rxo_v2_2d) (r_v2_2d ex_any) v0_v2_2d v1_v2_2d /\
  (forall i j, 0 <= i <= 1 + 1 -> 0 <= j <= 1 -> (0 <= v0_v2_2d i j)%Qc /\ (v0_v2_2d i j <= ex_q 2)%Qc) /\
  (forall i j, 0 <= i <= 1 -> 0 <= j <= 1 + 1 -> (0 <= v1_v2_2d i j)%Qc /\ (v1_v2_2d i j <= ex_q 2)%Qc) /\
  (ex_q 3 <= ex_q 3)%Qc /\
  equals (out rxo_v2_2d) (mkFa (4%nat, 0) (CELL2d 0 0 1 1 1)) (at2 (w_v2_2d ex_any)) (around (mkFa (4%nat, 0) (CELL2d 0 0 1 1 1)) [(0, 1); (0, 1)]) /\
  within (out rxo_v2_2d) (mkFa (4%nat, 0) (CELL2d 0 0 1 1 1)) (at2 (w_v2_2d ex_any)) (ex_q 3) (in_box [(0, 1); (0, 1)]) /\
  (exists m, repeated 2 (cellgs2d 0 1 0 1 5 (0%nat, 0) (0 - 0) (1 + 0) (0 - 0) (1 + 0) (10%nat, 0) (0 - 1) (1 + 1) (0 - 1) (1 + 1) (11%nat, 0) (0 - 1) (1 + 1) (0 - 1) (1 + 1) (4%nat, 0)) (out rxo_v2_2d) = Some m) /\
  (exists m, repeated 2 (twice (cellrbgs2d 0 1 0 1 0 5 (0%nat, 0) (0 - 0) (1 + 0) (0 - 0) (1 + 0) (10%nat, 0) (0 - 1) (1 + 1) (0 - 1) (1 + 1) (11%nat, 0) (0 - 1) (1 + 1) (0 - 1) (1 + 1) (4%nat, 0))
     (cellrbgs2d 0 1 0 1 1 5 (0%nat, 0) (0 - 0) (1 + 0) (0 - 0) (1 + 0) (10%nat, 0) (0 - 1) (1 + 1) (0 - 1) (1 + 1) (11%nat, 0) (0 - 1) (1 + 1) (0 - 1) (1 + 1) (4%nat, 0))) (out rxo_v2_2d) = Some m) /\
  (exists m, repeated 2 (twice (cells5rbgs2d 0 1 0 1 0 (0 - 0) (1 + 0) (0 - 0) (1 + 0) (10%nat, 0) (0 - 1) (1 + 1) (0 - 1) (1 + 1) (11%nat, 0) (0 - 1) (1 + 1) (0 - 1) (1 + 1) (4%nat, 0))
     (cells5rbgs2d 0 1 0 1 1 (0 - 0) (1 + 0) (0 - 0) (1 + 0) (10%nat, 0) (0 - 1) (1 + 1) (0 - 1) (1 + 1) (11%nat, 0) (0 - 1) (1 + 1) (0 - 1) (1 + 1) (4%nat, 0))) (out rxo_v2_2d) = Some m) /\
  (exists m, repeated 2 (celljacobi2d 0 1 0 1 5 (0%nat, 0) (0 - 0) (1 + 0) (0 - 0) (1 + 0) (10%nat, 0) (0 - 1) (1 + 1) (0 - 1) (1 + 1) (11%nat, 0) (0 - 1) (1 + 1) (0 - 1) (1 + 1) (4%nat, 0) (12%nat, 0) (ex_q 1 : QcS)) (out rxo_v2_2d) = Some m).
Proof.
  split; [exact ex_any_v2_2d|].
  split.
  { unfold assembled_v2_2d. split; [lia|]. split; [k_apart|]. exists rx_v2_2d.
    split; [intros i j Ii Ij; apply num; exact (all2 (fun i j => is_num rx_v2_2d (faddr (mkFa (0%nat, 0) (FACE2d0 0 0 1 1 0)) [i; j]) (v0_v2_2d i j)) 0 0 2 1 ltac:(vm_compute; reflexivity) i j Ii Ij)|].
    split; [intros i j Ii Ij; apply num; exact (all2 (fun i j => is_num rx_v2_2d (faddr (mkFa (1%nat, 0) (FACE2d1 0 0 1 1 0)) [j; i]) (v1_v2_2d i j)) 0 0 1 2 ltac:(vm_compute; reflexivity) i j Ii Ij)|].
    split; [exact (ran rxo_v2_2d ltac:(vm_compute; reflexivity))|].
    split; [apply rx_table; vm_compute; reflexivity|].
    intros i j Ii Ij; apply num; exact (all2 (fun i j => is_num (out rxo_v2_2d) (faddr (mkFa (11%nat, 0) (CELL2d 0 0 1 1 1)) [i; j]) (r_v2_2d ex_any i j)) 0 0 1 1 ltac:(vm_compute; reflexivity) i j Ii Ij). }
  split; [intros i j Ii Ij; split; apply le; [exact (all2 (fun i j => is_le (Q2Qc 0) (v0_v2_2d i j)) 0 0 2 1 ltac:(vm_compute; reflexivity) i j Ii Ij)|exact (all2 (fun i j => is_le (v0_v2_2d i j) (ex_q 2)) 0 0 2 1 ltac:(vm_compute; reflexivity) i j Ii Ij)]|].
  split; [intros i j Ii Ij; split; apply le; [exact (all2 (fun i j => is_le (Q2Qc 0) (v1_v2_2d i j)) 0 0 1 2 ltac:(vm_compute; reflexivity) i j Ii Ij)|exact (all2 (fun i j => is_le (v1_v2_2d i j) (ex_q 2)) 0 0 1 2 ltac:(vm_compute; reflexivity) i j Ii Ij)]|].
  split; [apply Qcle_refl|].
  split.
  { intros cell [Hc Nc]. unfold CELL2d in Hc. cbn [fa_dims] in Hc. revert Nc. rx_cell Hc. intros Nc. apply num.
    match goal with |- context [at2 _ (?pi :: ?pj ::  nil)] => rename pi into i; rename pj into j; idtac end.
    assert (Hn := all2 (fun i j => (((0 <=? i) && (i <=? 1)) && ((0 <=? j) && (j <=? 1))) || is_num (out rxo_v2_2d) (faddr (mkFa (4%nat, 0) (CELL2d 0 0 1 1 1)) [i; j]) (w_v2_2d ex_any i j)) (-1) (-1) 2 2 ltac:(vm_compute; reflexivity) i j ltac:(lia) ltac:(lia)). cbv beta in Hn. apply orb_true_iff in Hn. destruct Hn as [Hn|Hn]; [|exact Hn].
    exfalso. apply Nc. rewrite ?andb_true_iff, ?Z.leb_le in Hn. repeat constructor; cbn [fst snd]; lia. }
  split.
  { intros cell Hc. rx_cell Hc. exists 0%Qc. match goal with |- context [at2 _ (?pi :: ?pj ::  nil)] => rename pi into i; rename pj into j; idtac end.
    split; [apply num; exact (all2 (fun i j => is_num (out rxo_v2_2d) (faddr (mkFa (4%nat, 0) (CELL2d 0 0 1 1 1)) [i; j]) (Q2Qc 0)) 0 0 1 1 ltac:(vm_compute; reflexivity) i j ltac:(lia) ltac:(lia))|apply le; exact (all2 (fun i j => is_le (Qcabs (0 - w_v2_2d ex_any i j))%Qc (ex_q 3)) 0 0 1 1 ltac:(vm_compute; reflexivity) i j ltac:(lia) ltac:(lia))]. }
  split; [|split; [|split]]; eexists; apply ran; vm_compute; reflexivity.
Qed.

Definition rx_v1_3d : mem QcS := rx_mem 48 [21; 22; 25; 26] (flat_map (fun k => flat_map (fun j => map (fun i => r_v1_3d ex_any i j k) (LemSolveOp.zr (-1) 2)) (LemSolveOp.zr (-1) 2)) (LemSolveOp.zr (-1) 1)) [[0; 0; 0]; [-1; 0; 0]; [1; 0; 0]; [0; -1; 0]; [0; 1; 0]; [0; 0; -1]; [0; 0; 1]].
Definition rxo_v1_3d : option (mem QcS) := (m' <- cd_stencil_3d_offdiag (S := QcS) 0 0 0 1 1 0 0 0 0 1 1 0 ex_h (ex_q 2) (0%nat, 0) (1%nat, 0) (2%nat, 0) 0 (10%nat, 0) rx_v1_3d ;;
   cd_stencil_3d_v1diag (S := QcS) 0 0 0 1 1 0 (0 - 0) (0 - 0) (0 - 0) (1 + 0) (1 + 0) (0 + 0) (ex_q 3) (3%nat, 0) 0 (10%nat, 0) m').
Lemma rx_case_v1_3d :
  is_v1_3d ex_any /\
  assembled_v1_3d 0 0 0 1 1 0 ex_h (ex_q 2) (0%nat, 0) (1%nat, 0) (2%nat, 0) (ex_q 3) 0 (3%nat, 0) 0 (10%nat, 0) (0%nat, 0) 1 (11%nat, 0) (out rxo_v1_3d) (r_v1_3d ex_any) c_v1_3d v0_v1_3d v1_v1_3d v2_v1_3d /\
  (forall i j k, 0 <= i <= 1 + 1 -> 0 <= j <= 1 -> 0 <= k <= 0 -> (0 <= v0_v1_3d i j k)%Qc /\ (v0_v1_3d i j k <= ex_q 2)%Qc) /\
  (forall i j k, 0 <= i <= 1 -> 0 <= j <= 1 + 1 -> 0 <= k <= 0 -> (0 <= v1_v1_3d i j k)%Qc /\ (v1_v1_3d i j k <= ex_q 2)%Qc) /\
  (forall i j k, 0 <= i <= 1 -> 0 <= j <= 1 -> 0 <= k <= 0 + 1 -> (0 <= v2_v1_3d i j k)%Qc /\ (v2_v1_3d i j k <= ex_q 2)%Qc) /\
  (forall i j k, 0 <= i <= 1 -> 0 <= j <= 1 -> 0 <= k <= 0 -> (ex_q 3 <= ex_q 3 * c_v1_3d i j k)%Qc) /\
  equals (out rxo_v1_3d) (mkFa (4%nat, 0) (CELL3d 0 0 0 1 1 0 1)) (at3 (w_v1_3d ex_any)) (around (mkFa (4%nat, 0) (CELL3d 0 0 0 1 1 0 1)) [(0, 1); (0, 1); (0, 0)]) /\
  within (out rxo_v1_3d) (mkFa (4%nat, 0) (CELL3d 0 0 0 1 1 0 1)) (at3 (w_v1_3d ex_any)) (ex_q 3) (in_box [(0, 1); (0, 1); (0, 0)]) /\
  (exists m, repeated 2 (cellgs3d 0 1 0 1 0 0 7 (0%nat, 0) (0 - 0) (1 + 0) (0 - 0) (1 + 0) (0 - 0) (0 + 0) (10%nat, 0) (0 - 1) (1 + 1) (0 - 1) (1 + 1) (0 - 1) (0 + 1) (11%nat, 0) (0 - 1) (1 + 1) (0 - 1) (1 + 1) (0 - 1) (0 + 1) (4%nat, 0)) (out rxo_v1_3d) = Some m) /\
  (exists m, repeated 2 (twice (cellrbgs3d 0 1 0 1 0 0 0 7 (0%nat, 0) (0 - 0) (1 + 0) (0 - 0) (1 + 0) (0 - 0) (0 + 0) (10%nat, 0) (0 - 1) (1 + 1) (0 - 1) (1 + 1) (0 - 1) (0 + 1) (11%nat, 0) (0 - 1) (1 + 1) (0 - 1) (1 + 1) (0 - 1) (0 + 1) (4%nat, 0))
     (cellrbgs3d 0 1 0 1 0 0 1 7 (0%nat, 0) (0 - 0) (1 + 0) (0 - 0) (1 + 0) (0 - 0) (0 + 0) (10%nat, 0) (0 - 1) (1 + 1) (0 - 1) (1 + 1) (0 - 1) (0 + 1) (11%nat, 0) (0 - 1) (1 + 1) (0 - 1) (1 + 1) (0 - 1) (0 + 1) (4%nat, 0))) (out rxo_v1_3d) = Some m) /\
  (exists m, repeated 2 (twice (cells7rbgs3d 0 1 0 1 0 0 0 (0 - 0) (1 + 0) (0 - 0) (1 + 0) (0 - 0) (0 + 0) (10%nat, 0) (0 - 1) (1 + 1) (0 - 1) (1 + 1) (0 - 1) (0 + 1) (11%nat, 0) (0 - 1) (1 + 1) (0 - 1) (1 + 1) (0 - 1) (0 + 1) (4%nat, 0))
     (cells7rbgs3d 0 1 0 1 0 0 1 (0 - 0) (1 + 0) (0 - 0) (1 + 0) (0 - 0) (0 + 0) (10%nat, 0) (0 - 1) (1 + 1) (0 - 1) (1 + 1) (0 - 1) (0 + 1) (11%nat, 0) (0 - 1) (1 + 1) (0 - 1) (1 + 1) (0 - 1) (0 + 1) (4%nat, 0))) (out rxo_v1_3d) = Some m) /\
  (exists m, repeated 2 (celljacobi3d 0 1 0 1 0 0 7 (0%nat, 0) (0 - 0) (1 + 0) (0 - 0) (1 + 0) (0 - 0) (0 + 0) (10%nat, 0) (0 - 1) (1 + 1) (0 - 1) (1 + 1) (0 - 1) (0 + 1) (11%nat, 0) (0 - 1) (1 + 1) (0 - 1) (1 + 1) (0 - 1) (0 + 1) (4%nat, 0) (12%nat, 0) (ex_q 1 : QcS)) (out rxo_v1_3d) = Some m).
Proof.
  split; [exact ex_any_v1_3d|].
  split.
  { unfold assembled_v1_3d. split; [lia|]. split; [k_apart|]. exists rx_v1_3d.
    split; [intros i j k Ii Ij Ik; apply num; exact (all3 (fun i j k => is_num rx_v1_3d (faddr (mkFa (0%nat, 0) (FACE3d0 0 0 0 1 1 0 0)) [i; j; k]) (v0_v1_3d i j k)) 0 0 0 2 1 0 ltac:(vm_compute; reflexivity) i j k Ii Ij Ik)|].
    split; [intros i j k Ii Ij Ik; apply num; exact (all3 (fun i j k => is_num rx_v1_3d (faddr (mkFa (1%nat, 0) (FACE3d1 0 0 0 1 1 0 0)) [j; k; i]) (v1_v1_3d i j k)) 0 0 0 1 2 0 ltac:(vm_compute; reflexivity) i j k Ii Ij Ik)|].
    split; [intros i j k Ii Ij Ik; apply num; exact (all3 (fun i j k => is_num rx_v1_3d (faddr (mkFa (2%nat, 0) (FACE3d2 0 0 0 1 1 0 0)) [k; i; j]) (v2_v1_3d i j k)) 0 0 0 1 1 1 ltac:(vm_compute; reflexivity) i j k Ii Ij Ik)|].
    split; [intros i j k Ii Ij Ik; apply num; exact (all3 (fun i j k => is_num rx_v1_3d (faddr (mkFa (3%nat, 0) (CELL3d 0 0 0 1 1 0 0)) [i; j; k]) (c_v1_3d i j k)) 0 0 0 1 1 0 ltac:(vm_compute; reflexivity) i j k Ii Ij Ik)|].
    split; [exact (ran rxo_v1_3d ltac:(vm_compute; reflexivity))|].
    split; [apply rx_table; vm_compute; reflexivity|].
    intros i j k Ii Ij Ik; apply num; exact (all3 (fun i j k => is_num (out rxo_v1_3d) (faddr (mkFa (11%nat, 0) (CELL3d 0 0 0 1 1 0 1)) [i; j; k]) (r_v1_3d ex_any i j k)) 0 0 0 1 1 0 ltac:(vm_compute; reflexivity) i j k Ii Ij Ik). }
  split; [intros i j k Ii Ij Ik; split; apply le; [exact (all3 (fun i j k => is_le (Q2Qc 0) (v0_v1_3d i j k)) 0 0 0 2 1 0 ltac:(vm_compute; reflexivity) i j k Ii Ij Ik)|exact (all3 (fun i j k => is_le (v0_v1_3d i j k) (ex_q 2)) 0 0 0 2 1 0 ltac:(vm_compute; reflexivity) i j k Ii Ij Ik)]|].
  split; [intros i j k Ii Ij Ik; split; apply le; [exact (all3 (fun i j k => is_le (Q2Qc 0) (v1_v1_3d i j k)) 0 0 0 1 2 0 ltac:(vm_compute; reflexivity) i j k Ii Ij Ik)|exact (all3 (fun i j k => is_le (v1_v1_3d i j k) (ex_q 2)) 0 0 0 1 2 0 ltac:(vm_compute; reflexivity) i j k Ii Ij Ik)]|].
  split; [intros i j k Ii Ij Ik; split; apply le; [exact (all3 (fun i j k => is_le (Q2Qc 0) (v2_v1_3d i j k)) 0 0 0 1 1 1 ltac:(vm_compute; reflexivity) i j k Ii Ij Ik)|exact (all3 (fun i j k => is_le (v2_v1_3d i j k) (ex_q 2)) 0 0 0 1 1 1 ltac:(vm_compute; reflexivity) i j k Ii Ij Ik)]|].
  split; [intros i j k Ii Ij Ik; apply le; exact (all3 (fun i j k => is_le (ex_q 3) (ex_q 3 * c_v1_3d i j k)%Qc) 0 0 0 1 1 0 ltac:(vm_compute; reflexivity) i j k Ii Ij Ik)|].
  split.
  { intros cell [Hc Nc]. unfold CELL3d in Hc. cbn [fa_dims] in Hc. revert Nc. rx_cell Hc. intros Nc. apply num.
    match goal with |- context [at3 _ (?pi :: ?pj :: ?pk ::  nil)] => rename pi into i; rename pj into j; rename pk into k; idtac end.
    assert (Hn := all3 (fun i j k => (((0 <=? i) && (i <=? 1)) && ((0 <=? j) && (j <=? 1)) && ((0 <=? k) && (k <=? 0))) || is_num (out rxo_v1_3d) (faddr (mkFa (4%nat, 0) (CELL3d 0 0 0 1 1 0 1)) [i; j; k]) (w_v1_3d ex_any i j k)) (-1) (-1) (-1) 2 2 1 ltac:(vm_compute; reflexivity) i j k ltac:(lia) ltac:(lia) ltac:(lia)). cbv beta in Hn. apply orb_true_iff in Hn. destruct Hn as [Hn|Hn]; [|exact Hn].
    exfalso. apply Nc. rewrite ?andb_true_iff, ?Z.leb_le in Hn. repeat constructor; cbn [fst snd]; lia. }
  split.
  { intros cell Hc. rx_cell Hc. exists 0%Qc. match goal with |- context [at3 _ (?pi :: ?pj :: ?pk ::  nil)] => rename pi into i; rename pj into j; rename pk into k; idtac end.
    split; [apply num; exact (all3 (fun i j k => is_num (out rxo_v1_3d) (faddr (mkFa (4%nat, 0) (CELL3d 0 0 0 1 1 0 1)) [i; j; k]) (Q2Qc 0)) 0 0 0 1 1 0 ltac:(vm_compute; reflexivity) i j k ltac:(lia) ltac:(lia) ltac:(lia))|apply le; exact (all3 (fun i j k => is_le (Qcabs (0 - w_v1_3d ex_any i j k))%Qc (ex_q 3)) 0 0 0 1 1 0 ltac:(vm_compute; reflexivity) i j k ltac:(lia) ltac:(lia) ltac:(lia))]. }
  split; [|split; [|split]]; eexists; apply ran; vm_compute; reflexivity.
Qed.

Definition rx_v2_3d : mem QcS := rx_mem 48 [21; 22; 25; 26] (flat_map (fun k => flat_map (fun j => map (fun i => r_v2_3d ex_any i j k) (LemSolveOp.zr (-1) 2)) (LemSolveOp.zr (-1) 2)) (LemSolveOp.zr (-1) 1)) [[0; 0; 0]; [-1; 0; 0]; [1; 0; 0]; [0; -1; 0]; [0; 1; 0]; [0; 0; -1]; [0; 0; 1]].
Definition rxo_v2_3d : option (mem QcS) := (m' <- cd_stencil_3d_offdiag (S := QcS) 0 0 0 1 1 0 0 0 0 1 1 0 ex_h (ex_q 2) (0%nat, 0) (1%nat, 0) (2%nat, 0) 0 (10%nat, 0) rx_v2_3d ;;
   cd_stencil_3d_v2diag (S := QcS) 0 0 0 1 1 0 (ex_q 3) 0 (10%nat, 0) m').
Lemma rx_case_v2_3d :
  is_v2_3d ex_any /\
  assembled_v2_3d 0 0 0 1 1 0 ex_h (ex_q 2) (0%nat, 0) (1%nat, 0) (2%nat, 0) (ex_q 3) 0 (10%nat, 0) (0%nat, 0) 1 (11%nat, 0) (out rxo_v2_3d) (r_v2_3d ex_any) v0_v2_3d v1_v2_3d v2_v2_3d /\
  (forall i j k, 0 <= i <= 1 + 1 -> 0 <= j <= 1 -> 0 <= k <= 0 -> (0 <= v0_v2_3d i j k)%Qc /\ (v0_v2_3d i j k <= ex_q 2)%Qc) /\
  (forall i j k, 0 <= i <= 1 -> 0 <= j <= 1 + 1 -> 0 <= k <= 0 -> (0 <= v1_v2_3d i j k)%Qc /\ (v1_v2_3d i j k <= ex_q 2)%Qc) /\
  (forall i j k, 0 <= i <= 1 -> 0 <= j <= 1 -> 0 <= k <= 0 + 1 -> (0 <= v2_v2_3d i j k)%Qc /\ (v2_v2_3d i j k <= ex_q 2)%Qc) /\
  (ex_q 3 <= ex_q 3)%Qc /\
  equals (out rxo_v2_3d) (mkFa (4%nat, 0) (CELL3d 0 0 0 1 1 0 1)) (at3 (w_v2_3d ex_any)) (around (mkFa (4%nat, 0) (CELL3d 0 0 0 1 1 0 1)) [(0, 1); (0, 1); (0, 0)]) /\
  within (out rxo_v2_3d) (mkFa (4%nat, 0) (CELL3d 0 0 0 1 1 0 1)) (at3 (w_v2_3d ex_any)) (ex_q 3) (in_box [(0, 1); (0, 1); (0, 0)]) /\
  (exists m, repeated 2 (cellgs3d 0 1 0 1 0 0 7 (0%nat, 0) (0 - 0) (1 + 0) (0 - 0) (1 + 0) (0 - 0) (0 + 0) (10%nat, 0) (0 - 1) (1 + 1) (0 - 1) (1 + 1) (0 - 1) (0 + 1) (11%nat, 0) (0 - 1) (1 + 1) (0 - 1) (1 + 1) (0 - 1) (0 + 1) (4%nat, 0)) (out rxo_v2_3d) = Some m) /\
  (exists m, repeated 2 (twice (cellrbgs3d 0 1 0 1 0 0 0 7 (0%nat, 0) (0 - 0) (1 + 0) (0 - 0) (1 + 0) (0 - 0) (0 + 0) (10%nat, 0) (0 - 1) (1 + 1) (0 - 1) (1 + 1) (0 - 1) (0 + 1) (11%nat, 0) (0 - 1) (1 + 1) (0 - 1) (1 + 1) (0 - 1) (0 + 1) (4%nat, 0))
     (cellrbgs3d 0 1 0 1 0 0 1 7 (0%nat, 0) (0 - 0) (1 + 0) (0 - 0) (1 + 0) (0 - 0) (0 + 0) (10%nat, 0) (0 - 1) (1 + 1) (0 - 1) (1 + 1) (0 - 1) (0 + 1) (11%nat, 0) (0 - 1) (1 + 1) (0 - 1) (1 + 1) (0 - 1) (0 + 1) (4%nat, 0))) (out rxo_v2_3d) = Some m) /\
  (exists m, repeated 2 (twice (cells7rbgs3d 0 1 0 1 0 0 0 (0 - 0) (1 + 0) (0 - 0) (1 + 0) (0 - 0) (0 + 0) (10%nat, 0) (0 - 1) (1 + 1) (0 - 1) (1 + 1) (0 - 1) (0 + 1) (11%nat, 0) (0 - 1) (1 + 1) (0 - 1) (1 + 1) (0 - 1) (0 + 1) (4%nat, 0))
     (cells7rbgs3d 0 1 0 1 0 0 1 (0 - 0) (1 + 0) (0 - 0) (1 + 0) (0 - 0) (0 + 0) (10%nat, 0) (0 - 1) (1 + 1) (0 - 1) (1 + 1) (0 - 1) (0 + 1) (11%nat, 0) (0 - 1) (1 + 1) (0 - 1) (1 + 1) (0 - 1) (0 + 1) (4%nat, 0))) (out rxo_v2_3d) = Some m) /\
  (exists m, repeated 2 (celljacobi3d 0 1 0 1 0 0 7 (0%nat, 0) (0 - 0) (1 + 0) (0 - 0) (1 + 0) (0 - 0) (0 + 0) (10%nat, 0) (0 - 1) (1 + 1) (0 - 1) (1 + 1) (0 - 1) (0 + 1) (11%nat, 0) (0 - 1) (1 + 1) (0 - 1) (1 + 1) (0 - 1) (0 + 1) (4%nat, 0) (12%nat, 0) (ex_q 1 : QcS)) (out rxo_v2_3d) = Some m).
Proof.
  split; [exact ex_any_v2_3d|].
  split.
  { unfold assembled_v2_3d. split; [lia|]. split; [k_apart|]. exists rx_v2_3d.
    split; [intros i j k Ii Ij Ik; apply num; exact (all3 (fun i j k => is_num rx_v2_3d (faddr (mkFa (0%nat, 0) (FACE3d0 0 0 0 1 1 0 0)) [i; j; k]) (v0_v2_3d i j k)) 0 0 0 2 1 0 ltac:(vm_compute; reflexivity) i j k Ii Ij Ik)|].
    split; [intros i j k Ii Ij Ik; apply num; exact (all3 (fun i j k => is_num rx_v2_3d (faddr (mkFa (1%nat, 0) (FACE3d1 0 0 0 1 1 0 0)) [j; k; i]) (v1_v2_3d i j k)) 0 0 0 1 2 0 ltac:(vm_compute; reflexivity) i j k Ii Ij Ik)|].
    split; [intros i j k Ii Ij Ik; apply num; exact (all3 (fun i j k => is_num rx_v2_3d (faddr (mkFa (2%nat, 0) (FACE3d2 0 0 0 1 1 0 0)) [k; i; j]) (v2_v2_3d i j k)) 0 0 0 1 1 1 ltac:(vm_compute; reflexivity) i j k Ii Ij Ik)|].
    split; [exact (ran rxo_v2_3d ltac:(vm_compute; reflexivity))|].
    split; [apply rx_table; vm_compute; reflexivity|].
    intros i j k Ii Ij Ik; apply num; exact (all3 (fun i j k => is_num (out rxo_v2_3d) (faddr (mkFa (11%nat, 0) (CELL3d 0 0 0 1 1 0 1)) [i; j; k]) (r_v2_3d ex_any i j k)) 0 0 0 1 1 0 ltac:(vm_compute; reflexivity) i j k Ii Ij Ik). }
  split; [intros i j k Ii Ij Ik; split; apply le; [exact (all3 (fun i j k => is_le (Q2Qc 0) (v0_v2_3d i j k)) 0 0 0 2 1 0 ltac:(vm_compute; reflexivity) i j k Ii Ij Ik)|exact (all3 (fun i j k => is_le (v0_v2_3d i j k) (ex_q 2)) 0 0 0 2 1 0 ltac:(vm_compute; reflexivity) i j k Ii Ij Ik)]|].
  split; [intros i j k Ii Ij Ik; split; apply le; [exact (all3 (fun i j k => is_le (Q2Qc 0) (v1_v2_3d i j k)) 0 0 0 1 2 0 ltac:(vm_compute; reflexivity) i j k Ii Ij Ik)|exact (all3 (fun i j k => is_le (v1_v2_3d i j k) (ex_q 2)) 0 0 0 1 2 0 ltac:(vm_compute; reflexivity) i j k Ii Ij Ik)]|].
  split; [intros i j k Ii Ij Ik; split; apply le; [exact (all3 (fun i j k => is_le (Q2Qc 0) (v2_v2_3d i j k)) 0 0 0 1 1 1 ltac:(vm_compute; reflexivity) i j k Ii Ij Ik)|exact (all3 (fun i j k => is_le (v2_v2_3d i j k) (ex_q 2)) 0 0 0 1 1 1 ltac:(vm_compute; reflexivity) i j k Ii Ij Ik)]|].
  split; [apply Qcle_refl|].
  split.
  { intros cell [Hc Nc]. unfold CELL3d in Hc. cbn [fa_dims] in Hc. revert Nc. rx_cell Hc. intros Nc. apply num.
    match goal with |- context [at3 _ (?pi :: ?pj :: ?pk ::  nil)] => rename pi into i; rename pj into j; rename pk into k; idtac end.
    assert (Hn := all3 (fun i j k => (((0 <=? i) && (i <=? 1)) && ((0 <=? j) && (j <=? 1)) && ((0 <=? k) && (k <=? 0))) || is_num (out rxo_v2_3d) (faddr (mkFa (4%nat, 0) (CELL3d 0 0 0 1 1 0 1)) [i; j; k]) (w_v2_3d ex_any i j k)) (-1) (-1) (-1) 2 2 1 ltac:(vm_compute; reflexivity) i j k ltac:(lia) ltac:(lia) ltac:(lia)). cbv beta in Hn. apply orb_true_iff in Hn. destruct Hn as [Hn|Hn]; [|exact Hn].
    exfalso. apply Nc. rewrite ?andb_true_iff, ?Z.leb_le in Hn. repeat constructor; cbn [fst snd]; lia. }
  split.
  { intros cell Hc. rx_cell Hc. exists 0%Qc. match goal with |- context [at3 _ (?pi :: ?pj :: ?pk ::  nil)] => rename pi into i; rename pj into j; rename pk into k; idtac end.
    split; [apply num; exact (all3 (fun i j k => is_num (out rxo_v2_3d) (faddr (mkFa (4%nat, 0) (CELL3d 0 0 0 1 1 0 1)) [i; j; k]) (Q2Qc 0)) 0 0 0 1 1 0 ltac:(vm_compute; reflexivity) i j k ltac:(lia) ltac:(lia) ltac:(lia))|apply le; exact (all3 (fun i j k => is_le (Qcabs (0 - w_v2_3d ex_any i j k))%Qc (ex_q 3)) 0 0 0 1 1 0 ltac:(vm_compute; reflexivity) i j k ltac:(lia) ltac:(lia) ltac:(lia))]. }
  split; [|split; [|split]]; eexists; apply ran; vm_compute; reflexivity.
Qed.
