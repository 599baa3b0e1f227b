(** * For the examples of PropertiesPoisson *)

From Coq Require Import QArith Qcanon Qcabs.
From Verif Require Import Base LemCells FortranBase FortranSmooth SpecKernel Instances KernelsStencil
  SpecRow SpecSmooth SpecConverge SpecSolve LemSolve LemSolveOp LemSolveMem LemSolveCase SpecRelax LemRelaxCase SpecPoisson.
Import ListNotations.
Open Scope Z_scope.

Definition px_1d : mem QcS := rx_mem 4 [1; 2] (map (fun i => laplace_1d ex_h (ex_q 2) (w_v2_1d ex_any) i) (LemSolveOp.zr (-1) 2)) [[0]; [-1]; [1]].
Definition pxo_1d : option (mem QcS) := (m' <- cd_stencil_1d_poisson_offdiag (S := QcS) 0 1 ex_h (ex_q 2) 0 (10%nat, 0) px_1d ;;
   cd_stencil_1d_poisson_diag (S := QcS) 0 1 0 (10%nat, 0) m').
Lemma px_case_1d :
  (0 < ex_q 2)%Qc /\
  ex_h 0 <> 0%Qc /\
  poisson_system_1d 0 1 ex_h (ex_q 2) 0 (10%nat, 0) (0%nat, 0) 1 (11%nat, 0) (out pxo_1d) (w_v2_1d ex_any) /\
  equals (out pxo_1d) (mkFa (4%nat, 0) (CELL1d 0 1 1)) (at1 (w_v2_1d ex_any)) (around (mkFa (4%nat, 0) (CELL1d 0 1 1)) [(0, 1)]) /\
  within (out pxo_1d) (mkFa (4%nat, 0) (CELL1d 0 1 1)) (at1 (w_v2_1d ex_any)) (ex_q 3) (in_box [(0, 1)]) /\
  (exists m, repeated 2 (cellgs1d 0 1 3 (0%nat, 0) (0 - 0) (1 + 0) (10%nat, 0) (0 - 1) (1 + 1) (11%nat, 0) (0 - 1) (1 + 1) (4%nat, 0)) (out pxo_1d) = Some m) /\
  (exists m, repeated 2 (twice (cellrbgs1d 0 1 0 3 (0%nat, 0) (0 - 0) (1 + 0) (10%nat, 0) (0 - 1) (1 + 1) (11%nat, 0) (0 - 1) (1 + 1) (4%nat, 0))
     (cellrbgs1d 0 1 1 3 (0%nat, 0) (0 - 0) (1 + 0) (10%nat, 0) (0 - 1) (1 + 1) (11%nat, 0) (0 - 1) (1 + 1) (4%nat, 0))) (out pxo_1d) = Some m) /\
  (exists m, repeated 2 (celljacobi1d 0 1 3 (0%nat, 0) (0 - 0) (1 + 0) (10%nat, 0) (0 - 1) (1 + 1) (11%nat, 0) (0 - 1) (1 + 1) (4%nat, 0) (12%nat, 0)) (out pxo_1d) = Some m).
Proof.
  split; [reflexivity|].
  split; [discriminate|].
  split.
  { unfold poisson_system_1d. split; [lia|]. split; [exists px_1d; exact (ran pxo_1d ltac:(vm_compute; reflexivity))|].
    split; [apply rx_table; vm_compute; reflexivity|].
    intros i Ii; apply num; exact (all1 (fun i => is_num (out pxo_1d) (faddr (mkFa (11%nat, 0) (CELL1d 0 1 1)) [i]) (laplace_1d ex_h (ex_q 2) (w_v2_1d ex_any) i)) 0 1 ltac:(vm_compute; reflexivity) i Ii). }
  split.
  { intros cell [Hc Nc]. unfold CELL1d in Hc. cbn [fa_dims] in Hc. revert Nc. rx_cell Hc. intros Nc. apply num.
    match goal with |- context [at1 _ (?pi ::  nil)] => rename pi into i; idtac end.
    assert (Hn := all1 (fun i => (((0 <=? i) && (i <=? 1))) || is_num (out pxo_1d) (faddr (mkFa (4%nat, 0) (CELL1d 0 1 1)) [i]) ((w_v2_1d ex_any) i)) (-1) 2 ltac:(vm_compute; reflexivity) i ltac:(lia)). cbv beta in Hn. apply orb_true_iff in Hn. destruct Hn as [Hn|Hn]; [|exact Hn].
    exfalso. apply Nc. rewrite ?andb_true_iff, ?Z.leb_le in Hn. repeat constructor; cbn [fst snd]; lia. }
  split.
  { intros cell Hc. rx_cell Hc. exists 0%Qc. match goal with |- context [at1 _ (?pi ::  nil)] => rename pi into i; idtac end.
    split; [apply num; exact (all1 (fun i => is_num (out pxo_1d) (faddr (mkFa (4%nat, 0) (CELL1d 0 1 1)) [i]) (Q2Qc 0)) 0 1 ltac:(vm_compute; reflexivity) i ltac:(lia))|apply le; exact (all1 (fun i => is_le (Qcabs (0 - (w_v2_1d ex_any) i))%Qc (ex_q 3)) 0 1 ltac:(vm_compute; reflexivity) i ltac:(lia))]. }
  split; [|split]; eexists; apply ran; vm_compute; reflexivity.
Qed.

Definition px_2d : mem QcS := rx_mem 16 [5; 6; 9; 10] (flat_map (fun j => map (fun i => laplace_2d ex_h (ex_q 2) (w_v2_2d ex_any) i j) (LemSolveOp.zr (-1) 2)) (LemSolveOp.zr (-1) 2)) [[0; 0]; [-1; 0]; [1; 0]; [0; -1]; [0; 1]].
Definition pxo_2d : option (mem QcS) := (m' <- cd_stencil_2d_poisson_offdiag (S := QcS) 0 0 1 1 ex_h (ex_q 2) 0 (10%nat, 0) px_2d ;;
   cd_stencil_2d_poisson_diag (S := QcS) 0 0 1 1 0 (10%nat, 0) m').
Lemma px_case_2d :
  (0 < ex_q 2)%Qc /\
  ex_h 0 <> 0%Qc /\
  ex_h 1 <> 0%Qc /\
  poisson_system_2d 0 0 1 1 ex_h (ex_q 2) 0 (10%nat, 0) (0%nat, 0) 1 (11%nat, 0) (out pxo_2d) (w_v2_2d ex_any) /\
  equals (out pxo_2d) (mkFa (4%nat, 0) (CELL2d 0 0 1 1 1)) (at2 (w_v2_2d ex_any)) (around (mkFa (4%nat, 0) (CELL2d 0 0 1 1 1)) [(0, 1); (0, 1)]) /\
  within (out pxo_2d) (mkFa (4%nat, 0) (CELL2d 0 0 1 1 1)) (at2 (w_v2_2d ex_any)) (ex_q 3) (in_box [(0, 1); (0, 1)]) /\
  (exists m, repeated 2 (cellgs2d 0 1 0 1 5 (0%nat, 0) (0 - 0) (1 + 0) (0 - 0) (1 + 0) (10%nat, 0) (0 - 1) (1 + 1) (0 - 1) (1 + 1) (11%nat, 0) (0 - 1) (1 + 1) (0 - 1) (1 + 1) (4%nat, 0)) (out pxo_2d) = Some m) /\
  (exists m, repeated 2 (twice (cellrbgs2d 0 1 0 1 0 5 (0%nat, 0) (0 - 0) (1 + 0) (0 - 0) (1 + 0) (10%nat, 0) (0 - 1) (1 + 1) (0 - 1) (1 + 1) (11%nat, 0) (0 - 1) (1 + 1) (0 - 1) (1 + 1) (4%nat, 0))
     (cellrbgs2d 0 1 0 1 1 5 (0%nat, 0) (0 - 0) (1 + 0) (0 - 0) (1 + 0) (10%nat, 0) (0 - 1) (1 + 1) (0 - 1) (1 + 1) (11%nat, 0) (0 - 1) (1 + 1) (0 - 1) (1 + 1) (4%nat, 0))) (out pxo_2d) = Some m) /\
  (exists m, repeated 2 (twice (cells5rbgs2d 0 1 0 1 0 (0 - 0) (1 + 0) (0 - 0) (1 + 0) (10%nat, 0) (0 - 1) (1 + 1) (0 - 1) (1 + 1) (11%nat, 0) (0 - 1) (1 + 1) (0 - 1) (1 + 1) (4%nat, 0))
     (cells5rbgs2d 0 1 0 1 1 (0 - 0) (1 + 0) (0 - 0) (1 + 0) (10%nat, 0) (0 - 1) (1 + 1) (0 - 1) (1 + 1) (11%nat, 0) (0 - 1) (1 + 1) (0 - 1) (1 + 1) (4%nat, 0))) (out pxo_2d) = Some m) /\
  (exists m, repeated 2 (celljacobi2d 0 1 0 1 5 (0%nat, 0) (0 - 0) (1 + 0) (0 - 0) (1 + 0) (10%nat, 0) (0 - 1) (1 + 1) (0 - 1) (1 + 1) (11%nat, 0) (0 - 1) (1 + 1) (0 - 1) (1 + 1) (4%nat, 0) (12%nat, 0) (ex_q 1 : QcS)) (out pxo_2d) = Some m).
Proof.
  split; [reflexivity|].
  split; [discriminate|].
  split; [discriminate|].
  split.
  { unfold poisson_system_2d. split; [lia|]. split; [exists px_2d; exact (ran pxo_2d ltac:(vm_compute; reflexivity))|].
    split; [apply rx_table; vm_compute; reflexivity|].
    intros i j Ii Ij; apply num; exact (all2 (fun i j => is_num (out pxo_2d) (faddr (mkFa (11%nat, 0) (CELL2d 0 0 1 1 1)) [i; j]) (laplace_2d ex_h (ex_q 2) (w_v2_2d ex_any) i j)) 0 0 1 1 ltac:(vm_compute; reflexivity) i j Ii Ij). }
  split.
  { intros cell [Hc Nc]. unfold CELL2d in Hc. cbn [fa_dims] in Hc. revert Nc. rx_cell Hc. intros Nc. apply num.
    match goal with |- context [at2 _ (?pi :: ?pj ::  nil)] => rename pi into i; rename pj into j; idtac end.
    assert (Hn := all2 (fun i j => (((0 <=? i) && (i <=? 1)) && ((0 <=? j) && (j <=? 1))) || is_num (out pxo_2d) (faddr (mkFa (4%nat, 0) (CELL2d 0 0 1 1 1)) [i; j]) ((w_v2_2d ex_any) i j)) (-1) (-1) 2 2 ltac:(vm_compute; reflexivity) i j ltac:(lia) ltac:(lia)). cbv beta in Hn. apply orb_true_iff in Hn. destruct Hn as [Hn|Hn]; [|exact Hn].
    exfalso. apply Nc. rewrite ?andb_true_iff, ?Z.leb_le in Hn. repeat constructor; cbn [fst snd]; lia. }
  split.
  { intros cell Hc. rx_cell Hc. exists 0%Qc. match goal with |- context [at2 _ (?pi :: ?pj ::  nil)] => rename pi into i; rename pj into j; idtac end.
    split; [apply num; exact (all2 (fun i j => is_num (out pxo_2d) (faddr (mkFa (4%nat, 0) (CELL2d 0 0 1 1 1)) [i; j]) (Q2Qc 0)) 0 0 1 1 ltac:(vm_compute; reflexivity) i j ltac:(lia) ltac:(lia))|apply le; exact (all2 (fun i j => is_le (Qcabs (0 - (w_v2_2d ex_any) i j))%Qc (ex_q 3)) 0 0 1 1 ltac:(vm_compute; reflexivity) i j ltac:(lia) ltac:(lia))]. }
  split; [|split; [|split]]; eexists; apply ran; vm_compute; reflexivity.
Qed.

Definition px_3d : mem QcS := rx_mem 48 [21; 22; 25; 26] (flat_map (fun k => flat_map (fun j => map (fun i => laplace_3d ex_h (ex_q 2) (w_v2_3d ex_any) i j k) (LemSolveOp.zr (-1) 2)) (LemSolveOp.zr (-1) 2)) (LemSolveOp.zr (-1) 1)) [[0; 0; 0]; [-1; 0; 0]; [1; 0; 0]; [0; -1; 0]; [0; 1; 0]; [0; 0; -1]; [0; 0; 1]].
Definition pxo_3d : option (mem QcS) := (m' <- cd_stencil_3d_poisson_offdiag (S := QcS) 0 0 0 1 1 0 ex_h (ex_q 2) 0 (10%nat, 0) px_3d ;;
   cd_stencil_3d_poisson_diag (S := QcS) 0 0 0 1 1 0 0 (10%nat, 0) m').
Lemma px_case_3d :
  (0 < ex_q 2)%Qc /\
  ex_h 0 <> 0%Qc /\
  ex_h 1 <> 0%Qc /\
  ex_h 2 <> 0%Qc /\
  poisson_system_3d 0 0 0 1 1 0 ex_h (ex_q 2) 0 (10%nat, 0) (0%nat, 0) 1 (11%nat, 0) (out pxo_3d) (w_v2_3d ex_any) /\
  equals (out pxo_3d) (mkFa (4%nat, 0) (CELL3d 0 0 0 1 1 0 1)) (at3 (w_v2_3d ex_any)) (around (mkFa (4%nat, 0) (CELL3d 0 0 0 1 1 0 1)) [(0, 1); (0, 1); (0, 0)]) /\
  within (out pxo_3d) (mkFa (4%nat, 0) (CELL3d 0 0 0 1 1 0 1)) (at3 (w_v2_3d ex_any)) (ex_q 3) (in_box [(0, 1); (0, 1); (0, 0)]) /\
  (exists m, repeated 2 (cellgs3d 0 1 0 1 0 0 7 (0%nat, 0) (0 - 0) (1 + 0) (0 - 0) (1 + 0) (0 - 0) (0 + 0) (10%nat, 0) (0 - 1) (1 + 1) (0 - 1) (1 + 1) (0 - 1) (0 + 1) (11%nat, 0) (0 - 1) (1 + 1) (0 - 1) (1 + 1) (0 - 1) (0 + 1) (4%nat, 0)) (out pxo_3d) = Some m) /\
  (exists m, repeated 2 (twice (cellrbgs3d 0 1 0 1 0 0 0 7 (0%nat, 0) (0 - 0) (1 + 0) (0 - 0) (1 + 0) (0 - 0) (0 + 0) (10%nat, 0) (0 - 1) (1 + 1) (0 - 1) (1 + 1) (0 - 1) (0 + 1) (11%nat, 0) (0 - 1) (1 + 1) (0 - 1) (1 + 1) (0 - 1) (0 + 1) (4%nat, 0))
     (cellrbgs3d 0 1 0 1 0 0 1 7 (0%nat, 0) (0 - 0) (1 + 0) (0 - 0) (1 + 0) (0 - 0) (0 + 0) (10%nat, 0) (0 - 1) (1 + 1) (0 - 1) (1 + 1) (0 - 1) (0 + 1) (11%nat, 0) (0 - 1) (1 + 1) (0 - 1) (1 + 1) (0 - 1) (0 + 1) (4%nat, 0))) (out pxo_3d) = Some m) /\
  (exists m, repeated 2 (twice (cells7rbgs3d 0 1 0 1 0 0 0 (0 - 0) (1 + 0) (0 - 0) (1 + 0) (0 - 0) (0 + 0) (10%nat, 0) (0 - 1) (1 + 1) (0 - 1) (1 + 1) (0 - 1) (0 + 1) (11%nat, 0) (0 - 1) (1 + 1) (0 - 1) (1 + 1) (0 - 1) (0 + 1) (4%nat, 0))
     (cells7rbgs3d 0 1 0 1 0 0 1 (0 - 0) (1 + 0) (0 - 0) (1 + 0) (0 - 0) (0 + 0) (10%nat, 0) (0 - 1) (1 + 1) (0 - 1) (1 + 1) (0 - 1) (0 + 1) (11%nat, 0) (0 - 1) (1 + 1) (0 - 1) (1 + 1) (0 - 1) (0 + 1) (4%nat, 0))) (out pxo_3d) = Some m) /\
  (exists m, repeated 2 (celljacobi3d 0 1 0 1 0 0 7 (0%nat, 0) (0 - 0) (1 + 0) (0 - 0) (1 + 0) (0 - 0) (0 + 0) (10%nat, 0) (0 - 1) (1 + 1) (0 - 1) (1 + 1) (0 - 1) (0 + 1) (11%nat, 0) (0 - 1) (1 + 1) (0 - 1) (1 + 1) (0 - 1) (0 + 1) (4%nat, 0) (12%nat, 0) (ex_q 1 : QcS)) (out pxo_3d) = Some m).
Proof.
  split; [reflexivity|].
  split; [discriminate|].
  split; [discriminate|].
  split; [discriminate|].
  split.
  { unfold poisson_system_3d. split; [lia|]. split; [exists px_3d; exact (ran pxo_3d ltac:(vm_compute; reflexivity))|].
    split; [apply rx_table; vm_compute; reflexivity|].
    intros i j k Ii Ij Ik; apply num; exact (all3 (fun i j k => is_num (out pxo_3d) (faddr (mkFa (11%nat, 0) (CELL3d 0 0 0 1 1 0 1)) [i; j; k]) (laplace_3d ex_h (ex_q 2) (w_v2_3d ex_any) i j k)) 0 0 0 1 1 0 ltac:(vm_compute; reflexivity) i j k Ii Ij Ik). }
  split.
  { intros cell [Hc Nc]. unfold CELL3d in Hc. cbn [fa_dims] in Hc. revert Nc. rx_cell Hc. intros Nc. apply num.
    match goal with |- context [at3 _ (?pi :: ?pj :: ?pk ::  nil)] => rename pi into i; rename pj into j; rename pk into k; idtac end.
    assert (Hn := all3 (fun i j k => (((0 <=? i) && (i <=? 1)) && ((0 <=? j) && (j <=? 1)) && ((0 <=? k) && (k <=? 0))) || is_num (out pxo_3d) (faddr (mkFa (4%nat, 0) (CELL3d 0 0 0 1 1 0 1)) [i; j; k]) ((w_v2_3d ex_any) i j k)) (-1) (-1) (-1) 2 2 1 ltac:(vm_compute; reflexivity) i j k ltac:(lia) ltac:(lia) ltac:(lia)). cbv beta in Hn. apply orb_true_iff in Hn. destruct Hn as [Hn|Hn]; [|exact Hn].
    exfalso. apply Nc. rewrite ?andb_true_iff, ?Z.leb_le in Hn. repeat constructor; cbn [fst snd]; lia. }
  split.
  { intros cell Hc. rx_cell Hc. exists 0%Qc. match goal with |- context [at3 _ (?pi :: ?pj :: ?pk ::  nil)] => rename pi into i; rename pj into j; rename pk into k; idtac end.
    split; [apply num; exact (all3 (fun i j k => is_num (out pxo_3d) (faddr (mkFa (4%nat, 0) (CELL3d 0 0 0 1 1 0 1)) [i; j; k]) (Q2Qc 0)) 0 0 0 1 1 0 ltac:(vm_compute; reflexivity) i j k ltac:(lia) ltac:(lia) ltac:(lia))|apply le; exact (all3 (fun i j k => is_le (Qcabs (0 - (w_v2_3d ex_any) i j k))%Qc (ex_q 3)) 0 0 0 1 1 0 ltac:(vm_compute; reflexivity) i j k ltac:(lia) ltac:(lia) ltac:(lia))]. }
  split; [|split; [|split]]; eexists; apply ran; vm_compute; reflexivity.
Qed.
