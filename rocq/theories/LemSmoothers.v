(** * The point smoothers, subroutine by subroutine *)

From Coq Require Import Sorted Field.
From Verif Require Import Base FortranBase FortranLoops FortranSmooth SpecIter LemBase LemDomain LemAssign LemField LemKernel LemKernel2 LemStencil LemSafe
  SpecRow LemSum SpecSmooth LemFortran LemSmooth LemCells LemSweep.
Import ListNotations.
Open Scope Z_scope.

Ltac inv_box := repeat match goal with H : Forall2 _ (_ :: _) _ |- _ => inversion H; clear H; subst | H : Forall2 _ [] _ |- _ => inversion H; clear H; subst end.

Lemma box1 b0 c : in_box [b0] c -> c = [nth 0 c 0].
Proof. unfold in_box. intros H. inv_box. reflexivity. Qed.
Lemma box2 b0 b1 c : in_box [b0; b1] c -> c = [nth 0 c 0; nth 1 c 0].
Proof. unfold in_box. intros H. inv_box. reflexivity. Qed.
Lemma box3 b0 b1 b2 c : in_box [b0; b1; b2] c -> c = [nth 0 c 0; nth 1 c 0; nth 2 c 0].
Proof. unfold in_box. intros H. inv_box. reflexivity. Qed.

Lemma start1 (color : Z) t : 0 <= color -> in_box [] t -> 0 <= color /\ Z.even (color - fold_right Z.add 0 t - color) = true.
Proof. unfold in_box. intros H B. inv_box. split; [exact H|]. apply even_mod. cbn [fold_right]. lia. Qed.
Lemma start2 lo1 hi1 color t : 0 <= lo1 + color -> in_box [(lo1, hi1)] t ->
  0 <= nth 0 t 0 + color /\ Z.even (nth 0 t 0 + color - fold_right Z.add 0 t - color) = true.
Proof. unfold in_box. intros H B. inv_box. cbn [nth fold_right fst snd] in *. split; [lia|]. apply even_mod. lia. Qed.
Lemma start3 lo1 hi1 lo2 hi2 color t : 0 <= color -> in_box [(lo1, hi1); (lo2, hi2)] t ->
  0 <= Z.abs (nth 0 t 0 + nth 1 t 0) + color /\ Z.even (Z.abs (nth 0 t 0 + nth 1 t 0) + color - fold_right Z.add 0 t - color) = true.
Proof. unfold in_box. intros H B. inv_box. cbn [nth fold_right fst snd] in *. split; [lia|]. apply even_mod. lia. Qed.

Ltac step_row D B ring_tac :=
  let c := fresh "c" in let s := fresh "s" in let r0 := fresh "r0" in let r1 := fresh "r1" in let m0 := fresh "m0" in let Hin := fresh "Hin" in let E := fresh "E" in
  intros c s r0 r1 m0 Hin E; apply B in Hin; rewrite Hin; unfold fint, fop, fsc, fel in E;
  repeat match type of E with bind _ _ = Some _ => apply bind_Some_inv in E as (? & ? & E) end;
  repeat match goal with H : bind _ _ = Some _ |- _ => apply bind_Some_inv in H as (? & ? & H) end;
  repeat match goal with H : Some _ = Some _ |- _ => injection H as ?; subst end;
  do 2 eexists; split; [split; [eassumption|eexists; split; [apply D; eassumption|eassumption]]|ring_tac].

(** The upper bound of a one-dimensional array does not enter its addresses. *)
Lemma fel_hi {S : Scalar} f lo h h' i : fel (S := S) (mkFa f (CELL1d lo h 0)) [i] = fel (mkFa f (CELL1d lo h' 0)) [i].
Proof. unfold fel. replace (faddr (mkFa f (CELL1d lo h 0)) [i]) with (faddr (mkFa f (CELL1d lo h' 0)) [i]); [reflexivity|]. unfold faddr. cbn. f_equal. ring. Qed.

Section Smoothers.
  Context {S : Scalar} (L : field_laws S).
  Add Field SFm : (s_field S L) (morphism (lit_morph S L), constants [lit_cst]).

Lemma cellgs1d_swept : forall lo0 hi0 n offset slo0 shi0 st flo0 fhi0 f ulo0 uhi0 u (m m' : mem S),
  fst u <> fst st -> fst u <> fst f ->
  (forall c, in_box [(lo0, hi0)] c -> in_box (CELL1d ulo0 uhi0 0) c) ->
  stays m (mkFa offset [(0, 0); (0, n - 1)]) 1 (n - 1) (CELL1d ulo0 uhi0 0) (in_box [(lo0, hi0)]) ->
  flo0 = ulo0 -> cellgs1d lo0 hi0 n offset slo0 shi0 st flo0 fhi0 f ulo0 uhi0 u m = Some m' ->
  swept m m' (mkFa offset [(0, 0); (0, n - 1)]) (mkFa st ((0, n - 1) :: CELL1d slo0 shi0 0)) n
    (mkFa f (CELL1d flo0 fhi0 0)) (mkFa u (CELL1d ulo0 uhi0 0)) (in_box [(lo0, hi0)]).
Proof.
  intros lo0 hi0 n offset slo0 shi0 st flo0 fhi0 f ulo0 uhi0 u m m' Hst Hf Hb Hstay -> E.
  assert (Hcells : forall c, In c (box_cells [(lo0, hi0)]) <-> in_box [(lo0, hi0)] c).
  { apply box_cells_in. }
  assert (Hform : forall c, In c (box_cells [(lo0, hi0)]) -> c = [nth 0 c 0]).
  { intros c Hin. apply Hcells in Hin. exact (box1 _ c Hin). }
  apply (swept_cells L (box_cells [(lo0, hi0)]) (cellgs1d lo0 hi0 n offset slo0 shi0 st ulo0 fhi0 f ulo0 uhi0 u)
    (fun c => flet (facc 1 (n - 1) (fel (mkFa f (CELL1d ulo0 uhi0 0)) [nth 0 c 0]) (((fun c s r => fint (mkFa offset [(0, 0); (0, n - 1)]) [0; s] (fun io => fop ssub (fsc r) (fop smul (fel (mkFa st ((0, n - 1) :: CELL1d slo0 shi0 0)) [s; nth 0 c 0]) (fel (mkFa u (CELL1d ulo0 uhi0 0)) [nth 0 c 0 + io]))))) c)) (fun r => fset (mkFa u (CELL1d ulo0 uhi0 0)) [nth 0 c 0] (fop sdiv (fsc r) (fel (mkFa st ((0, n - 1) :: CELL1d slo0 shi0 0)) [0; nth 0 c 0])))) m m' (mkFa offset [(0, 0); (0, n - 1)]) (mkFa st ((0, n - 1) :: CELL1d slo0 shi0 0)) n (mkFa f (CELL1d ulo0 fhi0 0)) (mkFa u (CELL1d ulo0 uhi0 0))
    (in_box [(lo0, hi0)]) (fun c s r => fint (mkFa offset [(0, 0); (0, n - 1)]) [0; s] (fun io => fop ssub (fsc r) (fop smul (fel (mkFa st ((0, n - 1) :: CELL1d slo0 shi0 0)) [s; nth 0 c 0]) (fel (mkFa u (CELL1d ulo0 uhi0 0)) [nth 0 c 0 + io]))))).
  - intros m0. rewrite <- do1_cells; reflexivity.
  - intros c m0 Hin. rewrite (Hform c Hin). cbn [nth]. rewrite (fel_hi f ulo0 fhi0 uhi0). apply flet_put. intros. reflexivity.
  - exact Hcells.
  - apply box_cells_nodup.
  - apply box_in_order.
  - exact Hb.
  - exact Hst.
  - exact Hf.
  - clear E. step_row @displaced1 Hform ltac:(ring).
  - exact Hstay.
  - exact E.
Qed.

Lemma cellgs2d_swept : forall lo0 hi0 lo1 hi1 n offset slo0 shi0 slo1 shi1 st flo0 fhi0 flo1 fhi1 f ulo0 uhi0 ulo1 uhi1 u (m m' : mem S),
  fst u <> fst st -> fst u <> fst f ->
  (forall c, in_box [(lo0, hi0); (lo1, hi1)] c -> in_box (CELL2d ulo0 ulo1 uhi0 uhi1 0) c) ->
  stays m (mkFa offset [(0, 1); (0, n - 1)]) 1 (n - 1) (CELL2d ulo0 ulo1 uhi0 uhi1 0) (in_box [(lo0, hi0); (lo1, hi1)]) ->
  cellgs2d lo0 hi0 lo1 hi1 n offset slo0 shi0 slo1 shi1 st flo0 fhi0 flo1 fhi1 f ulo0 uhi0 ulo1 uhi1 u m = Some m' ->
  swept m m' (mkFa offset [(0, 1); (0, n - 1)]) (mkFa st ((0, n - 1) :: CELL2d slo0 slo1 shi0 shi1 0)) n
    (mkFa f (CELL2d flo0 flo1 fhi0 fhi1 0)) (mkFa u (CELL2d ulo0 ulo1 uhi0 uhi1 0)) (in_box [(lo0, hi0); (lo1, hi1)]).
Proof.
  intros lo0 hi0 lo1 hi1 n offset slo0 shi0 slo1 shi1 st flo0 fhi0 flo1 fhi1 f ulo0 uhi0 ulo1 uhi1 u m m' Hst Hf Hb Hstay E.
  assert (Hcells : forall c, In c (box_cells [(lo0, hi0); (lo1, hi1)]) <-> in_box [(lo0, hi0); (lo1, hi1)] c).
  { apply box_cells_in. }
  assert (Hform : forall c, In c (box_cells [(lo0, hi0); (lo1, hi1)]) -> c = [nth 0 c 0; nth 1 c 0]).
  { intros c Hin. apply Hcells in Hin. exact (box2 _ _ c Hin). }
  apply (swept_cells L (box_cells [(lo0, hi0); (lo1, hi1)]) (cellgs2d lo0 hi0 lo1 hi1 n offset slo0 shi0 slo1 shi1 st flo0 fhi0 flo1 fhi1 f ulo0 uhi0 ulo1 uhi1 u)
    (fun c => flet (facc 1 (n - 1) (fel (mkFa f (CELL2d flo0 flo1 fhi0 fhi1 0)) [nth 0 c 0; nth 1 c 0]) (((fun c s r => fint (mkFa offset [(0, 1); (0, n - 1)]) [0; s] (fun io => fint (mkFa offset [(0, 1); (0, n - 1)]) [1; s] (fun jo => fop ssub (fsc r) (fop smul (fel (mkFa st ((0, n - 1) :: CELL2d slo0 slo1 shi0 shi1 0)) [s; nth 0 c 0; nth 1 c 0]) (fel (mkFa u (CELL2d ulo0 ulo1 uhi0 uhi1 0)) [nth 0 c 0 + io; nth 1 c 0 + jo])))))) c)) (fun r => fset (mkFa u (CELL2d ulo0 ulo1 uhi0 uhi1 0)) [nth 0 c 0; nth 1 c 0] (fop sdiv (fsc r) (fel (mkFa st ((0, n - 1) :: CELL2d slo0 slo1 shi0 shi1 0)) [0; nth 0 c 0; nth 1 c 0])))) m m' (mkFa offset [(0, 1); (0, n - 1)]) (mkFa st ((0, n - 1) :: CELL2d slo0 slo1 shi0 shi1 0)) n (mkFa f (CELL2d flo0 flo1 fhi0 fhi1 0)) (mkFa u (CELL2d ulo0 ulo1 uhi0 uhi1 0))
    (in_box [(lo0, hi0); (lo1, hi1)]) (fun c s r => fint (mkFa offset [(0, 1); (0, n - 1)]) [0; s] (fun io => fint (mkFa offset [(0, 1); (0, n - 1)]) [1; s] (fun jo => fop ssub (fsc r) (fop smul (fel (mkFa st ((0, n - 1) :: CELL2d slo0 slo1 shi0 shi1 0)) [s; nth 0 c 0; nth 1 c 0]) (fel (mkFa u (CELL2d ulo0 ulo1 uhi0 uhi1 0)) [nth 0 c 0 + io; nth 1 c 0 + jo])))))).
  - intros m0. rewrite <- do2_cells; reflexivity.
  - intros c m0 Hin. rewrite (Hform c Hin). cbn [nth]. apply flet_put. intros. reflexivity.
  - exact Hcells.
  - apply box_cells_nodup.
  - apply box_in_order.
  - exact Hb.
  - exact Hst.
  - exact Hf.
  - clear E. step_row @displaced2 Hform ltac:(ring).
  - exact Hstay.
  - exact E.
Qed.

Lemma cellgs3d_swept : forall lo0 hi0 lo1 hi1 lo2 hi2 n offset slo0 shi0 slo1 shi1 slo2 shi2 st flo0 fhi0 flo1 fhi1 flo2 fhi2 f ulo0 uhi0 ulo1 uhi1 ulo2 uhi2 u (m m' : mem S),
  fst u <> fst st -> fst u <> fst f ->
  (forall c, in_box [(lo0, hi0); (lo1, hi1); (lo2, hi2)] c -> in_box (CELL3d ulo0 ulo1 ulo2 uhi0 uhi1 uhi2 0) c) ->
  stays m (mkFa offset [(0, 2); (0, n - 1)]) 1 (n - 1) (CELL3d ulo0 ulo1 ulo2 uhi0 uhi1 uhi2 0) (in_box [(lo0, hi0); (lo1, hi1); (lo2, hi2)]) ->
  cellgs3d lo0 hi0 lo1 hi1 lo2 hi2 n offset slo0 shi0 slo1 shi1 slo2 shi2 st flo0 fhi0 flo1 fhi1 flo2 fhi2 f ulo0 uhi0 ulo1 uhi1 ulo2 uhi2 u m = Some m' ->
  swept m m' (mkFa offset [(0, 2); (0, n - 1)]) (mkFa st ((0, n - 1) :: CELL3d slo0 slo1 slo2 shi0 shi1 shi2 0)) n
    (mkFa f (CELL3d flo0 flo1 flo2 fhi0 fhi1 fhi2 0)) (mkFa u (CELL3d ulo0 ulo1 ulo2 uhi0 uhi1 uhi2 0)) (in_box [(lo0, hi0); (lo1, hi1); (lo2, hi2)]).
Proof.
  intros lo0 hi0 lo1 hi1 lo2 hi2 n offset slo0 shi0 slo1 shi1 slo2 shi2 st flo0 fhi0 flo1 fhi1 flo2 fhi2 f ulo0 uhi0 ulo1 uhi1 ulo2 uhi2 u m m' Hst Hf Hb Hstay E.
  assert (Hcells : forall c, In c (box_cells [(lo0, hi0); (lo1, hi1); (lo2, hi2)]) <-> in_box [(lo0, hi0); (lo1, hi1); (lo2, hi2)] c).
  { apply box_cells_in. }
  assert (Hform : forall c, In c (box_cells [(lo0, hi0); (lo1, hi1); (lo2, hi2)]) -> c = [nth 0 c 0; nth 1 c 0; nth 2 c 0]).
  { intros c Hin. apply Hcells in Hin. exact (box3 _ _ _ c Hin). }
  apply (swept_cells L (box_cells [(lo0, hi0); (lo1, hi1); (lo2, hi2)]) (cellgs3d lo0 hi0 lo1 hi1 lo2 hi2 n offset slo0 shi0 slo1 shi1 slo2 shi2 st flo0 fhi0 flo1 fhi1 flo2 fhi2 f ulo0 uhi0 ulo1 uhi1 ulo2 uhi2 u)
    (fun c => flet (facc 1 (n - 1) (fel (mkFa f (CELL3d flo0 flo1 flo2 fhi0 fhi1 fhi2 0)) [nth 0 c 0; nth 1 c 0; nth 2 c 0]) (((fun c s r => fint (mkFa offset [(0, 2); (0, n - 1)]) [0; s] (fun io => fint (mkFa offset [(0, 2); (0, n - 1)]) [1; s] (fun jo => fint (mkFa offset [(0, 2); (0, n - 1)]) [2; s] (fun ko => fop ssub (fsc r) (fop smul (fel (mkFa st ((0, n - 1) :: CELL3d slo0 slo1 slo2 shi0 shi1 shi2 0)) [s; nth 0 c 0; nth 1 c 0; nth 2 c 0]) (fel (mkFa u (CELL3d ulo0 ulo1 ulo2 uhi0 uhi1 uhi2 0)) [nth 0 c 0 + io; nth 1 c 0 + jo; nth 2 c 0 + ko]))))))) c)) (fun r => fset (mkFa u (CELL3d ulo0 ulo1 ulo2 uhi0 uhi1 uhi2 0)) [nth 0 c 0; nth 1 c 0; nth 2 c 0] (fop sdiv (fsc r) (fel (mkFa st ((0, n - 1) :: CELL3d slo0 slo1 slo2 shi0 shi1 shi2 0)) [0; nth 0 c 0; nth 1 c 0; nth 2 c 0])))) m m' (mkFa offset [(0, 2); (0, n - 1)]) (mkFa st ((0, n - 1) :: CELL3d slo0 slo1 slo2 shi0 shi1 shi2 0)) n (mkFa f (CELL3d flo0 flo1 flo2 fhi0 fhi1 fhi2 0)) (mkFa u (CELL3d ulo0 ulo1 ulo2 uhi0 uhi1 uhi2 0))
    (in_box [(lo0, hi0); (lo1, hi1); (lo2, hi2)]) (fun c s r => fint (mkFa offset [(0, 2); (0, n - 1)]) [0; s] (fun io => fint (mkFa offset [(0, 2); (0, n - 1)]) [1; s] (fun jo => fint (mkFa offset [(0, 2); (0, n - 1)]) [2; s] (fun ko => fop ssub (fsc r) (fop smul (fel (mkFa st ((0, n - 1) :: CELL3d slo0 slo1 slo2 shi0 shi1 shi2 0)) [s; nth 0 c 0; nth 1 c 0; nth 2 c 0]) (fel (mkFa u (CELL3d ulo0 ulo1 ulo2 uhi0 uhi1 uhi2 0)) [nth 0 c 0 + io; nth 1 c 0 + jo; nth 2 c 0 + ko]))))))).
  - intros m0. rewrite <- do3_cells; reflexivity.
  - intros c m0 Hin. rewrite (Hform c Hin). cbn [nth]. apply flet_put. intros. reflexivity.
  - exact Hcells.
  - apply box_cells_nodup.
  - apply box_in_order.
  - exact Hb.
  - exact Hst.
  - exact Hf.
  - clear E. step_row @displaced3 Hform ltac:(ring).
  - exact Hstay.
  - exact E.
Qed.

Lemma cellrbgs1d_swept : forall lo0 hi0 color n offset slo0 shi0 st flo0 fhi0 f ulo0 uhi0 u (m m' : mem S),
  0 <= color -> fst u <> fst st -> fst u <> fst f ->
  (forall c, coloured [(lo0, hi0)] color c -> in_box (CELL1d ulo0 uhi0 0) c) ->
  stays m (mkFa offset [(0, 0); (0, n - 1)]) 1 (n - 1) (CELL1d ulo0 uhi0 0) (coloured [(lo0, hi0)] color) ->
  cellrbgs1d lo0 hi0 color n offset slo0 shi0 st flo0 fhi0 f ulo0 uhi0 u m = Some m' ->
  swept m m' (mkFa offset [(0, 0); (0, n - 1)]) (mkFa st ((0, n - 1) :: CELL1d slo0 shi0 0)) n
    (mkFa f (CELL1d flo0 fhi0 0)) (mkFa u (CELL1d ulo0 uhi0 0)) (coloured [(lo0, hi0)] color).
Proof.
  intros lo0 hi0 color n offset slo0 shi0 st flo0 fhi0 f ulo0 uhi0 u m m' Hcol Hst Hf Hb Hstay E.
  assert (Hcells : forall c, In c (colour_cells (fun _ => color) (lo0, hi0) []) <-> coloured [(lo0, hi0)] color c).
  { intros c. apply colour_cells_in. intros t Ht. exact (start1 color t Hcol Ht). }
  assert (Hform : forall c, In c (colour_cells (fun _ => color) (lo0, hi0) []) -> c = [nth 0 c 0]).
  { intros c Hin. apply Hcells in Hin. destruct Hin as [Hin _]. exact (box1 _ c Hin). }
  apply (swept_cells L (colour_cells (fun _ => color) (lo0, hi0) []) (cellrbgs1d lo0 hi0 color n offset slo0 shi0 st flo0 fhi0 f ulo0 uhi0 u)
    (fun c => flet (facc 1 (n - 1) (fel (mkFa f (CELL1d flo0 fhi0 0)) [nth 0 c 0]) (((fun c s r => fint (mkFa offset [(0, 0); (0, n - 1)]) [0; s] (fun io => fop ssub (fsc r) (fop smul (fel (mkFa st ((0, n - 1) :: CELL1d slo0 shi0 0)) [s; nth 0 c 0]) (fel (mkFa u (CELL1d ulo0 uhi0 0)) [nth 0 c 0 + io]))))) c)) (fun r => fset (mkFa u (CELL1d ulo0 uhi0 0)) [nth 0 c 0] (fop sdiv (fsc r) (fel (mkFa st ((0, n - 1) :: CELL1d slo0 shi0 0)) [0; nth 0 c 0])))) m m' (mkFa offset [(0, 0); (0, n - 1)]) (mkFa st ((0, n - 1) :: CELL1d slo0 shi0 0)) n (mkFa f (CELL1d flo0 fhi0 0)) (mkFa u (CELL1d ulo0 uhi0 0))
    (coloured [(lo0, hi0)] color) (fun c s r => fint (mkFa offset [(0, 0); (0, n - 1)]) [0; s] (fun io => fop ssub (fsc r) (fop smul (fel (mkFa st ((0, n - 1) :: CELL1d slo0 shi0 0)) [s; nth 0 c 0]) (fel (mkFa u (CELL1d ulo0 uhi0 0)) [nth 0 c 0 + io]))))).
  - intros m0. unfold colour_cells; rewrite forM_rows; cbn [box_cells]; rewrite forM_unit; reflexivity.
  - intros c m0 Hin. rewrite (Hform c Hin). cbn [nth]. apply flet_put. intros. reflexivity.
  - exact Hcells.
  - apply colour_cells_nodup.
  - apply colour_cells_in_order.
  - exact Hb.
  - exact Hst.
  - exact Hf.
  - clear E. step_row @displaced1 Hform ltac:(ring).
  - exact Hstay.
  - exact E.
Qed.

Lemma cellrbgs2d_swept : forall lo0 hi0 lo1 hi1 color n offset slo0 shi0 slo1 shi1 st flo0 fhi0 flo1 fhi1 f ulo0 uhi0 ulo1 uhi1 u (m m' : mem S),
  0 <= lo1 + color -> fst u <> fst st -> fst u <> fst f ->
  (forall c, coloured [(lo0, hi0); (lo1, hi1)] color c -> in_box (CELL2d ulo0 ulo1 uhi0 uhi1 0) c) ->
  stays m (mkFa offset [(0, 1); (0, n - 1)]) 1 (n - 1) (CELL2d ulo0 ulo1 uhi0 uhi1 0) (coloured [(lo0, hi0); (lo1, hi1)] color) ->
  cellrbgs2d lo0 hi0 lo1 hi1 color n offset slo0 shi0 slo1 shi1 st flo0 fhi0 flo1 fhi1 f ulo0 uhi0 ulo1 uhi1 u m = Some m' ->
  swept m m' (mkFa offset [(0, 1); (0, n - 1)]) (mkFa st ((0, n - 1) :: CELL2d slo0 slo1 shi0 shi1 0)) n
    (mkFa f (CELL2d flo0 flo1 fhi0 fhi1 0)) (mkFa u (CELL2d ulo0 ulo1 uhi0 uhi1 0)) (coloured [(lo0, hi0); (lo1, hi1)] color).
Proof.
  intros lo0 hi0 lo1 hi1 color n offset slo0 shi0 slo1 shi1 st flo0 fhi0 flo1 fhi1 f ulo0 uhi0 ulo1 uhi1 u m m' Hcol Hst Hf Hb Hstay E.
  assert (Hcells : forall c, In c (colour_cells (fun t => nth 0 t 0 + color) (lo0, hi0) [(lo1, hi1)]) <-> coloured [(lo0, hi0); (lo1, hi1)] color c).
  { intros c. apply colour_cells_in. intros t Ht. exact (start2 lo1 hi1 color t Hcol Ht). }
  assert (Hform : forall c, In c (colour_cells (fun t => nth 0 t 0 + color) (lo0, hi0) [(lo1, hi1)]) -> c = [nth 0 c 0; nth 1 c 0]).
  { intros c Hin. apply Hcells in Hin. destruct Hin as [Hin _]. exact (box2 _ _ c Hin). }
  apply (swept_cells L (colour_cells (fun t => nth 0 t 0 + color) (lo0, hi0) [(lo1, hi1)]) (cellrbgs2d lo0 hi0 lo1 hi1 color n offset slo0 shi0 slo1 shi1 st flo0 fhi0 flo1 fhi1 f ulo0 uhi0 ulo1 uhi1 u)
    (fun c => flet (facc 1 (n - 1) (fel (mkFa f (CELL2d flo0 flo1 fhi0 fhi1 0)) [nth 0 c 0; nth 1 c 0]) (((fun c s r => fint (mkFa offset [(0, 1); (0, n - 1)]) [0; s] (fun io => fint (mkFa offset [(0, 1); (0, n - 1)]) [1; s] (fun jo => fop ssub (fsc r) (fop smul (fel (mkFa st ((0, n - 1) :: CELL2d slo0 slo1 shi0 shi1 0)) [s; nth 0 c 0; nth 1 c 0]) (fel (mkFa u (CELL2d ulo0 ulo1 uhi0 uhi1 0)) [nth 0 c 0 + io; nth 1 c 0 + jo])))))) c)) (fun r => fset (mkFa u (CELL2d ulo0 ulo1 uhi0 uhi1 0)) [nth 0 c 0; nth 1 c 0] (fop sdiv (fsc r) (fel (mkFa st ((0, n - 1) :: CELL2d slo0 slo1 shi0 shi1 0)) [0; nth 0 c 0; nth 1 c 0])))) m m' (mkFa offset [(0, 1); (0, n - 1)]) (mkFa st ((0, n - 1) :: CELL2d slo0 slo1 shi0 shi1 0)) n (mkFa f (CELL2d flo0 flo1 fhi0 fhi1 0)) (mkFa u (CELL2d ulo0 ulo1 uhi0 uhi1 0))
    (coloured [(lo0, hi0); (lo1, hi1)] color) (fun c s r => fint (mkFa offset [(0, 1); (0, n - 1)]) [0; s] (fun io => fint (mkFa offset [(0, 1); (0, n - 1)]) [1; s] (fun jo => fop ssub (fsc r) (fop smul (fel (mkFa st ((0, n - 1) :: CELL2d slo0 slo1 shi0 shi1 0)) [s; nth 0 c 0; nth 1 c 0]) (fel (mkFa u (CELL2d ulo0 ulo1 uhi0 uhi1 0)) [nth 0 c 0 + io; nth 1 c 0 + jo])))))).
  - intros m0. unfold colour_cells; rewrite forM_rows, <- do1_cells; reflexivity.
  - intros c m0 Hin. rewrite (Hform c Hin). cbn [nth]. apply flet_put. intros. reflexivity.
  - exact Hcells.
  - apply colour_cells_nodup.
  - apply colour_cells_in_order.
  - exact Hb.
  - exact Hst.
  - exact Hf.
  - clear E. step_row @displaced2 Hform ltac:(ring).
  - exact Hstay.
  - exact E.
Qed.

Lemma cellrbgs3d_swept : forall lo0 hi0 lo1 hi1 lo2 hi2 color n offset slo0 shi0 slo1 shi1 slo2 shi2 st flo0 fhi0 flo1 fhi1 flo2 fhi2 f ulo0 uhi0 ulo1 uhi1 ulo2 uhi2 u (m m' : mem S),
  0 <= color -> fst u <> fst st -> fst u <> fst f ->
  (forall c, coloured [(lo0, hi0); (lo1, hi1); (lo2, hi2)] color c -> in_box (CELL3d ulo0 ulo1 ulo2 uhi0 uhi1 uhi2 0) c) ->
  stays m (mkFa offset [(0, 2); (0, n - 1)]) 1 (n - 1) (CELL3d ulo0 ulo1 ulo2 uhi0 uhi1 uhi2 0) (coloured [(lo0, hi0); (lo1, hi1); (lo2, hi2)] color) ->
  cellrbgs3d lo0 hi0 lo1 hi1 lo2 hi2 color n offset slo0 shi0 slo1 shi1 slo2 shi2 st flo0 fhi0 flo1 fhi1 flo2 fhi2 f ulo0 uhi0 ulo1 uhi1 ulo2 uhi2 u m = Some m' ->
  swept m m' (mkFa offset [(0, 2); (0, n - 1)]) (mkFa st ((0, n - 1) :: CELL3d slo0 slo1 slo2 shi0 shi1 shi2 0)) n
    (mkFa f (CELL3d flo0 flo1 flo2 fhi0 fhi1 fhi2 0)) (mkFa u (CELL3d ulo0 ulo1 ulo2 uhi0 uhi1 uhi2 0)) (coloured [(lo0, hi0); (lo1, hi1); (lo2, hi2)] color).
Proof.
  intros lo0 hi0 lo1 hi1 lo2 hi2 color n offset slo0 shi0 slo1 shi1 slo2 shi2 st flo0 fhi0 flo1 fhi1 flo2 fhi2 f ulo0 uhi0 ulo1 uhi1 ulo2 uhi2 u m m' Hcol Hst Hf Hb Hstay E.
  assert (Hcells : forall c, In c (colour_cells (fun t => Z.abs (nth 0 t 0 + nth 1 t 0) + color) (lo0, hi0) [(lo1, hi1); (lo2, hi2)]) <-> coloured [(lo0, hi0); (lo1, hi1); (lo2, hi2)] color c).
  { intros c. apply colour_cells_in. intros t Ht. exact (start3 lo1 hi1 lo2 hi2 color t Hcol Ht). }
  assert (Hform : forall c, In c (colour_cells (fun t => Z.abs (nth 0 t 0 + nth 1 t 0) + color) (lo0, hi0) [(lo1, hi1); (lo2, hi2)]) -> c = [nth 0 c 0; nth 1 c 0; nth 2 c 0]).
  { intros c Hin. apply Hcells in Hin. destruct Hin as [Hin _]. exact (box3 _ _ _ c Hin). }
  apply (swept_cells L (colour_cells (fun t => Z.abs (nth 0 t 0 + nth 1 t 0) + color) (lo0, hi0) [(lo1, hi1); (lo2, hi2)]) (cellrbgs3d lo0 hi0 lo1 hi1 lo2 hi2 color n offset slo0 shi0 slo1 shi1 slo2 shi2 st flo0 fhi0 flo1 fhi1 flo2 fhi2 f ulo0 uhi0 ulo1 uhi1 ulo2 uhi2 u)
    (fun c => flet (facc 1 (n - 1) (fel (mkFa f (CELL3d flo0 flo1 flo2 fhi0 fhi1 fhi2 0)) [nth 0 c 0; nth 1 c 0; nth 2 c 0]) (((fun c s r => fint (mkFa offset [(0, 2); (0, n - 1)]) [0; s] (fun io => fint (mkFa offset [(0, 2); (0, n - 1)]) [1; s] (fun jo => fint (mkFa offset [(0, 2); (0, n - 1)]) [2; s] (fun ko => fop ssub (fsc r) (fop smul (fel (mkFa st ((0, n - 1) :: CELL3d slo0 slo1 slo2 shi0 shi1 shi2 0)) [s; nth 0 c 0; nth 1 c 0; nth 2 c 0]) (fel (mkFa u (CELL3d ulo0 ulo1 ulo2 uhi0 uhi1 uhi2 0)) [nth 0 c 0 + io; nth 1 c 0 + jo; nth 2 c 0 + ko]))))))) c)) (fun r => fset (mkFa u (CELL3d ulo0 ulo1 ulo2 uhi0 uhi1 uhi2 0)) [nth 0 c 0; nth 1 c 0; nth 2 c 0] (fop sdiv (fsc r) (fel (mkFa st ((0, n - 1) :: CELL3d slo0 slo1 slo2 shi0 shi1 shi2 0)) [0; nth 0 c 0; nth 1 c 0; nth 2 c 0])))) m m' (mkFa offset [(0, 2); (0, n - 1)]) (mkFa st ((0, n - 1) :: CELL3d slo0 slo1 slo2 shi0 shi1 shi2 0)) n (mkFa f (CELL3d flo0 flo1 flo2 fhi0 fhi1 fhi2 0)) (mkFa u (CELL3d ulo0 ulo1 ulo2 uhi0 uhi1 uhi2 0))
    (coloured [(lo0, hi0); (lo1, hi1); (lo2, hi2)] color) (fun c s r => fint (mkFa offset [(0, 2); (0, n - 1)]) [0; s] (fun io => fint (mkFa offset [(0, 2); (0, n - 1)]) [1; s] (fun jo => fint (mkFa offset [(0, 2); (0, n - 1)]) [2; s] (fun ko => fop ssub (fsc r) (fop smul (fel (mkFa st ((0, n - 1) :: CELL3d slo0 slo1 slo2 shi0 shi1 shi2 0)) [s; nth 0 c 0; nth 1 c 0; nth 2 c 0]) (fel (mkFa u (CELL3d ulo0 ulo1 ulo2 uhi0 uhi1 uhi2 0)) [nth 0 c 0 + io; nth 1 c 0 + jo; nth 2 c 0 + ko]))))))).
  - intros m0. unfold colour_cells; rewrite forM_rows, <- do2_cells; reflexivity.
  - intros c m0 Hin. rewrite (Hform c Hin). cbn [nth]. apply flet_put. intros. reflexivity.
  - exact Hcells.
  - apply colour_cells_nodup.
  - apply colour_cells_in_order.
  - exact Hb.
  - exact Hst.
  - exact Hf.
  - clear E. step_row @displaced3 Hform ltac:(ring).
  - exact Hstay.
  - exact E.
Qed.

End Smoothers.
