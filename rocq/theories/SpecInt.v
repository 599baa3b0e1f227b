(** * When the index arithmetic stays within [int]

    Conditions on the arrays and the domain of a statement, in terms of index
    ranges and element counts only. *)

From Verif Require Import Base ModelBounds ModelIters ModelSpan ModelProxy Spec SpecWindow FortranBase SpecKernel.
Import ListNotations.
Open Scope Z_scope.

(** The first index and the index after the last one are [int]s. *)
Definition int_range (b : bounds) : Prop := -2147483648 <= b_lb b /\ b_ub b < 2147483647.

(** A non-empty array with [int] index ranges and at most 2^31 - 1 elements. *)
Definition int_array (s : span) : Prop :=
  Forall (fun b => int_range (snd b) /\ b_lb (snd b) <= b_ub (snd b)) (sp_b s) /\
  cells_of (sp_b s) <= 2147483647.

(** A non-empty domain inside the array, each stride times the number of elements
    being an [int] (nothing to check for stride 1). *)
Definition inside (dom : list dbnd) (s : span) : Prop :=
  Forall (fun b => exists b', In (fst b, b') (sp_b s) /\
                     b_lb b' <= b_lb (snd b) <= b_ub (snd b) /\ b_ub (snd b) <= b_ub b' /\
                     stride (snd b) * cells_of (sp_b s) <= 2147483647) dom.

Section IntExpr.
  Context {S : Scalar}.

  (** Every array of the expression is one, and the part of it the expression
      refers to lies inside.  [T] is the contents of the offset tables. *)
  Fixpoint int_expr (T : list (list Z)) (e : @expr S) (dom : list dbnd) : Prop :=
    match e with
    | ESpan s => int_array s /\ inside dom s
    | ENumL _ _ e' => int_expr T e' dom
    | ENumR _ e' _ => int_expr T e' dom
    | EBin _ e1 e2 => int_expr T e1 dom /\ int_expr T e2 dom
    | EStencil sh s d => int_array s /\ inside (grow_dom sh d dom) s
    | EShift d z e' =>
        -2147483648 <= z <= 2147483647 /\
        Forall (fun b => int_range (snd b)) (shift_dom d z dom) /\
        int_expr T e' (shift_dom d z dom)
    | EDot st u o =>
        int_array st /\ inside dom st /\ int_array u /\ inside dom u /\
        forall w wb, nth_error (sp_b st) (length dom) = Some (w, wb) ->
          extent wb * Z.of_nat (length dom) <= 2147483647 /\
          (* an offset is at most the extent of its direction *)
          forall i j v, 0 <= i < extent wb -> (j < length dom)%nat ->
            loadi (S := S) (mkMem [] T) (padd o (i * Z.of_nat (length dom) + Z.of_nat j)) = Some v ->
            forall b, In (nth j xyz 0%nat, b) (sp_b u) -> - extent b <= v <= extent b
    | EFine s r cb =>
        int_array s /\ r <= 2147483647 /\
        Forall (fun b => int_range (snd b) /\ b_lb (snd b) <= b_ub (snd b) + 1 /\
                         0 <= stride (snd b) <= 2147483647) cb /\
        Forall (fun b => int_range (snd b) /\ stride (snd b) <= 2147483647) dom /\
        (* fixed directions *)
        Forall (fun b => exists b', In (fst b, b') (sp_b s) /\ b_lb b' <= b_lb (snd b) <= b_ub b') cb /\
        (* the line, seen from the coarse array *)
        (forall d b b', In (d, b) dom -> ~ In d (map fst cb) -> In (d, b') (sp_b s) ->
           b_lb b' <= b_lb b / r /\ b_ub b / r <= b_ub b')
    end.

  Definition int_assign (T : list (list Z)) (dom : list dbnd) (a : @assign S) : Prop :=
    int_array (lhs_of a) /\ inside dom (lhs_of a) /\
    match a with AExpr _ e => int_expr T e dom | ANum _ _ => True end.
End IntExpr.

Section IntWindow.
  Context {S : Scalar}.

  (** The window's array, the left-hand sides and the arrays of the right-hand
      sides. *)
  Definition int_window (T : list (list Z)) (st : span) (dom : list dbnd) (l : list (@wassign S)) : Prop :=
    int_array st /\ inside dom st /\
    Forall (fun a =>
      match a with WSub x _ => int_array x /\ inside dom x | _ => True end /\
      Forall (fun e => int_expr T e dom) (wa_vecs a)) l.
End IntWindow.

(** ** Kernels *)

(** An array with these index bounds: every index, and the one after the last, is
    an [int], and there are at most 2^31 - 1 elements. *)
Definition int_dims (ds : list (Z * Z)) : Prop :=
  Forall (fun r => -2147483648 <= fst r /\ snd r < 2147483647) ds /\ fcount ds <= 2147483647.

(** A boundary segment that shares a cell with the patch; one inside the patch. *)
Definition seg_overlaps (lo hi bl bh : Z) : Prop := Z.max lo bl <= Z.min hi bh.
Definition seg_inside (lo hi bl bh : Z) : Prop := lo <= bl /\ bh <= hi /\ bl <= bh.
