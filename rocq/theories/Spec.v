(** * Specification vocabulary

    What a user of the library has in mind, stated without any iterator: index
    points, nested loops over a domain, the row-major address of an element and
    the mathematical value of an expression at a point.  Nothing here refers to
    the traversal machinery of the model. *)

From Coq Require Import Permutation.
From Verif Require Import Base ModelBounds ModelIters ModelSpan.
Import ListNotations.
Open Scope Z_scope.

(** An index point gives every direction (K, J, I, W) an index. *)
Definition point := dim -> Z.

Definition pset (pt : point) (d : dim) (x : Z) : point :=
  fun d' => if Nat.eqb d' d then x else pt d'.

(** [pt] moved by [z] in direction [d]. *)
Definition pmove (pt : point) (d : dim) (z : Z) : point := pset pt d (pt d + z).

Definition origin : point := fun _ => 0.

(** ** Domains *)

(** How many indices [first, first+stride, ...] are at most [ub] (for
    [stride >= 1] and [ub >= first - 1]). *)
Definition count (b : bounds) : Z := (b_ub b - b_lb b + stride b) / stride b.

(** The values taken by a loop over [b], in order. *)
Definition loop_values (b : bounds) : list Z :=
  map (fun k => b_lb b + stride b * Z.of_nat k) (seq 0 (Z.to_nat (count b))).

(** The points of the nested loops, the first bound outermost. *)
Fixpoint domain_points (dom : list dbnd) (pt : point) : list point :=
  match dom with
  | [] => [pt]
  | (d, b) :: dom' => flat_map (fun x => domain_points dom' (pset pt d x)) (loop_values b)
  end.

(** A domain a user may write: at least one bound, distinct directions, positive
    strides, no negative extents (an empty extent is fine). *)
Definition wf_dom (dom : list dbnd) : Prop :=
  dom <> [] /\ NoDup (map fst dom) /\
  Forall (fun b => 1 <= stride (snd b) /\ b_lb (snd b) <= b_ub (snd b) + 1) dom.

(** ** Elements of a span *)

(** Number of indices of a unit-stride bound, and of a list of them. *)
Definition extent (b : bounds) : Z := b_ub b - b_lb b + 1.
Definition cells_of (bs : list dbnd) : Z := prodZ (map (fun b => extent (snd b)) bs).

(** Row-major position of the point in an array with these bounds. *)
Fixpoint offset_of (bs : list dbnd) (pt : point) : Z :=
  match bs with
  | [] => 0
  | (d, b) :: bs' => (pt d - b_lb b) * cells_of bs' + offset_of bs' pt
  end.

(** The address of the span's element at the point. *)
Definition addr (s : span) (pt : point) : ptr := padd (sp_ptr s) (offset_of (sp_b s) pt).

(** Spans made by [make_md_span]: distinct directions and unit strides. *)
Definition wf_span (s : span) : Prop :=
  NoDup (sp_order s) /\ Forall (fun b => stride (snd b) = 1) (sp_b s).

(** The point lies within the span's bounds. *)
Definition in_bounds (bs : list dbnd) (pt : point) : Prop :=
  Forall (fun b => b_lb (snd b) <= pt (fst b) <= b_ub (snd b)) bs.

(** The directions, innermost first, of the offset tables used by [dot]. *)
Definition xyz : list dim := [dI; dJ; dK].

Section Denote.
  Context {S : Scalar}.

  (** [pt] displaced by the [i]-th row of an offset table with [N] columns
      (columns are x, y, z). *)
  Definition displaced (m : mem S) (o : ptr) (N : nat) (i : nat) (pt : point) : option point :=
    forM (seq 0 N)
      (fun j q =>
         oj <- loadi m (padd o (Z.of_nat i * Z.of_nat N + Z.of_nat j)) ;;
         Some (pmove q (nth j xyz 0%nat) oj)) pt.

  (** Coarse point seen from fine point [pt]: directions listed in [cb] are fixed
      at their coarse index, the others are divided (rounding down) by [r]. *)
  Definition coarse_point (r : Z) (cb : list dbnd) (pt : point) : point :=
    fun d => match find (fun b => Nat.eqb (fst b) d) cb with
             | Some b => b_lb (snd b)
             | None => pt d / r
             end.

  (** The value of an expression at an index point. *)
  Fixpoint denote (e : @expr S) (pt : point) (m : mem S) : option val :=
    match e with
    | ESpan s => x <- load m (addr s pt) ;; Some (VNum x)
    | ENumL o t e' => v <- denote e' pt m ;; app_op o (VNum t) v
    | ENumR o e' t => u <- denote e' pt m ;; app_op o u (VNum t)
    | EBin o e1 e2 => u <- denote e1 pt m ;; v <- denote e2 pt m ;; app_op o u v
    | EStencil sh s d =>
        let q := if 0 <=? sh then pt else pmove pt d (-1) in
        x0 <- load m (addr s q) ;;
        x1 <- load m (addr s (pmove q d 1)) ;;
        Some (VSt x0 x1)
    | EShift d z e' => denote e' (pmove pt d z) m
    | EDot st u o =>
        let N := length (sp_b u) in
        match nth_error (sp_b st) N with
        | None => None
        | Some (w, wb) =>
          r <- forM (seq 0 (Z.to_nat (extent wb)))
                (fun i res =>
                   s <- load m (addr st (pset pt w (b_lb wb + Z.of_nat i))) ;;
                   q <- displaced m o N i pt ;;
                   x <- load m (addr u q) ;;
                   Some (res + s * x)%T) (lit 0) ;;
          Some (VNum r)
        end
    | EFine s r cb => x <- load m (addr s (coarse_point r cb pt)) ;; Some (VNum x)
    end.

  (** The expression can be instantiated at the domain:
      - spans are used with a permutation of their directions;
      - differences are taken in a direction in which the domain has stride 1;
      - dot products use the loop order in which the offset table is written;
      - coarse-to-fine copies run along a line. *)
  Fixpoint wf_expr (e : @expr S) (dom : list dbnd) : Prop :=
    match e with
    | ESpan s => wf_span s /\ Permutation (map fst dom) (sp_order s)
    | ENumL _ _ e' => wf_expr e' dom
    | ENumR _ e' _ => wf_expr e' dom
    | EBin _ e1 e2 => wf_expr e1 dom /\ wf_expr e2 dom
    | EStencil sh s d =>
        wf_span s /\ Permutation (map fst dom) (sp_order s) /\
        (sh = 1 \/ sh = -1) /\ (exists b, In (d, b) dom /\ stride b = 1)
    | EShift d z e' => wf_expr e' (shift_dom d z dom)
    | EDot st u _ =>
        wf_span u /\ wf_span st /\
        Permutation (map fst dom) (sp_order u) /\
        rev (map fst dom) = firstn (length dom) xyz /\
        Forall (fun b => stride (snd b) = 1) dom /\
        exists hd w wb, sp_b st = hd ++ [(w, wb)] /\
                        Permutation (map fst dom) (map fst hd)
    | EFine s r cb =>
        wf_span s /\ 1 <= r /\ NoDup (map fst cb) /\
        Permutation (map fst dom) (sp_order s) /\
        exists d b, In (d, b) dom /\ stride b = 1 /\
          Permutation (map fst dom) (d :: map fst cb) /\
          Forall (fun b' => fst b' = d \/ b_lb (snd b') = b_ub (snd b')) dom
    end.

  (** The effect of [with_domain(dom)(lhs = e)]: loop over the points, store the
      value at the element. *)
  Definition assign_spec (dom : list dbnd) (a : @assign S) (m : mem S) : option (mem S) :=
    forM (domain_points dom origin)
      (fun pt m =>
         match a with
         | ANum s t => store m (addr s pt) t
         | AExpr s e =>
             v <- denote e pt m ;;
             match v with VNum x => store m (addr s pt) x | _ => None end
         end) m.

  (** The assignment can be instantiated at the domain. *)
  Definition wf_assign (dom : list dbnd) (a : @assign S) : Prop :=
    wf_span (lhs_of a) /\ Permutation (map fst dom) (sp_order (lhs_of a)) /\
    match a with AExpr _ e => wf_expr e dom | ANum _ _ => True end.

  (** The number the right-hand side has at a point. *)
  Definition rhs_at (a : @assign S) (pt : point) (m : mem S) : option S :=
    match a with
    | ANum _ t => Some t
    | AExpr _ e => v <- denote e pt m ;; match v with VNum x => Some x | _ => None end
    end.
End Denote.
