(** * Specification vocabulary for assignments

    When an assignment is well formed over a domain, when its elements are
    independent of each other, and when a span lies in allocated memory. *)

From Coq Require Import Permutation.
From Verif Require Import Base ModelBounds ModelMatrix ModelIters ModelSpan Spec SpecIter ModelSched.
Import ListNotations.
Open Scope Z_scope.

Section Assign.
  Context {S : Scalar}.

  (** The elements of the span are allocated. *)
  Definition allocated (m : mem S) (s : span) : Prop :=
    exists a, nth_error (cells m) (fst (sp_ptr s)) = Some a /\
      0 <= snd (sp_ptr s) /\ snd (sp_ptr s) + cells_of (sp_b s) <= Z.of_nat (length a).

  (** The assignment compiles over the domain, and the domain lies within the
      bounds of the left-hand side. *)
  Definition assignable (dom : list dbnd) (a : @assign S) : Prop :=
    wf_dom dom /\ wf_assign dom a /\ dom_within dom (sp_b (lhs_of a)).

  (** No element reads a location that a different element writes. *)
  Definition independent (dom : list dbnd) (a : @assign S) (I : list (list Z)) : Prop :=
    forall p q, In p (domain_points dom origin) -> In q (domain_points dom origin) ->
      In (addr (lhs_of a) q) (assign_reads a p I) -> addr (lhs_of a) q = addr (lhs_of a) p.

  (** The memory after an assignment: the elements of the domain hold the values
      of [f] in the memory before, everything else is as before. *)
  Definition assigned (dom : list dbnd) (x : span) (f : point -> option S) (m m' : mem S) : Prop :=
    (forall pt, In pt (domain_points dom origin) ->
       exists v, f pt = Some v /\ load m' (addr x pt) = Some v) /\
    (forall p, (forall pt, In pt (domain_points dom origin) -> p <> addr x pt) ->
       load m' p = load m p) /\
    ints m' = ints m.

  (** The allocations the expression reads from. *)
  Fixpoint avoids (b : nat) (e : @expr S) : Prop :=
    match e with
    | ESpan s => fst (sp_ptr s) <> b
    | ENumL _ _ e' => avoids b e'
    | ENumR _ e' _ => avoids b e'
    | EBin _ e1 e2 => avoids b e1 /\ avoids b e2
    | EStencil _ s _ => fst (sp_ptr s) <> b
    | EShift _ _ e' => avoids b e'
    | EDot st u _ => fst (sp_ptr st) <> b /\ fst (sp_ptr u) <> b
    | EFine s _ _ => fst (sp_ptr s) <> b
    end.

  (** The ghost-update pattern of the boundary kernels: [u] itself is read at the
      element being written, or displaced by [disp], which is non-zero in a
      direction in which the domain is one cell thick, and the displaced cells are
      cells of [u]; everything else comes from other allocations. *)
  Fixpoint ghost_update (u : span) (dom : list dbnd) (disp : point) (e : @expr S) : Prop :=
    match e with
    | ESpan s =>
        fst (sp_ptr s) <> fst (sp_ptr u) \/
        s = u /\ (forall d, disp d = 0) \/
        s = u /\
        (exists d b, In (d, b) dom /\ b_lb b = b_ub b /\ disp d <> 0) /\
        (forall pt, In pt (domain_points dom origin) ->
           in_bounds (sp_b u) (fun d => pt d + disp d))
    | ENumL _ _ e' => ghost_update u dom disp e'
    | ENumR _ e' _ => ghost_update u dom disp e'
    | EBin _ e1 e2 => ghost_update u dom disp e1 /\ ghost_update u dom disp e2
    | EShift d z e' => ghost_update u dom (pmove disp d z) e'
    | _ => avoids (fst (sp_ptr u)) e
    end.
End Assign.
