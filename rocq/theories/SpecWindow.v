(** * Specification of window assignments: loops over the points *)

From Coq Require Import Permutation.
From Verif Require Import Base ModelBounds ModelIters ModelSpan ModelProxy Spec SpecIter ModelSched SpecAssign.
Import ListNotations.
Open Scope Z_scope.

Section Window.
  Context {S : Scalar}.

  (** [st(i)] at a point: the element with W-index [first + i].  The last direction
      of [st] is the window. *)
  Definition entry_at (st : span) (pt : point) (i : Z) : ptr :=
    match rev (sp_b st) with
    | (w, wb) :: _ => addr st (pset pt w (b_lb wb + i))
    | [] => addr st pt
    end.

  (** The value of a window expression at a point: the arithmetic as written. *)
  Fixpoint pvalue (st : span) (p : @proxy S) (pt : point) (m : mem S) : option (@val S) :=
    match p with
    | PNum t => Some (VNum t)
    | PVec e => denote e pt m
    | PSt i => x <- load m (entry_at st pt i) ;; Some (VNum x)
    | POp o p q => u <- pvalue st p pt m ;; v <- pvalue st q pt m ;; app_op o u v
    end.

  (** One assignment at one point. *)
  Definition wassign_at (st : span) (a : @wassign S) (pt : point) (m : mem S) : option (mem S) :=
    match a with
    | WSet1 i r =>
        v <- pvalue st r pt m ;;
        match v with VNum x => store m (entry_at st pt i) x | _ => None end
    | WSet2 i j (PNum x) => m' <- store m (entry_at st pt i) x ;; store m' (entry_at st pt j) x
    | WSet2 i j r =>
        v <- pvalue st r pt m ;;
        match v with
        | VSt x y => m' <- store m (entry_at st pt i) x ;; store m' (entry_at st pt j) y
        | _ => None
        end
    | WSub x p =>
        v <- pvalue st p pt m ;; x0 <- load m (addr x pt) ;;
        match v with VNum y => store m (addr x pt) (# (-1) * y + x0)%T | _ => None end
    end.

  (** All assignments in order at a point. *)
  Definition point_spec (st : span) (l : list (@wassign S)) (pt : point) (m : mem S) : option (mem S) :=
    forM l (fun a => wassign_at st a pt) m.

  Definition window_spec (st : span) (dom : list dbnd) (l : list (@wassign S)) (m : mem S)
      : option (mem S) :=
    forM (domain_points dom origin) (point_spec st l) m.

  (** ** The supported shapes *)

  (** The lazy vectors of the expression, left to right. *)
  Fixpoint pvecs (p : @proxy S) : list (@expr S) :=
    match p with
    | PNum _ | PSt _ => []
    | PVec e => [e]
    | POp _ p q => pvecs p ++ pvecs q
    end.

  (** Vectors accumulate to the right: a vector is written to the left of a proxy
      only if that proxy contains none, and of two proxies at most one contains
      vectors. *)
  Fixpoint supported_proxy (p : @proxy S) : Prop :=
    match p with
    | PNum _ | PVec _ | PSt _ => True
    | POp _ p q =>
        supported_proxy p /\ supported_proxy q /\
        match p, q with
        | PVec _, _ => pvecs q = []
        | _, PVec _ => True
        | _, _ => pvecs p = [] \/ pvecs q = []
        end
    end.

  (** A right-hand side: a number, a vector, or an operator expression. *)
  Definition rhs_ok (r : @proxy S) : Prop :=
    match r with PSt _ => False | _ => compiles r = true /\ supported_proxy r end.

  (** The value is not fetched before the other assignments of the element run. *)
  Fixpoint deferred (e : @expr S) : bool :=
    match e with
    | ESpan _ | EStencil _ _ _ | EFine _ _ _ => true
    | EShift _ _ e' => deferred e'
    | _ => false
    end.

  Definition wa_vecs (a : @wassign S) : list expr :=
    match a with WSet1 _ r => pvecs r | WSet2 _ _ r => pvecs r | WSub _ p => pvecs p end.

  (** The allocation an assignment writes to. *)
  Definition wa_block (st : span) (a : @wassign S) : nat :=
    match a with WSub x _ => fst (sp_ptr x) | _ => fst (sp_ptr st) end.

  Definition wa_ok (dom : list dbnd) (a : @wassign S) : Prop :=
    match a with
    | WSet1 _ r => rhs_ok r
    | WSet2 _ _ (PNum _) => True
    | WSet2 i j (PVec e) => True
    | WSet2 _ _ _ => False
    | WSub x p =>
        is_proxy p = true /\ compiles p = true /\ supported_proxy p /\
        wf_span x /\ Permutation (map fst dom) (sp_order x)
    end.

  (** A statement the library supports: the assignments compile, either all are
      numbers, all are -=, or none is -= and pairs come from vectors. *)
  Definition window_ok (st : span) (dom : list dbnd) (l : list (@wassign S)) : Prop :=
    wf_dom dom /\ wf_span st /\
    (exists hd w wb, sp_b st = hd ++ [(w, wb)] /\ Permutation (map fst dom) (map fst hd)) /\
    Forall (wa_ok dom) l /\
    Forall (fun a => Forall (fun e => wf_expr e dom) (wa_vecs a)) l /\
    (Forall (fun a => rhs_number a = true) l \/
     Forall (fun a => self_assign a = true) l \/
     Forall (fun a => self_assign a = false /\
                      match a with WSet2 _ _ (PNum _) => False | _ => True end) l).

  (** A vector that is fetched before the assignments of the element run must not
      read what an earlier assignment of the element writes; a pair read directly
      from an array must not come from the window's own array. *)
  Definition fetched_ok (st : span) (b a : @wassign S) : Prop :=
    Forall (fun e => deferred e = true \/ avoids (wa_block st b) e) (wa_vecs a).

  Definition window_indep (st : span) (l : list (@wassign S)) : Prop :=
    ForallOrdPairs (fetched_ok st) l /\
    Forall (fun a => match a with
                     | WSet2 _ _ (PVec e) => deferred e = false \/ avoids (fst (sp_ptr st)) e
                     | _ => True
                     end) l.

  (** ** The locations an element reads and writes *)
  Fixpoint preads (st : span) (p : @proxy S) (pt : point) (I : list (list Z)) : list ptr :=
    match p with
    | PNum _ => []
    | PVec e => reads e pt I
    | PSt i => [entry_at st pt i]
    | POp _ p q => preads st p pt I ++ preads st q pt I
    end.

  Definition wreads (st : span) (pt : point) (I : list (list Z)) (a : @wassign S) : list ptr :=
    match a with
    | WSet1 _ r => preads st r pt I
    | WSet2 _ _ r => preads st r pt I
    | WSub x p => addr x pt :: preads st p pt I
    end.

  Definition wwrites (st : span) (pt : point) (a : @wassign S) : list ptr :=
    match a with
    | WSet1 i _ => [entry_at st pt i]
    | WSet2 i j _ => [entry_at st pt i; entry_at st pt j]
    | WSub x _ => [addr x pt]
    end.

  (** No element touches what a different element writes. *)
  Definition window_disjoint_elems (st : span) (dom : list dbnd) (l : list (@wassign S))
      (I : list (list Z)) : Prop :=
    forall i j p q x,
      nth_error (domain_points dom origin) i = Some p ->
      nth_error (domain_points dom origin) j = Some q -> i <> j ->
      In x (flat_map (wwrites st p) l) ->
      ~ In x (flat_map (wreads st q I) l) /\ ~ In x (flat_map (wwrites st q) l).

  (** A readable sufficient condition for the above: the window indices lie in the
      window, the domain lies in the arrays, and no vector reads an allocation
      that is written. *)
  Fixpoint st_indices (p : @proxy S) : list Z :=
    match p with PSt i => [i] | POp _ p q => st_indices p ++ st_indices q | PNum _ | PVec _ => [] end.

  Definition wa_indices (a : @wassign S) : list Z :=
    match a with
    | WSet1 i r => i :: st_indices r
    | WSet2 i j r => i :: j :: st_indices r
    | WSub _ p => st_indices p
    end.

  Definition window_local (st : span) (dom : list dbnd) (l : list (@wassign S)) : Prop :=
    exists hd w wb,
      sp_b st = hd ++ [(w, wb)] /\ dom_within dom hd /\
      (forall a i, In a l -> In i (wa_indices a) -> 0 <= i < extent wb) /\
      (forall x p, In (WSub x p) l ->
         dom_within dom (sp_b x) /\ fst (sp_ptr x) <> fst (sp_ptr st) /\
         forall y q, In (WSub y q) l -> y = x \/ fst (sp_ptr y) <> fst (sp_ptr x)) /\
      (forall a b, In a l -> In b l -> Forall (avoids (wa_block st b)) (wa_vecs a)).

  (** Every bound's stride divides its extent. *)
  Definition strides_divide (dom : list dbnd) : Prop :=
    Forall (fun b => (stride (snd b) | extent (snd b))) dom.

  (** Per bound, extent over stride rounded down. *)
  Definition floors (dom : list dbnd) : list Z := map (fun b => extent (snd b) / stride (snd b)) dom.

  (** A statement the compiler accepts: as [window_ok], without restricting where
      vectors stand in the expressions. *)
  Definition wa_accepted (dom : list dbnd) (a : @wassign S) : Prop :=
    match a with
    | WSet1 _ (PSt _) => False
    | WSet1 _ r => compiles r = true
    | WSet2 _ _ (PNum _) => True
    | WSet2 i j (PVec e) => True
    | WSet2 _ _ _ => False
    | WSub x p =>
        is_proxy p = true /\ compiles p = true /\
        wf_span x /\ Permutation (map fst dom) (sp_order x)
    end.

  Definition window_accepted (st : span) (dom : list dbnd) (l : list (@wassign S)) : Prop :=
    wf_dom dom /\ wf_span st /\
    (exists hd w wb, sp_b st = hd ++ [(w, wb)] /\ Permutation (map fst dom) (map fst hd)) /\
    Forall (wa_accepted dom) l /\
    Forall (fun a => Forall (fun e => wf_expr e dom) (wa_vecs a)) l /\
    (Forall (fun a => rhs_number a = true) l \/
     Forall (fun a => self_assign a = true) l \/
     Forall (fun a => self_assign a = false /\
                      match a with WSet2 _ _ (PNum _) => False | _ => True end) l).
End Window.
