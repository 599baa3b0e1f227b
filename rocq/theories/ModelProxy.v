(** * Model of src/cuda/stencil_proxy.hpp, the proxy rules of traits.hpp, the
      tuple helpers of tuple_utils.hpp and the window form of with_domain

    [with_domain(st.window(), dom...)(st(i) = ..., st(i,j) = ..., x -= ...)]. *)

From Verif Require Import Base ModelBounds ModelMatrix ModelIters ModelSpan ModelSched.
Import ListNotations.
Open Scope Z_scope.

Section Proxy.
  Context {S : Scalar}.
  Notation iter := (@iter S).
  Notation expr := (@expr S).

  (** ** Proxies *)

  (** A stencil_proxy expression tree and its operands:
      - [PNum t]: a number;
      - [PVec e]: a lazy vector (anything with iter_math);
      - [PSt i]: [st(i)], stencil_proxy<0> (stencil_proxy.hpp:151-174,
        md_device_span.hpp:402);
      - [POp o p q]: stencil_proxy<N,U,V,Op> (90-149), made by the operators of
        proxy_math (28-57).
      Numbers are scalars; an [int] operand is the scalar it converts to. *)
  Inductive proxy :=
  | PNum (t : S)
  | PVec (e : expr)
  | PSt (i : Z)
  | POp (o : binop) (p q : proxy).

  (** Unary minus (stencil_proxy.hpp:61-70): [{-1, u}] with multiplies. *)
  Definition PNeg (p : proxy) : proxy := POp OMul (PNum (lit (-1))) p.

  (** [is_stencil_proxy_v] (traits.hpp:209-211). *)
  Definition is_proxy (p : proxy) : bool :=
    match p with PNum _ | PVec _ => false | PSt _ | POp _ _ _ => true end.

  (** The operators exist only when one operand is a proxy (28-57; the static_assert
      of traits.hpp:231), and not for gradient. *)
  Fixpoint compiles (p : proxy) : bool :=
    match p with
    | PNum _ | PVec _ | PSt _ => true
    | POp o p q =>
        ((is_proxy p || is_proxy q) && compiles p && compiles q &&
         match o with OGrad => false | _ => true end)%bool
    end.

  (** [proxy_index_v] and [next_proxy_index_v] (traits.hpp:217-264). *)
  Fixpoint proxy_index (p : proxy) : nat :=
    match p with
    | PNum _ | PVec _ | PSt _ => 0
    | POp _ p q =>
        match p, q with
        | (PSt _ | POp _ _ _), (PSt _ | POp _ _ _) => Nat.max (proxy_index p) (proxy_index q)
        | (PSt _ | POp _ _ _), PNum _ => proxy_index p
        | (PSt _ | POp _ _ _), PVec _ => Datatypes.S (proxy_index p)
        | PNum _, _ => proxy_index q
        | PVec _, _ => Datatypes.S (proxy_index q)
        end
    end.

  (** [get_iterators] (stencil_proxy.hpp:116-148, 170-173) with merge_tuples,
      append_to_tuple and prepend_to_tuple (tuple_utils.hpp:27-85). *)
  Fixpoint get_iterators (p : proxy) (dom : list dbnd) : option (list iter) :=
    match p with
    | PSt _ => Some []
    | POp _ p q =>
        match p, q with
        | (PSt _ | POp _ _ _), (PSt _ | POp _ _ _) =>
            l <- get_iterators p dom ;; r <- get_iterators q dom ;; Some (l ++ r)
        | (PSt _ | POp _ _ _), PNum _ => get_iterators p dom
        | (PSt _ | POp _ _ _), PVec e => l <- get_iterators p dom ;; i <- eval e dom ;; Some (l ++ [i])
        | PNum _, (PSt _ | POp _ _ _) => get_iterators q dom
        | PNum _, PNum _ => Some []
        | PNum _, PVec e => i <- eval e dom ;; Some [i]
        | PVec e, (PSt _ | POp _ _ _) => i <- eval e dom ;; r <- get_iterators q dom ;; Some (i :: r)
        | PVec e, PNum _ => i <- eval e dom ;; Some [i]
        | PVec e, PVec e' => i <- eval e dom ;; j <- eval e' dom ;; Some [i; j]
        end
    | PNum _ | PVec _ => None
    end.

  (** ** Tuples of references

      Dereferencing a zip_iterator dereferences its components.  The reference type
      of a traversal, forward stencil or coarse-to-fine iterator is a reference into
      the array (or a pair of them): it is read when it is used.  A transform or
      constant iterator yields a value at once. *)
  Inductive entry := EVal (v : @val S) | ERef (it : iter).

  (** Whether the [reference] of the iterator is a reference into the array (the last argument of
      iterator_facade: matrix_traversal_iterator.hpp:44, forward_stencil_iterator.hpp:43-49,
      coarse_to_fine_iterator.hpp:39-45). *)
  Definition is_ref (it : iter) : bool :=
    match it with IMat _ | IFwd _ | ICoarse _ => true | _ => false end.

  (** One component of the dereferenced zip_iterator (md_device_span.hpp:299-312). *)
  Definition tup_entry (it : iter) (m : mem S) : option entry :=
    if is_ref it then Some (ERef it) else v <- it_deref it m ;; Some (EVal v).

  (** The dereferenced zip_iterator (md_device_span.hpp:299-312). *)
  Definition tup_deref (l : list iter) (m : mem S) : option (list entry) :=
    mapM (fun it => tup_entry it m) l.

  (** The use of a tuple element (stencil_proxy.hpp:75-87). *)
  Definition entry_val (en : entry) (m : mem S) : option val :=
    match en with EVal v => Some v | ERef it => it_deref it m end.

  (** [stencil_proxy::operator()(it, t)] (98-103) and maybe_invoke_with<N>
      (75-87): [w] is the window pointer, [t] the tuple.  A vector operand of a
      proxy with index [N] is element [N-1] of the tuple. *)
  Fixpoint invoke (p : proxy) (w : ptr) (t : list entry) (m : mem S) : option val :=
    match p with
    | PSt i => x <- load m (padd w i) ;; Some (VNum x)
    | POp o p' q' =>
        let arg u :=
          match u with
          | PNum x => Some (VNum x)
          | PVec _ =>
              match proxy_index p with
              | O => None
              | Datatypes.S n => en <- nth_error t n ;; entry_val en m
              end
          | PSt _ | POp _ _ _ => invoke u w t m
          end in
        u <- arg p' ;; v <- arg q' ;; app_op o u v
    | PNum _ | PVec _ => None
    end.

  (** ** Window assignments *)

  (** [st(i) = r] (stencil_assign_proxy<1,T>, 260-292), [st(i,j) = r]
      (stencil_assign_proxy<2,T>, 294-327), [x -= p] (self_assign_proxy, 329-355,
      with right-hand side [-p + x], md_device_span.hpp:353-358). *)
  Inductive wassign :=
  | WSet1 (i : Z) (r : proxy)
  | WSet2 (i j : Z) (r : proxy)
  | WSub (x : span) (p : proxy).

  (** The right-hand side of [x -= p] (md_device_span.hpp:353-358). *)
  Definition wsub_rhs (x : span) (p : proxy) : proxy := POp OAdd (PNeg p) (PVec (ESpan x)).

  (** [is_rhs_number_v] (traits.hpp:157-169), [is_self_assign_proxy_v] (276-288). *)
  Definition rhs_number (a : wassign) : bool :=
    match a with WSet1 _ (PNum _) | WSet2 _ _ (PNum _) => true | _ => false end.
  (** [is_self_assign_proxy_v] (traits.hpp:276-288). *)
  Definition self_assign (a : wassign) : bool := match a with WSub _ _ => true | _ => false end.

  (** The iterators of a right-hand side: [get_iterator] (283-291, 318-326,
      350-354) and [stencil_proxy::operator()(bnds...)] (105-114).  [st(i)] alone
      cannot be called with bounds; [st(i,j) = proxy] reads [.a] of a tuple, which
      does not compile. *)
  Definition rhs_iters (r : proxy) (dom : list dbnd) : option (list iter) :=
    match r with
    | PNum _ => Some [IConst (lit 0)]
    | PVec e => i <- eval e dom ;; Some [i]
    | PSt _ => None
    | POp _ _ _ =>
        if compiles r then
          match proxy_index r with
          | O => Some [IConst (lit 0)]
          | Datatypes.S _ => get_iterators r dom
          end
        else None
    end.

  (** [x -= p] exists for a proxy [p] (md_device_span.hpp:353). *)
  Definition wa_iters (a : wassign) (dom : list dbnd) : option (list iter) :=
    match a with
    | WSet1 _ r => rhs_iters r dom
    | WSet2 _ _ r => if is_proxy r then None else rhs_iters r dom
    | WSub x p => if is_proxy p then rhs_iters (wsub_rhs x p) dom else None
    end.

  (** [it[i] = v]. *)
  Definition put (p : ptr) (v : val) (m : mem S) : option (mem S) :=
    match v with VNum x => store m p x | _ => None end.

  (** The call operators with a window only (265-269, 299-308): numbers. *)
  Definition run_number (a : wassign) (w : ptr) (m : mem S) : option (mem S) :=
    match a with
    | WSet1 i (PNum t) => store m (padd w i) t
    | WSet2 i j (PNum t) => m' <- store m (padd w i) t ;; store m' (padd w j) t
    | _ => None
    end.

  (** The call operators with a window and a tuple element (271-281, 310-316). *)
  Definition run_general (a : wassign) (w : ptr) (t : list entry) (m : mem S) : option (mem S) :=
    match a with
    | WSet1 i (PVec _) => en <- nth_error t 0 ;; v <- entry_val en m ;; put (padd w i) v m
    | WSet1 i (PNum x) => store m (padd w i) x
    | WSet1 i r => v <- invoke r w t m ;; put (padd w i) v m
    | WSet2 i j (PVec _) =>
        en <- nth_error t 0 ;; v <- entry_val en m ;;
        match v with
        | VSt a _ =>
            m' <- store m (padd w i) a ;;
            v' <- entry_val en m' ;;
            match v' with VSt _ b => store m' (padd w j) b | _ => None end
        | _ => None
        end
    | _ => None
    end.

  (** self_assign_proxy::operator() (337-341): [l] is the left-hand side's
      iterator. *)
  Definition run_self (a : wassign) (l : mti) (w : ptr) (t : list entry) (m : mem S)
      : option (mem S) :=
    match a with
    | WSub x p =>
        v <- invoke (wsub_rhs x p) w t m ;;
        if m_ptr l then None else put (mti_addr l) v m
    | _ => None
    end.

  (** One element: tp_invoke (194-223) and tp_layered_invoke (228-255).  All
      components of the zip are dereferenced first. *)
  Definition elem_number (l : list wassign) (w : mti) (m : mem S) : option (mem S) :=
    if m_ptr w then forM l (fun a => run_number a (mti_addr w)) m else None.

  (** tp_invoke on a tuple (stencil_proxy.hpp:194-223). *)
  Definition elem_general (l : list wassign) (w : mti) (its : list (list iter)) (m : mem S)
      : option (mem S) :=
    if m_ptr w then
      ts <- mapM (fun i => tup_deref i m) its ;;
      forM (combine l ts) (fun p => run_general (fst p) (mti_addr w) (snd p)) m
    else None.

  (** tp_layered_invoke (stencil_proxy.hpp:228-255). *)
  Definition elem_self (l : list wassign) (lhs : list mti) (w : mti) (its : list (list iter))
      (m : mem S) : option (mem S) :=
    if m_ptr w then
      ts <- mapM (fun i => tup_deref i m) its ;;
      forM (combine (combine l lhs) ts)
        (fun p => run_self (fst (fst p)) (snd (fst p)) (mti_addr w) (snd p)) m
    else None.

  (** Increment of all components. *)
  Definition incs (its : list (list iter)) : option (list (list iter)) :=
    mapM (fun i => mapM it_inc i) its.

  (** thrust::for_each_n on a sequential back end. *)
  Fixpoint loop_number (n : nat) (l : list wassign) (w : mti) (m : mem S) : option (mem S) :=
    match n with
    | O => Some m
    | Datatypes.S n' => m' <- elem_number l w m ;; loop_number n' l (mti_inc w) m'
    end.

  (** thrust::for_each_n on the zip of window and right-hand sides (md_device_span.hpp:308-312). *)
  Fixpoint loop_general (n : nat) (l : list wassign) (w : mti) (its : list (list iter)) (m : mem S)
      : option (mem S) :=
    match n with
    | O => Some m
    | Datatypes.S n' =>
        m' <- elem_general l w its m ;; its' <- incs its ;; loop_general n' l (mti_inc w) its' m'
    end.

  (** thrust::for_each_n on the layered zip (md_device_span.hpp:298-307). *)
  Fixpoint loop_self (n : nat) (l : list wassign) (lhs : list mti) (w : mti) (its : list (list iter))
      (m : mem S) : option (mem S) :=
    match n with
    | O => Some m
    | Datatypes.S n' =>
        m' <- elem_self l lhs w its m ;; its' <- incs its ;;
        loop_self n' l (map mti_inc lhs) (mti_inc w) its' m'
    end.

  (** [sz = (ps.size() * ...)] (md_device_span.hpp:294). *)
  Definition window_size (dom : list dbnd) : option Z := bounds_sz dom.

  (** [get_lhs_iterator] of self_assign_proxy (stencil_proxy.hpp:329-355). *)
  Definition lhs_iter (dom : list dbnd) (a : wassign) : option mti :=
    match a with WSub x _ => call_helper false x dom | _ => None end.

  (** [with_domain(st.window(), dom...)(l...)] (md_device_span.hpp:287-315). *)
  Definition with_window (st : span) (dom : list dbnd) (l : list wassign) (m : mem S)
      : option (mem S) :=
    sz <- window_size dom ;;
    w <- call_helper false st dom ;;
    let n := Z.to_nat sz in
    if forallb rhs_number l then loop_number n l w m
    else if forallb self_assign l then
      lhs <- mapM (lhs_iter dom) l ;;
      its <- mapM (fun a => wa_iters a dom) l ;;
      loop_self n l lhs w its m
    else
      its <- mapM (fun a => wa_iters a dom) l ;;
      loop_general n l w its m.

  (** ** The threads of a parallel back end

      The accesses of one element, one at a time, as in ModelSched. *)
  Definition entry_rd (en : entry) (I : list (list Z)) (k : val -> @tprog S) : tprog :=
    match en with EVal v => k v | ERef it => it_rd it I k end.

  (** [tup_deref], access by access (md_device_span.hpp:299-312). *)
  Fixpoint tup_rd (l : list iter) (I : list (list Z)) (k : list entry -> @tprog S) : tprog :=
    match l with
    | [] => k []
    | it :: l' =>
        if is_ref it then tup_rd l' I (fun t => k (ERef it :: t))
        else it_rd it I (fun v => tup_rd l' I (fun t => k (EVal v :: t)))
    end.

  (** The tuples of all assignments, access by access (md_device_span.hpp:299-312). *)
  Fixpoint tups_rd (ls : list (list iter)) (I : list (list Z)) (k : list (list entry) -> @tprog S)
      : tprog :=
    match ls with
    | [] => k []
    | l :: ls' => tup_rd l I (fun t => tups_rd ls' I (fun ts => k (t :: ts)))
    end.

  (** [invoke], access by access. *)
  Fixpoint inv_rd (p : proxy) (w : ptr) (t : list entry) (I : list (list Z)) (k : val -> @tprog S)
      : tprog :=
    match p with
    | PSt i => TRead (padd w i) (fun x => k (VNum x))
    | POp o p' q' =>
        let arg u k :=
          match u with
          | PNum x => k (VNum x)
          | PVec _ =>
              match proxy_index p with
              | O => TFail
              | Datatypes.S n => match nth_error t n with Some en => entry_rd en I k | None => TFail end
              end
          | PSt _ | POp _ _ _ => inv_rd u w t I k
          end in
        arg p' (fun u => arg q' (fun v => match app_op o u v with Some x => k x | None => TFail end))
    | PNum _ | PVec _ => TFail
    end.

  (** The store of one assignment (stencil_proxy.hpp:260-355). *)
  Definition put_rd (p : ptr) (v : val) (k : @tprog S) : tprog :=
    match v with VNum x => TWrite p x k | _ => TFail end.

  (** [st(i) = t] and [st(i,j) = t] for a number [t] (stencil_proxy.hpp:260-327), access by access. *)
  Definition number_rd (a : wassign) (w : ptr) (k : @tprog S) : tprog :=
    match a with
    | WSet1 i (PNum t) => TWrite (padd w i) t k
    | WSet2 i j (PNum t) => TWrite (padd w i) t (TWrite (padd w j) t k)
    | _ => TFail
    end.

  (** [st(i) = r] and [st(i,j) = r] (stencil_proxy.hpp:260-327), access by access. *)
  Definition general_rd (a : wassign) (w : ptr) (t : list entry) (I : list (list Z)) (k : @tprog S)
      : tprog :=
    match a with
    | WSet1 i (PVec _) =>
        match nth_error t 0 with
        | Some en => entry_rd en I (fun v => put_rd (padd w i) v k)
        | None => TFail
        end
    | WSet1 i (PNum x) => TWrite (padd w i) x k
    | WSet1 i r => inv_rd r w t I (fun v => put_rd (padd w i) v k)
    | WSet2 i j (PVec _) =>
        match nth_error t 0 with
        | Some en =>
            entry_rd en I (fun v =>
              match v with
              | VSt a _ =>
                  TWrite (padd w i) a
                    (entry_rd en I (fun v' =>
                       match v' with VSt _ b => TWrite (padd w j) b k | _ => TFail end))
              | _ => TFail
              end)
        | None => TFail
        end
    | _ => TFail
    end.

  (** [x -= p] (stencil_proxy.hpp:329-355), access by access. *)
  Definition self_rd (a : wassign) (l : mti) (w : ptr) (t : list entry) (I : list (list Z))
      (k : @tprog S) : tprog :=
    match a with
    | WSub x p =>
        inv_rd (wsub_rhs x p) w t I (fun v => if m_ptr l then TFail else put_rd (mti_addr l) v k)
    | _ => TFail
    end.

  (** Thread [k]: advance every iterator by [k], then as [elem_number],
      [elem_general] or [elem_self]. *)
  Definition window_thread (st : span) (dom : list dbnd) (l : list wassign) (I : list (list Z)) (k : Z)
      : option tprog :=
    w0 <- call_helper false st dom ;;
    w <- mti_adv w0 k ;;
    if negb (m_ptr w) then Some TFail else
    if forallb rhs_number l then
      Some (fold_right (fun a => number_rd a (mti_addr w)) TDone l)
    else
      its0 <- mapM (fun a => wa_iters a dom) l ;;
      its <- mapM (mapM (fun it => it_adv it k)) its0 ;;
      if forallb self_assign l then
        lhs0 <- mapM (lhs_iter dom) l ;;
        lhs <- mapM (fun x => mti_adv x k) lhs0 ;;
        Some (tups_rd its I (fun ts =>
          fold_right (fun p => self_rd (fst (fst p)) (snd (fst p)) (mti_addr w) (snd p) I) TDone
            (combine (combine l lhs) ts)))
      else
        Some (tups_rd its I (fun ts =>
          fold_right (fun p => general_rd (fst p) (mti_addr w) (snd p) I) TDone (combine l ts))).

  (** The threads of the thrust::for_each_n of a window assignment (md_device_span.hpp:287-315). *)
  Definition window_launch (st : span) (dom : list dbnd) (l : list wassign) (I : list (list Z))
      : option (list tprog) :=
    sz <- window_size dom ;;
    mapM (fun k => window_thread st dom l I (Z.of_nat k)) (seq 0 (Z.to_nat sz)).
End Proxy.
