(** * Window assignments with [int] index arithmetic

    The definitions of ModelProxy over ModelInt.  The indices [i] of [st(i)] are
    [int]s by their type; [it[i]] adds them to a pointer (64 bits). *)

From Verif Require Import Base ModelBounds ModelMatrix ModelIters ModelSpan ModelProxy ModelInt ModelPar.
Import ListNotations.
Open Scope Z_scope.

Section Proxy32.
  Context {S : Scalar}.
  Notation iter := (@iter S).
  Notation proxy := (@proxy S).
  Notation wassign := (@wassign S).
  Notation entry := (@entry S).
  Notation val := (@val S).

  (** [get_iterators] (stencil_proxy.hpp:116-148, 170-173). *)
  Fixpoint get_iterators32 (p : proxy) (dom : list dbnd) : option (list iter) :=
    match p with
    | PSt _ => Some []
    | POp _ p q =>
        match p, q with
        | (PSt _ | POp _ _ _), (PSt _ | POp _ _ _) =>
            l <- get_iterators32 p dom ;; r <- get_iterators32 q dom ;; Some (l ++ r)
        | (PSt _ | POp _ _ _), PNum _ => get_iterators32 p dom
        | (PSt _ | POp _ _ _), PVec e => l <- get_iterators32 p dom ;; i <- eval32 e dom ;; Some (l ++ [i])
        | PNum _, (PSt _ | POp _ _ _) => get_iterators32 q dom
        | PNum _, PNum _ => Some []
        | PNum _, PVec e => i <- eval32 e dom ;; Some [i]
        | PVec e, (PSt _ | POp _ _ _) => i <- eval32 e dom ;; r <- get_iterators32 q dom ;; Some (i :: r)
        | PVec e, PNum _ => i <- eval32 e dom ;; Some [i]
        | PVec e, PVec e' => i <- eval32 e dom ;; j <- eval32 e' dom ;; Some [i; j]
        end
    | PNum _ | PVec _ => None
    end.

  (** Tuples of references. *)
  Definition tup_entry32 (it : iter) (m : mem S) : option entry :=
    if is_ref it then Some (ERef it) else v <- it_deref32 it m ;; Some (EVal v).
  (** Dereference of a zip_iterator (md_device_span.hpp:299-312), as [tup_deref]. *)
  Definition tup_deref32 (l : list iter) (m : mem S) : option (list entry) :=
    mapM (fun it => tup_entry32 it m) l.
  (** The use of a tuple element (stencil_proxy.hpp:75-87), as [entry_val]. *)
  Definition entry_val32 (en : entry) (m : mem S) : option val :=
    match en with EVal v => Some v | ERef it => it_deref32 it m end.

  (** [stencil_proxy::operator()(it, t)] (98-103), maybe_invoke_with (75-87). *)
  Fixpoint invoke32 (p : proxy) (w : ptr) (t : list entry) (m : mem S) : option val :=
    match p with
    | PSt i => x <- load m (padd w i) ;; Some (VNum x)
    | POp o p' q' =>
        let arg u :=
          match u with
          | PNum x => Some (VNum x)
          | PVec _ =>
              match proxy_index p with
              | O => None
              | Datatypes.S n => en <- nth_error t n ;; entry_val32 en m
              end
          | PSt _ | POp _ _ _ => invoke32 u w t m
          end in
        u <- arg p' ;; v <- arg q' ;; app_op o u v
    | PNum _ | PVec _ => None
    end.

  (** [get_iterator] (283-291, 318-326, 350-354), [operator()(bnds...)] (105-114). *)
  Definition rhs_iters32 (r : proxy) (dom : list dbnd) : option (list iter) :=
    match r with
    | PNum _ => Some [IConst (lit 0)]
    | PVec e => i <- eval32 e dom ;; Some [i]
    | PSt _ => None
    | POp _ _ _ =>
        if compiles r then
          match proxy_index r with
          | O => Some [IConst (lit 0)]
          | Datatypes.S _ => get_iterators32 r dom
          end
        else None
    end.

  (** [get_iterator] (stencil_proxy.hpp:283-291, 318-326, 350-354), as [wa_iters]. *)
  Definition wa_iters32 (a : wassign) (dom : list dbnd) : option (list iter) :=
    match a with
    | WSet1 _ r => rhs_iters32 r dom
    | WSet2 _ _ r => if is_proxy r then None else rhs_iters32 r dom
    | WSub x p => if is_proxy p then rhs_iters32 (wsub_rhs x p) dom else None
    end.

  (** The call operators with a window and a tuple element (271-281, 310-316). *)
  Definition run_general32 (a : wassign) (w : ptr) (t : list entry) (m : mem S) : option (mem S) :=
    match a with
    | WSet1 i (PVec _) => en <- nth_error t 0 ;; v <- entry_val32 en m ;; put (padd w i) v m
    | WSet1 i (PNum x) => store m (padd w i) x
    | WSet1 i r => v <- invoke32 r w t m ;; put (padd w i) v m
    | WSet2 i j (PVec _) =>
        en <- nth_error t 0 ;; v <- entry_val32 en m ;;
        match v with
        | VSt a _ =>
            m' <- store m (padd w i) a ;;
            v' <- entry_val32 en m' ;;
            match v' with VSt _ b => store m' (padd w j) b | _ => None end
        | _ => None
        end
    | _ => None
    end.

  (** self_assign_proxy::operator() (337-341). *)
  Definition run_self32 (a : wassign) (l : mti) (w : ptr) (t : list entry) (m : mem S)
      : option (mem S) :=
    match a with
    | WSub x p =>
        v <- invoke32 (wsub_rhs x p) w t m ;;
        q <- mti_addr32 l ;;
        if m_ptr l then None else put q v m
    | _ => None
    end.

  (** One element: tp_invoke (194-223), tp_layered_invoke (228-255). *)
  Definition elem_number32 (l : list wassign) (w : mti) (m : mem S) : option (mem S) :=
    q <- mti_addr32 w ;;
    if m_ptr w then forM l (fun a => run_number a q) m else None.

  (** tp_invoke on a tuple (stencil_proxy.hpp:194-223). *)
  Definition elem_general32 (l : list wassign) (w : mti) (its : list (list iter)) (m : mem S)
      : option (mem S) :=
    q <- mti_addr32 w ;;
    if m_ptr w then
      ts <- mapM (fun i => tup_deref32 i m) its ;;
      forM (combine l ts) (fun p => run_general32 (fst p) q (snd p)) m
    else None.

  (** tp_layered_invoke (stencil_proxy.hpp:228-255). *)
  Definition elem_self32 (l : list wassign) (lhs : list mti) (w : mti) (its : list (list iter))
      (m : mem S) : option (mem S) :=
    q <- mti_addr32 w ;;
    if m_ptr w then
      ts <- mapM (fun i => tup_deref32 i m) its ;;
      forM (combine (combine l lhs) ts)
        (fun p => run_self32 (fst (fst p)) (snd (fst p)) q (snd p)) m
    else None.

  (** Increment of all components, and thrust::for_each_n. *)
  Definition incs32 (its : list (list iter)) : option (list (list iter)) :=
    mapM (fun i => mapM it_inc32 i) its.

  (** thrust::for_each_n (md_device_span.hpp:296-297). *)
  Fixpoint loop_number32 (n : nat) (l : list wassign) (w : mti) (m : mem S) : option (mem S) :=
    match n with
    | O => Some m
    | Datatypes.S n' => m' <- elem_number32 l w m ;; w' <- mti_inc32 w ;; loop_number32 n' l w' m'
    end.

  (** thrust::for_each_n (md_device_span.hpp:308-312). *)
  Fixpoint loop_general32 (n : nat) (l : list wassign) (w : mti) (its : list (list iter)) (m : mem S)
      : option (mem S) :=
    match n with
    | O => Some m
    | Datatypes.S n' =>
        m' <- elem_general32 l w its m ;; its' <- incs32 its ;; w' <- mti_inc32 w ;;
        loop_general32 n' l w' its' m'
    end.

  (** thrust::for_each_n (md_device_span.hpp:298-307). *)
  Fixpoint loop_self32 (n : nat) (l : list wassign) (lhs : list mti) (w : mti) (its : list (list iter))
      (m : mem S) : option (mem S) :=
    match n with
    | O => Some m
    | Datatypes.S n' =>
        m' <- elem_self32 l lhs w its m ;; its' <- incs32 its ;; lhs' <- mapM mti_inc32 lhs ;;
        w' <- mti_inc32 w ;;
        loop_self32 n' l lhs' w' its' m'
    end.

  (** [get_lhs_iterator] of self_assign_proxy (stencil_proxy.hpp:329-355). *)
  Definition lhs_iter32 (dom : list dbnd) (a : wassign) : option mti :=
    match a with WSub x _ => call_helper32 false x dom | _ => None end.

  (** [with_domain(st.window(), dom...)(l...)] (md_device_span.hpp:287-315). *)
  Definition with_window32 (st : span) (dom : list dbnd) (l : list wassign) (m : mem S)
      : option (mem S) :=
    sz <- bounds_sz32 dom ;;
    w <- call_helper32 false st dom ;;
    let n := Z.to_nat sz in
    if forallb rhs_number l then loop_number32 n l w m
    else if forallb self_assign l then
      lhs <- mapM (lhs_iter32 dom) l ;;
      its <- mapM (fun a => wa_iters32 a dom) l ;;
      loop_self32 n l lhs w its m
    else
      its <- mapM (fun a => wa_iters32 a dom) l ;;
      loop_general32 n l w its m.

  (** The calls of a kernel with [int] index arithmetic. *)
  Definition int32 : @exec S := mkExec with_domain32 with_lhs_domain32 with_window32.

  (** coarse_to_fine_cuda.cpp:70-103 (as KernelsCopy). *)
  Definition c2f_copy_corner32 (ci0 ci1 cj0 cj1 ck0 ck1 fi0 fi1 fj0 fj1 fk0 fk1
      cbi0 cbi1 cbj0 cbj1 cbk0 cbk1 fbi0 fbi1 fbj0 fbj1 fbk0 fbk1 gcw : Z)
      (cdata_ fdata_ : ptr) (m : mem S) : option (mem S) :=
    let c := make_md_span_g cdata_ gcw [Kb cbk0 cbk1; Jb cbj0 cbj1; Ib cbi0 cbi1] in
    let f := make_md_span_g fdata_ gcw [Kb fbk0 fbk1; Jb fbj0 fbj1; Ib fbi0 fbi1] in
    at_assign32 f [fk0; fj0; fi0] c [ck0; cj0; ci0] m.
End Proxy32.
