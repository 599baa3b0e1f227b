(** * Model of src/cuda/md_device_span.hpp, iter_math.hpp and the index
      arithmetic of traits.hpp

    The expression templates become the datatype [expr]; instantiating one at a
    domain (its call operator) becomes [eval]; the Thrust algorithms become
    loops over the resulting iterators. *)

From Verif Require Import Base ModelBounds ModelMatrix ModelIters.
Import ListNotations.
Open Scope Z_scope.

(** ** Compile-time index manipulation (traits.hpp:314-374) *)

(** [map_index_v<L,I>] (traits.hpp:317-329): position of [I] in [L], the length
    of [L] when absent (mp_find). *)
Fixpoint map_index (L : list dim) (d : dim) : nat :=
  match L with
  | [] => 0
  | x :: L' => if Nat.eqb x d then 0%nat else S (map_index L' d)
  end.

(** [transpose_sequence_t<From,To>] (traits.hpp:350-357). *)
Definition transpose_sequence (From To : list dim) : list nat := map (map_index From) To.

(** [missing_index_v<Fine,Coarse>] (traits.hpp:362-364). *)
Definition missing_index (Fine Coarse : list dim) : option dim :=
  hd_error (filter (fun f => negb (existsb (Nat.eqb f) Coarse)) Fine).

(** [shift_v<S,X,Y>] (traits.hpp:369-374). *)
Definition shift_v (S : Z) (X Y : dim) : Z := if Nat.eqb X Y then S else 0.

(** ** [md_device_span] (md_device_span.hpp:336-601): the data pointer and the
       direction-tagged bounds, in storage order. *)
Record span := mkSpan { sp_ptr : ptr; sp_b : list dbnd }.

(** The directions of a span in storage order (md_device_span.hpp:336-601, the template arguments). *)
Definition sp_order (s : span) : list dim := map fst (sp_b s).

(** [make_md_span(t, bnds...)] (md_device_span.hpp:603-614). *)
Definition make_md_span (t : ptr) (bnds : list dbnd) : span :=
  mkSpan t (map d_unit bnds).

(** [make_md_span(t, offset, bnds...)] (md_device_span.hpp:616-632). *)
Definition make_md_span_g (t : ptr) (offset : Z) (bnds : list dbnd) : span :=
  mkSpan t (map (fun b => expand_bounds offset (d_unit b)) bnds).

(** [make_offset_span] for non-const data (634-638) and const data (640-645). *)
Definition make_offset_span (t : ptr) (n dims : Z) : span := mkSpan t [Wb 1 n; Ib 1 dims].
(** [make_offset_span] for const data (md_device_span.hpp:640-645). *)
Definition make_offset_span_const (t : ptr) (n dims : Z) : span :=
  mkSpan t [Wb 0 (n - 1); Ib 0 (dims - 1)].

(** [b[i].size()] for every dimension. *)
Definition span_sizes (s : span) : option (list Z) := mapM (fun b => b_size (snd b)) (sp_b s).

(** [call_helper<iter_flag>] (md_device_span.hpp:559-597).  [lb_bnds] etc. have
    [N] entries, zero beyond the supplied bounds.  Reading such an array, or
    instantiating the submatrix, with an index outside [0,N) has no defined
    result. *)
Definition call_helper (iter_flag : bool) (s : span) (bnds : list dbnd) : option mti :=
  let N := length (sp_b s) in
  let O := map fst bnds in
  if Nat.ltb N (length bnds) then None else
  let pad := repeat 0 (N - length bnds) in
  let lb_bnds := map (fun b => b_lb (snd b)) bnds ++ pad in
  let ub_bnds := map (fun b => b_ub (snd b)) bnds ++ pad in
  let stm_bnds := map (fun b => stride (snd b)) bnds ++ pad in
  lb <- mapM (fun d => nth_error lb_bnds (map_index O d)) (sp_order s) ;;
  ub <- mapM (fun d => nth_error ub_bnds (map_index O d)) (sp_order s) ;;
  stm <- mapM (fun d => nth_error stm_bnds (map_index O d)) (sp_order s) ;;
  let win := seq (length bnds) (N - length bnds) in
  let bnd i := snd (nth i (sp_b s) (0%nat, mkBounds 0 0 1)) in
  let lb := fold_left (fun a i => aset a i (b_lb (bnd i))) win lb in
  let ub := fold_left (fun a i => aset a i (b_ub (bnd i))) win ub in
  let stm := fold_left (fun a i => aset a i (stride (bnd i))) win stm in
  let lb := fold_left (fun a i => aset a i (aget a i - b_lb (bnd i))) (seq 0 N) lb in
  let ub := fold_left (fun a i => aset a i (aget a i - b_lb (bnd i))) (seq 0 N) ub in
  sz <- span_sizes s ;;
  let sq := transpose_sequence (sp_order s) O in
  if forallb (fun i => Nat.ltb i N) sq
  then make_submatrix_helper sq (sp_ptr s) sz lb ub stm iter_flag
  else None.

(** [at(is...)] (md_device_span.hpp:405-417): the address. *)
Definition span_at (s : span) (is : list Z) : option ptr :=
  let N := length (sp_b s) in
  if Nat.eqb (length is) N then
    sz <- span_sizes s ;;
    let c := map (fun p => fst p - b_lb (snd (snd p))) (combine is (sp_b s)) in
    Some (padd (sp_ptr s) (ravel sz c))
  else None.

(** [coarse_to_fine(r, cbnds, fbnds...)] (md_device_span.hpp:511-543). *)
Definition coarse_to_fine (s : span) (r : Z) (cb fb : list dbnd) : option c2f :=
  let N := length (sp_b s) in
  let Coarse := map fst cb in
  let Fine := map fst fb in
  let Base := sp_order s in
  if negb (Nat.eqb (length cb + 1) (length fb)) then None else
  if Nat.ltb N (length cb) then None else
  I <- missing_index Fine Coarse ;;
  fI <- nth_error fb (map_index Fine I) ;;
  let fi := b_lb (snd fI) in
  cbl <- mapM (fun d => c <- nth_error cb (map_index Coarse d) ;; Some (b_lb (snd c))) Coarse ;;
  let lb_bnds := cbl ++ repeat 0 (N - length cb) in
  lb <- mapM (fun d => nth_error lb_bnds (map_index Coarse d)) Base ;;
  if negb (Nat.ltb (map_index Base I) N) then None else
  ci <- coarse_index r fi ;;
  let lb := aset lb (map_index Base I) ci in
  let bnd i := snd (nth i (sp_b s) (0%nat, mkBounds 0 0 1)) in
  let lb := fold_left (fun a i => aset a i (aget a i - b_lb (bnd i))) (seq 0 N) lb in
  sz <- span_sizes s ;;
  make_coarse_to_fine (map_index Base I) (sp_ptr s) sz lb fi r.

Section Expr.
  Context {S : Scalar}.

  (** ** Lazy expressions *)

  (** - [ESpan]: an md_device_span;
      - [ENumL o t e] / [ENumR o e t] / [EBin o e1 e2]: the transform_op produced
        by the arithmetic operators (iter_math.hpp:131-188) for number-expression,
        expression-number, expression-expression;
      - [EStencil sh s d]: stencil_helper (md_device_span.hpp:96-108), from
        [stencil_x/y/z(up|down)];
      - [EShift d z e]: shift_helper (195-207);
      - [EDot st u o]: dot_helper of [st.dot(u.offset(o))] (153-173, 242-254);
      - [EFine s r cb]: the closure returned by [fine] (502-509). *)
  Inductive expr :=
  | ESpan (s : span)
  | ENumL (o : binop) (t : S) (e : expr)
  | ENumR (o : binop) (e : expr) (t : S)
  | EBin (o : binop) (e1 e2 : expr)
  | EStencil (sh : Z) (s : span) (d : dim)
  | EShift (d : dim) (z : Z) (e : expr)
  | EDot (st u : span) (o : ptr)
  | EFine (s : span) (r : Z) (cb : list dbnd).

  (** [grad_x/y/z(h, up|down)] (md_device_span.hpp:110-115, 419-451). *)
  Definition grad (s : span) (d : dim) (h : S) (sh : Z) : expr :=
    ENumL OGrad h (EStencil sh s d).

  (** [up] (md_device_span.hpp:51). *)
  Definition up : Z := 1.        (* md_device_span.hpp:51 *)
  (** [down] (md_device_span.hpp:52). *)
  Definition down : Z := -1.     (* md_device_span.hpp:52 *)

  (** [shift_x/y/z] (431, 445, 459) and the corner shifts (462-475). *)
  Definition shift (s : span) (d : dim) (z : Z) : expr := EShift d z (ESpan s).
  (** [shift_xy] (md_device_span.hpp:462-475). *)
  Definition shift_xy (s : span) (xs ys : Z) : expr := EShift dJ ys (shift s dI xs).
  (** [shift_xz] (md_device_span.hpp:462-475). *)
  Definition shift_xz (s : span) (xs zs : Z) : expr := EShift dK zs (shift s dI xs).
  (** [shift_yz] (md_device_span.hpp:462-475). *)
  Definition shift_yz (s : span) (ys zs : Z) : expr := EShift dK zs (shift s dJ ys).

  (** The bounds handed on by stencil_helper (md_device_span.hpp:105) and
      shift_helper (205). *)
  Definition grow_dom (sh : Z) (d : dim) (dom : list dbnd) : list dbnd :=
    map (fun b => d_plus b (shift_v sh d (fst b))) dom.
  (** The bounds handed on by shift_helper (md_device_span.hpp:205). *)
  Definition shift_dom (d : dim) (z : Z) (dom : list dbnd) : list dbnd :=
    map (fun b => d_shift b (if Nat.eqb d (fst b) then z else 0)) dom.

  (** The call operators of the expression types: instantiate at a domain. *)
  Fixpoint eval (e : expr) (dom : list dbnd) : option (@iter S) :=
    match e with
    | ESpan s =>                                      (* 374-378 *)
        m <- call_helper false s dom ;; Some (IMat m)
    | ENumL o t e' =>                                 (* iter_math.hpp:178-180 *)
        i <- eval e' dom ;; Some (IRight o t i)
    | ENumR o e' t =>                                 (* iter_math.hpp:181-183 *)
        i <- eval e' dom ;; Some (ILeft o i t)
    | EBin o e1 e2 =>                                 (* iter_math.hpp:184-186 *)
        i <- eval e1 dom ;; j <- eval e2 dom ;; Some (IZipOp o i j)
    | EStencil sh s d =>                              (* 102-107 *)
        m <- call_helper false s (grow_dom sh d dom) ;;
        Some (IFwd (mti_stencil m (map_index (map fst dom) d)))
    | EShift d z e' =>                                (* 202-206 *)
        eval e' (shift_dom d z dom)
    | EDot st u o =>                                  (* 160-172, 132-135, 249-253 *)
        u_it <- call_helper false st dom ;;
        v_it <- call_helper true u dom ;;
        let N := length dom in
        wb <- nth_error (sp_b st) N ;;
        n <- b_size (snd wb) ;;
        let strides := map (fun k => mti_stride_dim v_it (N - 1 - k)) (seq 0 N) in
        Some (IDot strides o n (IMat u_it) (IMat v_it))
    | EFine s r cb =>                                 (* 502-509 *)
        c <- coarse_to_fine s r cb dom ;; Some (ICoarse c)
    end.

  (** ** Assignments *)

  (** [assign_proxy<U,V>] (md_device_span.hpp:69-84), from [span = expr] or
      [span = number] (347-351). *)
  Inductive assign := AExpr (lhs : span) (e : expr) | ANum (lhs : span) (t : S).

  (** The left-hand side of an assign_proxy (md_device_span.hpp:69-84). *)
  Definition lhs_of (a : assign) : span :=
    match a with AExpr s _ => s | ANum s _ => s end.

  (** What is written through an output iterator: a number into the element it
      refers to. *)
  Definition write_val (dst : mti) (v : val) (m : mem S) : option (mem S) :=
    if m_ptr dst then None
    else match v with VNum x => store m (mti_addr dst) x | _ => None end.

  (** thrust::copy_n on a sequential back end: [n] times copy, then increment
      both iterators.  Nothing happens when [n <= 0]. *)
  Fixpoint copy_loop (n : nat) (src : iter) (dst : mti) (m : mem S) : option (mem S) :=
    match n with
    | O => Some m
    | Datatypes.S n' =>
        v <- it_deref src m ;;
        m' <- write_val dst v m ;;
        src' <- it_inc src ;;
        copy_loop n' src' (mti_inc dst) m'
    end.

  (** thrust::fill_n on a sequential back end. *)
  Fixpoint fill_loop (n : nat) (dst : mti) (t : S) (m : mem S) : option (mem S) :=
    match n with
    | O => Some m
    | Datatypes.S n' =>
        m' <- write_val dst (VNum t) m ;;
        fill_loop n' (mti_inc dst) t m'
    end.

  (** [assign_proxy::operator()(bnds...)] (md_device_span.hpp:76-83). *)
  Definition exec_assign (dom : list dbnd) (a : assign) (m : mem S) : option (mem S) :=
    out <- call_helper false (lhs_of a) dom ;;
    let n := Z.to_nat (mti_size out) in
    match a with
    | ANum _ t => fill_loop n out t m
    | AExpr _ e => src <- eval e dom ;; copy_loop n src out m
    end.

  (** [with_domain(ps...)(a1, a2, ...)] (md_device_span.hpp:271-285, non-empty
      [ps]). *)
  Definition with_domain (dom : list dbnd) (l : list assign) (m : mem S) : option (mem S) :=
    forM l (exec_assign dom) m.

  (** [with_lhs_domain(a)] (324-328, 277-282). *)
  Definition with_lhs_domain (a : assign) (m : mem S) : option (mem S) :=
    exec_assign (sp_b (lhs_of a)) a m.

  (** ** The same assignment on a random-access (parallel) back end

      Element [k] is processed by some thread with iterators [src + k] and
      [dst + k]; [ks] lists the elements in the order in which they happen to
      run.  [None] if an iterator cannot be advanced. *)
  Definition copy_elem (src : iter) (dst : mti) (k : Z) (m : mem S) : option (mem S) :=
    s <- it_adv src k ;;
    d <- mti_adv dst k ;;
    v <- it_deref s m ;;
    write_val d v m.

  (** One element of thrust::fill_n by random access (md_device_span.hpp:76-83). *)
  Definition fill_elem (dst : mti) (t : S) (k : Z) (m : mem S) : option (mem S) :=
    d <- mti_adv dst k ;; write_val d (VNum t) m.

  (** [assign_proxy::operator()] by random access (md_device_span.hpp:76-83). *)
  Definition exec_assign_ra (ks : Z -> list Z) (dom : list dbnd) (a : assign) (m : mem S)
      : option (mem S) :=
    out <- call_helper false (lhs_of a) dom ;;
    match a with
    | ANum _ t => forM (ks (mti_size out)) (fill_elem out t) m
    | AExpr _ e => src <- eval e dom ;; forM (ks (mti_size out)) (copy_elem src out) m
    end.

  (** [f.at(is...) = c.at(js...)] (used by coarse_to_fine_cuda.cpp:102). *)
  Definition at_assign (f : span) (is : list Z) (c : span) (js : list Z) (m : mem S)
      : option (mem S) :=
    p <- span_at c js ;; q <- span_at f is ;; x <- load m p ;; store m q x.
End Expr.
