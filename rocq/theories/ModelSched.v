(** * Concurrent execution of the elements of an assignment

    thrust::copy_n / fill_n / for_each_n with the device policy
    (md_device_span.hpp:76-83, 287-315) run the elements on many threads.  Each
    thread performs its loads and stores one at a time; a schedule says which
    thread makes the next access.  Accesses are atomic and sequentially
    consistent (a simplification; weak memory is not modelled). *)

From Verif Require Import Base ModelBounds ModelMatrix ModelIters ModelSpan Spec.
Import ListNotations.
Open Scope Z_scope.

Section Sched.
  Context {S : Scalar}.

  (** What a thread still has to do. *)
  Inductive tprog :=
  | TDone
  | TFail
  | TRead (p : ptr) (k : S -> tprog)
  | TWrite (p : ptr) (v : S) (k : tprog).

  (** One access.  A finished thread does nothing. *)
  Definition tstep (t : tprog) (m : mem S) : option (tprog * mem S) :=
    match t with
    | TDone => Some (TDone, m)
    | TFail => None
    | TRead p k => x <- load m p ;; Some (k x, m)
    | TWrite p v k => m' <- store m p v ;; Some (k, m')
    end.

  (** A thread running alone to completion. *)
  Fixpoint run_alone (t : tprog) (m : mem S) : option (mem S) :=
    match t with
    | TDone => Some m
    | TFail => None
    | TRead p k => match load m p with Some x => run_alone (k x) m | None => None end
    | TWrite p v k => match store m p v with Some m' => run_alone k m' | None => None end
    end.

  (** The pool of threads and the memory; thread [i] makes one access. *)
  Definition pool : Type := list tprog * mem S.

  (** Thread [i] of the launch (md_device_span.hpp:76-83, 287-315) makes one access. *)
  Definition pool_step (i : nat) (c : pool) : option pool :=
    match nth_error (fst c) i with
    | None => Some c
    | Some t => r <- tstep t (snd c) ;; Some (aset (fst c) i (fst r), snd r)
    end.

  (** A schedule: the sequence of threads that make an access. *)
  Definition run_schedule (sch : list nat) (c : pool) : option pool := forM sch pool_step c.

  (** All threads of the launch (md_device_span.hpp:76-83, 287-315) have finished. *)
  Definition all_done (ts : list tprog) : Prop := Forall (fun t => t = TDone) ts.

  (** ** The thread program of an element

      [rd e pt I k]: load what the value of [e] at [pt] needs, left to right, then
      continue with the value.  [I] is the contents of the integer arrays (the
      offset tables), which no kernel writes. *)
  Fixpoint rd_dot (l : list nat) (e_st : nat -> ptr) (e_u : nat -> option ptr) (res : S)
      (k : S -> tprog) : tprog :=
    match l with
    | [] => k res
    | i :: l' =>
        TRead (e_st i) (fun s =>
          match e_u i with
          | None => TFail
          | Some q => TRead q (fun x => rd_dot l' e_st e_u (res + s * x)%T k)
          end)
    end.

  (** The accesses of the iterator an expression gives (md_device_span.hpp:86-268, iter_math.hpp:31-70) at one element. *)
  Fixpoint rd (e : @expr S) (pt : point) (I : list (list Z)) (k : val -> tprog) : tprog :=
    match e with
    | ESpan s => TRead (addr s pt) (fun x => k (VNum x))
    | ENumL o t e' =>
        rd e' pt I (fun v => match app_op o (VNum t) v with Some w => k w | None => TFail end)
    | ENumR o e' t =>
        rd e' pt I (fun u => match app_op o u (VNum t) with Some w => k w | None => TFail end)
    | EBin o e1 e2 =>
        rd e1 pt I (fun u => rd e2 pt I (fun v =>
          match app_op o u v with Some w => k w | None => TFail end))
    | EStencil sh s d =>
        let q := if 0 <=? sh then pt else pmove pt d (-1) in
        TRead (addr s q) (fun x0 => TRead (addr s (pmove q d 1)) (fun x1 => k (VSt x0 x1)))
    | EShift d z e' => rd e' (pmove pt d z) I k
    | EDot st u o =>
        let N := length (sp_b u) in
        match nth_error (sp_b st) N with
        | None => TFail
        | Some (w, wb) =>
            rd_dot (seq 0 (Z.to_nat (extent wb)))
              (fun i => addr st (pset pt w (b_lb wb + Z.of_nat i)))
              (fun i => q <- displaced (mkMem (S := S) [] I) o N i pt ;; Some (addr u q))
              (lit 0) (fun r => k (VNum r))
        end
    | EFine s r cb => TRead (addr s (coarse_point r cb pt)) (fun x => k (VNum x))
    end.

  (** The thread of the element at point [pt]. *)
  Definition assign_thread (a : @assign S) (I : list (list Z)) (pt : point) : tprog :=
    match a with
    | ANum s t => TWrite (addr s pt) t TDone
    | AExpr s e =>
        rd e pt I (fun v => match v with VNum x => TWrite (addr s pt) x TDone | _ => TFail end)
    end.

  (** The locations the value of [e] at [pt] depends on (proved in
      PropertiesAssign: memories that agree there give the same value). *)
  Fixpoint reads (e : @expr S) (pt : point) (I : list (list Z)) : list ptr :=
    match e with
    | ESpan s => [addr s pt]
    | ENumL _ _ e' => reads e' pt I
    | ENumR _ e' _ => reads e' pt I
    | EBin _ e1 e2 => reads e1 pt I ++ reads e2 pt I
    | EStencil sh s d =>
        let q := if 0 <=? sh then pt else pmove pt d (-1) in
        [addr s q; addr s (pmove q d 1)]
    | EShift d z e' => reads e' (pmove pt d z) I
    | EDot st u o =>
        let N := length (sp_b u) in
        match nth_error (sp_b st) N with
        | None => []
        | Some (w, wb) =>
            flat_map (fun i =>
              addr st (pset pt w (b_lb wb + Z.of_nat i)) ::
              match displaced (mkMem (S := S) [] I) o N i pt with
              | Some q => [addr u q]
              | None => []
              end) (seq 0 (Z.to_nat (extent wb)))
        end
    | EFine s r cb => [addr s (coarse_point r cb pt)]
    end.

  (** The locations the right-hand side of an assignment (md_device_span.hpp:69-84) depends on. *)
  Definition assign_reads (a : @assign S) (pt : point) (I : list (list Z)) : list ptr :=
    match a with ANum _ _ => [] | AExpr _ e => reads e pt I end.

  (** ** The thread program as the library runs it

      The accesses made by dereferencing an iterator ([it_deref] of ModelIters,
      one access at a time).  [it_ptr]: a window iterator, whose dereference is a
      pointer and accesses nothing. *)
  Definition it_ptr (it : @iter S) : option ptr :=
    match it with IMat m => if m_ptr m then Some (mti_addr m) else None | _ => None end.

  (** The address dereferenced by [offset_iterator] (offset_iterator.hpp:38-44). *)
  Definition offi_addr (o : offi) (I : list (list Z)) : option ptr :=
    let N := length (o_stride o) in
    i <- forM (seq 0 N)
          (fun j i =>
             oj <- loadi (mkMem (S := S) [] I) (padd (o_ptr o) (o_idx o * Z.of_nat N + Z.of_nat j)) ;;
             Some (i + aget (o_stride o) j * oj)) 0 ;;
    Some (padd (o_first o) i).

  (** [it_deref] of ModelIters (dereference of the iterators of src/cuda, cited there), access by access. *)
  Fixpoint it_rd (it : @iter S) (I : list (list Z)) (k : val -> tprog) : tprog :=
    match it with
    | IMat m =>
        if m_ptr m then k (VPtr (mti_addr m)) else TRead (mti_addr m) (fun x => k (VNum x))
    | IFwd f =>
        match fsi_pair mti_ops f with
        | None => TFail
        | Some (a, b) =>
            if (m_ptr a || m_ptr b)%bool then TFail
            else TRead (mti_addr a) (fun x => TRead (mti_addr b) (fun y => k (VSt x y)))
        end
    | ICoarse c =>
        match c2f_addr c with None => TFail | Some p => TRead p (fun x => k (VNum x)) end
    | IRight o t i =>
        it_rd i I (fun v => match app_op o (VNum t) v with Some w => k w | None => TFail end)
    | ILeft o i t =>
        it_rd i I (fun u => match app_op o u (VNum t) with Some w => k w | None => TFail end)
    | IZipOp o i j =>
        it_rd i I (fun u => it_rd j I (fun v =>
          match app_op o u v with Some w => k w | None => TFail end))
    | IDot st o n i j =>
        match it_ptr i, it_ptr j with
        | Some ps, Some pv =>
            rd_dot (seq 0 (Z.to_nat n)) (fun i => padd ps (Z.of_nat i))
              (fun i => offi_addr (offi_move (make_offset_iterator pv st o) (Z.of_nat i)) I)
              (lit 0) (fun r => k (VNum r))
        | _, _ => TFail
        end
    | IConst x => k (VNum x)
    end.

  (** The locations accessed. *)
  Fixpoint it_reads (it : @iter S) (I : list (list Z)) : list ptr :=
    match it with
    | IMat m => if m_ptr m then [] else [mti_addr m]
    | IFwd f =>
        match fsi_pair mti_ops f with None => [] | Some (a, b) => [mti_addr a; mti_addr b] end
    | ICoarse c => match c2f_addr c with None => [] | Some p => [p] end
    | IRight _ _ i => it_reads i I
    | ILeft _ i _ => it_reads i I
    | IZipOp _ i j => it_reads i I ++ it_reads j I
    | IDot st o n i j =>
        match it_ptr i, it_ptr j with
        | Some ps, Some pv =>
            flat_map (fun i =>
              padd ps (Z.of_nat i) ::
              match offi_addr (offi_move (make_offset_iterator pv st o) (Z.of_nat i)) I with
              | Some q => [q]
              | None => []
              end) (seq 0 (Z.to_nat n))
        | _, _ => []
        end
    | IConst _ => []
    end.

  (** Thread [k] of [assign_proxy::operator()] (md_device_span.hpp:76-83) on a
      parallel back end: advance both iterators by [k], dereference, write. *)
  Definition elem_thread (dom : list dbnd) (a : @assign S) (I : list (list Z)) (k : Z)
      : option tprog :=
    out <- call_helper false (lhs_of a) dom ;;
    d <- mti_adv out k ;;
    if m_ptr d then Some TFail else
    match a with
    | ANum _ t => Some (TWrite (mti_addr d) t TDone)
    | AExpr _ e =>
        src <- eval e dom ;;
        s <- it_adv src k ;;
        Some (it_rd s I (fun v => match v with VNum x => TWrite (mti_addr d) x TDone | _ => TFail end))
    end.

  (** All threads of the launch: [n] elements (md_device_span.hpp:78-82). *)
  Definition launch (dom : list dbnd) (a : @assign S) (I : list (list Z)) : option (list tprog) :=
    out <- call_helper false (lhs_of a) dom ;;
    mapM (fun k => elem_thread dom a I (Z.of_nat k)) (seq 0 (Z.to_nat (mti_size out))).
End Sched.
