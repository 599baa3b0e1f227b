(** * The library calls of a kernel, one element after the other or in parallel

    A kernel of src/cuda is a sequence of library calls; each call is one or more
    thrust launches (md_device_span.hpp:76-83 and 287-315, window_iterator.hpp and
    stencil_proxy.hpp for the windows).  [exec] is a way of executing the calls. *)

From Verif Require Import Base ModelBounds ModelMatrix ModelIters ModelSpan ModelProxy Spec ModelSched.
Import ListNotations.
Open Scope Z_scope.

Section Par.
  Context {S : Scalar}.

  (** How [with_domain] (md_device_span.hpp:271-285), [with_lhs_domain] (324-328) and the window
      form of [with_domain] (287-315) are executed. *)
  Record exec := mkExec {
    x_domain : list dbnd -> list (@assign S) -> mem S -> option (mem S);
    x_lhs : @assign S -> mem S -> option (mem S);
    x_window : span -> list dbnd -> list (@wassign S) -> mem S -> option (mem S) }.

  (** One element after the other: the calls of ModelSpan and ModelProxy. *)
  Definition sequential : exec := mkExec with_domain with_lhs_domain with_window.

  (** The threads that are left run to the end. *)
  Definition finish (c : @pool S) : option (mem S) := forM (fst c) run_alone (snd c).

  (** A launch: the threads [ts] make accesses in the order given by the schedule
      [O] chooses, then those that have not ended run to the end; the launch
      returns when all have ended (stream order: the next call sees its result). *)
  Definition par_launch (O : @pool S -> list nat) (ts : option (list (@tprog S))) (m : mem S) : option (mem S) :=
    l <- ts ;; c <- run_schedule (O (l, m)) (l, m) ;; finish c.

  (** Parallel execution; [O] chooses a schedule for every launch. *)
  Definition parallel (O : @pool S -> list nat) : exec :=
    mkExec
      (fun dom l => forM l (fun a m => par_launch O (launch dom a (ints m)) m))
      (fun a m => par_launch O (launch (sp_b (lhs_of a)) a (ints m)) m)
      (fun st dom l m => par_launch O (window_launch st dom l (ints m)) m).
End Par.
