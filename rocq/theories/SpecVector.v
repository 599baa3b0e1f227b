(** * Specification of the host/device container: one array *)

From Verif Require Import Base ModelVector.
Import ListNotations.
Open Scope Z_scope.

Section VecSpec.
  Context {A : Type}.

  (** What each operation means if there were a single array. *)
  Definition arr_op (o : vop A) (a : list A) : list A * option (list A) :=
    match o with
    | VData => (a, None)
    | VWrite i x => (aset a i x, None)
    | VHost => (a, Some a)
    | VConv => (a, Some a)
    | VFill l => (l, None)
    | VSetOff n idx =>
        (firstn (n * length idx) a ++ idx ++ skipn (n * length idx + length idx) a, None)
    end.

  Fixpoint arr_run (l : list (vop A)) (a : list A) : list A * list (option (list A)) :=
    match l with
    | [] => (a, [])
    | o :: l' =>
        let r := arr_op o a in
        let r' := arr_run l' (fst r) in
        (fst r', snd r :: snd r')
    end.

  (** The histories the class supports.  [opened]: [data()] was called after the
      last [host()], conversion or [fill_random()]; [dirty]: a kernel wrote since
      then.  Kernels may write only when [opened]; [set_offset] may be used only
      when not [dirty], and within the array of [n] elements. *)
  Fixpoint supported (n : nat) (l : list (vop A)) (opened dirty : bool) : Prop :=
    match l with
    | [] => True
    | VData :: l' => supported n l' true dirty
    | VWrite _ _ :: l' => opened = true /\ supported n l' opened true
    | VHost :: l' => supported n l' false false
    | VConv :: l' => supported n l' false false
    | VFill x :: l' => length x = n /\ supported n l' false false
    | VSetOff k idx :: l' =>
        dirty = false /\ (k * length idx + length idx <= n)%nat /\ supported n l' opened dirty
    end.
End VecSpec.
