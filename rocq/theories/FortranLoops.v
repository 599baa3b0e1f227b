(** * More of Fortran: integer tables, strided loops, accumulators

    What the smoothers and the subroutines that apply an assembled stencil use
    beside the fragment in FortranBase.v. *)

From Verif Require Import Base FortranBase.
Import ListNotations.
Open Scope Z_scope.

(** [do x = lo, hi, st ... enddo]: the iteration count is [max(int((hi-lo+st)/st), 0)],
    the quotient truncated (Fortran 77 standard, 11.10.3). *)
Definition do_step {M} (lo hi st : Z) (body : Z -> M -> option M) (m : M) : option M :=
  forM (map (fun k => lo + st * Z.of_nat k) (seq 0 (Z.to_nat (Z.quot (hi - lo + st) st)))) body m.

(** [mod(a, p)]: the remainder of the truncated quotient, with the sign of [a]. *)
Definition fmod (a p : Z) : Z := Z.rem a p.

Section Loops.
  Context {S : Scalar}.

  (** [x = a(is)] for an integer array [a] and an integer variable [x], in scope in
      [k]. *)
  Definition fint {T} (a : farray) (is : list Z) (k : Z -> mem S -> option T) (m : mem S) : option T :=
    z <- loadi m (faddr a is) ;; k z m.

  (** The value of a local scalar [r] after
      [r = e; do s = lo, hi; r = step s r; enddo]; no array is written meanwhile. *)
  Definition facc (lo hi : Z) (e : fexp S) (step : Z -> S -> fexp S) : fexp S :=
    fun m => r <- e m ;; do_ lo hi (fun s r => step s r m) r.

  (** [if (c) then s1 else s2]. *)
  Definition fif (c : bool) (s1 s2 : mem S -> option (mem S)) : mem S -> option (mem S) := if c then s1 else s2.
End Loops.

Notation "'integer' x := a ! ( i , .. , j ) 'in' s" :=
  (fint a (cons i%Z .. (cons j%Z nil) ..) (fun x => s)) (at level 200, x name, a at level 8, s at level 200) : fortran_scope.
