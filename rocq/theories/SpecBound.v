(** * Specification: the bound for the Poisson problem *)

From Coq Require Import ZArith QArith Qcanon.
Open Scope Z_scope.

(** An integer as a rational number. *)
Definition whole (z : Z) : Qc := Q2Qc (inject_Z z).

(** [((n h)^2 + h^2) / 8]: for [n] cells of width [h], whose length is [n h]. *)
Definition reach (n : Z) (h : Qc) : Qc := (h * h * whole (n * n + 1) / whole 8)%Qc.
