(** * Coarse-to-fine kernels: src/cuda/coarse_to_fine_cuda.cpp

    [ratio] is a host array, modelled by a function. *)

From Verif Require Import Base ModelBounds ModelIters ModelSpan KernelNotations.
Import ListNotations.
Open Scope Z_scope.

Section Copy.
  Context {S : Scalar}.

  (** coarse_to_fine_cuda.cpp:18-68 *)
  Definition c2f_copy (ci0 ci1 cj0 cj1 ck0 ck1 fi0 fi1 fj0 fj1 fk0 fk1 axis
      cbi0 cbi1 cbj0 cbj1 cbk0 cbk1 fbi0 fbi1 fbj0 fbj1 fbk0 fbk1 gcw : Z) (ratio : Z -> Z)
      (cdata_ fdata_ : ptr) (m : mem S) : option (mem S) :=
    let c := make_md_span_g cdata_ gcw [Kb cbk0 cbk1; Jb cbj0 cbj1; Ib cbi0 cbi1] in
    let f := make_md_span_g fdata_ gcw [Kb fbk0 fbk1; Jb fbj0 fbj1; Ib fbi0 fbi1] in
    let cil := Ib ci0 ci0 in let fil := Ib fi0 fi0 in let fi := Ib fi0 fi1 in
    let cjl := Jb cj0 cj0 in let fjl := Jb fj0 fj0 in let fj := Jb fj0 fj1 in
    let ckl := Kb ck0 ck0 in let fkl := Kb fk0 fk0 in let fk := Kb fk0 fk1 in
    if axis =? 0 then with_domain [fkl; fjl; fi] [(f ::= EFine c (ratio axis) [ckl; cjl])%E] m
    else if axis =? 1 then with_domain [fkl; fj; fil] [(f ::= EFine c (ratio axis) [ckl; cil])%E] m
    else if axis =? 2 then with_domain [fk; fjl; fil] [(f ::= EFine c (ratio axis) [cjl; cil])%E] m
    else Some m.

  (** coarse_to_fine_cuda.cpp:70-103 *)
  Definition c2f_copy_corner (ci0 ci1 cj0 cj1 ck0 ck1 fi0 fi1 fj0 fj1 fk0 fk1
      cbi0 cbi1 cbj0 cbj1 cbk0 cbk1 fbi0 fbi1 fbj0 fbj1 fbk0 fbk1 gcw : Z)
      (cdata_ fdata_ : ptr) (m : mem S) : option (mem S) :=
    let c := make_md_span_g cdata_ gcw [Kb cbk0 cbk1; Jb cbj0 cbj1; Ib cbi0 cbi1] in
    let f := make_md_span_g fdata_ gcw [Kb fbk0 fbk1; Jb fbj0 fbj1; Ib fbi0 fbi1] in
    at_assign f [fk0; fj0; fi0] c [ck0; cj0; ci0] m.
End Copy.
