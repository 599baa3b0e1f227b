(** * Apply and residual kernels: src/cuda/cd_apply_{1,2,3}d_cuda.cpp

    [dx] is a host array; the closing [copy_to] calls have an empty body. *)

From Verif Require Import Base ModelBounds ModelIters ModelSpan KernelNotations.
Import ListNotations.
Open Scope Z_scope.

Section Apply.
  Context {S : Scalar}.

  (** cd_apply_1d_cuda.cpp:19-45 *)
  Definition cd_apply_1d_diffusion_v1_res (i0 i1 : Z) (alpha beta : S) (dx : Z -> S) (agcw : Z) (a_ : ptr) (ugcw : Z) (u_ : ptr) (fgcw : Z) (f_ : ptr) (f0_ : ptr) (rgcw : Z) (res_ : ptr) (m : mem S) :=
    let i := Ib i0 i1 in
    let a := make_md_span_g a_ agcw [i] in
    let u := make_md_span_g u_ ugcw [i] in
    let f := make_md_span_g f_ fgcw [i] in
    let res := make_md_span_g res_ rgcw [i] in
    let f0 := make_md_span f0_ [d_plus i 1] in
    with_domain [i] [(res ::= $f + beta .* (grad f0 dI (dx 0) up) - alpha .* $a * $u)%E] m.

  (** cd_apply_1d_cuda.cpp:47-70 *)
  Definition cd_apply_1d_diffusion_v2_res (i0 i1 : Z) (alpha beta : S) (dx : Z -> S) (ugcw : Z) (u_ : ptr) (fgcw : Z) (f_ : ptr) (f0_ : ptr) (rgcw : Z) (res_ : ptr) (m : mem S) :=
    let i := Ib i0 i1 in
    let u := make_md_span_g u_ ugcw [i] in
    let f := make_md_span_g f_ fgcw [i] in
    let res := make_md_span_g res_ rgcw [i] in
    let f0 := make_md_span f0_ [d_plus i 1] in
    with_domain [i] [(res ::= $f + beta .* (grad f0 dI (dx 0) up) - alpha .* $u)%E] m.

  (** cd_apply_1d_cuda.cpp:72-91 *)
  Definition cd_apply_1d_poisson_v1_res (i0 i1 : Z) (beta : S) (dx : Z -> S) (fgcw : Z) (f_ : ptr) (f0_ : ptr) (rgcw : Z) (res_ : ptr) (m : mem S) :=
    let i := Ib i0 i1 in
    let f := make_md_span_g f_ fgcw [i] in
    let res := make_md_span_g res_ rgcw [i] in
    let f0 := make_md_span f0_ [d_plus i 1] in
    with_domain [i] [(res ::= $f + beta .* (grad f0 dI (dx 0) up))%E] m.

  (** cd_apply_1d_cuda.cpp:93-116 *)
  Definition cd_apply_1d_diffusion_v1_apply (i0 i1 : Z) (alpha beta : S) (dx : Z -> S) (agcw : Z) (a_ : ptr) (ugcw : Z) (u_ : ptr) (f0_ : ptr) (rgcw : Z) (res_ : ptr) (m : mem S) :=
    let i := Ib i0 i1 in
    let a := make_md_span_g a_ agcw [i] in
    let u := make_md_span_g u_ ugcw [i] in
    let res := make_md_span_g res_ rgcw [i] in
    let f0 := make_md_span f0_ [d_plus i 1] in
    with_domain [i] [(res ::= (- beta)%T .* (grad f0 dI (dx 0) up) + alpha .* $a * $u)%E] m.

  (** cd_apply_1d_cuda.cpp:118-138 *)
  Definition cd_apply_1d_diffusion_v2_apply (i0 i1 : Z) (alpha beta : S) (dx : Z -> S) (ugcw : Z) (u_ : ptr) (f0_ : ptr) (rgcw : Z) (res_ : ptr) (m : mem S) :=
    let i := Ib i0 i1 in
    let u := make_md_span_g u_ ugcw [i] in
    let res := make_md_span_g res_ rgcw [i] in
    let f0 := make_md_span f0_ [d_plus i 1] in
    with_domain [i] [(res ::= (- beta)%T .* (grad f0 dI (dx 0) up) + alpha .* $u)%E] m.

  (** cd_apply_1d_cuda.cpp:140-156 *)
  Definition cd_apply_1d_poisson_v2_apply (i0 i1 : Z) (beta : S) (dx : Z -> S) (f0_ : ptr) (rgcw : Z) (res_ : ptr) (m : mem S) :=
    let i := Ib i0 i1 in
    let res := make_md_span_g res_ rgcw [i] in
    let f0 := make_md_span f0_ [d_plus i 1] in
    with_domain [i] [(res ::= (- beta)%T .* (grad f0 dI (dx 0) up))%E] m.

  (** cd_apply_2d_cuda.cpp:19-51 *)
  Definition cd_apply_2d_diffusion_v1_res (i0 i1 j0 j1 : Z) (alpha beta : S) (dx : Z -> S) (agcw : Z) (a_ : ptr) (ugcw : Z) (u_ : ptr) (fgcw : Z) (f_ : ptr) (f0_ f1_ : ptr) (rgcw : Z) (res_ : ptr) (m : mem S) :=
    let i := Ib i0 i1 in
    let j := Jb j0 j1 in
    let a := make_md_span_g a_ agcw [j; i] in
    let u := make_md_span_g u_ ugcw [j; i] in
    let f := make_md_span_g f_ fgcw [j; i] in
    let res := make_md_span_g res_ rgcw [j; i] in
    let f0 := make_md_span f0_ [j; d_plus i 1] in
    let f1 := make_md_span f1_ [i; d_plus j 1] in
    with_domain [j; i] [(res ::= $f + beta .* (grad f0 dI (dx 0) up + grad f1 dJ (dx 1) up) - alpha .* $a * $u)%E] m.

  (** cd_apply_2d_cuda.cpp:53-81 *)
  Definition cd_apply_2d_diffusion_v2_res (i0 i1 j0 j1 : Z) (alpha beta : S) (dx : Z -> S) (ugcw : Z) (u_ : ptr) (fgcw : Z) (f_ : ptr) (f0_ f1_ : ptr) (rgcw : Z) (res_ : ptr) (m : mem S) :=
    let i := Ib i0 i1 in
    let j := Jb j0 j1 in
    let u := make_md_span_g u_ ugcw [j; i] in
    let f := make_md_span_g f_ fgcw [j; i] in
    let res := make_md_span_g res_ rgcw [j; i] in
    let f0 := make_md_span f0_ [j; d_plus i 1] in
    let f1 := make_md_span f1_ [i; d_plus j 1] in
    with_domain [j; i] [(res ::= $f + beta .* (grad f0 dI (dx 0) up + grad f1 dJ (dx 1) up) - alpha .* $u)%E] m.

  (** cd_apply_2d_cuda.cpp:83-107 *)
  Definition cd_apply_2d_poisson_v1_res (i0 i1 j0 j1 : Z) (beta : S) (dx : Z -> S) (fgcw : Z) (f_ : ptr) (f0_ f1_ : ptr) (rgcw : Z) (res_ : ptr) (m : mem S) :=
    let i := Ib i0 i1 in
    let j := Jb j0 j1 in
    let f := make_md_span_g f_ fgcw [j; i] in
    let res := make_md_span_g res_ rgcw [j; i] in
    let f0 := make_md_span f0_ [j; d_plus i 1] in
    let f1 := make_md_span f1_ [i; d_plus j 1] in
    with_domain [j; i] [(res ::= $f + beta .* (grad f0 dI (dx 0) up + grad f1 dJ (dx 1) up))%E] m.

  (** cd_apply_2d_cuda.cpp:109-138 *)
  Definition cd_apply_2d_diffusion_v1_apply (i0 i1 j0 j1 : Z) (alpha beta : S) (dx : Z -> S) (agcw : Z) (a_ : ptr) (ugcw : Z) (u_ : ptr) (f0_ f1_ : ptr) (rgcw : Z) (res_ : ptr) (m : mem S) :=
    let i := Ib i0 i1 in
    let j := Jb j0 j1 in
    let a := make_md_span_g a_ agcw [j; i] in
    let u := make_md_span_g u_ ugcw [j; i] in
    let res := make_md_span_g res_ rgcw [j; i] in
    let f0 := make_md_span f0_ [j; d_plus i 1] in
    let f1 := make_md_span f1_ [i; d_plus j 1] in
    with_domain [j; i] [(res ::= (- beta)%T .* (grad f0 dI (dx 0) up + grad f1 dJ (dx 1) up) + alpha .* $a * $u)%E] m.

  (** cd_apply_2d_cuda.cpp:140-165 *)
  Definition cd_apply_2d_diffusion_v2_apply (i0 i1 j0 j1 : Z) (alpha beta : S) (dx : Z -> S) (ugcw : Z) (u_ : ptr) (f0_ f1_ : ptr) (rgcw : Z) (res_ : ptr) (m : mem S) :=
    let i := Ib i0 i1 in
    let j := Jb j0 j1 in
    let u := make_md_span_g u_ ugcw [j; i] in
    let res := make_md_span_g res_ rgcw [j; i] in
    let f0 := make_md_span f0_ [j; d_plus i 1] in
    let f1 := make_md_span f1_ [i; d_plus j 1] in
    with_domain [j; i] [(res ::= (- beta)%T .* (grad f0 dI (dx 0) up + grad f1 dJ (dx 1) up) + alpha .* $u)%E] m.

  (** cd_apply_2d_cuda.cpp:167-188 *)
  Definition cd_apply_2d_poisson_v2_apply (i0 i1 j0 j1 : Z) (beta : S) (dx : Z -> S) (f0_ f1_ : ptr) (rgcw : Z) (res_ : ptr) (m : mem S) :=
    let i := Ib i0 i1 in
    let j := Jb j0 j1 in
    let res := make_md_span_g res_ rgcw [j; i] in
    let f0 := make_md_span f0_ [j; d_plus i 1] in
    let f1 := make_md_span f1_ [i; d_plus j 1] in
    with_domain [j; i] [(res ::= (- beta)%T .* (grad f0 dI (dx 0) up + grad f1 dJ (dx 1) up))%E] m.

  (** cd_apply_3d_cuda.cpp:19-57 *)
  Definition cd_apply_3d_diffusion_v1_res (i0 i1 j0 j1 k0 k1 : Z) (alpha beta : S) (dx : Z -> S) (agcw : Z) (a_ : ptr) (ugcw : Z) (u_ : ptr) (fgcw : Z) (f_ : ptr) (f0_ f1_ f2_ : ptr) (rgcw : Z) (res_ : ptr) (m : mem S) :=
    let i := Ib i0 i1 in
    let j := Jb j0 j1 in
    let k := Kb k0 k1 in
    let a := make_md_span_g a_ agcw [k; j; i] in
    let u := make_md_span_g u_ ugcw [k; j; i] in
    let f := make_md_span_g f_ fgcw [k; j; i] in
    let res := make_md_span_g res_ rgcw [k; j; i] in
    let f0 := make_md_span f0_ [k; j; d_plus i 1] in
    let f1 := make_md_span f1_ [i; k; d_plus j 1] in
    let f2 := make_md_span f2_ [j; i; d_plus k 1] in
    with_domain [k; j; i] [(res ::= $f + beta .* (grad f0 dI (dx 0) up + grad f1 dJ (dx 1) up + grad f2 dK (dx 2) up) - alpha .* $a * $u)%E] m.

  (** cd_apply_3d_cuda.cpp:59-94 *)
  Definition cd_apply_3d_diffusion_v2_res (i0 i1 j0 j1 k0 k1 : Z) (alpha beta : S) (dx : Z -> S) (ugcw : Z) (u_ : ptr) (fgcw : Z) (f_ : ptr) (f0_ f1_ f2_ : ptr) (rgcw : Z) (res_ : ptr) (m : mem S) :=
    let i := Ib i0 i1 in
    let j := Jb j0 j1 in
    let k := Kb k0 k1 in
    let u := make_md_span_g u_ ugcw [k; j; i] in
    let f := make_md_span_g f_ fgcw [k; j; i] in
    let res := make_md_span_g res_ rgcw [k; j; i] in
    let f0 := make_md_span f0_ [k; j; d_plus i 1] in
    let f1 := make_md_span f1_ [i; k; d_plus j 1] in
    let f2 := make_md_span f2_ [j; i; d_plus k 1] in
    with_domain [k; j; i] [(res ::= $f + beta .* (grad f0 dI (dx 0) up + grad f1 dJ (dx 1) up + grad f2 dK (dx 2) up) - alpha .* $u)%E] m.

  (** cd_apply_3d_cuda.cpp:96-126 *)
  Definition cd_apply_3d_poisson_v1_res (i0 i1 j0 j1 k0 k1 : Z) (beta : S) (dx : Z -> S) (fgcw : Z) (f_ : ptr) (f0_ f1_ f2_ : ptr) (rgcw : Z) (res_ : ptr) (m : mem S) :=
    let i := Ib i0 i1 in
    let j := Jb j0 j1 in
    let k := Kb k0 k1 in
    let f := make_md_span_g f_ fgcw [k; j; i] in
    let res := make_md_span_g res_ rgcw [k; j; i] in
    let f0 := make_md_span f0_ [k; j; d_plus i 1] in
    let f1 := make_md_span f1_ [i; k; d_plus j 1] in
    let f2 := make_md_span f2_ [j; i; d_plus k 1] in
    with_domain [k; j; i] [(res ::= $f + beta .* (grad f0 dI (dx 0) up + grad f1 dJ (dx 1) up + grad f2 dK (dx 2) up))%E] m.

  (** cd_apply_3d_cuda.cpp:128-164 *)
  Definition cd_apply_3d_diffusion_v1_apply (i0 i1 j0 j1 k0 k1 : Z) (alpha beta : S) (dx : Z -> S) (agcw : Z) (a_ : ptr) (ugcw : Z) (u_ : ptr) (f0_ f1_ f2_ : ptr) (rgcw : Z) (res_ : ptr) (m : mem S) :=
    let i := Ib i0 i1 in
    let j := Jb j0 j1 in
    let k := Kb k0 k1 in
    let a := make_md_span_g a_ agcw [k; j; i] in
    let u := make_md_span_g u_ ugcw [k; j; i] in
    let res := make_md_span_g res_ rgcw [k; j; i] in
    let f0 := make_md_span f0_ [k; j; d_plus i 1] in
    let f1 := make_md_span f1_ [i; k; d_plus j 1] in
    let f2 := make_md_span f2_ [j; i; d_plus k 1] in
    with_domain [k; j; i] [(res ::= (- beta)%T .* (grad f0 dI (dx 0) up + grad f1 dJ (dx 1) up + grad f2 dK (dx 2) up) + alpha .* $a * $u)%E] m.

  (** cd_apply_3d_cuda.cpp:166-199 *)
  Definition cd_apply_3d_diffusion_v2_apply (i0 i1 j0 j1 k0 k1 : Z) (alpha beta : S) (dx : Z -> S) (ugcw : Z) (u_ : ptr) (f0_ f1_ f2_ : ptr) (rgcw : Z) (res_ : ptr) (m : mem S) :=
    let i := Ib i0 i1 in
    let j := Jb j0 j1 in
    let k := Kb k0 k1 in
    let u := make_md_span_g u_ ugcw [k; j; i] in
    let res := make_md_span_g res_ rgcw [k; j; i] in
    let f0 := make_md_span f0_ [k; j; d_plus i 1] in
    let f1 := make_md_span f1_ [i; k; d_plus j 1] in
    let f2 := make_md_span f2_ [j; i; d_plus k 1] in
    with_domain [k; j; i] [(res ::= (- beta)%T .* (grad f0 dI (dx 0) up + grad f1 dJ (dx 1) up + grad f2 dK (dx 2) up) + alpha .* $u)%E] m.

  (** cd_apply_3d_cuda.cpp:201-229 *)
  Definition cd_apply_3d_poisson_v2_apply (i0 i1 j0 j1 k0 k1 : Z) (beta : S) (dx : Z -> S) (f0_ f1_ f2_ : ptr) (rgcw : Z) (res_ : ptr) (m : mem S) :=
    let i := Ib i0 i1 in
    let j := Jb j0 j1 in
    let k := Kb k0 k1 in
    let res := make_md_span_g res_ rgcw [k; j; i] in
    let f0 := make_md_span f0_ [k; j; d_plus i 1] in
    let f1 := make_md_span f1_ [i; k; d_plus j 1] in
    let f2 := make_md_span f2_ [j; i; d_plus k 1] in
    with_domain [k; j; i] [(res ::= (- beta)%T .* (grad f0 dI (dx 0) up + grad f1 dJ (dx 1) up + grad f2 dK (dx 2) up))%E] m.
End Apply.
