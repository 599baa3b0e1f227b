(** * Flux kernels: src/cuda/cdf_{1,2,3}d_cuda.cpp

    The mesh spacings [dx] are a host array, modelled by a function.  The closing
    [copy_to] calls have an empty body (md_device_span.hpp:550-552) and are
    omitted. *)

From Verif Require Import Base ModelBounds ModelIters ModelSpan KernelNotations.
Import ListNotations.
Open Scope Z_scope.

Section Flux.
  Context {S : Scalar}.

  (** cdf_1d_cuda.cpp:19-37 *)
  Definition cdf_1d_flux (i0 i1 : Z) (dx : Z -> S) (b0_ : ptr) (gcw : Z) (u_ f0_ : ptr) (m : mem S) :=
    let i := Ib i0 i1 in
    let u := make_md_span_g u_ gcw [i] in
    let f0 := make_md_span f0_ [d_plus i 1] in
    let b0 := make_md_span b0_ [d_plus i 1] in
    with_lhs_domain (f0 ::= $b0 * grad u dI (dx 0) down)%E m.

  (** cdf_1d_cuda.cpp:39-51 *)
  Definition cdf_1d_poisson_flux (i0 i1 : Z) (dx : Z -> S) (gcw : Z) (u_ f0_ : ptr) (m : mem S) :=
    let i := Ib i0 i1 in
    let u := make_md_span_g u_ gcw [i] in
    let f0 := make_md_span f0_ [d_plus i 1] in
    with_lhs_domain (f0 ::= grad u dI (dx 0) down)%E m.

  (** cdf_2d_cuda.cpp:19-46 *)
  Definition cdf_2d_flux (i0 j0 i1 j1 : Z) (dx : Z -> S) (b0_ b1_ : ptr) (gcw : Z)
      (u_ f0_ f1_ : ptr) (m : mem S) :=
    let i := Ib i0 i1 in
    let j := Jb j0 j1 in
    let u := make_md_span_g u_ gcw [j; i] in
    let f0 := make_md_span f0_ [j; d_plus i 1] in
    let b0 := make_md_span b0_ [j; d_plus i 1] in
    let f1 := make_md_span f1_ [i; d_plus j 1] in
    let b1 := make_md_span b1_ [i; d_plus j 1] in
    m <- with_lhs_domain (f0 ::= $b0 * grad u dI (dx 0) down)%E m ;;
    with_lhs_domain (f1 ::= $b1 * grad u dJ (dx 1) down)%E m.

  (** cdf_2d_cuda.cpp:48-71 *)
  Definition cdf_2d_poisson_flux (i0 j0 i1 j1 : Z) (dx : Z -> S) (gcw : Z)
      (u_ f0_ f1_ : ptr) (m : mem S) :=
    let i := Ib i0 i1 in
    let j := Jb j0 j1 in
    let u := make_md_span_g u_ gcw [j; i] in
    let f0 := make_md_span f0_ [j; d_plus i 1] in
    let f1 := make_md_span f1_ [i; d_plus j 1] in
    m <- with_lhs_domain (f0 ::= grad u dI (dx 0) down)%E m ;;
    with_lhs_domain (f1 ::= grad u dJ (dx 1) down)%E m.

  (** cdf_3d_cuda.cpp:19-55 *)
  Definition cdf_3d_flux (i0 j0 k0 i1 j1 k1 : Z) (dx : Z -> S) (b0_ b1_ b2_ : ptr) (gcw : Z)
      (u_ f0_ f1_ f2_ : ptr) (m : mem S) :=
    let i := Ib i0 i1 in
    let j := Jb j0 j1 in
    let k := Kb k0 k1 in
    let u := make_md_span_g u_ gcw [k; j; i] in
    let f0 := make_md_span f0_ [k; j; d_plus i 1] in
    let b0 := make_md_span b0_ [k; j; d_plus i 1] in
    let f1 := make_md_span f1_ [i; k; d_plus j 1] in
    let b1 := make_md_span b1_ [i; k; d_plus j 1] in
    let f2 := make_md_span f2_ [j; i; d_plus k 1] in
    let b2 := make_md_span b2_ [j; i; d_plus k 1] in
    m <- with_lhs_domain (f0 ::= $b0 * grad u dI (dx 0) down)%E m ;;
    m <- with_lhs_domain (f1 ::= $b1 * grad u dJ (dx 1) down)%E m ;;
    with_lhs_domain (f2 ::= $b2 * grad u dK (dx 2) down)%E m.

  (** cdf_3d_cuda.cpp:57-87 *)
  Definition cdf_3d_poisson_flux (i0 j0 k0 i1 j1 k1 : Z) (dx : Z -> S) (gcw : Z)
      (u_ f0_ f1_ f2_ : ptr) (m : mem S) :=
    let i := Ib i0 i1 in
    let j := Jb j0 j1 in
    let k := Kb k0 k1 in
    let u := make_md_span_g u_ gcw [k; j; i] in
    let f0 := make_md_span f0_ [k; j; d_plus i 1] in
    let f1 := make_md_span f1_ [i; k; d_plus j 1] in
    let f2 := make_md_span f2_ [j; i; d_plus k 1] in
    m <- with_lhs_domain (f0 ::= grad u dI (dx 0) down)%E m ;;
    m <- with_lhs_domain (f1 ::= grad u dJ (dx 1) down)%E m ;;
    with_lhs_domain (f2 ::= grad u dK (dx 2) down)%E m.
End Flux.
