(** * Applying an assembled stencil: src/cuda/dot_offset_test.cpp and
    src/cuda/ls_apply_st_3d_cuda.cpp *)

From Verif Require Import Base ModelBounds ModelIters ModelSpan KernelNotations.
Import ListNotations.
Open Scope Z_scope.

Section Dot.
  Context {S : Scalar}.

  (** dot_offset_test.cpp:4-25 *)
  Definition dot_offset_1d (st_ : ptr) (sgcw : Z) (u_ : ptr) (ugcw : Z) (v_ : ptr) (vgcw : Z) (offset : ptr)
      (i0 i1 w1 : Z) (m : mem S) :=
    let i := Ib i0 i1 in
    let w := Wb 0 (w1 - 1) in
    let st := make_md_span_g st_ sgcw [i; w] in
    let u := make_md_span_g u_ ugcw [i] in
    let v := make_md_span_g v_ vgcw [i] in
    with_domain [i] [(v ::= EDot st u offset)%E] m.

  (** dot_offset_test.cpp:27-51 *)
  Definition dot_offset_2d (st_ : ptr) (sgcw : Z) (u_ : ptr) (ugcw : Z) (v_ : ptr) (vgcw : Z) (offset : ptr)
      (i0 i1 j0 j1 w1 : Z) (m : mem S) :=
    let i := Ib i0 i1 in
    let j := Jb j0 j1 in
    let w := Wb 0 (w1 - 1) in
    let st := make_md_span_g st_ sgcw [j; i; w] in
    let u := make_md_span_g u_ ugcw [j; i] in
    let v := make_md_span_g v_ vgcw [j; i] in
    with_domain [j; i] [(v ::= EDot st u offset)%E] m.

  (** dot_offset_test.cpp:53-80 *)
  Definition dot_offset_3d (st_ : ptr) (sgcw : Z) (u_ : ptr) (ugcw : Z) (v_ : ptr) (vgcw : Z) (offset : ptr)
      (i0 i1 j0 j1 k0 k1 w1 : Z) (m : mem S) :=
    let i := Ib i0 i1 in
    let j := Jb j0 j1 in
    let k := Kb k0 k1 in
    let w := Wb 0 (w1 - 1) in
    let st := make_md_span_g st_ sgcw [k; j; i; w] in
    let u := make_md_span_g u_ ugcw [k; j; i] in
    let v := make_md_span_g v_ vgcw [k; j; i] in
    with_domain [k; j; i] [(v ::= EDot st u offset)%E] m.

  (** ls_apply_st_3d_cuda.cpp:5-39.  This file is not part of the build and refers to
      a free function [dot(st, u.offset(o), wb)] and to an offset table span the
      library does not have ("this isn't right", line 37).  Modelled is the statement
      written with the library's [st.dot(u.offset(o))] and the table pointer. *)
  Definition ls_apply_st_3d_at_point (i0 i1 j0 j1 k0 k1 i j k : Z) (stencil_sz : Z) (offsets_ st_ : ptr) (a b : S)
      (fgcw : Z) (f_ : ptr) (ugcw : Z) (u_ : ptr) (rgcw : Z) (r_ : ptr) (m : mem S) :=
    let ib := Ib i0 i1 in
    let jb := Jb j0 j1 in
    let kb := Kb k0 k1 in
    let wb := Wb 1 stencil_sz in
    let st := make_md_span st_ [kb; jb; ib; wb] in
    let f := make_md_span_g f_ fgcw [kb; jb; ib] in
    let u := make_md_span_g u_ ugcw [kb; jb; ib] in
    let r := make_md_span_g r_ rgcw [kb; jb; ib] in
    with_domain [Kb k k; Jb j j; Ib i i] [(r ::= b .* $f + a .* EDot st u offsets_)%E] m.
End Dot.
