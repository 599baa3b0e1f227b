(** * The kernels, given how the library calls inside them execute

    The text of KernelsFlux, KernelsApply, KernelsBC, KernelsStencil and
    KernelsCopy with [with_domain], [with_lhs_domain] and [with_window] taken from
    a record.  [X := sequential] gives the kernels of those files (the lemmas at
    the end, by conversion).  Each definition carries the same citation of /repo.
    [c2f_copy_corner] makes no launch (one element, from the host). *)

From Verif Require Import Base ModelBounds ModelIters ModelSpan ModelProxy ModelSched ModelPar KernelNotations
  KernelsFlux KernelsApply KernelsBC KernelsStencil KernelsCopy.
Import ListNotations.
Open Scope Z_scope.

Section By.
  Context {S : Scalar} (X : @exec S).

  (** ** KernelsFlux *)


  (** cdf_1d_cuda.cpp:19-37 *)
  Definition cdf_1d_flux_by (i0 i1 : Z) (dx : Z -> S) (b0_ : ptr) (gcw : Z) (u_ f0_ : ptr) (m : mem S) :=
    let i := Ib i0 i1 in
    let u := make_md_span_g u_ gcw [i] in
    let f0 := make_md_span f0_ [d_plus i 1] in
    let b0 := make_md_span b0_ [d_plus i 1] in
    x_lhs X (f0 ::= $b0 * grad u dI (dx 0) down)%E m.

  (** cdf_1d_cuda.cpp:39-51 *)
  Definition cdf_1d_poisson_flux_by (i0 i1 : Z) (dx : Z -> S) (gcw : Z) (u_ f0_ : ptr) (m : mem S) :=
    let i := Ib i0 i1 in
    let u := make_md_span_g u_ gcw [i] in
    let f0 := make_md_span f0_ [d_plus i 1] in
    x_lhs X (f0 ::= grad u dI (dx 0) down)%E m.

  (** cdf_2d_cuda.cpp:19-46 *)
  Definition cdf_2d_flux_by (i0 j0 i1 j1 : Z) (dx : Z -> S) (b0_ b1_ : ptr) (gcw : Z)
      (u_ f0_ f1_ : ptr) (m : mem S) :=
    let i := Ib i0 i1 in
    let j := Jb j0 j1 in
    let u := make_md_span_g u_ gcw [j; i] in
    let f0 := make_md_span f0_ [j; d_plus i 1] in
    let b0 := make_md_span b0_ [j; d_plus i 1] in
    let f1 := make_md_span f1_ [i; d_plus j 1] in
    let b1 := make_md_span b1_ [i; d_plus j 1] in
    m <- x_lhs X (f0 ::= $b0 * grad u dI (dx 0) down)%E m ;;
    x_lhs X (f1 ::= $b1 * grad u dJ (dx 1) down)%E m.

  (** cdf_2d_cuda.cpp:48-71 *)
  Definition cdf_2d_poisson_flux_by (i0 j0 i1 j1 : Z) (dx : Z -> S) (gcw : Z)
      (u_ f0_ f1_ : ptr) (m : mem S) :=
    let i := Ib i0 i1 in
    let j := Jb j0 j1 in
    let u := make_md_span_g u_ gcw [j; i] in
    let f0 := make_md_span f0_ [j; d_plus i 1] in
    let f1 := make_md_span f1_ [i; d_plus j 1] in
    m <- x_lhs X (f0 ::= grad u dI (dx 0) down)%E m ;;
    x_lhs X (f1 ::= grad u dJ (dx 1) down)%E m.

  (** cdf_3d_cuda.cpp:19-55 *)
  Definition cdf_3d_flux_by (i0 j0 k0 i1 j1 k1 : Z) (dx : Z -> S) (b0_ b1_ b2_ : ptr) (gcw : Z)
      (u_ f0_ f1_ f2_ : ptr) (m : mem S) :=
    let i := Ib i0 i1 in
    let j := Jb j0 j1 in
    let k := Kb k0 k1 in
    let u := make_md_span_g u_ gcw [k; j; i] in
    let f0 := make_md_span f0_ [k; j; d_plus i 1] in
    let b0 := make_md_span b0_ [k; j; d_plus i 1] in
    let f1 := make_md_span f1_ [i; k; d_plus j 1] in
    let b1 := make_md_span b1_ [i; k; d_plus j 1] in
    let f2 := make_md_span f2_ [j; i; d_plus k 1] in
    let b2 := make_md_span b2_ [j; i; d_plus k 1] in
    m <- x_lhs X (f0 ::= $b0 * grad u dI (dx 0) down)%E m ;;
    m <- x_lhs X (f1 ::= $b1 * grad u dJ (dx 1) down)%E m ;;
    x_lhs X (f2 ::= $b2 * grad u dK (dx 2) down)%E m.

  (** cdf_3d_cuda.cpp:57-87 *)
  Definition cdf_3d_poisson_flux_by (i0 j0 k0 i1 j1 k1 : Z) (dx : Z -> S) (gcw : Z)
      (u_ f0_ f1_ f2_ : ptr) (m : mem S) :=
    let i := Ib i0 i1 in
    let j := Jb j0 j1 in
    let k := Kb k0 k1 in
    let u := make_md_span_g u_ gcw [k; j; i] in
    let f0 := make_md_span f0_ [k; j; d_plus i 1] in
    let f1 := make_md_span f1_ [i; k; d_plus j 1] in
    let f2 := make_md_span f2_ [j; i; d_plus k 1] in
    m <- x_lhs X (f0 ::= grad u dI (dx 0) down)%E m ;;
    m <- x_lhs X (f1 ::= grad u dJ (dx 1) down)%E m ;;
    x_lhs X (f2 ::= grad u dK (dx 2) down)%E m.

  (** ** KernelsApply *)


  (** cd_apply_1d_cuda.cpp:19-45 *)
  Definition cd_apply_1d_diffusion_v1_res_by (i0 i1 : Z) (alpha beta : S) (dx : Z -> S) (agcw : Z) (a_ : ptr) (ugcw : Z) (u_ : ptr) (fgcw : Z) (f_ : ptr) (f0_ : ptr) (rgcw : Z) (res_ : ptr) (m : mem S) :=
    let i := Ib i0 i1 in
    let a := make_md_span_g a_ agcw [i] in
    let u := make_md_span_g u_ ugcw [i] in
    let f := make_md_span_g f_ fgcw [i] in
    let res := make_md_span_g res_ rgcw [i] in
    let f0 := make_md_span f0_ [d_plus i 1] in
    x_domain X [i] [(res ::= $f + beta .* (grad f0 dI (dx 0) up) - alpha .* $a * $u)%E] m.

  (** cd_apply_1d_cuda.cpp:47-70 *)
  Definition cd_apply_1d_diffusion_v2_res_by (i0 i1 : Z) (alpha beta : S) (dx : Z -> S) (ugcw : Z) (u_ : ptr) (fgcw : Z) (f_ : ptr) (f0_ : ptr) (rgcw : Z) (res_ : ptr) (m : mem S) :=
    let i := Ib i0 i1 in
    let u := make_md_span_g u_ ugcw [i] in
    let f := make_md_span_g f_ fgcw [i] in
    let res := make_md_span_g res_ rgcw [i] in
    let f0 := make_md_span f0_ [d_plus i 1] in
    x_domain X [i] [(res ::= $f + beta .* (grad f0 dI (dx 0) up) - alpha .* $u)%E] m.

  (** cd_apply_1d_cuda.cpp:72-91 *)
  Definition cd_apply_1d_poisson_v1_res_by (i0 i1 : Z) (beta : S) (dx : Z -> S) (fgcw : Z) (f_ : ptr) (f0_ : ptr) (rgcw : Z) (res_ : ptr) (m : mem S) :=
    let i := Ib i0 i1 in
    let f := make_md_span_g f_ fgcw [i] in
    let res := make_md_span_g res_ rgcw [i] in
    let f0 := make_md_span f0_ [d_plus i 1] in
    x_domain X [i] [(res ::= $f + beta .* (grad f0 dI (dx 0) up))%E] m.

  (** cd_apply_1d_cuda.cpp:93-116 *)
  Definition cd_apply_1d_diffusion_v1_apply_by (i0 i1 : Z) (alpha beta : S) (dx : Z -> S) (agcw : Z) (a_ : ptr) (ugcw : Z) (u_ : ptr) (f0_ : ptr) (rgcw : Z) (res_ : ptr) (m : mem S) :=
    let i := Ib i0 i1 in
    let a := make_md_span_g a_ agcw [i] in
    let u := make_md_span_g u_ ugcw [i] in
    let res := make_md_span_g res_ rgcw [i] in
    let f0 := make_md_span f0_ [d_plus i 1] in
    x_domain X [i] [(res ::= (- beta)%T .* (grad f0 dI (dx 0) up) + alpha .* $a * $u)%E] m.

  (** cd_apply_1d_cuda.cpp:118-138 *)
  Definition cd_apply_1d_diffusion_v2_apply_by (i0 i1 : Z) (alpha beta : S) (dx : Z -> S) (ugcw : Z) (u_ : ptr) (f0_ : ptr) (rgcw : Z) (res_ : ptr) (m : mem S) :=
    let i := Ib i0 i1 in
    let u := make_md_span_g u_ ugcw [i] in
    let res := make_md_span_g res_ rgcw [i] in
    let f0 := make_md_span f0_ [d_plus i 1] in
    x_domain X [i] [(res ::= (- beta)%T .* (grad f0 dI (dx 0) up) + alpha .* $u)%E] m.

  (** cd_apply_1d_cuda.cpp:140-156 *)
  Definition cd_apply_1d_poisson_v2_apply_by (i0 i1 : Z) (beta : S) (dx : Z -> S) (f0_ : ptr) (rgcw : Z) (res_ : ptr) (m : mem S) :=
    let i := Ib i0 i1 in
    let res := make_md_span_g res_ rgcw [i] in
    let f0 := make_md_span f0_ [d_plus i 1] in
    x_domain X [i] [(res ::= (- beta)%T .* (grad f0 dI (dx 0) up))%E] m.

  (** cd_apply_2d_cuda.cpp:19-51 *)
  Definition cd_apply_2d_diffusion_v1_res_by (i0 i1 j0 j1 : Z) (alpha beta : S) (dx : Z -> S) (agcw : Z) (a_ : ptr) (ugcw : Z) (u_ : ptr) (fgcw : Z) (f_ : ptr) (f0_ f1_ : ptr) (rgcw : Z) (res_ : ptr) (m : mem S) :=
    let i := Ib i0 i1 in
    let j := Jb j0 j1 in
    let a := make_md_span_g a_ agcw [j; i] in
    let u := make_md_span_g u_ ugcw [j; i] in
    let f := make_md_span_g f_ fgcw [j; i] in
    let res := make_md_span_g res_ rgcw [j; i] in
    let f0 := make_md_span f0_ [j; d_plus i 1] in
    let f1 := make_md_span f1_ [i; d_plus j 1] in
    x_domain X [j; i] [(res ::= $f + beta .* (grad f0 dI (dx 0) up + grad f1 dJ (dx 1) up) - alpha .* $a * $u)%E] m.

  (** cd_apply_2d_cuda.cpp:53-81 *)
  Definition cd_apply_2d_diffusion_v2_res_by (i0 i1 j0 j1 : Z) (alpha beta : S) (dx : Z -> S) (ugcw : Z) (u_ : ptr) (fgcw : Z) (f_ : ptr) (f0_ f1_ : ptr) (rgcw : Z) (res_ : ptr) (m : mem S) :=
    let i := Ib i0 i1 in
    let j := Jb j0 j1 in
    let u := make_md_span_g u_ ugcw [j; i] in
    let f := make_md_span_g f_ fgcw [j; i] in
    let res := make_md_span_g res_ rgcw [j; i] in
    let f0 := make_md_span f0_ [j; d_plus i 1] in
    let f1 := make_md_span f1_ [i; d_plus j 1] in
    x_domain X [j; i] [(res ::= $f + beta .* (grad f0 dI (dx 0) up + grad f1 dJ (dx 1) up) - alpha .* $u)%E] m.

  (** cd_apply_2d_cuda.cpp:83-107 *)
  Definition cd_apply_2d_poisson_v1_res_by (i0 i1 j0 j1 : Z) (beta : S) (dx : Z -> S) (fgcw : Z) (f_ : ptr) (f0_ f1_ : ptr) (rgcw : Z) (res_ : ptr) (m : mem S) :=
    let i := Ib i0 i1 in
    let j := Jb j0 j1 in
    let f := make_md_span_g f_ fgcw [j; i] in
    let res := make_md_span_g res_ rgcw [j; i] in
    let f0 := make_md_span f0_ [j; d_plus i 1] in
    let f1 := make_md_span f1_ [i; d_plus j 1] in
    x_domain X [j; i] [(res ::= $f + beta .* (grad f0 dI (dx 0) up + grad f1 dJ (dx 1) up))%E] m.

  (** cd_apply_2d_cuda.cpp:109-138 *)
  Definition cd_apply_2d_diffusion_v1_apply_by (i0 i1 j0 j1 : Z) (alpha beta : S) (dx : Z -> S) (agcw : Z) (a_ : ptr) (ugcw : Z) (u_ : ptr) (f0_ f1_ : ptr) (rgcw : Z) (res_ : ptr) (m : mem S) :=
    let i := Ib i0 i1 in
    let j := Jb j0 j1 in
    let a := make_md_span_g a_ agcw [j; i] in
    let u := make_md_span_g u_ ugcw [j; i] in
    let res := make_md_span_g res_ rgcw [j; i] in
    let f0 := make_md_span f0_ [j; d_plus i 1] in
    let f1 := make_md_span f1_ [i; d_plus j 1] in
    x_domain X [j; i] [(res ::= (- beta)%T .* (grad f0 dI (dx 0) up + grad f1 dJ (dx 1) up) + alpha .* $a * $u)%E] m.

  (** cd_apply_2d_cuda.cpp:140-165 *)
  Definition cd_apply_2d_diffusion_v2_apply_by (i0 i1 j0 j1 : Z) (alpha beta : S) (dx : Z -> S) (ugcw : Z) (u_ : ptr) (f0_ f1_ : ptr) (rgcw : Z) (res_ : ptr) (m : mem S) :=
    let i := Ib i0 i1 in
    let j := Jb j0 j1 in
    let u := make_md_span_g u_ ugcw [j; i] in
    let res := make_md_span_g res_ rgcw [j; i] in
    let f0 := make_md_span f0_ [j; d_plus i 1] in
    let f1 := make_md_span f1_ [i; d_plus j 1] in
    x_domain X [j; i] [(res ::= (- beta)%T .* (grad f0 dI (dx 0) up + grad f1 dJ (dx 1) up) + alpha .* $u)%E] m.

  (** cd_apply_2d_cuda.cpp:167-188 *)
  Definition cd_apply_2d_poisson_v2_apply_by (i0 i1 j0 j1 : Z) (beta : S) (dx : Z -> S) (f0_ f1_ : ptr) (rgcw : Z) (res_ : ptr) (m : mem S) :=
    let i := Ib i0 i1 in
    let j := Jb j0 j1 in
    let res := make_md_span_g res_ rgcw [j; i] in
    let f0 := make_md_span f0_ [j; d_plus i 1] in
    let f1 := make_md_span f1_ [i; d_plus j 1] in
    x_domain X [j; i] [(res ::= (- beta)%T .* (grad f0 dI (dx 0) up + grad f1 dJ (dx 1) up))%E] m.

  (** cd_apply_3d_cuda.cpp:19-57 *)
  Definition cd_apply_3d_diffusion_v1_res_by (i0 i1 j0 j1 k0 k1 : Z) (alpha beta : S) (dx : Z -> S) (agcw : Z) (a_ : ptr) (ugcw : Z) (u_ : ptr) (fgcw : Z) (f_ : ptr) (f0_ f1_ f2_ : ptr) (rgcw : Z) (res_ : ptr) (m : mem S) :=
    let i := Ib i0 i1 in
    let j := Jb j0 j1 in
    let k := Kb k0 k1 in
    let a := make_md_span_g a_ agcw [k; j; i] in
    let u := make_md_span_g u_ ugcw [k; j; i] in
    let f := make_md_span_g f_ fgcw [k; j; i] in
    let res := make_md_span_g res_ rgcw [k; j; i] in
    let f0 := make_md_span f0_ [k; j; d_plus i 1] in
    let f1 := make_md_span f1_ [i; k; d_plus j 1] in
    let f2 := make_md_span f2_ [j; i; d_plus k 1] in
    x_domain X [k; j; i] [(res ::= $f + beta .* (grad f0 dI (dx 0) up + grad f1 dJ (dx 1) up + grad f2 dK (dx 2) up) - alpha .* $a * $u)%E] m.

  (** cd_apply_3d_cuda.cpp:59-94 *)
  Definition cd_apply_3d_diffusion_v2_res_by (i0 i1 j0 j1 k0 k1 : Z) (alpha beta : S) (dx : Z -> S) (ugcw : Z) (u_ : ptr) (fgcw : Z) (f_ : ptr) (f0_ f1_ f2_ : ptr) (rgcw : Z) (res_ : ptr) (m : mem S) :=
    let i := Ib i0 i1 in
    let j := Jb j0 j1 in
    let k := Kb k0 k1 in
    let u := make_md_span_g u_ ugcw [k; j; i] in
    let f := make_md_span_g f_ fgcw [k; j; i] in
    let res := make_md_span_g res_ rgcw [k; j; i] in
    let f0 := make_md_span f0_ [k; j; d_plus i 1] in
    let f1 := make_md_span f1_ [i; k; d_plus j 1] in
    let f2 := make_md_span f2_ [j; i; d_plus k 1] in
    x_domain X [k; j; i] [(res ::= $f + beta .* (grad f0 dI (dx 0) up + grad f1 dJ (dx 1) up + grad f2 dK (dx 2) up) - alpha .* $u)%E] m.

  (** cd_apply_3d_cuda.cpp:96-126 *)
  Definition cd_apply_3d_poisson_v1_res_by (i0 i1 j0 j1 k0 k1 : Z) (beta : S) (dx : Z -> S) (fgcw : Z) (f_ : ptr) (f0_ f1_ f2_ : ptr) (rgcw : Z) (res_ : ptr) (m : mem S) :=
    let i := Ib i0 i1 in
    let j := Jb j0 j1 in
    let k := Kb k0 k1 in
    let f := make_md_span_g f_ fgcw [k; j; i] in
    let res := make_md_span_g res_ rgcw [k; j; i] in
    let f0 := make_md_span f0_ [k; j; d_plus i 1] in
    let f1 := make_md_span f1_ [i; k; d_plus j 1] in
    let f2 := make_md_span f2_ [j; i; d_plus k 1] in
    x_domain X [k; j; i] [(res ::= $f + beta .* (grad f0 dI (dx 0) up + grad f1 dJ (dx 1) up + grad f2 dK (dx 2) up))%E] m.

  (** cd_apply_3d_cuda.cpp:128-164 *)
  Definition cd_apply_3d_diffusion_v1_apply_by (i0 i1 j0 j1 k0 k1 : Z) (alpha beta : S) (dx : Z -> S) (agcw : Z) (a_ : ptr) (ugcw : Z) (u_ : ptr) (f0_ f1_ f2_ : ptr) (rgcw : Z) (res_ : ptr) (m : mem S) :=
    let i := Ib i0 i1 in
    let j := Jb j0 j1 in
    let k := Kb k0 k1 in
    let a := make_md_span_g a_ agcw [k; j; i] in
    let u := make_md_span_g u_ ugcw [k; j; i] in
    let res := make_md_span_g res_ rgcw [k; j; i] in
    let f0 := make_md_span f0_ [k; j; d_plus i 1] in
    let f1 := make_md_span f1_ [i; k; d_plus j 1] in
    let f2 := make_md_span f2_ [j; i; d_plus k 1] in
    x_domain X [k; j; i] [(res ::= (- beta)%T .* (grad f0 dI (dx 0) up + grad f1 dJ (dx 1) up + grad f2 dK (dx 2) up) + alpha .* $a * $u)%E] m.

  (** cd_apply_3d_cuda.cpp:166-199 *)
  Definition cd_apply_3d_diffusion_v2_apply_by (i0 i1 j0 j1 k0 k1 : Z) (alpha beta : S) (dx : Z -> S) (ugcw : Z) (u_ : ptr) (f0_ f1_ f2_ : ptr) (rgcw : Z) (res_ : ptr) (m : mem S) :=
    let i := Ib i0 i1 in
    let j := Jb j0 j1 in
    let k := Kb k0 k1 in
    let u := make_md_span_g u_ ugcw [k; j; i] in
    let res := make_md_span_g res_ rgcw [k; j; i] in
    let f0 := make_md_span f0_ [k; j; d_plus i 1] in
    let f1 := make_md_span f1_ [i; k; d_plus j 1] in
    let f2 := make_md_span f2_ [j; i; d_plus k 1] in
    x_domain X [k; j; i] [(res ::= (- beta)%T .* (grad f0 dI (dx 0) up + grad f1 dJ (dx 1) up + grad f2 dK (dx 2) up) + alpha .* $u)%E] m.

  (** cd_apply_3d_cuda.cpp:201-229 *)
  Definition cd_apply_3d_poisson_v2_apply_by (i0 i1 j0 j1 k0 k1 : Z) (beta : S) (dx : Z -> S) (f0_ f1_ f2_ : ptr) (rgcw : Z) (res_ : ptr) (m : mem S) :=
    let i := Ib i0 i1 in
    let j := Jb j0 j1 in
    let k := Kb k0 k1 in
    let res := make_md_span_g res_ rgcw [k; j; i] in
    let f0 := make_md_span f0_ [k; j; d_plus i 1] in
    let f1 := make_md_span f1_ [i; k; d_plus j 1] in
    let f2 := make_md_span f2_ [j; i; d_plus k 1] in
    x_domain X [k; j; i] [(res ::= (- beta)%T .* (grad f0 dI (dx 0) up + grad f1 dJ (dx 1) up + grad f2 dK (dx 2) up))%E] m.

  (** ** KernelsBC *)


  (** cd_correct_bc_1d_cuda.cpp:19-86 *)
  Definition cd_1d_set_bc_by (i0 i1 : Z) (dx : Z -> S) (dgcw : Z) (d0_ : ptr) (ugcw : Z) (u_ : ptr)
      (bLo bHi : Z -> Z) (exOrder face btype : Z) (alpha beta : S) (m : mem S) : option (mem S) :=
    let i := Ib i0 i1 in
    let d0 := make_md_span_g d0_ dgcw [d_plus i 1] in
    let u := make_md_span_g u_ ugcw [i] in
    let il := Ib (bLo 0) (bLo 0) in let ih := Ib (bHi 0) (bHi 0) in
    let t1 (u1 u2 d : @expr S) (h : S) (p : list dbnd) (m : mem S) :=
      if btype =? 0 then
        if exOrder =? 1 then x_domain X p [u ::= lit (-1) .* u1]%E m
        else if exOrder =? 2 then x_domain X p [u ::= lit (-2) .* u1 + u2 /. lit 3]%E m
        else Some m
      else if btype =? 1 then x_domain X p [u ::= u1]%E m
      else if btype =? 4 then
        if exOrder =? 1 then
          x_domain X p [u ::= (((lit 2 * alpha)%T .* d -. (h * beta)%T) / ((lit 2 * alpha)%T .* d +. (h * beta)%T)) * u1]%E m
        else if exOrder =? 2 then
          x_domain X p [u ::= (((lit 8 * alpha)%T .* d -. (lit 6 * beta * h)%T) / ((lit 8 * alpha)%T .* d +. (lit 3 * beta * h)%T)) * u1
                               + h ./ ((lit 8 * alpha)%T .* d +. (lit 3 * beta * h)%T) * u2]%E m
        else Some m
      else Some m in
    if face =? 0 then t1 (shift u dI 1) (shift u dI 2) (shift d0 dI 1) (dx 0) [il] m
    else if face =? 1 then t1 (shift u dI (-1)) (shift u dI (-2)) (ESpan d0) (dx 0) [ih] m
    else Some m.

  (** cd_correct_bc_1d_cuda.cpp:88-149 *)
  Definition cd_1d_set_poisson_bc_by (i0 i1 : Z) (dx : Z -> S) (ugcw : Z) (u_ : ptr)
      (bLo bHi : Z -> Z) (exOrder face btype : Z) (alpha beta : S) (m : mem S) : option (mem S) :=
    let i := Ib i0 i1 in
    let u := make_md_span_g u_ ugcw [i] in
    let il := Ib (bLo 0) (bLo 0) in let ih := Ib (bHi 0) (bHi 0) in
    let t1 (u1 u2 : @expr S) (h : S) (p : list dbnd) (m : mem S) :=
      if btype =? 0 then
        if exOrder =? 1 then x_domain X p [u ::= lit (-1) .* u1]%E m
        else if exOrder =? 2 then x_domain X p [u ::= lit (-2) .* u1 + u2 /. lit 3]%E m
        else Some m
      else if btype =? 1 then x_domain X p [u ::= u1]%E m
      else if btype =? 4 then
        if exOrder =? 1 then x_domain X p [u ::= ((lit 4 - h) / (lit 4 + h))%T .* u1]%E m
        else if exOrder =? 2 then x_domain X p [u ::= ((lit 16 - lit 6 * h) / (lit 16 + lit 3 * h))%T .* u1 + (h / (lit 16 + lit 3 * h))%T .* u2]%E m
        else Some m
      else Some m in
    if face =? 0 then t1 (shift u dI 1) (shift u dI 2) (dx 0) [il] m
    else if face =? 1 then t1 (shift u dI (-1)) (shift u dI (-2)) (dx 0) [ih] m
    else Some m.

  (** cd_correct_bc_2d_cuda.cpp:19-127 *)
  Definition cd_2d_set_bc_by (i0 i1 j0 j1 : Z) (dx : Z -> S) (dgcw : Z) (d0_ d1_ : ptr) (ugcw : Z) (u_ : ptr)
      (bLo bHi : Z -> Z) (exOrder face type btype : Z) (alpha beta : S) (m : mem S) : option (mem S) :=
    let i := Ib i0 i1 in
    let j := Jb j0 j1 in
    let d0 := make_md_span_g d0_ dgcw [j; d_plus i 1] in
    let d1 := make_md_span_g d1_ dgcw [i; d_plus j 1] in
    let u := make_md_span_g u_ ugcw [j; i] in
    let ib := Ib (Z.max (bLo 0) i0) (Z.min (bHi 0) i1) in
    let jb := Jb (Z.max (bLo 1) j0) (Z.min (bHi 1) j1) in
    let il := Ib (bLo 0) (bLo 0) in let ih := Ib (bHi 0) (bHi 0) in
    let jl := Jb (bLo 1) (bLo 1) in let jh := Jb (bHi 1) (bHi 1) in
    let t1 (u1 u2 d : @expr S) (h : S) (p : list dbnd) (m : mem S) :=
      if btype =? 0 then
        if exOrder =? 0 then x_domain X p [ANum u (lit 0)] m else
        if exOrder =? 1 then x_domain X p [u ::= lit (-1) .* u1]%E m
        else if exOrder =? 2 then x_domain X p [u ::= lit (-2) .* u1 + u2 /. lit 3]%E m
        else Some m
      else if btype =? 1 then x_domain X p [u ::= u1]%E m
      else if btype =? 4 then
        if exOrder =? 1 then
          x_domain X p [u ::= (((lit 2 * alpha)%T .* d -. (h * beta)%T) / ((lit 2 * alpha)%T .* d +. (h * beta)%T)) * u1]%E m
        else if exOrder =? 2 then
          x_domain X p [u ::= (((lit 8 * alpha)%T .* d -. (lit 6 * beta * h)%T) / ((lit 8 * alpha)%T .* d +. (lit 3 * beta * h)%T)) * u1
                               + h ./ ((lit 8 * alpha)%T .* d +. (lit 3 * beta * h)%T) * u2]%E m
        else Some m
      else Some m in
    let t2 (u1 u2 u3 : @expr S) (p : list dbnd) (m : mem S) := x_domain X p [u ::= u2 + u3 - u1]%E m in
    if type =? 1 then
      if face =? 0 then t1 (shift u dI 1) (shift u dI 2) (shift d0 dI 1) (dx 0) [jb; il] m
      else if face =? 1 then t1 (shift u dI (-1)) (shift u dI (-2)) (ESpan d0) (dx 0) [jb; ih] m
      else if face =? 2 then t1 (shift u dJ 1) (shift u dJ 2) (shift d1 dJ 1) (dx 1) [jl; ib] m
      else if face =? 3 then t1 (shift u dJ (-1)) (shift u dJ (-2)) (ESpan d1) (dx 1) [jh; ib] m
      else Some m
    else if type =? 2 then
      if face =? 0 then t2 (shift_xy u 1 1) (shift u dI 1) (shift u dJ 1) [jl; il] m
      else if face =? 1 then t2 (shift_xy u (-1) 1) (shift u dI (-1)) (shift u dJ 1) [jl; ih] m
      else if face =? 2 then t2 (shift_xy u 1 (-1)) (shift u dI 1) (shift u dJ (-1)) [jh; il] m
      else if face =? 3 then t2 (shift_xy u (-1) (-1)) (shift u dI (-1)) (shift u dJ (-1)) [jh; ih] m
      else Some m
    else Some m.

  (** cd_correct_bc_2d_cuda.cpp:129-228 *)
  Definition cd_2d_set_poisson_bc_by (i0 i1 j0 j1 : Z) (dx : Z -> S) (ugcw : Z) (u_ : ptr)
      (bLo bHi : Z -> Z) (exOrder face type btype : Z) (alpha beta : S) (m : mem S) : option (mem S) :=
    let i := Ib i0 i1 in
    let j := Jb j0 j1 in
    let u := make_md_span_g u_ ugcw [j; i] in
    let ib := Ib (Z.max (bLo 0) i0) (Z.min (bHi 0) i1) in
    let jb := Jb (Z.max (bLo 1) j0) (Z.min (bHi 1) j1) in
    let il := Ib (bLo 0) (bLo 0) in let ih := Ib (bHi 0) (bHi 0) in
    let jl := Jb (bLo 1) (bLo 1) in let jh := Jb (bHi 1) (bHi 1) in
    let t1 (u1 u2 : @expr S) (h : S) (p : list dbnd) (m : mem S) :=
      if btype =? 0 then
        if exOrder =? 1 then x_domain X p [u ::= lit (-1) .* u1]%E m
        else if exOrder =? 2 then x_domain X p [u ::= lit (-2) .* u1 + u2 /. lit 3]%E m
        else Some m
      else if btype =? 1 then x_domain X p [u ::= u1]%E m
      else if btype =? 4 then
        if exOrder =? 1 then x_domain X p [u ::= ((lit 2 * alpha - h * beta) / (lit 2 * alpha + h * beta))%T .* u1]%E m
        else if exOrder =? 2 then x_domain X p [u ::= ((lit 8 * alpha - lit 6 * beta * h) / (lit 8 * alpha + lit 3 * beta * h))%T .* u1 + (h / (lit 8 * alpha + lit 3 * beta * h))%T .* u2]%E m
        else Some m
      else Some m in
    let t2 (u1 u2 u3 : @expr S) (p : list dbnd) (m : mem S) := x_domain X p [u ::= u2 + u3 - u1]%E m in
    if type =? 1 then
      if face =? 0 then t1 (shift u dI 1) (shift u dI 2) (dx 0) [jb; il] m
      else if face =? 1 then t1 (shift u dI (-1)) (shift u dI (-2)) (dx 0) [jb; ih] m
      else if face =? 2 then if negb (btype =? 4) then t1 (shift u dJ 1) (shift u dJ 2) (dx 1) [jl; ib] m else Some m
      else if face =? 3 then if negb (btype =? 4) then t1 (shift u dJ (-1)) (shift u dJ (-2)) (dx 1) [jh; ib] m else Some m
      else Some m
    else if type =? 2 then
      if face =? 0 then t2 (shift_xy u 1 1) (shift u dI 1) (shift u dJ 1) [jl; il] m
      else if face =? 1 then t2 (shift_xy u (-1) 1) (shift u dI (-1)) (shift u dJ 1) [jl; ih] m
      else if face =? 2 then t2 (shift_xy u 1 (-1)) (shift u dI 1) (shift u dJ (-1)) [jh; il] m
      else if face =? 3 then t2 (shift_xy u (-1) (-1)) (shift u dI (-1)) (shift u dJ (-1)) [jh; ih] m
      else Some m
    else Some m.

  (** cd_correct_bc_2d_cuda.cpp:230-275 *)
  Definition cd_2d_set_corner_bc_by (i0 i1 j0 j1 gcw : Z) (dx : Z -> S) (d0_ d1_ u_ : ptr) (bLo bHi : Z -> Z)
      (exOrder face type btype : Z) (m : mem S) : option (mem S) :=
    let i := Ib i0 i1 in
    let j := Jb j0 j1 in
    let u := make_md_span_g u_ gcw [j; i] in
    let il := Ib (bLo 0) (bLo 0) in let ih := Ib (bHi 0) (bHi 0) in
    let jl := Jb (bLo 1) (bLo 1) in let jh := Jb (bHi 1) (bHi 1) in
    let f (u1 : @expr S) (p : list dbnd) (m : mem S) := x_domain X p [u ::= lit (-5) .* u1]%E m in
    if face =? 0 then f (shift_xy u 1 1) [jl; il] m
    else if face =? 1 then f (shift_xy u (-1) 1) [jl; ih] m
    else if face =? 2 then f (shift_xy u 1 (-1)) [jh; il] m
    else if face =? 3 then f (shift_xy u (-1) (-1)) [jh; ih] m
    else Some m.

  (** cd_correct_bc_2d_cuda.cpp:277-349 *)
  Definition cd_2d_set_homogenous_bc_by (i0 j0 i1 j1 face : Z) (bLo bHi : Z -> Z) (exOrder : Z) (u_ : ptr)
      (m : mem S) : option (mem S) :=
    let i := Ib i0 i1 in
    let j := Jb j0 j1 in
    let u := make_md_span_g u_ 1 [j; i] in
    let ib := Ib (Z.max i0 (bLo 0)) (Z.min i1 (bHi 0)) in
    let jb := Jb (Z.max j0 (bLo 1)) (Z.min j1 (bHi 1)) in
    let il := Ib (i0 - 1) (i0 - 1) in let ih := Ib (i1 + 1) (i1 + 1) in
    let jl := Jb (j0 - 1) (j0 - 1) in let jh := Jb (j1 + 1) (j1 + 1) in
    let f (u1 u2 u3 u4 : @expr S) (p : list dbnd) (m : mem S) :=
      let t13 := (lit 1 / lit 3)%T in
      let t15 := (lit 1 / lit 5)%T in
      let t45 := (lit 4 / lit 5)%T in
      let t17 := (lit 1 / lit 7)%T in
      if exOrder =? 1 then x_domain X p [u ::= lit (-1) .* u1]%E m
      else if exOrder =? 2 then x_domain X p [u ::= lit (-2) .* u1 + t13 .* u2]%E m
      else if exOrder =? 3 then x_domain X p [u ::= lit (-3) .* u1 + u2 - t15 .* u3]%E m
      else if exOrder =? 4 then x_domain X p [u ::= lit (-4) .* u1 + lit 2 .* u2 - t45 .* u3 + t17 .* u4]%E m
      else Some m in
    let g (v : @expr S) (p : list dbnd) (m : mem S) := x_domain X p [u ::= v]%E m in
    if face =? 0 then
      m <- f (shift u dI 1) (shift u dI 2) (shift u dI 3) (shift u dI 4) [jb; il] m ;;
      m <- g (shift_xy u 1 1) [jl; il] m ;;
      g (shift_xy u 1 (-1)) [jh; il] m
    else if face =? 1 then
      m <- f (shift u dI (-1)) (shift u dI (-2)) (shift u dI (-3)) (shift u dI (-4)) [jb; ih] m ;;
      m <- g (shift_xy u (-1) 1) [jl; ih] m ;;
      g (shift_xy u (-1) (-1)) [jh; ih] m
    else if face =? 2 then
      m <- f (shift u dJ 1) (shift u dJ 2) (shift u dJ 3) (shift u dJ 4) [jl; ib] m ;;
      m <- g (shift_xy u 1 1) [jl; il] m ;;
      g (shift_xy u (-1) 1) [jl; ih] m
    else if face =? 3 then
      m <- f (shift u dJ (-1)) (shift u dJ (-2)) (shift u dJ (-3)) (shift u dJ (-4)) [jh; ib] m ;;
      m <- g (shift_xy u 1 (-1)) [jh; il] m ;;
      g (shift_xy u (-1) (-1)) [jh; ih] m
    else Some m.

  (** cd_correct_bc_3d_cuda.cpp:19-181 *)
  Definition cd_3d_set_bc_by (i0 i1 j0 j1 k0 k1 : Z) (dx : Z -> S) (dgcw : Z) (d0_ d1_ d2_ : ptr) (ugcw : Z) (u_ : ptr)
      (bLo bHi : Z -> Z) (exOrder face type btype : Z) (alpha beta : S) (m : mem S) : option (mem S) :=
    let i := Ib i0 i1 in
    let j := Jb j0 j1 in
    let k := Kb k0 k1 in
    let d0 := make_md_span_g d0_ dgcw [k; j; d_plus i 1] in
    let d1 := make_md_span_g d1_ dgcw [i; k; d_plus j 1] in
    let d2 := make_md_span_g d2_ dgcw [j; i; d_plus k 1] in
    let u := make_md_span_g u_ ugcw [k; j; i] in
    let ib := Ib (Z.max (bLo 0) i0) (Z.min (bHi 0) i1) in
    let jb := Jb (Z.max (bLo 1) j0) (Z.min (bHi 1) j1) in
    let kb := Kb (Z.max (bLo 2) k0) (Z.min (bHi 2) k1) in
    let il := Ib (bLo 0) (bLo 0) in let ih := Ib (bHi 0) (bHi 0) in
    let jl := Jb (bLo 1) (bLo 1) in let jh := Jb (bHi 1) (bHi 1) in
    let kl := Kb (bLo 2) (bLo 2) in let kh := Kb (bHi 2) (bHi 2) in
    let t1 (u1 u2 d : @expr S) (h : S) (p : list dbnd) (m : mem S) :=
      if btype =? 0 then
        if exOrder =? 1 then x_domain X p [u ::= lit (-1) .* u1]%E m
        else if exOrder =? 2 then x_domain X p [u ::= lit (-2) .* u1 + u2 /. lit 3]%E m
        else Some m
      else if btype =? 1 then x_domain X p [u ::= u1]%E m
      else if btype =? 4 then
        if exOrder =? 1 then
          x_domain X p [u ::= (((lit 2 * alpha)%T .* d -. (h * beta)%T) / ((lit 2 * alpha)%T .* d +. (h * beta)%T)) * u1]%E m
        else if exOrder =? 2 then
          x_domain X p [u ::= (((lit 8 * alpha)%T .* d -. (lit 6 * beta * h)%T) / ((lit 8 * alpha)%T .* d +. (lit 3 * beta * h)%T)) * u1
                               + h ./ ((lit 8 * alpha)%T .* d +. (lit 3 * beta * h)%T) * u2]%E m
        else Some m
      else Some m in
    let t2 (u1 u2 u3 : @expr S) (p : list dbnd) (m : mem S) := x_domain X p [u ::= u2 + u3 - u1]%E m in
    if type =? 1 then
      if face =? 0 then t1 (shift u dI 1) (shift u dI 2) (shift d0 dI 1) (dx 0) [kb; jb; il] m
      else if face =? 1 then t1 (shift u dI (-1)) (shift u dI (-2)) (ESpan d0) (dx 0) [kb; jb; ih] m
      else if face =? 2 then t1 (shift u dJ 1) (shift u dJ 2) (shift d1 dJ 1) (dx 1) [kb; jl; ib] m
      else if face =? 3 then t1 (shift u dJ (-1)) (shift u dJ (-2)) (ESpan d1) (dx 1) [kb; jh; ib] m
      else if face =? 4 then t1 (shift u dK 1) (shift u dK 2) (shift d2 dK 1) (dx 2) [kl; jb; ib] m
      else if face =? 5 then t1 (shift u dK (-1)) (shift u dK (-2)) (ESpan d2) (dx 2) [kh; jb; ib] m
      else Some m
    else if type =? 2 then
      if face =? 0 then t2 (shift_xy u 1 1) (shift u dI 1) (shift u dJ 1) [kb; jl; il] m
      else if face =? 1 then t2 (shift_xy u (-1) 1) (shift u dI (-1)) (shift u dJ 1) [kb; jl; il] m
      else if face =? 2 then t2 (shift_xy u 1 (-1)) (shift u dI 1) (shift u dJ (-1)) [kb; jl; il] m
      else if face =? 3 then t2 (shift_xy u (-1) (-1)) (shift u dI (-1)) (shift u dJ (-1)) [kb; jl; il] m
      else if face =? 4 then t2 (shift_xz u 1 1) (shift u dI 1) (shift u dK 1) [kl; jb; il] m
      else if face =? 5 then t2 (shift_xz u (-1) 1) (shift u dI (-1)) (shift u dK 1) [kl; jb; il] m
      else if face =? 6 then t2 (shift_xz u 1 (-1)) (shift u dI 1) (shift u dK (-1)) [kl; jb; il] m
      else if face =? 7 then t2 (shift_xz u (-1) (-1)) (shift u dI (-1)) (shift u dK (-1)) [kl; jb; il] m
      else if face =? 8 then t2 (shift_yz u 1 1) (shift u dJ 1) (shift u dK 1) [kl; jl; ib] m
      else if face =? 9 then t2 (shift_yz u (-1) 1) (shift u dJ (-1)) (shift u dK 1) [kl; jl; ib] m
      else if face =? 10 then t2 (shift_yz u 1 (-1)) (shift u dJ 1) (shift u dK (-1)) [kl; jl; ib] m
      else if face =? 11 then t2 (shift_yz u (-1) (-1)) (shift u dJ (-1)) (shift u dK (-1)) [kl; jl; ib] m
      else Some m
    else if type =? 3 then
      if ((face =? 0) || (face =? 4))%bool then t2 (shift_xy u 1 1) (shift u dI 1) (shift u dJ 1) [kl; jl; il] m
      else if ((face =? 1) || (face =? 5))%bool then t2 (shift_xy u (-1) 1) (shift u dI (-1)) (shift u dJ 1) [kl; jl; il] m
      else if ((face =? 2) || (face =? 6))%bool then t2 (shift_xy u 1 (-1)) (shift u dI 1) (shift u dJ (-1)) [kl; jl; il] m
      else if ((face =? 3) || (face =? 7))%bool then t2 (shift_xy u (-1) (-1)) (shift u dI (-1)) (shift u dJ (-1)) [kl; jl; il] m
      else Some m
    else Some m.

  (** cd_correct_bc_3d_cuda.cpp:183-337 *)
  Definition cd_3d_set_poisson_bc_by (i0 i1 j0 j1 k0 k1 : Z) (dx : Z -> S) (ugcw : Z) (u_ : ptr)
      (bLo bHi : Z -> Z) (exOrder face type btype : Z) (alpha beta : S) (m : mem S) : option (mem S) :=
    let i := Ib i0 i1 in
    let j := Jb j0 j1 in
    let k := Kb k0 k1 in
    let u := make_md_span_g u_ ugcw [k; j; i] in
    let ib := Ib (Z.max (bLo 0) i0) (Z.min (bHi 0) i1) in
    let jb := Jb (Z.max (bLo 1) j0) (Z.min (bHi 1) j1) in
    let kb := Kb (Z.max (bLo 2) k0) (Z.min (bHi 2) k1) in
    let il := Ib (bLo 0) (bLo 0) in let ih := Ib (bHi 0) (bHi 0) in
    let jl := Jb (bLo 1) (bLo 1) in let jh := Jb (bHi 1) (bHi 1) in
    let kl := Kb (bLo 2) (bLo 2) in let kh := Kb (bHi 2) (bHi 2) in
    let t1 (u1 u2 : @expr S) (h : S) (p : list dbnd) (m : mem S) :=
      if btype =? 0 then
        if exOrder =? 1 then x_domain X p [u ::= lit (-1) .* u1]%E m
        else if exOrder =? 2 then x_domain X p [u ::= lit (-2) .* u1 + u2 /. lit 3]%E m
        else Some m
      else if btype =? 1 then x_domain X p [u ::= u1]%E m
      else if btype =? 4 then
        if exOrder =? 1 then x_domain X p [u ::= ((lit 2 * alpha - h * beta) / (lit 2 * alpha + h * beta))%T .* u1]%E m
        else if exOrder =? 2 then x_domain X p [u ::= ((lit 8 * alpha - lit 6 * beta * h) / (lit 8 * alpha + lit 3 * beta * h))%T .* u1 + (h / (lit 8 * alpha + lit 3 * beta * h))%T .* u2]%E m
        else Some m
      else Some m in
    let t2 (u1 u2 u3 : @expr S) (p : list dbnd) (m : mem S) := x_domain X p [u ::= u2 + u3 - u1]%E m in
    if type =? 1 then
      if face =? 0 then t1 (shift u dI 1) (shift u dI 2) (dx 0) [kb; jb; il] m
      else if face =? 1 then t1 (shift u dI (-1)) (shift u dI (-2)) (dx 0) [kb; jb; ih] m
      else if face =? 2 then t1 (shift u dJ 1) (shift u dJ 2) (dx 1) [kb; jl; ib] m
      else if face =? 3 then t1 (shift u dJ (-1)) (shift u dJ (-2)) (dx 1) [kb; jh; ib] m
      else if face =? 4 then t1 (shift u dK 1) (shift u dK 2) (dx 2) [kl; jb; ib] m
      else if face =? 5 then t1 (shift u dK (-1)) (shift u dK (-2)) (dx 2) [kh; jb; ib] m
      else Some m
    else if type =? 2 then
      if face =? 0 then t2 (shift_xy u 1 1) (shift u dI 1) (shift u dJ 1) [kb; jl; il] m
      else if face =? 1 then t2 (shift_xy u (-1) 1) (shift u dI (-1)) (shift u dJ 1) [kb; jl; il] m
      else if face =? 2 then t2 (shift_xy u 1 (-1)) (shift u dI 1) (shift u dJ (-1)) [kb; jl; il] m
      else if face =? 3 then t2 (shift_xy u (-1) (-1)) (shift u dI (-1)) (shift u dJ (-1)) [kb; jl; il] m
      else if face =? 4 then t2 (shift_xz u 1 1) (shift u dI 1) (shift u dK 1) [kl; jb; il] m
      else if face =? 5 then t2 (shift_xz u (-1) 1) (shift u dI (-1)) (shift u dK 1) [kl; jb; il] m
      else if face =? 6 then t2 (shift_xz u 1 (-1)) (shift u dI 1) (shift u dK (-1)) [kl; jb; il] m
      else if face =? 7 then t2 (shift_xz u (-1) (-1)) (shift u dI (-1)) (shift u dK (-1)) [kl; jb; il] m
      else if face =? 8 then t2 (shift_yz u 1 1) (shift u dJ 1) (shift u dK 1) [kl; jl; ib] m
      else if face =? 9 then t2 (shift_yz u (-1) 1) (shift u dJ (-1)) (shift u dK 1) [kl; jl; ib] m
      else if face =? 10 then t2 (shift_yz u 1 (-1)) (shift u dJ 1) (shift u dK (-1)) [kl; jl; ib] m
      else if face =? 11 then t2 (shift_yz u (-1) (-1)) (shift u dJ (-1)) (shift u dK (-1)) [kl; jl; ib] m
      else Some m
    else if type =? 3 then
      if ((face =? 0) || (face =? 4))%bool then t2 (shift_xy u 1 1) (shift u dI 1) (shift u dJ 1) [kl; jl; il] m
      else if ((face =? 1) || (face =? 5))%bool then t2 (shift_xy u (-1) 1) (shift u dI (-1)) (shift u dJ 1) [kl; jl; il] m
      else if ((face =? 2) || (face =? 6))%bool then t2 (shift_xy u 1 (-1)) (shift u dI 1) (shift u dJ (-1)) [kl; jl; il] m
      else if ((face =? 3) || (face =? 7))%bool then t2 (shift_xy u (-1) (-1)) (shift u dI (-1)) (shift u dJ (-1)) [kl; jl; il] m
      else Some m
    else Some m.

  (** ** KernelsStencil *)


  (** *** 1D *)

  (** cd_stencil_1d_cuda.cpp:29-53 *)
  Definition cd_stencil_1d_offdiag_by (i0 i1 : Z) (bi0 bi1 : Z) (dx : Z -> S) (beta : S) (b0_ : ptr) (sgcw : Z)
      (st_ : ptr) (m : mem S) : option (mem S) :=
    let i := Ib i0 i1 in
    let b := Ib bi0 bi1 in
    let w := Wb 0 2 in
    let st := make_md_span_g st_ sgcw [i; w] in
    let b0 := make_md_span b0_ [d_plus b 1] in
    let d0 := (- beta / (dx 0 * dx 0))%T in
    x_window X st [i]
      [WSet2 1 2 (PVec (d0 .* EStencil up b0 dI)%E)] m.

  (** cd_stencil_1d_cuda.cpp:55-70 *)
  Definition cd_stencil_1d_poisson_offdiag_by (i0 i1 : Z) (dx : Z -> S) (beta : S) (sgcw : Z) (st_ : ptr) (m :
      mem S) : option (mem S) :=
    let i := Ib i0 i1 in
    let w := Wb 0 2 in
    let st := make_md_span_g st_ sgcw [i; w] in
    let d0 := (- beta / (dx 0 * dx 0))%T in
    x_window X st [i] [WSet1 1 (PNum d0); WSet1 2 (PNum d0)] m.

  (** cd_stencil_1d_cuda.cpp:72-92 *)
  Definition cd_stencil_1d_v1diag_by (i0 i1 : Z) (ai0 ai1 : Z) (alpha : S) (a_ : ptr) (sgcw : Z) (st_ : ptr) (m
      : mem S) : option (mem S) :=
    let i := Ib i0 i1 in
    let ai := Ib ai0 ai1 in
    let w := Wb 0 2 in
    let st := make_md_span_g st_ sgcw [i; w] in
    let a := make_md_span a_ [ai] in
    x_window X st [i] [WSet1 0 (- (PSt 1 + PSt 2) + PVec (alpha .* $a)%E)%P] m.

  (** cd_stencil_1d_cuda.cpp:94-106 *)
  Definition cd_stencil_1d_v2diag_by (i0 i1 : Z) (alpha : S) (sgcw : Z) (st_ : ptr) (m : mem S) : option (mem
      S) :=
    let i := Ib i0 i1 in
    let w := Wb 0 2 in
    let st := make_md_span_g st_ sgcw [i; w] in
    x_window X st [i] [WSet1 0 (- (PSt 1 + PSt 2) + PNum alpha)%P] m.

  (** cd_stencil_1d_cuda.cpp:108-123 *)
  Definition cd_stencil_1d_poisson_diag_by (i0 i1 : Z) (sgcw : Z) (st_ : ptr) (m : mem S) : option (mem S) :=
    let i := Ib i0 i1 in
    let w := Wb 0 2 in
    let st := make_md_span_g st_ sgcw [i; w] in
    x_window X st [i] [WSet1 0 (- (PSt 1 + PSt 2))%P] m.

  (** cd_stencil_1d_cuda.cpp:125-156 *)
  Definition cd_stencil_1d_adj_diag_by (i0 i1 : Z) (pi0 pi1 : Z) (side btype exOrder : Z) (dx : Z -> S) (beta :
      S) (b0_ : ptr) (sgcw : Z) (st_ : ptr) (m : mem S) : option (mem S) :=
    let i := Ib i0 i1 in
    let w := Wb 0 2 in
    let st := make_md_span_g st_ sgcw [i; w] in
    let b0 := make_md_span b0_ [d_plus i 1] in
    let h := dx 0 in
    if btype =? 4 then
      let f := (beta / h)%T in
      let pi := Ib (pi0 - 2 * side + 1) (pi0 - 2 * side + 1) in
      if exOrder =? 2 then
        let b := shift b0 dI side in
        x_window X st [pi] [WSet1 0 (PSt 0 - PVec ((f .* b) * ((lit 3 * h)%T .+ (lit 16 .* b)))%E)%P] m
      else Some m
    else Some m.

  (** cd_stencil_1d_cuda.cpp:158-185 *)
  Definition cd_stencil_1d_adj_poisson_diag_by (i0 i1 : Z) (pi0 pi1 : Z) (side btype exOrder : Z) (dx : Z -> S)
      (beta : S) (sgcw : Z) (st_ : ptr) (m : mem S) : option (mem S) :=
    let i := Ib i0 i1 in
    let w := Wb 0 2 in
    let st := make_md_span_g st_ sgcw [i; w] in
    let h := dx 0 in
    if ((btype =? 4) && (exOrder =? 2))%bool then
      let f := (beta / h)%T in
      let pi := Ib (pi0 - 2 * side + 1) (pi0 - 2 * side + 1) in
      x_window X st [pi] [WSet1 0 (PSt 0 - PNum (f * (lit 3 * h + lit 16))%T)%P] m
    else Some m.

  (** cd_stencil_1d_cuda.cpp:187-221 *)
  Definition cd_stencil_1d_adj_cf_diag_by (i0 i1 : Z) (pi0 pi1 : Z) (r side intOrder : Z) (dx : Z -> S) (beta :
      S) (b0_ : ptr) (sgcw : Z) (st_ : ptr) (m : mem S) : option (mem S) :=
    let i := Ib i0 i1 in
    let dr := (lit 2 * (lit r - lit 1) / (lit r + lit 1))%T in
    let w := Wb 0 2 in
    let st := make_md_span_g st_ sgcw [i; w] in
    let b0 := make_md_span b0_ [d_plus i 1] in
    let h := dx 0 in
    let f := (beta / (h * h))%T in
    let pil := Ib (pi0 - 2 * side + 1) (pi0 - 2 * side + 1) in
    let func (b : @expr S) (p : list dbnd) (m : mem S) :=
      if intOrder =? 1 then x_window X st p [WSet1 0 (PSt 0 - PVec ((f / lit 3)%T .* b)%E)%P] m
      else if intOrder =? 2 then x_window X st p [WSet1 0 (PSt 0 - PVec ((f * dr)%T .* b)%E)%P] m
      else Some m in
    func (shift b0 dI side) [pil] m.

  (** cd_stencil_1d_cuda.cpp:223-254 *)
  Definition cd_stencil_1d_adj_poisson_cf_diag_by (i0 i1 : Z) (pi0 pi1 : Z) (r side intOrder : Z) (dx : Z -> S)
      (beta : S) (sgcw : Z) (st_ : ptr) (m : mem S) : option (mem S) :=
    let i := Ib i0 i1 in
    let dr := (lit 2 * (lit r - lit 1) / (lit r + lit 1))%T in
    let w := Wb 0 2 in
    let st := make_md_span_g st_ sgcw [i; w] in
    let h := dx 0 in
    let f := (beta / (h * h))%T in
    let pil := Ib (pi0 - 2 * side + 1) (pi0 - 2 * side + 1) in
    let func (p : list dbnd) (m : mem S) :=
      if intOrder =? 1 then x_window X st p [WSet1 0 (PSt 0 - PNum (f / lit 3)%T)%P] m
      else if intOrder =? 2 then x_window X st p [WSet1 0 (PSt 0 - PNum (f * dr)%T)%P] m
      else Some m in
    func [pil] m.

  (** cd_stencil_1d_cuda.cpp:256-318 *)
  Definition cd_stencil_1d_adj_offdiag_by (i0 i1 : Z) (pi0 pi1 : Z) (side btype exOrder : Z) (dx : Z -> S)
      (dir_factor neu_factor beta : S) (b0_ : ptr) (sgcw : Z) (st_ : ptr) (m : mem S) : option (mem S) :=
    let i := Ib i0 i1 in
    let w := Wb 0 2 in
    let st := make_md_span_g st_ sgcw [i; w] in
    let b0 := make_md_span b0_ [d_plus i 1] in
    let h := dx 0 in
    let u := 1 + side in
    let v := 2 - side in
    let pil := Ib (pi0 - 2 * side + 1) (pi0 - 2 * side + 1) in
    let bt4 (b : @expr S) (p : list dbnd) (m : mem S) :=
      if exOrder =? 1 then x_window X st p [WSet1 u (PSt u * PVec ((lit 2 * h)%T ./ (lit 4 .* b +. h))%E)%P] m
      else if exOrder =? 2 then
        let f := ((beta .* b) / (h .* ((lit 3 * h)%T .+ (lit 16 .* b))))%E in
        x_window X st p [WSet1 u (PVec (lit (-9) .* f)%E); WSet1 v (PSt v - PVec f)%P] m
      else Some m in
    let bt0 (p : list dbnd) (m : mem S) :=
      if exOrder =? 1 then x_window X st p [WSet1 u (PSt u * PNum dir_factor)%P] m
      else if exOrder =? 2 then
        x_window X st p [WSet1 v (PSt v + PSt u / PNum (lit 3))%P; WSet1 u (PSt u * PNum (lit 8 / lit 3)%T)%P] m
      else Some m in
    let bt1 (p : list dbnd) (m : mem S) := x_window X st p [WSet1 u (PNum (lit 0))] m in
    if btype =? 4 then bt4 (shift b0 dI side) [pil] m
    else if btype =? 0 then bt0 [pil] m
    else if btype =? 1 then bt1 [pil] m
    else Some m.

  (** cd_stencil_1d_cuda.cpp:320-380 *)
  Definition cd_stencil_1d_adj_poisson_offdiag_by (i0 i1 : Z) (pi0 pi1 : Z) (side btype exOrder : Z) (dx : Z ->
      S) (dir_factor neu_factor beta : S) (sgcw : Z) (st_ : ptr) (m : mem S) : option (mem S) :=
    let i := Ib i0 i1 in
    let w := Wb 0 2 in
    let st := make_md_span_g st_ sgcw [i; w] in
    let h := dx 0 in
    let u := 1 + side in
    let v := 2 - side in
    let pil := Ib (pi0 - 2 * side + 1) (pi0 - 2 * side + 1) in
    let bt4 (p : list dbnd) (m : mem S) :=
      if exOrder =? 1 then x_window X st p [WSet1 u (PSt u * PNum (lit 2 * h / (lit 4 + h))%T)%P] m
      else if exOrder =? 2 then
        let f := (beta / (h * (lit 3 * h + lit 16)))%T in
        x_window X st p [WSet1 u (PNum (lit (-9) * f)%T); WSet1 v (PSt v - PNum f)%P] m
      else Some m in
    let bt0 (p : list dbnd) (m : mem S) :=
      if exOrder =? 1 then x_window X st p [WSet1 u (PSt u * PNum dir_factor)%P] m
      else if exOrder =? 2 then
        x_window X st p [WSet1 v (PSt v + PSt u / PNum (lit 3))%P; WSet1 u (PSt u * PNum (lit 8 / lit 3)%T)%P] m
      else Some m in
    let bt1 (p : list dbnd) (m : mem S) := x_window X st p [WSet1 u (PNum (lit 0))] m in
    if btype =? 4 then bt4 [pil] m
    else if btype =? 0 then bt0 [pil] m
    else if btype =? 1 then bt1 [pil] m
    else Some m.

  (** cd_stencil_1d_cuda.cpp:382-413 *)
  Definition cd_stencil_1d_adj_cf_offdiag_by (i0 i1 : Z) (ci0 ci1 : Z) (r side intOrder sgcw : Z) (st_ : ptr)
      (m : mem S) : option (mem S) :=
    let i := Ib i0 i1 in
    let w := Wb 0 2 in
    let st := make_md_span_g st_ sgcw [i; w] in
    let cil := Ib (ci0 - 2 * side + 1) (ci0 - 2 * side + 1) in
    let u := 1 + side in
    let v := 2 - side in
    let func (p : list dbnd) (m : mem S) :=
      if intOrder =? 1 then x_window X st p [WSet1 u (PSt u * PNum (lit 2 / lit 3)%T)%P] m
      else if intOrder =? 2 then
        x_window X st p
          [WSet1 v (PSt v - PSt u * PNum ((lit r - lit 1) / (lit r + lit 3))%T)%P;
           WSet1 u (PSt u * PNum (lit 8 / ((lit r + lit 1) * (lit r + lit 3)))%T)%P] m
      else Some m in
    func [cil] m.

  (** cd_stencil_1d_cuda.cpp:415-437 *)
  Definition cd_stencil_1d_readj_offdiag_by (i0 i1 : Z) (pi0 pi1 : Z) (side sgcw : Z) (st_ : ptr) (m : mem S) :
      option (mem S) :=
    let i := Ib i0 i1 in
    let w := Wb 0 2 in
    let st := make_md_span_g st_ sgcw [i; w] in
    let u := 1 + side in
    let pil := Ib (pi0 - 2 * side + 1) (pi0 - 2 * side + 1) in
    let f (p : list dbnd) (m : mem S) := x_window X st p [WSet1 u (PNum (lit 0))] m in
    f [pil] m.

  (** cd_stencil_1d_cuda.cpp:439-467 *)
  Definition cd_stencil_1d_adj_cf_bdryrhs_by (i0 i1 : Z) (pi0 pi1 : Z) (side sgcw : Z) (st_ : ptr) (gcw : Z)
      (u_ rhs_ : ptr) (m : mem S) : option (mem S) :=
    let i := Ib i0 i1 in
    let w := Wb 0 2 in
    let st := make_md_span_g st_ sgcw [i; w] in
    let u := make_md_span_g u_ gcw [i] in
    let rhs := make_md_span rhs_ [i] in
    let ui := 1 + side in
    let s := 2 * side - 1 in
    let pil := Ib (pi0 - 2 * side + 1) (pi0 - 2 * side + 1) in
    let f (v : @expr S) (p : list dbnd) (m : mem S) := x_window X st p [WSub rhs (PSt ui * PVec v)%P] m in
    f (shift u dI s) [pil] m.

  (** *** 2D *)

  (** cd_stencil_2d_cuda.cpp:19-50 *)
  Definition cd_stencil_2d_offdiag_by (i0 j0 i1 j1 : Z) (bi0 bj0 bi1 bj1 : Z) (dx : Z -> S) (beta : S) (b0_ b1_
      : ptr) (sgcw : Z) (st_ : ptr) (m : mem S) : option (mem S) :=
    let i := Ib i0 i1 in
    let j := Jb j0 j1 in
    let bi := Ib bi0 bi1 in
    let bj := Jb bj0 bj1 in
    let w := Wb 0 4 in
    let st := make_md_span_g st_ sgcw [j; i; w] in
    let b0 := make_md_span b0_ [bj; d_plus bi 1] in
    let b1 := make_md_span b1_ [bi; d_plus bj 1] in
    let d0 := (- beta / (dx 0 * dx 0))%T in
    let d1 := (- beta / (dx 1 * dx 1))%T in
    x_window X st [j; i]
      [WSet2 1 2 (PVec (d0 .* EStencil up b0 dI)%E);
       WSet2 3 4 (PVec (d1 .* EStencil up b1 dJ)%E)] m.

  (** cd_stencil_2d_cuda.cpp:52-74 *)
  Definition cd_stencil_2d_poisson_offdiag_by (i0 j0 i1 j1 : Z) (dx : Z -> S) (beta : S) (sgcw : Z) (st_ : ptr)
      (m : mem S) : option (mem S) :=
    let i := Ib i0 i1 in
    let j := Jb j0 j1 in
    let w := Wb 0 4 in
    let st := make_md_span_g st_ sgcw [j; i; w] in
    let d0 := (- beta / (dx 0 * dx 0))%T in
    let d1 := (- beta / (dx 1 * dx 1))%T in
    x_window X st [j; i] [WSet1 1 (PNum d0); WSet1 2 (PNum d0); WSet1 3 (PNum d1); WSet1 4 (PNum d1)] m.

  (** cd_stencil_2d_cuda.cpp:76-101 *)
  Definition cd_stencil_2d_v1diag_by (i0 j0 i1 j1 : Z) (ai0 aj0 ai1 aj1 : Z) (alpha : S) (a_ : ptr) (sgcw : Z)
      (st_ : ptr) (m : mem S) : option (mem S) :=
    let i := Ib i0 i1 in
    let j := Jb j0 j1 in
    let ai := Ib ai0 ai1 in
    let aj := Jb aj0 aj1 in
    let w := Wb 0 4 in
    let st := make_md_span_g st_ sgcw [j; i; w] in
    let a := make_md_span a_ [aj; ai] in
    x_window X st [j; i] [WSet1 0 (- (PSt 1 + PSt 2 + PSt 3 + PSt 4) + PVec (alpha .* $a)%E)%P] m.

  (** cd_stencil_2d_cuda.cpp:103-121 *)
  Definition cd_stencil_2d_v2diag_by (i0 j0 i1 j1 : Z) (alpha : S) (sgcw : Z) (st_ : ptr) (m : mem S) : option
      (mem S) :=
    let i := Ib i0 i1 in
    let j := Jb j0 j1 in
    let w := Wb 0 4 in
    let st := make_md_span_g st_ sgcw [j; i; w] in
    x_window X st [j; i] [WSet1 0 (- (PSt 1 + PSt 2 + PSt 3 + PSt 4) + PNum alpha)%P] m.

  (** cd_stencil_2d_cuda.cpp:123-136 *)
  Definition cd_stencil_2d_poisson_diag_by (i0 j0 i1 j1 : Z) (sgcw : Z) (st_ : ptr) (m : mem S) : option (mem
      S) :=
    let i := Ib i0 i1 in
    let j := Jb j0 j1 in
    let w := Wb 0 4 in
    let st := make_md_span_g st_ sgcw [j; i; w] in
    x_window X st [j; i] [WSet1 0 (- (PSt 1 + PSt 2 + PSt 3 + PSt 4))%P] m.

  (** cd_stencil_2d_cuda.cpp:138-202 *)
  Definition cd_stencil_2d_adj_diag_by (i0 j0 i1 j1 : Z) (pi0 pj0 pi1 pj1 : Z) (dir side btype exOrder : Z) (dx
      : Z -> S) (beta : S) (b0_ b1_ : ptr) (sgcw : Z) (st_ : ptr) (m : mem S) : option (mem S) :=
    let i := Ib i0 i1 in
    let j := Jb j0 j1 in
    let w := Wb 0 4 in
    let st := make_md_span_g st_ sgcw [j; i; w] in
    let b0 := make_md_span b0_ [j; d_plus i 1] in
    let b1 := make_md_span b1_ [i; d_plus j 1] in
    let h := dx dir in
    let pi := Ib pi0 pi1 in
    let pj := Jb pj0 pj1 in
    let bt4 (f : S) (b : @expr S) (p : list dbnd) (m : mem S) :=
      if exOrder =? 2 then x_window X st p [WSet1 0 (PSt 0 - PVec ((f .* b) * ((lit 3 * h)%T .+ (lit 16 .* b)))%E)%P] m
      else Some m in
    let bt0 (f : S) (b : @expr S) (p : list dbnd) (m : mem S) :=
      if exOrder =? 2 then x_window X st p [WSet1 0 (PSt 0 + PVec (f .* b)%E)%P] m
      else Some m in
    if btype =? 4 then
      let f := (beta / h)%T in
      if dir =? 0 then bt4 f (shift b0 dI side) [pj; Ib (pi0 - 2 * side + 1) (pi0 - 2 * side + 1)] m
      else Some m
    else if btype =? 0 then
      let f := (beta / (lit 3 * h * h))%T in
      if dir =? 0 then bt0 f (ESpan b0) [pj; Ib (pi0 - side + 1) (pi0 - side + 1)] m
      else if dir =? 1 then bt0 f (ESpan b1) [Jb (pj0 - side + 1) (pj0 - side + 1); pi] m
      else Some m
    else Some m.

  (** cd_stencil_2d_cuda.cpp:204-236 *)
  Definition cd_stencil_2d_adj_poisson_diag_by (i0 j0 i1 j1 : Z) (pi0 pj0 pi1 pj1 : Z) (dir side btype exOrder
      : Z) (dx : Z -> S) (beta : S) (sgcw : Z) (st_ : ptr) (m : mem S) : option (mem S) :=
    let i := Ib i0 i1 in
    let j := Jb j0 j1 in
    let w := Wb 0 4 in
    let st := make_md_span_g st_ sgcw [j; i; w] in
    let h := dx dir in
    let pj := Jb pj0 pj1 in
    if ((btype =? 4) && (exOrder =? 2) && (dir =? 0))%bool then
      let f := (beta / h)%T in
      let pi := Ib (pi0 - 2 * side + 1) (pi0 - 2 * side + 1) in
      x_window X st [pj; pi] [WSet1 0 (PSt 0 - PNum (f * (lit 3 * h + lit 16))%T)%P] m
    else Some m.

  (** cd_stencil_2d_cuda.cpp:238-291 *)
  Definition cd_stencil_2d_adj_cf_diag_by (i0 j0 i1 j1 : Z) (pi0 pj0 pi1 pj1 : Z) (r dir side intOrder : Z) (dx
      : Z -> S) (beta : S) (b0_ b1_ : ptr) (sgcw : Z) (st_ : ptr) (m : mem S) : option (mem S) :=
    let i := Ib i0 i1 in
    let j := Jb j0 j1 in
    let dr := (lit 2 * (lit r - lit 1) / (lit r + lit 1))%T in
    let w := Wb 0 4 in
    let st := make_md_span_g st_ sgcw [j; i; w] in
    let b0 := make_md_span b0_ [j; d_plus i 1] in
    let b1 := make_md_span b1_ [i; d_plus j 1] in
    let h := dx dir in
    let f := (beta / (h * h))%T in
    let pi := Ib pi0 pi1 in
    let pj := Jb pj0 pj1 in
    let pil := Ib (pi0 - 2 * side + 1) (pi0 - 2 * side + 1) in
    let pjl := Jb (pj0 - 2 * side + 1) (pj0 - 2 * side + 1) in
    let func (b : @expr S) (p : list dbnd) (m : mem S) :=
      if intOrder =? 1 then x_window X st p [WSet1 0 (PSt 0 - PVec ((f / lit 3)%T .* b)%E)%P] m
      else if intOrder =? 2 then x_window X st p [WSet1 0 (PSt 0 - PVec ((f * dr)%T .* b)%E)%P] m
      else Some m in
    if dir =? 0 then func (shift b0 dI side) [pj; pil] m
    else if dir =? 1 then func (shift b1 dJ side) [pjl; pi] m
    else Some m.

  (** cd_stencil_2d_cuda.cpp:293-341 *)
  Definition cd_stencil_2d_adj_poisson_cf_diag_by (i0 j0 i1 j1 : Z) (pi0 pj0 pi1 pj1 : Z) (r dir side intOrder
      : Z) (dx : Z -> S) (beta : S) (sgcw : Z) (st_ : ptr) (m : mem S) : option (mem S) :=
    let i := Ib i0 i1 in
    let j := Jb j0 j1 in
    let dr := (lit 2 * (lit r - lit 1) / (lit r + lit 1))%T in
    let w := Wb 0 4 in
    let st := make_md_span_g st_ sgcw [j; i; w] in
    let h := dx dir in
    let f := (beta / (h * h))%T in
    let pi := Ib pi0 pi1 in
    let pj := Jb pj0 pj1 in
    let pil := Ib (pi0 - 2 * side + 1) (pi0 - 2 * side + 1) in
    let pjl := Jb (pj0 - 2 * side + 1) (pj0 - 2 * side + 1) in
    let func (p : list dbnd) (m : mem S) :=
      if intOrder =? 1 then x_window X st p [WSet1 0 (PSt 0 - PNum (f / lit 3)%T)%P] m
      else if intOrder =? 2 then x_window X st p [WSet1 0 (PSt 0 - PNum (f * dr)%T)%P] m
      else Some m in
    if dir =? 0 then func [pj; pil] m
    else if dir =? 1 then func [pjl; pi] m
    else Some m.

  (** cd_stencil_2d_cuda.cpp:343-436 *)
  Definition cd_stencil_2d_adj_offdiag_by (i0 j0 i1 j1 : Z) (pi0 pj0 pi1 pj1 : Z) (dir side btype exOrder : Z)
      (dx : Z -> S) (dir_factor neu_factor beta : S) (b0_ b1_ : ptr) (sgcw : Z) (st_ : ptr) (m : mem S) :
      option (mem S) :=
    let i := Ib i0 i1 in
    let j := Jb j0 j1 in
    let w := Wb 0 4 in
    let st := make_md_span_g st_ sgcw [j; i; w] in
    let b0 := make_md_span b0_ [j; d_plus i 1] in
    let b1 := make_md_span b1_ [i; d_plus j 1] in
    let h := dx dir in
    let u := 2 * dir + 1 + side in
    let v := 2 * dir + 2 - side in
    let pi := Ib pi0 pi1 in
    let pj := Jb pj0 pj1 in
    let pil := Ib (pi0 - 2 * side + 1) (pi0 - 2 * side + 1) in
    let pjl := Jb (pj0 - 2 * side + 1) (pj0 - 2 * side + 1) in
    let bt4 (b : @expr S) (p : list dbnd) (m : mem S) :=
      if exOrder =? 1 then x_window X st p [WSet1 u (PSt u * PVec ((lit 2 * h)%T ./ (lit 4 .* b +. h))%E)%P] m
      else if exOrder =? 2 then
        let f := ((beta .* b) / (h .* ((lit 3 * h)%T .+ (lit 16 .* b))))%E in
        x_window X st p [WSet1 u (PVec (lit (-9) .* f)%E); WSet1 v (PSt v - PVec f)%P] m
      else Some m in
    let bt0 (p : list dbnd) (m : mem S) :=
      if exOrder =? 1 then x_window X st p [WSet1 u (PSt u * PNum dir_factor)%P] m
      else if exOrder =? 2 then
        x_window X st p [WSet1 v (PSt v + PSt u / PNum (lit 3))%P; WSet1 u (PSt u * PNum (lit 8 / lit 3)%T)%P] m
      else Some m in
    let bt1 (p : list dbnd) (m : mem S) := x_window X st p [WSet1 u (PNum (lit 0))] m in
    if btype =? 4 then
      if dir =? 0 then bt4 (shift b0 dI side) [pj; pil] m
      else Some m
    else if btype =? 0 then
      if dir =? 0 then bt0 [pj; pil] m
      else if dir =? 1 then bt0 [pjl; pi] m
      else Some m
    else if btype =? 1 then
      if dir =? 0 then bt1 [pj; pil] m
      else if dir =? 1 then bt1 [pjl; pi] m
      else Some m
    else Some m.

  (** cd_stencil_2d_cuda.cpp:438-527 *)
  Definition cd_stencil_2d_adj_poisson_offdiag_by (i0 j0 i1 j1 : Z) (pi0 pj0 pi1 pj1 : Z) (dir side btype
      exOrder : Z) (dx : Z -> S) (dir_factor neu_factor beta : S) (sgcw : Z) (st_ : ptr) (m : mem S) :
      option (mem S) :=
    let i := Ib i0 i1 in
    let j := Jb j0 j1 in
    let w := Wb 0 4 in
    let st := make_md_span_g st_ sgcw [j; i; w] in
    let h := dx dir in
    let u := 2 * dir + 1 + side in
    let v := 2 * dir + 2 - side in
    let pi := Ib pi0 pi1 in
    let pj := Jb pj0 pj1 in
    let pil := Ib (pi0 - 2 * side + 1) (pi0 - 2 * side + 1) in
    let pjl := Jb (pj0 - 2 * side + 1) (pj0 - 2 * side + 1) in
    let bt4 (p : list dbnd) (m : mem S) :=
      if exOrder =? 1 then x_window X st p [WSet1 u (PSt u * PNum (lit 2 * h / (lit 4 + h))%T)%P] m
      else if exOrder =? 2 then
        let f := (beta / (h * (lit 3 * h + lit 16)))%T in
        x_window X st p [WSet1 u (PNum (lit (-9) * f)%T); WSet1 v (PSt v - PNum f)%P] m
      else Some m in
    let bt0 (p : list dbnd) (m : mem S) :=
      if exOrder =? 1 then x_window X st p [WSet1 u (PSt u * PNum dir_factor)%P] m
      else if exOrder =? 2 then
        x_window X st p [WSet1 v (PSt v + PSt u / PNum (lit 3))%P; WSet1 u (PSt u * PNum (lit 8 / lit 3)%T)%P] m
      else Some m in
    let bt1 (p : list dbnd) (m : mem S) := x_window X st p [WSet1 u (PNum (lit 0))] m in
    if btype =? 4 then
      if dir =? 0 then bt4 [pj; pil] m
      else Some m
    else if btype =? 0 then
      if dir =? 0 then bt0 [pj; pil] m
      else if dir =? 1 then bt0 [pjl; pi] m
      else Some m
    else if btype =? 1 then
      if dir =? 0 then bt1 [pj; pil] m
      else if dir =? 1 then bt1 [pjl; pi] m
      else Some m
    else Some m.

  (** cd_stencil_2d_cuda.cpp:529-577 *)
  Definition cd_stencil_2d_adj_cf_offdiag_by (i0 j0 i1 j1 : Z) (ci0 cj0 ci1 cj1 : Z) (r dir side intOrder sgcw
      : Z) (st_ : ptr) (m : mem S) : option (mem S) :=
    let i := Ib i0 i1 in
    let j := Jb j0 j1 in
    let w := Wb 0 4 in
    let st := make_md_span_g st_ sgcw [j; i; w] in
    let ci := Ib ci0 ci1 in
    let cj := Jb cj0 cj1 in
    let cil := Ib (ci0 - 2 * side + 1) (ci0 - 2 * side + 1) in
    let cjl := Jb (cj0 - 2 * side + 1) (cj0 - 2 * side + 1) in
    let u := 2 * dir + 1 + side in
    let v := 2 * dir + 2 - side in
    let func (p : list dbnd) (m : mem S) :=
      if intOrder =? 1 then x_window X st p [WSet1 u (PSt u * PNum (lit 2 / lit 3)%T)%P] m
      else if intOrder =? 2 then
        x_window X st p
          [WSet1 v (PSt v - PSt u * PNum ((lit r - lit 1) / (lit r + lit 3))%T)%P;
           WSet1 u (PSt u * PNum (lit 8 / ((lit r + lit 1) * (lit r + lit 3)))%T)%P] m
      else Some m in
    if dir =? 0 then func [cj; cil] m
    else if dir =? 1 then func [cjl; ci] m
    else Some m.

  (** cd_stencil_2d_cuda.cpp:579-618 *)
  Definition cd_stencil_2d_readj_offdiag_by (i0 j0 i1 j1 : Z) (pi0 pj0 pi1 pj1 : Z) (dir side sgcw : Z) (st_ :
      ptr) (m : mem S) : option (mem S) :=
    let i := Ib i0 i1 in
    let j := Jb j0 j1 in
    let w := Wb 0 4 in
    let st := make_md_span_g st_ sgcw [j; i; w] in
    let u := 2 * dir + 1 + side in
    let pi := Ib pi0 pi1 in
    let pj := Jb pj0 pj1 in
    let pil := Ib (pi0 - 2 * side + 1) (pi0 - 2 * side + 1) in
    let pjl := Jb (pj0 - 2 * side + 1) (pj0 - 2 * side + 1) in
    let f (p : list dbnd) (m : mem S) := x_window X st p [WSet1 u (PNum (lit 0))] m in
    if dir =? 0 then f [pj; pil] m
    else if dir =? 1 then f [pjl; pi] m
    else Some m.

  (** cd_stencil_2d_cuda.cpp:620-665 *)
  Definition cd_stencil_2d_adj_cf_bdryrhs_by (i0 j0 i1 j1 : Z) (pi0 pj0 pi1 pj1 : Z) (dir side sgcw : Z) (st_ :
      ptr) (gcw : Z) (u_ rhs_ : ptr) (m : mem S) : option (mem S) :=
    let i := Ib i0 i1 in
    let j := Jb j0 j1 in
    let w := Wb 0 4 in
    let st := make_md_span_g st_ sgcw [j; i; w] in
    let u := make_md_span_g u_ gcw [j; i] in
    let rhs := make_md_span rhs_ [j; i] in
    let ui := 2 * dir + 1 + side in
    let s := 2 * side - 1 in
    let pi := Ib pi0 pi1 in
    let pj := Jb pj0 pj1 in
    let pil := Ib (pi0 - 2 * side + 1) (pi0 - 2 * side + 1) in
    let pjl := Jb (pj0 - 2 * side + 1) (pj0 - 2 * side + 1) in
    let f (v : @expr S) (p : list dbnd) (m : mem S) := x_window X st p [WSub rhs (PSt ui * PVec v)%P] m in
    if dir =? 0 then f (shift u dI s) [pj; pil] m
    else if dir =? 1 then f (shift u dJ s) [pjl; pi] m
    else Some m.

  (** *** 3D *)

  (** cd_stencil_3d_cuda.cpp:19-59 *)
  Definition cd_stencil_3d_offdiag_by (i0 j0 k0 i1 j1 k1 : Z) (bi0 bj0 bk0 bi1 bj1 bk1 : Z) (dx : Z -> S) (beta
      : S) (b0_ b1_ b2_ : ptr) (sgcw : Z) (st_ : ptr) (m : mem S) : option (mem S) :=
    let i := Ib i0 i1 in
    let j := Jb j0 j1 in
    let k := Kb k0 k1 in
    let bi := Ib bi0 bi1 in
    let bj := Jb bj0 bj1 in
    let bk := Kb bk0 bk1 in
    let w := Wb 0 6 in
    let st := make_md_span_g st_ sgcw [k; j; i; w] in
    let b0 := make_md_span b0_ [bk; bj; d_plus bi 1] in
    let b1 := make_md_span b1_ [bi; bk; d_plus bj 1] in
    let b2 := make_md_span b2_ [bj; bi; d_plus bk 1] in
    let d0 := (- beta / (dx 0 * dx 0))%T in
    let d1 := (- beta / (dx 1 * dx 1))%T in
    let d2 := (- beta / (dx 2 * dx 2))%T in
    x_window X st [k; j; i]
      [WSet2 1 2 (PVec (d0 .* EStencil up b0 dI)%E);
       WSet2 3 4 (PVec (d1 .* EStencil up b1 dJ)%E);
       WSet2 5 6 (PVec (d2 .* EStencil up b2 dK)%E)] m.

  (** cd_stencil_3d_cuda.cpp:61-87 *)
  Definition cd_stencil_3d_poisson_offdiag_by (i0 j0 k0 i1 j1 k1 : Z) (dx : Z -> S) (beta : S) (sgcw : Z) (st_
      : ptr) (m : mem S) : option (mem S) :=
    let i := Ib i0 i1 in
    let j := Jb j0 j1 in
    let k := Kb k0 k1 in
    let w := Wb 0 6 in
    let st := make_md_span_g st_ sgcw [k; j; i; w] in
    let d0 := (- beta / (dx 0 * dx 0))%T in
    let d1 := (- beta / (dx 1 * dx 1))%T in
    let d2 := (- beta / (dx 2 * dx 2))%T in
    x_window X st [k; j; i] [WSet2 1 2 (PNum d0); WSet2 3 4 (PNum d1); WSet2 5 6 (PNum d2)] m.

  (** cd_stencil_3d_cuda.cpp:89-119 *)
  Definition cd_stencil_3d_v1diag_by (i0 j0 k0 i1 j1 k1 : Z) (ai0 aj0 ak0 ai1 aj1 ak1 : Z) (alpha : S) (a_ :
      ptr) (sgcw : Z) (st_ : ptr) (m : mem S) : option (mem S) :=
    let i := Ib i0 i1 in
    let j := Jb j0 j1 in
    let k := Kb k0 k1 in
    let ai := Ib ai0 ai1 in
    let aj := Jb aj0 aj1 in
    let ak := Kb ak0 ak1 in
    let w := Wb 0 6 in
    let st := make_md_span_g st_ sgcw [k; j; i; w] in
    let a := make_md_span a_ [ak; aj; ai] in
    x_window X st [k; j; i] [WSet1 0 (- (PSt 1 + PSt 2 + PSt 3 + PSt 4 + PSt 5 + PSt 6) + PVec (alpha .* $a)%E)%P] m.

  (** cd_stencil_3d_cuda.cpp:121-143 *)
  Definition cd_stencil_3d_v2diag_by (i0 j0 k0 i1 j1 k1 : Z) (alpha : S) (sgcw : Z) (st_ : ptr) (m : mem S) :
      option (mem S) :=
    let i := Ib i0 i1 in
    let j := Jb j0 j1 in
    let k := Kb k0 k1 in
    let w := Wb 0 6 in
    let st := make_md_span_g st_ sgcw [k; j; i; w] in
    x_window X st [k; j; i] [WSet1 0 (- (PSt 1 + PSt 2 + PSt 3 + PSt 4 + PSt 5 + PSt 6) + PNum alpha)%P] m.

  (** cd_stencil_3d_cuda.cpp:145-166 *)
  Definition cd_stencil_3d_poisson_diag_by (i0 j0 k0 i1 j1 k1 : Z) (sgcw : Z) (st_ : ptr) (m : mem S) : option
      (mem S) :=
    let i := Ib i0 i1 in
    let j := Jb j0 j1 in
    let k := Kb k0 k1 in
    let w := Wb 0 6 in
    let st := make_md_span_g st_ sgcw [k; j; i; w] in
    x_window X st [k; j; i] [WSet1 0 (- (PSt 1 + PSt 2 + PSt 3 + PSt 4 + PSt 5 + PSt 6))%P] m.

  (** cd_stencil_3d_cuda.cpp:168-253 *)
  Definition cd_stencil_3d_adj_diag_by (i0 j0 k0 i1 j1 k1 : Z) (pi0 pj0 pk0 pi1 pj1 pk1 : Z) (dir side btype
      exOrder : Z) (dx : Z -> S) (beta : S) (b0_ b1_ b2_ : ptr) (sgcw : Z) (st_ : ptr) (m : mem S) : option
      (mem S) :=
    let i := Ib i0 i1 in
    let j := Jb j0 j1 in
    let k := Kb k0 k1 in
    let w := Wb 0 6 in
    let st := make_md_span_g st_ sgcw [k; j; i; w] in
    let b0 := make_md_span b0_ [k; j; d_plus i 1] in
    let b1 := make_md_span b1_ [i; k; d_plus j 1] in
    let b2 := make_md_span b2_ [j; i; d_plus k 1] in
    let h := dx dir in
    let pi := Ib pi0 pi1 in
    let pj := Jb pj0 pj1 in
    let pk := Kb pk0 pk1 in
    let pil := Ib (pi0 - 2 * side + 1) (pi0 - 2 * side + 1) in
    let pjl := Jb (pj0 - 2 * side + 1) (pj0 - 2 * side + 1) in
    let pkl := Kb (pk0 - 2 * side + 1) (pk0 - 2 * side + 1) in
    let bt4 (f : S) (b : @expr S) (p : list dbnd) (m : mem S) :=
      if exOrder =? 2 then x_window X st p [WSet1 0 (PSt 0 - PVec ((f .* b) * ((lit 3 * h)%T .+ (lit 16 .* b)))%E)%P] m
      else Some m in
    let bt0 (f : S) (b : @expr S) (p : list dbnd) (m : mem S) :=
      if exOrder =? 2 then x_window X st p [WSet1 0 (PSt 0 + PVec (f .* b)%E)%P] m
      else Some m in
    if btype =? 4 then
      let f := (beta / h)%T in
      if dir =? 0 then bt4 f (shift b0 dI side) [pk; pj; pil] m
      else if dir =? 1 then bt4 f (shift b1 dJ side) [pk; pjl; pi] m
      else if dir =? 2 then bt4 f (shift b2 dK side) [pkl; pj; pi] m
      else Some m
    else if btype =? 0 then
      let f := (beta / (lit 3 * h * h))%T in
      if dir =? 0 then bt0 f (ESpan b0) [pk; pj; pil] m
      else if dir =? 1 then bt0 f (ESpan b1) [pk; pjl; pi] m
      else if dir =? 2 then bt0 f (ESpan b2) [pkl; pj; pi] m
      else Some m
    else Some m.

  (** cd_stencil_3d_cuda.cpp:255-330 *)
  Definition cd_stencil_3d_adj_poisson_diag_by (i0 j0 k0 i1 j1 k1 : Z) (pi0 pj0 pk0 pi1 pj1 pk1 : Z) (dir side
      btype exOrder : Z) (dx : Z -> S) (beta : S) (sgcw : Z) (st_ : ptr) (m : mem S) : option (mem S) :=
    let i := Ib i0 i1 in
    let j := Jb j0 j1 in
    let k := Kb k0 k1 in
    let w := Wb 0 6 in
    let st := make_md_span_g st_ sgcw [k; j; i; w] in
    let h := dx dir in
    let pi := Ib pi0 pi1 in
    let pj := Jb pj0 pj1 in
    let pk := Kb pk0 pk1 in
    let pil := Ib (pi0 - 2 * side + 1) (pi0 - 2 * side + 1) in
    let pjl := Jb (pj0 - 2 * side + 1) (pj0 - 2 * side + 1) in
    let pkl := Kb (pk0 - 2 * side + 1) (pk0 - 2 * side + 1) in
    let bt4 (f : S) (p : list dbnd) (m : mem S) :=
      x_window X st p [WSet1 0 (PSt 0 - PNum (f * (lit 3 * h + lit 16))%T)%P] m in
    let bt0 (f : S) (p : list dbnd) (m : mem S) := x_window X st p [WSet1 0 (PSt 0 + PNum f)%P] m in
    if negb (exOrder =? 2) then Some m
    else if btype =? 4 then
      let f := (beta / h)%T in
      if dir =? 0 then bt4 f [pk; pj; pil] m
      else if dir =? 1 then bt4 f [pk; pjl; pi] m
      else if dir =? 2 then bt4 f [pkl; pj; pi] m
      else Some m
    else if btype =? 0 then
      let f := (beta / (lit 3 * h * h))%T in
      if dir =? 0 then bt0 f [pk; pj; pil] m
      else if dir =? 1 then bt0 f [pk; pjl; pi] m
      else if dir =? 2 then bt0 f [pkl; pj; pi] m
      else Some m
    else Some m.

  (** cd_stencil_3d_cuda.cpp:332-396 *)
  Definition cd_stencil_3d_adj_cf_diag_by (i0 j0 k0 i1 j1 k1 : Z) (pi0 pj0 pk0 pi1 pj1 pk1 : Z) (r dir side
      intOrder : Z) (dx : Z -> S) (beta : S) (b0_ b1_ b2_ : ptr) (sgcw : Z) (st_ : ptr) (m : mem S) : option
      (mem S) :=
    let i := Ib i0 i1 in
    let j := Jb j0 j1 in
    let k := Kb k0 k1 in
    let dr := (lit 2 * (lit r - lit 1) / (lit r + lit 1))%T in
    let w := Wb 0 6 in
    let st := make_md_span_g st_ sgcw [k; j; i; w] in
    let b0 := make_md_span b0_ [k; j; d_plus i 1] in
    let b1 := make_md_span b1_ [i; k; d_plus j 1] in
    let b2 := make_md_span b2_ [j; i; d_plus k 1] in
    let h := dx dir in
    let f := (beta / (h * h))%T in
    let pi := Ib pi0 pi1 in
    let pj := Jb pj0 pj1 in
    let pk := Kb pk0 pk1 in
    let pil := Ib (pi0 - 2 * side + 1) (pi0 - 2 * side + 1) in
    let pjl := Jb (pj0 - 2 * side + 1) (pj0 - 2 * side + 1) in
    let pkl := Kb (pk0 - 2 * side + 1) (pk0 - 2 * side + 1) in
    let func (b : @expr S) (p : list dbnd) (m : mem S) :=
      if intOrder =? 1 then x_window X st p [WSet1 0 (PSt 0 - PVec ((f / lit 3)%T .* b)%E)%P] m
      else if intOrder =? 2 then x_window X st p [WSet1 0 (PSt 0 - PVec ((f * dr)%T .* b)%E)%P] m
      else Some m in
    if dir =? 0 then func (shift b0 dI side) [pk; pj; pil] m
    else if dir =? 1 then func (shift b1 dJ side) [pk; pjl; pi] m
    else if dir =? 2 then func (shift b2 dK side) [pkl; pj; pi] m
    else Some m.

  (** cd_stencil_3d_cuda.cpp:398-455 *)
  Definition cd_stencil_3d_adj_poisson_cf_diag_by (i0 j0 k0 i1 j1 k1 : Z) (pi0 pj0 pk0 pi1 pj1 pk1 : Z) (r dir
      side intOrder : Z) (dx : Z -> S) (beta : S) (sgcw : Z) (st_ : ptr) (m : mem S) : option (mem S) :=
    let i := Ib i0 i1 in
    let j := Jb j0 j1 in
    let k := Kb k0 k1 in
    let dr := (lit 2 * (lit r - lit 1) / (lit r + lit 1))%T in
    let w := Wb 0 6 in
    let st := make_md_span_g st_ sgcw [k; j; i; w] in
    let h := dx dir in
    let f := (beta / (h * h))%T in
    let pi := Ib pi0 pi1 in
    let pj := Jb pj0 pj1 in
    let pk := Kb pk0 pk1 in
    let pil := Ib (pi0 - 2 * side + 1) (pi0 - 2 * side + 1) in
    let pjl := Jb (pj0 - 2 * side + 1) (pj0 - 2 * side + 1) in
    let pkl := Kb (pk0 - 2 * side + 1) (pk0 - 2 * side + 1) in
    let func (p : list dbnd) (m : mem S) :=
      if intOrder =? 1 then x_window X st p [WSet1 0 (PSt 0 - PNum (f / lit 3)%T)%P] m
      else if intOrder =? 2 then x_window X st p [WSet1 0 (PSt 0 - PNum (f * dr)%T)%P] m
      else Some m in
    if dir =? 0 then func [pk; pj; pil] m
    else if dir =? 1 then func [pk; pjl; pi] m
    else if dir =? 2 then func [pkl; pj; pi] m
    else Some m.

  (** cd_stencil_3d_cuda.cpp:457-570 *)
  Definition cd_stencil_3d_adj_offdiag_by (i0 j0 k0 i1 j1 k1 : Z) (pi0 pj0 pk0 pi1 pj1 pk1 : Z) (dir side btype
      exOrder : Z) (dx : Z -> S) (dir_factor neu_factor beta : S) (b0_ b1_ b2_ : ptr) (sgcw : Z) (st_ : ptr)
      (m : mem S) : option (mem S) :=
    let i := Ib i0 i1 in
    let j := Jb j0 j1 in
    let k := Kb k0 k1 in
    let w := Wb 0 6 in
    let st := make_md_span_g st_ sgcw [k; j; i; w] in
    let b0 := make_md_span b0_ [k; j; d_plus i 1] in
    let b1 := make_md_span b1_ [i; k; d_plus j 1] in
    let b2 := make_md_span b2_ [j; i; d_plus k 1] in
    let h := dx dir in
    let u := 2 * dir + 1 + side in
    let v := 2 * dir + 2 - side in
    let pi := Ib pi0 pi1 in
    let pj := Jb pj0 pj1 in
    let pk := Kb pk0 pk1 in
    let pil := Ib (pi0 - 2 * side + 1) (pi0 - 2 * side + 1) in
    let pjl := Jb (pj0 - 2 * side + 1) (pj0 - 2 * side + 1) in
    let pkl := Kb (pk0 - 2 * side + 1) (pk0 - 2 * side + 1) in
    let bt4 (b : @expr S) (p : list dbnd) (m : mem S) :=
      if exOrder =? 1 then x_window X st p [WSet1 u (PSt u * PVec ((lit 2 * h)%T ./ (lit 4 .* b +. h))%E)%P] m
      else if exOrder =? 2 then
        let f := ((beta .* b) / (h .* ((lit 3 * h)%T .+ (lit 16 .* b))))%E in
        x_window X st p [WSet1 u (PVec (lit (-9) .* f)%E); WSet1 v (PSt v - PVec f)%P] m
      else Some m in
    let bt0 (p : list dbnd) (m : mem S) :=
      if exOrder =? 1 then x_window X st p [WSet1 u (PSt u * PNum dir_factor)%P] m
      else if exOrder =? 2 then
        x_window X st p [WSet1 v (PSt v + PSt u / PNum (lit 3))%P; WSet1 u (PSt u * PNum (lit 8 / lit 3)%T)%P] m
      else Some m in
    let bt1 (p : list dbnd) (m : mem S) := x_window X st p [WSet1 u (PNum (lit 0))] m in
    if btype =? 4 then
      if dir =? 0 then bt4 (shift b0 dI side) [pk; pj; pil] m
      else if dir =? 1 then bt4 (shift b1 dJ side) [pk; pjl; pi] m
      else if dir =? 2 then bt4 (shift b2 dK side) [pkl; pj; pi] m
      else Some m
    else if btype =? 0 then
      if dir =? 0 then bt0 [pk; pj; pil] m
      else if dir =? 1 then bt0 [pk; pjl; pi] m
      else if dir =? 2 then bt0 [pkl; pj; pi] m
      else Some m
    else if btype =? 1 then
      if dir =? 0 then bt1 [pk; pj; pil] m
      else if dir =? 1 then bt1 [pk; pjl; pi] m
      else if dir =? 2 then bt1 [pkl; pj; pi] m
      else Some m
    else Some m.

  (** cd_stencil_3d_cuda.cpp:572-679 *)
  Definition cd_stencil_3d_adj_poisson_offdiag_by (i0 j0 k0 i1 j1 k1 : Z) (pi0 pj0 pk0 pi1 pj1 pk1 : Z) (dir
      side btype exOrder : Z) (dx : Z -> S) (dir_factor neu_factor beta : S) (sgcw : Z) (st_ : ptr) (m : mem
      S) : option (mem S) :=
    let i := Ib i0 i1 in
    let j := Jb j0 j1 in
    let k := Kb k0 k1 in
    let w := Wb 0 6 in
    let st := make_md_span_g st_ sgcw [k; j; i; w] in
    let h := dx dir in
    let u := 2 * dir + 1 + side in
    let v := 2 * dir + 2 - side in
    let pi := Ib pi0 pi1 in
    let pj := Jb pj0 pj1 in
    let pk := Kb pk0 pk1 in
    let pil := Ib (pi0 - 2 * side + 1) (pi0 - 2 * side + 1) in
    let pjl := Jb (pj0 - 2 * side + 1) (pj0 - 2 * side + 1) in
    let pkl := Kb (pk0 - 2 * side + 1) (pk0 - 2 * side + 1) in
    let bt4 (p : list dbnd) (m : mem S) :=
      if exOrder =? 1 then x_window X st p [WSet1 u (PSt u * PNum (lit 2 * h / (lit 4 + h))%T)%P] m
      else if exOrder =? 2 then
        let f := (beta / (h * (lit 3 * h + lit 16)))%T in
        x_window X st p [WSet1 u (PNum (lit (-9) * f)%T); WSet1 v (PSt v - PNum f)%P] m
      else Some m in
    let bt0 (p : list dbnd) (m : mem S) :=
      if exOrder =? 1 then x_window X st p [WSet1 u (PSt u * PNum dir_factor)%P] m
      else if exOrder =? 2 then
        x_window X st p [WSet1 v (PSt v + PSt u / PNum (lit 3))%P; WSet1 u (PSt u * PNum (lit 8 / lit 3)%T)%P] m
      else Some m in
    let bt1 (p : list dbnd) (m : mem S) := x_window X st p [WSet1 u (PNum (lit 0))] m in
    if btype =? 4 then
      if dir =? 0 then bt4 [pk; pj; pil] m
      else if dir =? 1 then bt4 [pk; pjl; pi] m
      else if dir =? 2 then bt4 [pkl; pj; pi] m
      else Some m
    else if btype =? 0 then
      if dir =? 0 then bt0 [pk; pj; pil] m
      else if dir =? 1 then bt0 [pk; pjl; pi] m
      else if dir =? 2 then bt0 [pkl; pj; pi] m
      else Some m
    else if btype =? 1 then
      if dir =? 0 then bt1 [pk; pj; pil] m
      else if dir =? 1 then bt1 [pk; pjl; pi] m
      else if dir =? 2 then bt1 [pkl; pj; pi] m
      else Some m
    else Some m.

  (** cd_stencil_3d_cuda.cpp:681-738 *)
  Definition cd_stencil_3d_adj_cf_offdiag_by (i0 j0 k0 i1 j1 k1 : Z) (ci0 cj0 ck0 ci1 cj1 ck1 : Z) (r dir side
      intOrder sgcw : Z) (st_ : ptr) (m : mem S) : option (mem S) :=
    let i := Ib i0 i1 in
    let j := Jb j0 j1 in
    let k := Kb k0 k1 in
    let w := Wb 0 6 in
    let st := make_md_span_g st_ sgcw [k; j; i; w] in
    let ci := Ib ci0 ci1 in
    let cj := Jb cj0 cj1 in
    let ck := Kb ck0 ck1 in
    let cil := Ib (ci0 - 2 * side + 1) (ci0 - 2 * side + 1) in
    let cjl := Jb (cj0 - 2 * side + 1) (cj0 - 2 * side + 1) in
    let ckl := Kb (ck0 - 2 * side + 1) (ck0 - 2 * side + 1) in
    let u := 2 * dir + 1 + side in
    let v := 2 * dir + 2 - side in
    let func (p : list dbnd) (m : mem S) :=
      if intOrder =? 1 then x_window X st p [WSet1 u (PSt u * PNum (lit 2 / lit 3)%T)%P] m
      else if intOrder =? 2 then
        x_window X st p
          [WSet1 v (PSt v - PSt u * PNum ((lit r - lit 1) / (lit r + lit 3))%T)%P;
           WSet1 u (PSt u * PNum (lit 8 / ((lit r + lit 1) * (lit r + lit 3)))%T)%P] m
      else Some m in
    if dir =? 0 then func [ck; cj; cil] m
    else if dir =? 1 then func [ck; cjl; ci] m
    else if dir =? 2 then func [ckl; cj; ci] m
    else Some m.

  (** cd_stencil_3d_cuda.cpp:740-788 *)
  Definition cd_stencil_3d_readj_offdiag_by (i0 j0 k0 i1 j1 k1 : Z) (pi0 pj0 pk0 pi1 pj1 pk1 : Z) (dir side
      sgcw : Z) (st_ : ptr) (m : mem S) : option (mem S) :=
    let i := Ib i0 i1 in
    let j := Jb j0 j1 in
    let k := Kb k0 k1 in
    let w := Wb 0 6 in
    let st := make_md_span_g st_ sgcw [k; j; i; w] in
    let u := 2 * dir + 1 + side in
    let pi := Ib pi0 pi1 in
    let pj := Jb pj0 pj1 in
    let pk := Kb pk0 pk1 in
    let pil := Ib (pi0 - 2 * side + 1) (pi0 - 2 * side + 1) in
    let pjl := Jb (pj0 - 2 * side + 1) (pj0 - 2 * side + 1) in
    let pkl := Kb (pk0 - 2 * side + 1) (pk0 - 2 * side + 1) in
    let f (p : list dbnd) (m : mem S) := x_window X st p [WSet1 u (PNum (lit 0))] m in
    if dir =? 0 then f [pk; pj; pil] m
    else if dir =? 1 then f [pk; pjl; pi] m
    else if dir =? 2 then f [pkl; pj; pi] m
    else Some m.

  (** cd_stencil_3d_cuda.cpp:790-844 *)
  Definition cd_stencil_3d_adj_cf_bdryrhs_by (i0 j0 k0 i1 j1 k1 : Z) (pi0 pj0 pk0 pi1 pj1 pk1 : Z) (dir side
      sgcw : Z) (st_ : ptr) (gcw : Z) (u_ rhs_ : ptr) (m : mem S) : option (mem S) :=
    let i := Ib i0 i1 in
    let j := Jb j0 j1 in
    let k := Kb k0 k1 in
    let w := Wb 0 6 in
    let st := make_md_span_g st_ sgcw [k; j; i; w] in
    let u := make_md_span_g u_ gcw [k; j; i] in
    let rhs := make_md_span rhs_ [k; j; i] in
    let ui := 2 * dir + 1 + side in
    let s := 2 * side - 1 in
    let pi := Ib pi0 pi1 in
    let pj := Jb pj0 pj1 in
    let pk := Kb pk0 pk1 in
    let pil := Ib (pi0 - 2 * side + 1) (pi0 - 2 * side + 1) in
    let pjl := Jb (pj0 - 2 * side + 1) (pj0 - 2 * side + 1) in
    let pkl := Kb (pk0 - 2 * side + 1) (pk0 - 2 * side + 1) in
    let f (v : @expr S) (p : list dbnd) (m : mem S) := x_window X st p [WSub rhs (PSt ui * PVec v)%P] m in
    if dir =? 0 then f (shift u dI s) [pk; pj; pil] m
    else if dir =? 1 then f (shift u dJ s) [pk; pjl; pi] m
    else if dir =? 2 then f (shift u dK s) [pkl; pj; pi] m
    else Some m.

  (** ** KernelsCopy *)


  (** coarse_to_fine_cuda.cpp:18-68 *)
  Definition c2f_copy_by (ci0 ci1 cj0 cj1 ck0 ck1 fi0 fi1 fj0 fj1 fk0 fk1 axis
      cbi0 cbi1 cbj0 cbj1 cbk0 cbk1 fbi0 fbi1 fbj0 fbj1 fbk0 fbk1 gcw : Z) (ratio : Z -> Z)
      (cdata_ fdata_ : ptr) (m : mem S) : option (mem S) :=
    let c := make_md_span_g cdata_ gcw [Kb cbk0 cbk1; Jb cbj0 cbj1; Ib cbi0 cbi1] in
    let f := make_md_span_g fdata_ gcw [Kb fbk0 fbk1; Jb fbj0 fbj1; Ib fbi0 fbi1] in
    let cil := Ib ci0 ci0 in let fil := Ib fi0 fi0 in let fi := Ib fi0 fi1 in
    let cjl := Jb cj0 cj0 in let fjl := Jb fj0 fj0 in let fj := Jb fj0 fj1 in
    let ckl := Kb ck0 ck0 in let fkl := Kb fk0 fk0 in let fk := Kb fk0 fk1 in
    if axis =? 0 then x_domain X [fkl; fjl; fi] [(f ::= EFine c (ratio axis) [ckl; cjl])%E] m
    else if axis =? 1 then x_domain X [fkl; fj; fil] [(f ::= EFine c (ratio axis) [ckl; cil])%E] m
    else if axis =? 2 then x_domain X [fk; fjl; fil] [(f ::= EFine c (ratio axis) [cjl; cil])%E] m
    else Some m.
End By.

(** ** One element after the other *)
Section Sequential.
  Context {S : Scalar}.

  Lemma cdf_1d_flux_sequential : @cdf_1d_flux_by S sequential = cdf_1d_flux.
  Proof. reflexivity. Qed.
  Lemma cdf_1d_poisson_flux_sequential : @cdf_1d_poisson_flux_by S sequential = cdf_1d_poisson_flux.
  Proof. reflexivity. Qed.
  Lemma cdf_2d_flux_sequential : @cdf_2d_flux_by S sequential = cdf_2d_flux.
  Proof. reflexivity. Qed.
  Lemma cdf_2d_poisson_flux_sequential : @cdf_2d_poisson_flux_by S sequential = cdf_2d_poisson_flux.
  Proof. reflexivity. Qed.
  Lemma cdf_3d_flux_sequential : @cdf_3d_flux_by S sequential = cdf_3d_flux.
  Proof. reflexivity. Qed.
  Lemma cdf_3d_poisson_flux_sequential : @cdf_3d_poisson_flux_by S sequential = cdf_3d_poisson_flux.
  Proof. reflexivity. Qed.
  Lemma cd_apply_1d_diffusion_v1_res_sequential : @cd_apply_1d_diffusion_v1_res_by S sequential = cd_apply_1d_diffusion_v1_res.
  Proof. reflexivity. Qed.
  Lemma cd_apply_1d_diffusion_v2_res_sequential : @cd_apply_1d_diffusion_v2_res_by S sequential = cd_apply_1d_diffusion_v2_res.
  Proof. reflexivity. Qed.
  Lemma cd_apply_1d_poisson_v1_res_sequential : @cd_apply_1d_poisson_v1_res_by S sequential = cd_apply_1d_poisson_v1_res.
  Proof. reflexivity. Qed.
  Lemma cd_apply_1d_diffusion_v1_apply_sequential : @cd_apply_1d_diffusion_v1_apply_by S sequential = cd_apply_1d_diffusion_v1_apply.
  Proof. reflexivity. Qed.
  Lemma cd_apply_1d_diffusion_v2_apply_sequential : @cd_apply_1d_diffusion_v2_apply_by S sequential = cd_apply_1d_diffusion_v2_apply.
  Proof. reflexivity. Qed.
  Lemma cd_apply_1d_poisson_v2_apply_sequential : @cd_apply_1d_poisson_v2_apply_by S sequential = cd_apply_1d_poisson_v2_apply.
  Proof. reflexivity. Qed.
  Lemma cd_apply_2d_diffusion_v1_res_sequential : @cd_apply_2d_diffusion_v1_res_by S sequential = cd_apply_2d_diffusion_v1_res.
  Proof. reflexivity. Qed.
  Lemma cd_apply_2d_diffusion_v2_res_sequential : @cd_apply_2d_diffusion_v2_res_by S sequential = cd_apply_2d_diffusion_v2_res.
  Proof. reflexivity. Qed.
  Lemma cd_apply_2d_poisson_v1_res_sequential : @cd_apply_2d_poisson_v1_res_by S sequential = cd_apply_2d_poisson_v1_res.
  Proof. reflexivity. Qed.
  Lemma cd_apply_2d_diffusion_v1_apply_sequential : @cd_apply_2d_diffusion_v1_apply_by S sequential = cd_apply_2d_diffusion_v1_apply.
  Proof. reflexivity. Qed.
  Lemma cd_apply_2d_diffusion_v2_apply_sequential : @cd_apply_2d_diffusion_v2_apply_by S sequential = cd_apply_2d_diffusion_v2_apply.
  Proof. reflexivity. Qed.
  Lemma cd_apply_2d_poisson_v2_apply_sequential : @cd_apply_2d_poisson_v2_apply_by S sequential = cd_apply_2d_poisson_v2_apply.
  Proof. reflexivity. Qed.
  Lemma cd_apply_3d_diffusion_v1_res_sequential : @cd_apply_3d_diffusion_v1_res_by S sequential = cd_apply_3d_diffusion_v1_res.
  Proof. reflexivity. Qed.
  Lemma cd_apply_3d_diffusion_v2_res_sequential : @cd_apply_3d_diffusion_v2_res_by S sequential = cd_apply_3d_diffusion_v2_res.
  Proof. reflexivity. Qed.
  Lemma cd_apply_3d_poisson_v1_res_sequential : @cd_apply_3d_poisson_v1_res_by S sequential = cd_apply_3d_poisson_v1_res.
  Proof. reflexivity. Qed.
  Lemma cd_apply_3d_diffusion_v1_apply_sequential : @cd_apply_3d_diffusion_v1_apply_by S sequential = cd_apply_3d_diffusion_v1_apply.
  Proof. reflexivity. Qed.
  Lemma cd_apply_3d_diffusion_v2_apply_sequential : @cd_apply_3d_diffusion_v2_apply_by S sequential = cd_apply_3d_diffusion_v2_apply.
  Proof. reflexivity. Qed.
  Lemma cd_apply_3d_poisson_v2_apply_sequential : @cd_apply_3d_poisson_v2_apply_by S sequential = cd_apply_3d_poisson_v2_apply.
  Proof. reflexivity. Qed.
  Lemma cd_1d_set_bc_sequential : @cd_1d_set_bc_by S sequential = cd_1d_set_bc.
  Proof. reflexivity. Qed.
  Lemma cd_1d_set_poisson_bc_sequential : @cd_1d_set_poisson_bc_by S sequential = cd_1d_set_poisson_bc.
  Proof. reflexivity. Qed.
  Lemma cd_2d_set_bc_sequential : @cd_2d_set_bc_by S sequential = cd_2d_set_bc.
  Proof. reflexivity. Qed.
  Lemma cd_2d_set_poisson_bc_sequential : @cd_2d_set_poisson_bc_by S sequential = cd_2d_set_poisson_bc.
  Proof. reflexivity. Qed.
  Lemma cd_2d_set_corner_bc_sequential : @cd_2d_set_corner_bc_by S sequential = cd_2d_set_corner_bc.
  Proof. reflexivity. Qed.
  Lemma cd_2d_set_homogenous_bc_sequential : @cd_2d_set_homogenous_bc_by S sequential = cd_2d_set_homogenous_bc.
  Proof. reflexivity. Qed.
  Lemma cd_3d_set_bc_sequential : @cd_3d_set_bc_by S sequential = cd_3d_set_bc.
  Proof. reflexivity. Qed.
  Lemma cd_3d_set_poisson_bc_sequential : @cd_3d_set_poisson_bc_by S sequential = cd_3d_set_poisson_bc.
  Proof. reflexivity. Qed.
  Lemma cd_stencil_1d_offdiag_sequential : @cd_stencil_1d_offdiag_by S sequential = cd_stencil_1d_offdiag.
  Proof. reflexivity. Qed.
  Lemma cd_stencil_1d_poisson_offdiag_sequential : @cd_stencil_1d_poisson_offdiag_by S sequential = cd_stencil_1d_poisson_offdiag.
  Proof. reflexivity. Qed.
  Lemma cd_stencil_1d_v1diag_sequential : @cd_stencil_1d_v1diag_by S sequential = cd_stencil_1d_v1diag.
  Proof. reflexivity. Qed.
  Lemma cd_stencil_1d_v2diag_sequential : @cd_stencil_1d_v2diag_by S sequential = cd_stencil_1d_v2diag.
  Proof. reflexivity. Qed.
  Lemma cd_stencil_1d_poisson_diag_sequential : @cd_stencil_1d_poisson_diag_by S sequential = cd_stencil_1d_poisson_diag.
  Proof. reflexivity. Qed.
  Lemma cd_stencil_1d_adj_diag_sequential : @cd_stencil_1d_adj_diag_by S sequential = cd_stencil_1d_adj_diag.
  Proof. reflexivity. Qed.
  Lemma cd_stencil_1d_adj_poisson_diag_sequential : @cd_stencil_1d_adj_poisson_diag_by S sequential = cd_stencil_1d_adj_poisson_diag.
  Proof. reflexivity. Qed.
  Lemma cd_stencil_1d_adj_cf_diag_sequential : @cd_stencil_1d_adj_cf_diag_by S sequential = cd_stencil_1d_adj_cf_diag.
  Proof. reflexivity. Qed.
  Lemma cd_stencil_1d_adj_poisson_cf_diag_sequential : @cd_stencil_1d_adj_poisson_cf_diag_by S sequential = cd_stencil_1d_adj_poisson_cf_diag.
  Proof. reflexivity. Qed.
  Lemma cd_stencil_1d_adj_offdiag_sequential : @cd_stencil_1d_adj_offdiag_by S sequential = cd_stencil_1d_adj_offdiag.
  Proof. reflexivity. Qed.
  Lemma cd_stencil_1d_adj_poisson_offdiag_sequential : @cd_stencil_1d_adj_poisson_offdiag_by S sequential = cd_stencil_1d_adj_poisson_offdiag.
  Proof. reflexivity. Qed.
  Lemma cd_stencil_1d_adj_cf_offdiag_sequential : @cd_stencil_1d_adj_cf_offdiag_by S sequential = cd_stencil_1d_adj_cf_offdiag.
  Proof. reflexivity. Qed.
  Lemma cd_stencil_1d_readj_offdiag_sequential : @cd_stencil_1d_readj_offdiag_by S sequential = cd_stencil_1d_readj_offdiag.
  Proof. reflexivity. Qed.
  Lemma cd_stencil_1d_adj_cf_bdryrhs_sequential : @cd_stencil_1d_adj_cf_bdryrhs_by S sequential = cd_stencil_1d_adj_cf_bdryrhs.
  Proof. reflexivity. Qed.
  Lemma cd_stencil_2d_offdiag_sequential : @cd_stencil_2d_offdiag_by S sequential = cd_stencil_2d_offdiag.
  Proof. reflexivity. Qed.
  Lemma cd_stencil_2d_poisson_offdiag_sequential : @cd_stencil_2d_poisson_offdiag_by S sequential = cd_stencil_2d_poisson_offdiag.
  Proof. reflexivity. Qed.
  Lemma cd_stencil_2d_v1diag_sequential : @cd_stencil_2d_v1diag_by S sequential = cd_stencil_2d_v1diag.
  Proof. reflexivity. Qed.
  Lemma cd_stencil_2d_v2diag_sequential : @cd_stencil_2d_v2diag_by S sequential = cd_stencil_2d_v2diag.
  Proof. reflexivity. Qed.
  Lemma cd_stencil_2d_poisson_diag_sequential : @cd_stencil_2d_poisson_diag_by S sequential = cd_stencil_2d_poisson_diag.
  Proof. reflexivity. Qed.
  Lemma cd_stencil_2d_adj_diag_sequential : @cd_stencil_2d_adj_diag_by S sequential = cd_stencil_2d_adj_diag.
  Proof. reflexivity. Qed.
  Lemma cd_stencil_2d_adj_poisson_diag_sequential : @cd_stencil_2d_adj_poisson_diag_by S sequential = cd_stencil_2d_adj_poisson_diag.
  Proof. reflexivity. Qed.
  Lemma cd_stencil_2d_adj_cf_diag_sequential : @cd_stencil_2d_adj_cf_diag_by S sequential = cd_stencil_2d_adj_cf_diag.
  Proof. reflexivity. Qed.
  Lemma cd_stencil_2d_adj_poisson_cf_diag_sequential : @cd_stencil_2d_adj_poisson_cf_diag_by S sequential = cd_stencil_2d_adj_poisson_cf_diag.
  Proof. reflexivity. Qed.
  Lemma cd_stencil_2d_adj_offdiag_sequential : @cd_stencil_2d_adj_offdiag_by S sequential = cd_stencil_2d_adj_offdiag.
  Proof. reflexivity. Qed.
  Lemma cd_stencil_2d_adj_poisson_offdiag_sequential : @cd_stencil_2d_adj_poisson_offdiag_by S sequential = cd_stencil_2d_adj_poisson_offdiag.
  Proof. reflexivity. Qed.
  Lemma cd_stencil_2d_adj_cf_offdiag_sequential : @cd_stencil_2d_adj_cf_offdiag_by S sequential = cd_stencil_2d_adj_cf_offdiag.
  Proof. reflexivity. Qed.
  Lemma cd_stencil_2d_readj_offdiag_sequential : @cd_stencil_2d_readj_offdiag_by S sequential = cd_stencil_2d_readj_offdiag.
  Proof. reflexivity. Qed.
  Lemma cd_stencil_2d_adj_cf_bdryrhs_sequential : @cd_stencil_2d_adj_cf_bdryrhs_by S sequential = cd_stencil_2d_adj_cf_bdryrhs.
  Proof. reflexivity. Qed.
  Lemma cd_stencil_3d_offdiag_sequential : @cd_stencil_3d_offdiag_by S sequential = cd_stencil_3d_offdiag.
  Proof. reflexivity. Qed.
  Lemma cd_stencil_3d_poisson_offdiag_sequential : @cd_stencil_3d_poisson_offdiag_by S sequential = cd_stencil_3d_poisson_offdiag.
  Proof. reflexivity. Qed.
  Lemma cd_stencil_3d_v1diag_sequential : @cd_stencil_3d_v1diag_by S sequential = cd_stencil_3d_v1diag.
  Proof. reflexivity. Qed.
  Lemma cd_stencil_3d_v2diag_sequential : @cd_stencil_3d_v2diag_by S sequential = cd_stencil_3d_v2diag.
  Proof. reflexivity. Qed.
  Lemma cd_stencil_3d_poisson_diag_sequential : @cd_stencil_3d_poisson_diag_by S sequential = cd_stencil_3d_poisson_diag.
  Proof. reflexivity. Qed.
  Lemma cd_stencil_3d_adj_diag_sequential : @cd_stencil_3d_adj_diag_by S sequential = cd_stencil_3d_adj_diag.
  Proof. reflexivity. Qed.
  Lemma cd_stencil_3d_adj_poisson_diag_sequential : @cd_stencil_3d_adj_poisson_diag_by S sequential = cd_stencil_3d_adj_poisson_diag.
  Proof. reflexivity. Qed.
  Lemma cd_stencil_3d_adj_cf_diag_sequential : @cd_stencil_3d_adj_cf_diag_by S sequential = cd_stencil_3d_adj_cf_diag.
  Proof. reflexivity. Qed.
  Lemma cd_stencil_3d_adj_poisson_cf_diag_sequential : @cd_stencil_3d_adj_poisson_cf_diag_by S sequential = cd_stencil_3d_adj_poisson_cf_diag.
  Proof. reflexivity. Qed.
  Lemma cd_stencil_3d_adj_offdiag_sequential : @cd_stencil_3d_adj_offdiag_by S sequential = cd_stencil_3d_adj_offdiag.
  Proof. reflexivity. Qed.
  Lemma cd_stencil_3d_adj_poisson_offdiag_sequential : @cd_stencil_3d_adj_poisson_offdiag_by S sequential = cd_stencil_3d_adj_poisson_offdiag.
  Proof. reflexivity. Qed.
  Lemma cd_stencil_3d_adj_cf_offdiag_sequential : @cd_stencil_3d_adj_cf_offdiag_by S sequential = cd_stencil_3d_adj_cf_offdiag.
  Proof. reflexivity. Qed.
  Lemma cd_stencil_3d_readj_offdiag_sequential : @cd_stencil_3d_readj_offdiag_by S sequential = cd_stencil_3d_readj_offdiag.
  Proof. reflexivity. Qed.
  Lemma cd_stencil_3d_adj_cf_bdryrhs_sequential : @cd_stencil_3d_adj_cf_bdryrhs_by S sequential = cd_stencil_3d_adj_cf_bdryrhs.
  Proof. reflexivity. Qed.
  Lemma c2f_copy_sequential : @c2f_copy_by S sequential = c2f_copy.
  Proof. reflexivity. Qed.
End Sequential.
