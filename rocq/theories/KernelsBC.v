(** * Boundary kernels: src/cuda/cd_correct_bc_{1,2,3}d_cuda.cpp

    [dx], [bLo], [bHi] are host arrays, modelled by functions.  A [switch] without
    a matching case does nothing.  The [copy_to] calls have an empty body and are
    omitted.  Integer literals mixed with [T] operands are [lit]; a lambda of the
    C++ code is a local function here. *)

From Verif Require Import Base ModelBounds ModelIters ModelSpan KernelNotations.
Import ListNotations.
Open Scope Z_scope.

Section BC.
  Context {S : Scalar}.

  (** cd_correct_bc_1d_cuda.cpp:19-86 *)
  Definition cd_1d_set_bc (i0 i1 : Z) (dx : Z -> S) (dgcw : Z) (d0_ : ptr) (ugcw : Z) (u_ : ptr)
      (bLo bHi : Z -> Z) (exOrder face btype : Z) (alpha beta : S) (m : mem S) : option (mem S) :=
    let i := Ib i0 i1 in
    let d0 := make_md_span_g d0_ dgcw [d_plus i 1] in
    let u := make_md_span_g u_ ugcw [i] in
    let il := Ib (bLo 0) (bLo 0) in let ih := Ib (bHi 0) (bHi 0) in
    let t1 (u1 u2 d : @expr S) (h : S) (p : list dbnd) (m : mem S) :=
      if btype =? 0 then
        if exOrder =? 1 then with_domain p [u ::= lit (-1) .* u1]%E m
        else if exOrder =? 2 then with_domain p [u ::= lit (-2) .* u1 + u2 /. lit 3]%E m
        else Some m
      else if btype =? 1 then with_domain p [u ::= u1]%E m
      else if btype =? 4 then
        if exOrder =? 1 then
          with_domain p [u ::= (((lit 2 * alpha)%T .* d -. (h * beta)%T) / ((lit 2 * alpha)%T .* d +. (h * beta)%T)) * u1]%E m
        else if exOrder =? 2 then
          with_domain p [u ::= (((lit 8 * alpha)%T .* d -. (lit 6 * beta * h)%T) / ((lit 8 * alpha)%T .* d +. (lit 3 * beta * h)%T)) * u1
                               + h ./ ((lit 8 * alpha)%T .* d +. (lit 3 * beta * h)%T) * u2]%E m
        else Some m
      else Some m in
    if face =? 0 then t1 (shift u dI 1) (shift u dI 2) (shift d0 dI 1) (dx 0) [il] m
    else if face =? 1 then t1 (shift u dI (-1)) (shift u dI (-2)) (ESpan d0) (dx 0) [ih] m
    else Some m.

  (** cd_correct_bc_1d_cuda.cpp:88-149 *)
  Definition cd_1d_set_poisson_bc (i0 i1 : Z) (dx : Z -> S) (ugcw : Z) (u_ : ptr)
      (bLo bHi : Z -> Z) (exOrder face btype : Z) (alpha beta : S) (m : mem S) : option (mem S) :=
    let i := Ib i0 i1 in
    let u := make_md_span_g u_ ugcw [i] in
    let il := Ib (bLo 0) (bLo 0) in let ih := Ib (bHi 0) (bHi 0) in
    let t1 (u1 u2 : @expr S) (h : S) (p : list dbnd) (m : mem S) :=
      if btype =? 0 then
        if exOrder =? 1 then with_domain p [u ::= lit (-1) .* u1]%E m
        else if exOrder =? 2 then with_domain p [u ::= lit (-2) .* u1 + u2 /. lit 3]%E m
        else Some m
      else if btype =? 1 then with_domain p [u ::= u1]%E m
      else if btype =? 4 then
        if exOrder =? 1 then with_domain p [u ::= ((lit 4 - h) / (lit 4 + h))%T .* u1]%E m
        else if exOrder =? 2 then with_domain p [u ::= ((lit 16 - lit 6 * h) / (lit 16 + lit 3 * h))%T .* u1 + (h / (lit 16 + lit 3 * h))%T .* u2]%E m
        else Some m
      else Some m in
    if face =? 0 then t1 (shift u dI 1) (shift u dI 2) (dx 0) [il] m
    else if face =? 1 then t1 (shift u dI (-1)) (shift u dI (-2)) (dx 0) [ih] m
    else Some m.

  (** cd_correct_bc_2d_cuda.cpp:19-127 *)
  Definition cd_2d_set_bc (i0 i1 j0 j1 : Z) (dx : Z -> S) (dgcw : Z) (d0_ d1_ : ptr) (ugcw : Z) (u_ : ptr)
      (bLo bHi : Z -> Z) (exOrder face type btype : Z) (alpha beta : S) (m : mem S) : option (mem S) :=
    let i := Ib i0 i1 in
    let j := Jb j0 j1 in
    let d0 := make_md_span_g d0_ dgcw [j; d_plus i 1] in
    let d1 := make_md_span_g d1_ dgcw [i; d_plus j 1] in
    let u := make_md_span_g u_ ugcw [j; i] in
    let ib := Ib (Z.max (bLo 0) i0) (Z.min (bHi 0) i1) in
    let jb := Jb (Z.max (bLo 1) j0) (Z.min (bHi 1) j1) in
    let il := Ib (bLo 0) (bLo 0) in let ih := Ib (bHi 0) (bHi 0) in
    let jl := Jb (bLo 1) (bLo 1) in let jh := Jb (bHi 1) (bHi 1) in
    let t1 (u1 u2 d : @expr S) (h : S) (p : list dbnd) (m : mem S) :=
      if btype =? 0 then
        if exOrder =? 0 then with_domain p [ANum u (lit 0)] m else
        if exOrder =? 1 then with_domain p [u ::= lit (-1) .* u1]%E m
        else if exOrder =? 2 then with_domain p [u ::= lit (-2) .* u1 + u2 /. lit 3]%E m
        else Some m
      else if btype =? 1 then with_domain p [u ::= u1]%E m
      else if btype =? 4 then
        if exOrder =? 1 then
          with_domain p [u ::= (((lit 2 * alpha)%T .* d -. (h * beta)%T) / ((lit 2 * alpha)%T .* d +. (h * beta)%T)) * u1]%E m
        else if exOrder =? 2 then
          with_domain p [u ::= (((lit 8 * alpha)%T .* d -. (lit 6 * beta * h)%T) / ((lit 8 * alpha)%T .* d +. (lit 3 * beta * h)%T)) * u1
                               + h ./ ((lit 8 * alpha)%T .* d +. (lit 3 * beta * h)%T) * u2]%E m
        else Some m
      else Some m in
    let t2 (u1 u2 u3 : @expr S) (p : list dbnd) (m : mem S) := with_domain p [u ::= u2 + u3 - u1]%E m in
    if type =? 1 then
      if face =? 0 then t1 (shift u dI 1) (shift u dI 2) (shift d0 dI 1) (dx 0) [jb; il] m
      else if face =? 1 then t1 (shift u dI (-1)) (shift u dI (-2)) (ESpan d0) (dx 0) [jb; ih] m
      else if face =? 2 then t1 (shift u dJ 1) (shift u dJ 2) (shift d1 dJ 1) (dx 1) [jl; ib] m
      else if face =? 3 then t1 (shift u dJ (-1)) (shift u dJ (-2)) (ESpan d1) (dx 1) [jh; ib] m
      else Some m
    else if type =? 2 then
      if face =? 0 then t2 (shift_xy u 1 1) (shift u dI 1) (shift u dJ 1) [jl; il] m
      else if face =? 1 then t2 (shift_xy u (-1) 1) (shift u dI (-1)) (shift u dJ 1) [jl; ih] m
      else if face =? 2 then t2 (shift_xy u 1 (-1)) (shift u dI 1) (shift u dJ (-1)) [jh; il] m
      else if face =? 3 then t2 (shift_xy u (-1) (-1)) (shift u dI (-1)) (shift u dJ (-1)) [jh; ih] m
      else Some m
    else Some m.

  (** cd_correct_bc_2d_cuda.cpp:129-228 *)
  Definition cd_2d_set_poisson_bc (i0 i1 j0 j1 : Z) (dx : Z -> S) (ugcw : Z) (u_ : ptr)
      (bLo bHi : Z -> Z) (exOrder face type btype : Z) (alpha beta : S) (m : mem S) : option (mem S) :=
    let i := Ib i0 i1 in
    let j := Jb j0 j1 in
    let u := make_md_span_g u_ ugcw [j; i] in
    let ib := Ib (Z.max (bLo 0) i0) (Z.min (bHi 0) i1) in
    let jb := Jb (Z.max (bLo 1) j0) (Z.min (bHi 1) j1) in
    let il := Ib (bLo 0) (bLo 0) in let ih := Ib (bHi 0) (bHi 0) in
    let jl := Jb (bLo 1) (bLo 1) in let jh := Jb (bHi 1) (bHi 1) in
    let t1 (u1 u2 : @expr S) (h : S) (p : list dbnd) (m : mem S) :=
      if btype =? 0 then
        if exOrder =? 1 then with_domain p [u ::= lit (-1) .* u1]%E m
        else if exOrder =? 2 then with_domain p [u ::= lit (-2) .* u1 + u2 /. lit 3]%E m
        else Some m
      else if btype =? 1 then with_domain p [u ::= u1]%E m
      else if btype =? 4 then
        if exOrder =? 1 then with_domain p [u ::= ((lit 2 * alpha - h * beta) / (lit 2 * alpha + h * beta))%T .* u1]%E m
        else if exOrder =? 2 then with_domain p [u ::= ((lit 8 * alpha - lit 6 * beta * h) / (lit 8 * alpha + lit 3 * beta * h))%T .* u1 + (h / (lit 8 * alpha + lit 3 * beta * h))%T .* u2]%E m
        else Some m
      else Some m in
    let t2 (u1 u2 u3 : @expr S) (p : list dbnd) (m : mem S) := with_domain p [u ::= u2 + u3 - u1]%E m in
    if type =? 1 then
      if face =? 0 then t1 (shift u dI 1) (shift u dI 2) (dx 0) [jb; il] m
      else if face =? 1 then t1 (shift u dI (-1)) (shift u dI (-2)) (dx 0) [jb; ih] m
      else if face =? 2 then if negb (btype =? 4) then t1 (shift u dJ 1) (shift u dJ 2) (dx 1) [jl; ib] m else Some m
      else if face =? 3 then if negb (btype =? 4) then t1 (shift u dJ (-1)) (shift u dJ (-2)) (dx 1) [jh; ib] m else Some m
      else Some m
    else if type =? 2 then
      if face =? 0 then t2 (shift_xy u 1 1) (shift u dI 1) (shift u dJ 1) [jl; il] m
      else if face =? 1 then t2 (shift_xy u (-1) 1) (shift u dI (-1)) (shift u dJ 1) [jl; ih] m
      else if face =? 2 then t2 (shift_xy u 1 (-1)) (shift u dI 1) (shift u dJ (-1)) [jh; il] m
      else if face =? 3 then t2 (shift_xy u (-1) (-1)) (shift u dI (-1)) (shift u dJ (-1)) [jh; ih] m
      else Some m
    else Some m.

  (** cd_correct_bc_2d_cuda.cpp:230-275 *)
  Definition cd_2d_set_corner_bc (i0 i1 j0 j1 gcw : Z) (dx : Z -> S) (d0_ d1_ u_ : ptr) (bLo bHi : Z -> Z)
      (exOrder face type btype : Z) (m : mem S) : option (mem S) :=
    let i := Ib i0 i1 in
    let j := Jb j0 j1 in
    let u := make_md_span_g u_ gcw [j; i] in
    let il := Ib (bLo 0) (bLo 0) in let ih := Ib (bHi 0) (bHi 0) in
    let jl := Jb (bLo 1) (bLo 1) in let jh := Jb (bHi 1) (bHi 1) in
    let f (u1 : @expr S) (p : list dbnd) (m : mem S) := with_domain p [u ::= lit (-5) .* u1]%E m in
    if face =? 0 then f (shift_xy u 1 1) [jl; il] m
    else if face =? 1 then f (shift_xy u (-1) 1) [jl; ih] m
    else if face =? 2 then f (shift_xy u 1 (-1)) [jh; il] m
    else if face =? 3 then f (shift_xy u (-1) (-1)) [jh; ih] m
    else Some m.

  (** cd_correct_bc_2d_cuda.cpp:277-349 *)
  Definition cd_2d_set_homogenous_bc (i0 j0 i1 j1 face : Z) (bLo bHi : Z -> Z) (exOrder : Z) (u_ : ptr)
      (m : mem S) : option (mem S) :=
    let i := Ib i0 i1 in
    let j := Jb j0 j1 in
    let u := make_md_span_g u_ 1 [j; i] in
    let ib := Ib (Z.max i0 (bLo 0)) (Z.min i1 (bHi 0)) in
    let jb := Jb (Z.max j0 (bLo 1)) (Z.min j1 (bHi 1)) in
    let il := Ib (i0 - 1) (i0 - 1) in let ih := Ib (i1 + 1) (i1 + 1) in
    let jl := Jb (j0 - 1) (j0 - 1) in let jh := Jb (j1 + 1) (j1 + 1) in
    let f (u1 u2 u3 u4 : @expr S) (p : list dbnd) (m : mem S) :=
      let t13 := (lit 1 / lit 3)%T in
      let t15 := (lit 1 / lit 5)%T in
      let t45 := (lit 4 / lit 5)%T in
      let t17 := (lit 1 / lit 7)%T in
      if exOrder =? 1 then with_domain p [u ::= lit (-1) .* u1]%E m
      else if exOrder =? 2 then with_domain p [u ::= lit (-2) .* u1 + t13 .* u2]%E m
      else if exOrder =? 3 then with_domain p [u ::= lit (-3) .* u1 + u2 - t15 .* u3]%E m
      else if exOrder =? 4 then with_domain p [u ::= lit (-4) .* u1 + lit 2 .* u2 - t45 .* u3 + t17 .* u4]%E m
      else Some m in
    let g (v : @expr S) (p : list dbnd) (m : mem S) := with_domain p [u ::= v]%E m in
    if face =? 0 then
      m <- f (shift u dI 1) (shift u dI 2) (shift u dI 3) (shift u dI 4) [jb; il] m ;;
      m <- g (shift_xy u 1 1) [jl; il] m ;;
      g (shift_xy u 1 (-1)) [jh; il] m
    else if face =? 1 then
      m <- f (shift u dI (-1)) (shift u dI (-2)) (shift u dI (-3)) (shift u dI (-4)) [jb; ih] m ;;
      m <- g (shift_xy u (-1) 1) [jl; ih] m ;;
      g (shift_xy u (-1) (-1)) [jh; ih] m
    else if face =? 2 then
      m <- f (shift u dJ 1) (shift u dJ 2) (shift u dJ 3) (shift u dJ 4) [jl; ib] m ;;
      m <- g (shift_xy u 1 1) [jl; il] m ;;
      g (shift_xy u (-1) 1) [jl; ih] m
    else if face =? 3 then
      m <- f (shift u dJ (-1)) (shift u dJ (-2)) (shift u dJ (-3)) (shift u dJ (-4)) [jh; ib] m ;;
      m <- g (shift_xy u 1 (-1)) [jh; il] m ;;
      g (shift_xy u (-1) (-1)) [jh; ih] m
    else Some m.

  (** cd_correct_bc_3d_cuda.cpp:19-181 *)
  Definition cd_3d_set_bc (i0 i1 j0 j1 k0 k1 : Z) (dx : Z -> S) (dgcw : Z) (d0_ d1_ d2_ : ptr) (ugcw : Z) (u_ : ptr)
      (bLo bHi : Z -> Z) (exOrder face type btype : Z) (alpha beta : S) (m : mem S) : option (mem S) :=
    let i := Ib i0 i1 in
    let j := Jb j0 j1 in
    let k := Kb k0 k1 in
    let d0 := make_md_span_g d0_ dgcw [k; j; d_plus i 1] in
    let d1 := make_md_span_g d1_ dgcw [i; k; d_plus j 1] in
    let d2 := make_md_span_g d2_ dgcw [j; i; d_plus k 1] in
    let u := make_md_span_g u_ ugcw [k; j; i] in
    let ib := Ib (Z.max (bLo 0) i0) (Z.min (bHi 0) i1) in
    let jb := Jb (Z.max (bLo 1) j0) (Z.min (bHi 1) j1) in
    let kb := Kb (Z.max (bLo 2) k0) (Z.min (bHi 2) k1) in
    let il := Ib (bLo 0) (bLo 0) in let ih := Ib (bHi 0) (bHi 0) in
    let jl := Jb (bLo 1) (bLo 1) in let jh := Jb (bHi 1) (bHi 1) in
    let kl := Kb (bLo 2) (bLo 2) in let kh := Kb (bHi 2) (bHi 2) in
    let t1 (u1 u2 d : @expr S) (h : S) (p : list dbnd) (m : mem S) :=
      if btype =? 0 then
        if exOrder =? 1 then with_domain p [u ::= lit (-1) .* u1]%E m
        else if exOrder =? 2 then with_domain p [u ::= lit (-2) .* u1 + u2 /. lit 3]%E m
        else Some m
      else if btype =? 1 then with_domain p [u ::= u1]%E m
      else if btype =? 4 then
        if exOrder =? 1 then
          with_domain p [u ::= (((lit 2 * alpha)%T .* d -. (h * beta)%T) / ((lit 2 * alpha)%T .* d +. (h * beta)%T)) * u1]%E m
        else if exOrder =? 2 then
          with_domain p [u ::= (((lit 8 * alpha)%T .* d -. (lit 6 * beta * h)%T) / ((lit 8 * alpha)%T .* d +. (lit 3 * beta * h)%T)) * u1
                               + h ./ ((lit 8 * alpha)%T .* d +. (lit 3 * beta * h)%T) * u2]%E m
        else Some m
      else Some m in
    let t2 (u1 u2 u3 : @expr S) (p : list dbnd) (m : mem S) := with_domain p [u ::= u2 + u3 - u1]%E m in
    if type =? 1 then
      if face =? 0 then t1 (shift u dI 1) (shift u dI 2) (shift d0 dI 1) (dx 0) [kb; jb; il] m
      else if face =? 1 then t1 (shift u dI (-1)) (shift u dI (-2)) (ESpan d0) (dx 0) [kb; jb; ih] m
      else if face =? 2 then t1 (shift u dJ 1) (shift u dJ 2) (shift d1 dJ 1) (dx 1) [kb; jl; ib] m
      else if face =? 3 then t1 (shift u dJ (-1)) (shift u dJ (-2)) (ESpan d1) (dx 1) [kb; jh; ib] m
      else if face =? 4 then t1 (shift u dK 1) (shift u dK 2) (shift d2 dK 1) (dx 2) [kl; jb; ib] m
      else if face =? 5 then t1 (shift u dK (-1)) (shift u dK (-2)) (ESpan d2) (dx 2) [kh; jb; ib] m
      else Some m
    else if type =? 2 then
      if face =? 0 then t2 (shift_xy u 1 1) (shift u dI 1) (shift u dJ 1) [kb; jl; il] m
      else if face =? 1 then t2 (shift_xy u (-1) 1) (shift u dI (-1)) (shift u dJ 1) [kb; jl; il] m
      else if face =? 2 then t2 (shift_xy u 1 (-1)) (shift u dI 1) (shift u dJ (-1)) [kb; jl; il] m
      else if face =? 3 then t2 (shift_xy u (-1) (-1)) (shift u dI (-1)) (shift u dJ (-1)) [kb; jl; il] m
      else if face =? 4 then t2 (shift_xz u 1 1) (shift u dI 1) (shift u dK 1) [kl; jb; il] m
      else if face =? 5 then t2 (shift_xz u (-1) 1) (shift u dI (-1)) (shift u dK 1) [kl; jb; il] m
      else if face =? 6 then t2 (shift_xz u 1 (-1)) (shift u dI 1) (shift u dK (-1)) [kl; jb; il] m
      else if face =? 7 then t2 (shift_xz u (-1) (-1)) (shift u dI (-1)) (shift u dK (-1)) [kl; jb; il] m
      else if face =? 8 then t2 (shift_yz u 1 1) (shift u dJ 1) (shift u dK 1) [kl; jl; ib] m
      else if face =? 9 then t2 (shift_yz u (-1) 1) (shift u dJ (-1)) (shift u dK 1) [kl; jl; ib] m
      else if face =? 10 then t2 (shift_yz u 1 (-1)) (shift u dJ 1) (shift u dK (-1)) [kl; jl; ib] m
      else if face =? 11 then t2 (shift_yz u (-1) (-1)) (shift u dJ (-1)) (shift u dK (-1)) [kl; jl; ib] m
      else Some m
    else if type =? 3 then
      if ((face =? 0) || (face =? 4))%bool then t2 (shift_xy u 1 1) (shift u dI 1) (shift u dJ 1) [kl; jl; il] m
      else if ((face =? 1) || (face =? 5))%bool then t2 (shift_xy u (-1) 1) (shift u dI (-1)) (shift u dJ 1) [kl; jl; il] m
      else if ((face =? 2) || (face =? 6))%bool then t2 (shift_xy u 1 (-1)) (shift u dI 1) (shift u dJ (-1)) [kl; jl; il] m
      else if ((face =? 3) || (face =? 7))%bool then t2 (shift_xy u (-1) (-1)) (shift u dI (-1)) (shift u dJ (-1)) [kl; jl; il] m
      else Some m
    else Some m.

  (** cd_correct_bc_3d_cuda.cpp:183-337 *)
  Definition cd_3d_set_poisson_bc (i0 i1 j0 j1 k0 k1 : Z) (dx : Z -> S) (ugcw : Z) (u_ : ptr)
      (bLo bHi : Z -> Z) (exOrder face type btype : Z) (alpha beta : S) (m : mem S) : option (mem S) :=
    let i := Ib i0 i1 in
    let j := Jb j0 j1 in
    let k := Kb k0 k1 in
    let u := make_md_span_g u_ ugcw [k; j; i] in
    let ib := Ib (Z.max (bLo 0) i0) (Z.min (bHi 0) i1) in
    let jb := Jb (Z.max (bLo 1) j0) (Z.min (bHi 1) j1) in
    let kb := Kb (Z.max (bLo 2) k0) (Z.min (bHi 2) k1) in
    let il := Ib (bLo 0) (bLo 0) in let ih := Ib (bHi 0) (bHi 0) in
    let jl := Jb (bLo 1) (bLo 1) in let jh := Jb (bHi 1) (bHi 1) in
    let kl := Kb (bLo 2) (bLo 2) in let kh := Kb (bHi 2) (bHi 2) in
    let t1 (u1 u2 : @expr S) (h : S) (p : list dbnd) (m : mem S) :=
      if btype =? 0 then
        if exOrder =? 1 then with_domain p [u ::= lit (-1) .* u1]%E m
        else if exOrder =? 2 then with_domain p [u ::= lit (-2) .* u1 + u2 /. lit 3]%E m
        else Some m
      else if btype =? 1 then with_domain p [u ::= u1]%E m
      else if btype =? 4 then
        if exOrder =? 1 then with_domain p [u ::= ((lit 2 * alpha - h * beta) / (lit 2 * alpha + h * beta))%T .* u1]%E m
        else if exOrder =? 2 then with_domain p [u ::= ((lit 8 * alpha - lit 6 * beta * h) / (lit 8 * alpha + lit 3 * beta * h))%T .* u1 + (h / (lit 8 * alpha + lit 3 * beta * h))%T .* u2]%E m
        else Some m
      else Some m in
    let t2 (u1 u2 u3 : @expr S) (p : list dbnd) (m : mem S) := with_domain p [u ::= u2 + u3 - u1]%E m in
    if type =? 1 then
      if face =? 0 then t1 (shift u dI 1) (shift u dI 2) (dx 0) [kb; jb; il] m
      else if face =? 1 then t1 (shift u dI (-1)) (shift u dI (-2)) (dx 0) [kb; jb; ih] m
      else if face =? 2 then t1 (shift u dJ 1) (shift u dJ 2) (dx 1) [kb; jl; ib] m
      else if face =? 3 then t1 (shift u dJ (-1)) (shift u dJ (-2)) (dx 1) [kb; jh; ib] m
      else if face =? 4 then t1 (shift u dK 1) (shift u dK 2) (dx 2) [kl; jb; ib] m
      else if face =? 5 then t1 (shift u dK (-1)) (shift u dK (-2)) (dx 2) [kh; jb; ib] m
      else Some m
    else if type =? 2 then
      if face =? 0 then t2 (shift_xy u 1 1) (shift u dI 1) (shift u dJ 1) [kb; jl; il] m
      else if face =? 1 then t2 (shift_xy u (-1) 1) (shift u dI (-1)) (shift u dJ 1) [kb; jl; il] m
      else if face =? 2 then t2 (shift_xy u 1 (-1)) (shift u dI 1) (shift u dJ (-1)) [kb; jl; il] m
      else if face =? 3 then t2 (shift_xy u (-1) (-1)) (shift u dI (-1)) (shift u dJ (-1)) [kb; jl; il] m
      else if face =? 4 then t2 (shift_xz u 1 1) (shift u dI 1) (shift u dK 1) [kl; jb; il] m
      else if face =? 5 then t2 (shift_xz u (-1) 1) (shift u dI (-1)) (shift u dK 1) [kl; jb; il] m
      else if face =? 6 then t2 (shift_xz u 1 (-1)) (shift u dI 1) (shift u dK (-1)) [kl; jb; il] m
      else if face =? 7 then t2 (shift_xz u (-1) (-1)) (shift u dI (-1)) (shift u dK (-1)) [kl; jb; il] m
      else if face =? 8 then t2 (shift_yz u 1 1) (shift u dJ 1) (shift u dK 1) [kl; jl; ib] m
      else if face =? 9 then t2 (shift_yz u (-1) 1) (shift u dJ (-1)) (shift u dK 1) [kl; jl; ib] m
      else if face =? 10 then t2 (shift_yz u 1 (-1)) (shift u dJ 1) (shift u dK (-1)) [kl; jl; ib] m
      else if face =? 11 then t2 (shift_yz u (-1) (-1)) (shift u dJ (-1)) (shift u dK (-1)) [kl; jl; ib] m
      else Some m
    else if type =? 3 then
      if ((face =? 0) || (face =? 4))%bool then t2 (shift_xy u 1 1) (shift u dI 1) (shift u dJ 1) [kl; jl; il] m
      else if ((face =? 1) || (face =? 5))%bool then t2 (shift_xy u (-1) 1) (shift u dI (-1)) (shift u dJ 1) [kl; jl; il] m
      else if ((face =? 2) || (face =? 6))%bool then t2 (shift_xy u 1 (-1)) (shift u dI 1) (shift u dJ (-1)) [kl; jl; il] m
      else if ((face =? 3) || (face =? 7))%bool then t2 (shift_xy u (-1) (-1)) (shift u dI (-1)) (shift u dJ (-1)) [kl; jl; il] m
      else Some m
    else Some m.
End BC.
