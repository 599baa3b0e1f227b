(** * Stencil coefficient kernels: src/cuda/cd_stencil_{1,2,3}d_cuda.cpp

    [dx] is a host array; the closing [copy_to] calls have an empty body.  The
    lambdas of the C++ functions are local functions of the assignments' domain.
    The constants computed in double ([dr], [8.0 / 3.0], ...) are computed in the
    scalar type. *)

From Verif Require Import Base ModelBounds ModelIters ModelSpan ModelProxy KernelNotations.
Import ListNotations.
Open Scope Z_scope.

(** Arithmetic of window expressions, [PSt i] being [st(i)]. *)
Declare Scope proxy_scope.
Delimit Scope proxy_scope with P.
Infix "+" := (POp OAdd) : proxy_scope.
Infix "-" := (POp OSub) : proxy_scope.
Infix "*" := (POp OMul) : proxy_scope.
Infix "/" := (POp ODiv) : proxy_scope.
Notation "- p" := (PNeg p) : proxy_scope.

Section Stencil.
  Context {S : Scalar}.


  (** ** 1D *)

  (** cd_stencil_1d_cuda.cpp:29-53 *)
  Definition cd_stencil_1d_offdiag (i0 i1 : Z) (bi0 bi1 : Z) (dx : Z -> S) (beta : S) (b0_ : ptr) (sgcw : Z)
      (st_ : ptr) (m : mem S) : option (mem S) :=
    let i := Ib i0 i1 in
    let b := Ib bi0 bi1 in
    let w := Wb 0 2 in
    let st := make_md_span_g st_ sgcw [i; w] in
    let b0 := make_md_span b0_ [d_plus b 1] in
    let d0 := (- beta / (dx 0 * dx 0))%T in
    with_window st [i]
      [WSet2 1 2 (PVec (d0 .* EStencil up b0 dI)%E)] m.

  (** cd_stencil_1d_cuda.cpp:55-70 *)
  Definition cd_stencil_1d_poisson_offdiag (i0 i1 : Z) (dx : Z -> S) (beta : S) (sgcw : Z) (st_ : ptr) (m :
      mem S) : option (mem S) :=
    let i := Ib i0 i1 in
    let w := Wb 0 2 in
    let st := make_md_span_g st_ sgcw [i; w] in
    let d0 := (- beta / (dx 0 * dx 0))%T in
    with_window st [i] [WSet1 1 (PNum d0); WSet1 2 (PNum d0)] m.

  (** cd_stencil_1d_cuda.cpp:72-92 *)
  Definition cd_stencil_1d_v1diag (i0 i1 : Z) (ai0 ai1 : Z) (alpha : S) (a_ : ptr) (sgcw : Z) (st_ : ptr) (m
      : mem S) : option (mem S) :=
    let i := Ib i0 i1 in
    let ai := Ib ai0 ai1 in
    let w := Wb 0 2 in
    let st := make_md_span_g st_ sgcw [i; w] in
    let a := make_md_span a_ [ai] in
    with_window st [i] [WSet1 0 (- (PSt 1 + PSt 2) + PVec (alpha .* $a)%E)%P] m.

  (** cd_stencil_1d_cuda.cpp:94-106 *)
  Definition cd_stencil_1d_v2diag (i0 i1 : Z) (alpha : S) (sgcw : Z) (st_ : ptr) (m : mem S) : option (mem
      S) :=
    let i := Ib i0 i1 in
    let w := Wb 0 2 in
    let st := make_md_span_g st_ sgcw [i; w] in
    with_window st [i] [WSet1 0 (- (PSt 1 + PSt 2) + PNum alpha)%P] m.

  (** cd_stencil_1d_cuda.cpp:108-123 *)
  Definition cd_stencil_1d_poisson_diag (i0 i1 : Z) (sgcw : Z) (st_ : ptr) (m : mem S) : option (mem S) :=
    let i := Ib i0 i1 in
    let w := Wb 0 2 in
    let st := make_md_span_g st_ sgcw [i; w] in
    with_window st [i] [WSet1 0 (- (PSt 1 + PSt 2))%P] m.

  (** cd_stencil_1d_cuda.cpp:125-156 *)
  Definition cd_stencil_1d_adj_diag (i0 i1 : Z) (pi0 pi1 : Z) (side btype exOrder : Z) (dx : Z -> S) (beta :
      S) (b0_ : ptr) (sgcw : Z) (st_ : ptr) (m : mem S) : option (mem S) :=
    let i := Ib i0 i1 in
    let w := Wb 0 2 in
    let st := make_md_span_g st_ sgcw [i; w] in
    let b0 := make_md_span b0_ [d_plus i 1] in
    let h := dx 0 in
    if btype =? 4 then
      let f := (beta / h)%T in
      let pi := Ib (pi0 - 2 * side + 1) (pi0 - 2 * side + 1) in
      if exOrder =? 2 then
        let b := shift b0 dI side in
        with_window st [pi] [WSet1 0 (PSt 0 - PVec ((f .* b) * ((lit 3 * h)%T .+ (lit 16 .* b)))%E)%P] m
      else Some m
    else Some m.

  (** cd_stencil_1d_cuda.cpp:158-185 *)
  Definition cd_stencil_1d_adj_poisson_diag (i0 i1 : Z) (pi0 pi1 : Z) (side btype exOrder : Z) (dx : Z -> S)
      (beta : S) (sgcw : Z) (st_ : ptr) (m : mem S) : option (mem S) :=
    let i := Ib i0 i1 in
    let w := Wb 0 2 in
    let st := make_md_span_g st_ sgcw [i; w] in
    let h := dx 0 in
    if ((btype =? 4) && (exOrder =? 2))%bool then
      let f := (beta / h)%T in
      let pi := Ib (pi0 - 2 * side + 1) (pi0 - 2 * side + 1) in
      with_window st [pi] [WSet1 0 (PSt 0 - PNum (f * (lit 3 * h + lit 16))%T)%P] m
    else Some m.

  (** cd_stencil_1d_cuda.cpp:187-221 *)
  Definition cd_stencil_1d_adj_cf_diag (i0 i1 : Z) (pi0 pi1 : Z) (r side intOrder : Z) (dx : Z -> S) (beta :
      S) (b0_ : ptr) (sgcw : Z) (st_ : ptr) (m : mem S) : option (mem S) :=
    let i := Ib i0 i1 in
    let dr := (lit 2 * (lit r - lit 1) / (lit r + lit 1))%T in
    let w := Wb 0 2 in
    let st := make_md_span_g st_ sgcw [i; w] in
    let b0 := make_md_span b0_ [d_plus i 1] in
    let h := dx 0 in
    let f := (beta / (h * h))%T in
    let pil := Ib (pi0 - 2 * side + 1) (pi0 - 2 * side + 1) in
    let func (b : @expr S) (p : list dbnd) (m : mem S) :=
      if intOrder =? 1 then with_window st p [WSet1 0 (PSt 0 - PVec ((f / lit 3)%T .* b)%E)%P] m
      else if intOrder =? 2 then with_window st p [WSet1 0 (PSt 0 - PVec ((f * dr)%T .* b)%E)%P] m
      else Some m in
    func (shift b0 dI side) [pil] m.

  (** cd_stencil_1d_cuda.cpp:223-254 *)
  Definition cd_stencil_1d_adj_poisson_cf_diag (i0 i1 : Z) (pi0 pi1 : Z) (r side intOrder : Z) (dx : Z -> S)
      (beta : S) (sgcw : Z) (st_ : ptr) (m : mem S) : option (mem S) :=
    let i := Ib i0 i1 in
    let dr := (lit 2 * (lit r - lit 1) / (lit r + lit 1))%T in
    let w := Wb 0 2 in
    let st := make_md_span_g st_ sgcw [i; w] in
    let h := dx 0 in
    let f := (beta / (h * h))%T in
    let pil := Ib (pi0 - 2 * side + 1) (pi0 - 2 * side + 1) in
    let func (p : list dbnd) (m : mem S) :=
      if intOrder =? 1 then with_window st p [WSet1 0 (PSt 0 - PNum (f / lit 3)%T)%P] m
      else if intOrder =? 2 then with_window st p [WSet1 0 (PSt 0 - PNum (f * dr)%T)%P] m
      else Some m in
    func [pil] m.

  (** cd_stencil_1d_cuda.cpp:256-318 *)
  Definition cd_stencil_1d_adj_offdiag (i0 i1 : Z) (pi0 pi1 : Z) (side btype exOrder : Z) (dx : Z -> S)
      (dir_factor neu_factor beta : S) (b0_ : ptr) (sgcw : Z) (st_ : ptr) (m : mem S) : option (mem S) :=
    let i := Ib i0 i1 in
    let w := Wb 0 2 in
    let st := make_md_span_g st_ sgcw [i; w] in
    let b0 := make_md_span b0_ [d_plus i 1] in
    let h := dx 0 in
    let u := 1 + side in
    let v := 2 - side in
    let pil := Ib (pi0 - 2 * side + 1) (pi0 - 2 * side + 1) in
    let bt4 (b : @expr S) (p : list dbnd) (m : mem S) :=
      if exOrder =? 1 then with_window st p [WSet1 u (PSt u * PVec ((lit 2 * h)%T ./ (lit 4 .* b +. h))%E)%P] m
      else if exOrder =? 2 then
        let f := ((beta .* b) / (h .* ((lit 3 * h)%T .+ (lit 16 .* b))))%E in
        with_window st p [WSet1 u (PVec (lit (-9) .* f)%E); WSet1 v (PSt v - PVec f)%P] m
      else Some m in
    let bt0 (p : list dbnd) (m : mem S) :=
      if exOrder =? 1 then with_window st p [WSet1 u (PSt u * PNum dir_factor)%P] m
      else if exOrder =? 2 then
        with_window st p [WSet1 v (PSt v + PSt u / PNum (lit 3))%P; WSet1 u (PSt u * PNum (lit 8 / lit 3)%T)%P] m
      else Some m in
    let bt1 (p : list dbnd) (m : mem S) := with_window st p [WSet1 u (PNum (lit 0))] m in
    if btype =? 4 then bt4 (shift b0 dI side) [pil] m
    else if btype =? 0 then bt0 [pil] m
    else if btype =? 1 then bt1 [pil] m
    else Some m.

  (** cd_stencil_1d_cuda.cpp:320-380 *)
  Definition cd_stencil_1d_adj_poisson_offdiag (i0 i1 : Z) (pi0 pi1 : Z) (side btype exOrder : Z) (dx : Z ->
      S) (dir_factor neu_factor beta : S) (sgcw : Z) (st_ : ptr) (m : mem S) : option (mem S) :=
    let i := Ib i0 i1 in
    let w := Wb 0 2 in
    let st := make_md_span_g st_ sgcw [i; w] in
    let h := dx 0 in
    let u := 1 + side in
    let v := 2 - side in
    let pil := Ib (pi0 - 2 * side + 1) (pi0 - 2 * side + 1) in
    let bt4 (p : list dbnd) (m : mem S) :=
      if exOrder =? 1 then with_window st p [WSet1 u (PSt u * PNum (lit 2 * h / (lit 4 + h))%T)%P] m
      else if exOrder =? 2 then
        let f := (beta / (h * (lit 3 * h + lit 16)))%T in
        with_window st p [WSet1 u (PNum (lit (-9) * f)%T); WSet1 v (PSt v - PNum f)%P] m
      else Some m in
    let bt0 (p : list dbnd) (m : mem S) :=
      if exOrder =? 1 then with_window st p [WSet1 u (PSt u * PNum dir_factor)%P] m
      else if exOrder =? 2 then
        with_window st p [WSet1 v (PSt v + PSt u / PNum (lit 3))%P; WSet1 u (PSt u * PNum (lit 8 / lit 3)%T)%P] m
      else Some m in
    let bt1 (p : list dbnd) (m : mem S) := with_window st p [WSet1 u (PNum (lit 0))] m in
    if btype =? 4 then bt4 [pil] m
    else if btype =? 0 then bt0 [pil] m
    else if btype =? 1 then bt1 [pil] m
    else Some m.

  (** cd_stencil_1d_cuda.cpp:382-413 *)
  Definition cd_stencil_1d_adj_cf_offdiag (i0 i1 : Z) (ci0 ci1 : Z) (r side intOrder sgcw : Z) (st_ : ptr)
      (m : mem S) : option (mem S) :=
    let i := Ib i0 i1 in
    let w := Wb 0 2 in
    let st := make_md_span_g st_ sgcw [i; w] in
    let cil := Ib (ci0 - 2 * side + 1) (ci0 - 2 * side + 1) in
    let u := 1 + side in
    let v := 2 - side in
    let func (p : list dbnd) (m : mem S) :=
      if intOrder =? 1 then with_window st p [WSet1 u (PSt u * PNum (lit 2 / lit 3)%T)%P] m
      else if intOrder =? 2 then
        with_window st p
          [WSet1 v (PSt v - PSt u * PNum ((lit r - lit 1) / (lit r + lit 3))%T)%P;
           WSet1 u (PSt u * PNum (lit 8 / ((lit r + lit 1) * (lit r + lit 3)))%T)%P] m
      else Some m in
    func [cil] m.

  (** cd_stencil_1d_cuda.cpp:415-437 *)
  Definition cd_stencil_1d_readj_offdiag (i0 i1 : Z) (pi0 pi1 : Z) (side sgcw : Z) (st_ : ptr) (m : mem S) :
      option (mem S) :=
    let i := Ib i0 i1 in
    let w := Wb 0 2 in
    let st := make_md_span_g st_ sgcw [i; w] in
    let u := 1 + side in
    let pil := Ib (pi0 - 2 * side + 1) (pi0 - 2 * side + 1) in
    let f (p : list dbnd) (m : mem S) := with_window st p [WSet1 u (PNum (lit 0))] m in
    f [pil] m.

  (** cd_stencil_1d_cuda.cpp:439-467 *)
  Definition cd_stencil_1d_adj_cf_bdryrhs (i0 i1 : Z) (pi0 pi1 : Z) (side sgcw : Z) (st_ : ptr) (gcw : Z)
      (u_ rhs_ : ptr) (m : mem S) : option (mem S) :=
    let i := Ib i0 i1 in
    let w := Wb 0 2 in
    let st := make_md_span_g st_ sgcw [i; w] in
    let u := make_md_span_g u_ gcw [i] in
    let rhs := make_md_span rhs_ [i] in
    let ui := 1 + side in
    let s := 2 * side - 1 in
    let pil := Ib (pi0 - 2 * side + 1) (pi0 - 2 * side + 1) in
    let f (v : @expr S) (p : list dbnd) (m : mem S) := with_window st p [WSub rhs (PSt ui * PVec v)%P] m in
    f (shift u dI s) [pil] m.

  (** ** 2D *)

  (** cd_stencil_2d_cuda.cpp:19-50 *)
  Definition cd_stencil_2d_offdiag (i0 j0 i1 j1 : Z) (bi0 bj0 bi1 bj1 : Z) (dx : Z -> S) (beta : S) (b0_ b1_
      : ptr) (sgcw : Z) (st_ : ptr) (m : mem S) : option (mem S) :=
    let i := Ib i0 i1 in
    let j := Jb j0 j1 in
    let bi := Ib bi0 bi1 in
    let bj := Jb bj0 bj1 in
    let w := Wb 0 4 in
    let st := make_md_span_g st_ sgcw [j; i; w] in
    let b0 := make_md_span b0_ [bj; d_plus bi 1] in
    let b1 := make_md_span b1_ [bi; d_plus bj 1] in
    let d0 := (- beta / (dx 0 * dx 0))%T in
    let d1 := (- beta / (dx 1 * dx 1))%T in
    with_window st [j; i]
      [WSet2 1 2 (PVec (d0 .* EStencil up b0 dI)%E);
       WSet2 3 4 (PVec (d1 .* EStencil up b1 dJ)%E)] m.

  (** cd_stencil_2d_cuda.cpp:52-74 *)
  Definition cd_stencil_2d_poisson_offdiag (i0 j0 i1 j1 : Z) (dx : Z -> S) (beta : S) (sgcw : Z) (st_ : ptr)
      (m : mem S) : option (mem S) :=
    let i := Ib i0 i1 in
    let j := Jb j0 j1 in
    let w := Wb 0 4 in
    let st := make_md_span_g st_ sgcw [j; i; w] in
    let d0 := (- beta / (dx 0 * dx 0))%T in
    let d1 := (- beta / (dx 1 * dx 1))%T in
    with_window st [j; i] [WSet1 1 (PNum d0); WSet1 2 (PNum d0); WSet1 3 (PNum d1); WSet1 4 (PNum d1)] m.

  (** cd_stencil_2d_cuda.cpp:76-101 *)
  Definition cd_stencil_2d_v1diag (i0 j0 i1 j1 : Z) (ai0 aj0 ai1 aj1 : Z) (alpha : S) (a_ : ptr) (sgcw : Z)
      (st_ : ptr) (m : mem S) : option (mem S) :=
    let i := Ib i0 i1 in
    let j := Jb j0 j1 in
    let ai := Ib ai0 ai1 in
    let aj := Jb aj0 aj1 in
    let w := Wb 0 4 in
    let st := make_md_span_g st_ sgcw [j; i; w] in
    let a := make_md_span a_ [aj; ai] in
    with_window st [j; i] [WSet1 0 (- (PSt 1 + PSt 2 + PSt 3 + PSt 4) + PVec (alpha .* $a)%E)%P] m.

  (** cd_stencil_2d_cuda.cpp:103-121 *)
  Definition cd_stencil_2d_v2diag (i0 j0 i1 j1 : Z) (alpha : S) (sgcw : Z) (st_ : ptr) (m : mem S) : option
      (mem S) :=
    let i := Ib i0 i1 in
    let j := Jb j0 j1 in
    let w := Wb 0 4 in
    let st := make_md_span_g st_ sgcw [j; i; w] in
    with_window st [j; i] [WSet1 0 (- (PSt 1 + PSt 2 + PSt 3 + PSt 4) + PNum alpha)%P] m.

  (** cd_stencil_2d_cuda.cpp:123-136 *)
  Definition cd_stencil_2d_poisson_diag (i0 j0 i1 j1 : Z) (sgcw : Z) (st_ : ptr) (m : mem S) : option (mem
      S) :=
    let i := Ib i0 i1 in
    let j := Jb j0 j1 in
    let w := Wb 0 4 in
    let st := make_md_span_g st_ sgcw [j; i; w] in
    with_window st [j; i] [WSet1 0 (- (PSt 1 + PSt 2 + PSt 3 + PSt 4))%P] m.

  (** cd_stencil_2d_cuda.cpp:138-202 *)
  Definition cd_stencil_2d_adj_diag (i0 j0 i1 j1 : Z) (pi0 pj0 pi1 pj1 : Z) (dir side btype exOrder : Z) (dx
      : Z -> S) (beta : S) (b0_ b1_ : ptr) (sgcw : Z) (st_ : ptr) (m : mem S) : option (mem S) :=
    let i := Ib i0 i1 in
    let j := Jb j0 j1 in
    let w := Wb 0 4 in
    let st := make_md_span_g st_ sgcw [j; i; w] in
    let b0 := make_md_span b0_ [j; d_plus i 1] in
    let b1 := make_md_span b1_ [i; d_plus j 1] in
    let h := dx dir in
    let pi := Ib pi0 pi1 in
    let pj := Jb pj0 pj1 in
    let bt4 (f : S) (b : @expr S) (p : list dbnd) (m : mem S) :=
      if exOrder =? 2 then with_window st p [WSet1 0 (PSt 0 - PVec ((f .* b) * ((lit 3 * h)%T .+ (lit 16 .* b)))%E)%P] m
      else Some m in
    let bt0 (f : S) (b : @expr S) (p : list dbnd) (m : mem S) :=
      if exOrder =? 2 then with_window st p [WSet1 0 (PSt 0 + PVec (f .* b)%E)%P] m
      else Some m in
    if btype =? 4 then
      let f := (beta / h)%T in
      if dir =? 0 then bt4 f (shift b0 dI side) [pj; Ib (pi0 - 2 * side + 1) (pi0 - 2 * side + 1)] m
      else Some m
    else if btype =? 0 then
      let f := (beta / (lit 3 * h * h))%T in
      if dir =? 0 then bt0 f (ESpan b0) [pj; Ib (pi0 - side + 1) (pi0 - side + 1)] m
      else if dir =? 1 then bt0 f (ESpan b1) [Jb (pj0 - side + 1) (pj0 - side + 1); pi] m
      else Some m
    else Some m.

  (** cd_stencil_2d_cuda.cpp:204-236 *)
  Definition cd_stencil_2d_adj_poisson_diag (i0 j0 i1 j1 : Z) (pi0 pj0 pi1 pj1 : Z) (dir side btype exOrder
      : Z) (dx : Z -> S) (beta : S) (sgcw : Z) (st_ : ptr) (m : mem S) : option (mem S) :=
    let i := Ib i0 i1 in
    let j := Jb j0 j1 in
    let w := Wb 0 4 in
    let st := make_md_span_g st_ sgcw [j; i; w] in
    let h := dx dir in
    let pj := Jb pj0 pj1 in
    if ((btype =? 4) && (exOrder =? 2) && (dir =? 0))%bool then
      let f := (beta / h)%T in
      let pi := Ib (pi0 - 2 * side + 1) (pi0 - 2 * side + 1) in
      with_window st [pj; pi] [WSet1 0 (PSt 0 - PNum (f * (lit 3 * h + lit 16))%T)%P] m
    else Some m.

  (** cd_stencil_2d_cuda.cpp:238-291 *)
  Definition cd_stencil_2d_adj_cf_diag (i0 j0 i1 j1 : Z) (pi0 pj0 pi1 pj1 : Z) (r dir side intOrder : Z) (dx
      : Z -> S) (beta : S) (b0_ b1_ : ptr) (sgcw : Z) (st_ : ptr) (m : mem S) : option (mem S) :=
    let i := Ib i0 i1 in
    let j := Jb j0 j1 in
    let dr := (lit 2 * (lit r - lit 1) / (lit r + lit 1))%T in
    let w := Wb 0 4 in
    let st := make_md_span_g st_ sgcw [j; i; w] in
    let b0 := make_md_span b0_ [j; d_plus i 1] in
    let b1 := make_md_span b1_ [i; d_plus j 1] in
    let h := dx dir in
    let f := (beta / (h * h))%T in
    let pi := Ib pi0 pi1 in
    let pj := Jb pj0 pj1 in
    let pil := Ib (pi0 - 2 * side + 1) (pi0 - 2 * side + 1) in
    let pjl := Jb (pj0 - 2 * side + 1) (pj0 - 2 * side + 1) in
    let func (b : @expr S) (p : list dbnd) (m : mem S) :=
      if intOrder =? 1 then with_window st p [WSet1 0 (PSt 0 - PVec ((f / lit 3)%T .* b)%E)%P] m
      else if intOrder =? 2 then with_window st p [WSet1 0 (PSt 0 - PVec ((f * dr)%T .* b)%E)%P] m
      else Some m in
    if dir =? 0 then func (shift b0 dI side) [pj; pil] m
    else if dir =? 1 then func (shift b1 dJ side) [pjl; pi] m
    else Some m.

  (** cd_stencil_2d_cuda.cpp:293-341 *)
  Definition cd_stencil_2d_adj_poisson_cf_diag (i0 j0 i1 j1 : Z) (pi0 pj0 pi1 pj1 : Z) (r dir side intOrder
      : Z) (dx : Z -> S) (beta : S) (sgcw : Z) (st_ : ptr) (m : mem S) : option (mem S) :=
    let i := Ib i0 i1 in
    let j := Jb j0 j1 in
    let dr := (lit 2 * (lit r - lit 1) / (lit r + lit 1))%T in
    let w := Wb 0 4 in
    let st := make_md_span_g st_ sgcw [j; i; w] in
    let h := dx dir in
    let f := (beta / (h * h))%T in
    let pi := Ib pi0 pi1 in
    let pj := Jb pj0 pj1 in
    let pil := Ib (pi0 - 2 * side + 1) (pi0 - 2 * side + 1) in
    let pjl := Jb (pj0 - 2 * side + 1) (pj0 - 2 * side + 1) in
    let func (p : list dbnd) (m : mem S) :=
      if intOrder =? 1 then with_window st p [WSet1 0 (PSt 0 - PNum (f / lit 3)%T)%P] m
      else if intOrder =? 2 then with_window st p [WSet1 0 (PSt 0 - PNum (f * dr)%T)%P] m
      else Some m in
    if dir =? 0 then func [pj; pil] m
    else if dir =? 1 then func [pjl; pi] m
    else Some m.

  (** cd_stencil_2d_cuda.cpp:343-436 *)
  Definition cd_stencil_2d_adj_offdiag (i0 j0 i1 j1 : Z) (pi0 pj0 pi1 pj1 : Z) (dir side btype exOrder : Z)
      (dx : Z -> S) (dir_factor neu_factor beta : S) (b0_ b1_ : ptr) (sgcw : Z) (st_ : ptr) (m : mem S) :
      option (mem S) :=
    let i := Ib i0 i1 in
    let j := Jb j0 j1 in
    let w := Wb 0 4 in
    let st := make_md_span_g st_ sgcw [j; i; w] in
    let b0 := make_md_span b0_ [j; d_plus i 1] in
    let b1 := make_md_span b1_ [i; d_plus j 1] in
    let h := dx dir in
    let u := 2 * dir + 1 + side in
    let v := 2 * dir + 2 - side in
    let pi := Ib pi0 pi1 in
    let pj := Jb pj0 pj1 in
    let pil := Ib (pi0 - 2 * side + 1) (pi0 - 2 * side + 1) in
    let pjl := Jb (pj0 - 2 * side + 1) (pj0 - 2 * side + 1) in
    let bt4 (b : @expr S) (p : list dbnd) (m : mem S) :=
      if exOrder =? 1 then with_window st p [WSet1 u (PSt u * PVec ((lit 2 * h)%T ./ (lit 4 .* b +. h))%E)%P] m
      else if exOrder =? 2 then
        let f := ((beta .* b) / (h .* ((lit 3 * h)%T .+ (lit 16 .* b))))%E in
        with_window st p [WSet1 u (PVec (lit (-9) .* f)%E); WSet1 v (PSt v - PVec f)%P] m
      else Some m in
    let bt0 (p : list dbnd) (m : mem S) :=
      if exOrder =? 1 then with_window st p [WSet1 u (PSt u * PNum dir_factor)%P] m
      else if exOrder =? 2 then
        with_window st p [WSet1 v (PSt v + PSt u / PNum (lit 3))%P; WSet1 u (PSt u * PNum (lit 8 / lit 3)%T)%P] m
      else Some m in
    let bt1 (p : list dbnd) (m : mem S) := with_window st p [WSet1 u (PNum (lit 0))] m in
    if btype =? 4 then
      if dir =? 0 then bt4 (shift b0 dI side) [pj; pil] m
      else Some m
    else if btype =? 0 then
      if dir =? 0 then bt0 [pj; pil] m
      else if dir =? 1 then bt0 [pjl; pi] m
      else Some m
    else if btype =? 1 then
      if dir =? 0 then bt1 [pj; pil] m
      else if dir =? 1 then bt1 [pjl; pi] m
      else Some m
    else Some m.

  (** cd_stencil_2d_cuda.cpp:438-527 *)
  Definition cd_stencil_2d_adj_poisson_offdiag (i0 j0 i1 j1 : Z) (pi0 pj0 pi1 pj1 : Z) (dir side btype
      exOrder : Z) (dx : Z -> S) (dir_factor neu_factor beta : S) (sgcw : Z) (st_ : ptr) (m : mem S) :
      option (mem S) :=
    let i := Ib i0 i1 in
    let j := Jb j0 j1 in
    let w := Wb 0 4 in
    let st := make_md_span_g st_ sgcw [j; i; w] in
    let h := dx dir in
    let u := 2 * dir + 1 + side in
    let v := 2 * dir + 2 - side in
    let pi := Ib pi0 pi1 in
    let pj := Jb pj0 pj1 in
    let pil := Ib (pi0 - 2 * side + 1) (pi0 - 2 * side + 1) in
    let pjl := Jb (pj0 - 2 * side + 1) (pj0 - 2 * side + 1) in
    let bt4 (p : list dbnd) (m : mem S) :=
      if exOrder =? 1 then with_window st p [WSet1 u (PSt u * PNum (lit 2 * h / (lit 4 + h))%T)%P] m
      else if exOrder =? 2 then
        let f := (beta / (h * (lit 3 * h + lit 16)))%T in
        with_window st p [WSet1 u (PNum (lit (-9) * f)%T); WSet1 v (PSt v - PNum f)%P] m
      else Some m in
    let bt0 (p : list dbnd) (m : mem S) :=
      if exOrder =? 1 then with_window st p [WSet1 u (PSt u * PNum dir_factor)%P] m
      else if exOrder =? 2 then
        with_window st p [WSet1 v (PSt v + PSt u / PNum (lit 3))%P; WSet1 u (PSt u * PNum (lit 8 / lit 3)%T)%P] m
      else Some m in
    let bt1 (p : list dbnd) (m : mem S) := with_window st p [WSet1 u (PNum (lit 0))] m in
    if btype =? 4 then
      if dir =? 0 then bt4 [pj; pil] m
      else Some m
    else if btype =? 0 then
      if dir =? 0 then bt0 [pj; pil] m
      else if dir =? 1 then bt0 [pjl; pi] m
      else Some m
    else if btype =? 1 then
      if dir =? 0 then bt1 [pj; pil] m
      else if dir =? 1 then bt1 [pjl; pi] m
      else Some m
    else Some m.

  (** cd_stencil_2d_cuda.cpp:529-577 *)
  Definition cd_stencil_2d_adj_cf_offdiag (i0 j0 i1 j1 : Z) (ci0 cj0 ci1 cj1 : Z) (r dir side intOrder sgcw
      : Z) (st_ : ptr) (m : mem S) : option (mem S) :=
    let i := Ib i0 i1 in
    let j := Jb j0 j1 in
    let w := Wb 0 4 in
    let st := make_md_span_g st_ sgcw [j; i; w] in
    let ci := Ib ci0 ci1 in
    let cj := Jb cj0 cj1 in
    let cil := Ib (ci0 - 2 * side + 1) (ci0 - 2 * side + 1) in
    let cjl := Jb (cj0 - 2 * side + 1) (cj0 - 2 * side + 1) in
    let u := 2 * dir + 1 + side in
    let v := 2 * dir + 2 - side in
    let func (p : list dbnd) (m : mem S) :=
      if intOrder =? 1 then with_window st p [WSet1 u (PSt u * PNum (lit 2 / lit 3)%T)%P] m
      else if intOrder =? 2 then
        with_window st p
          [WSet1 v (PSt v - PSt u * PNum ((lit r - lit 1) / (lit r + lit 3))%T)%P;
           WSet1 u (PSt u * PNum (lit 8 / ((lit r + lit 1) * (lit r + lit 3)))%T)%P] m
      else Some m in
    if dir =? 0 then func [cj; cil] m
    else if dir =? 1 then func [cjl; ci] m
    else Some m.

  (** cd_stencil_2d_cuda.cpp:579-618 *)
  Definition cd_stencil_2d_readj_offdiag (i0 j0 i1 j1 : Z) (pi0 pj0 pi1 pj1 : Z) (dir side sgcw : Z) (st_ :
      ptr) (m : mem S) : option (mem S) :=
    let i := Ib i0 i1 in
    let j := Jb j0 j1 in
    let w := Wb 0 4 in
    let st := make_md_span_g st_ sgcw [j; i; w] in
    let u := 2 * dir + 1 + side in
    let pi := Ib pi0 pi1 in
    let pj := Jb pj0 pj1 in
    let pil := Ib (pi0 - 2 * side + 1) (pi0 - 2 * side + 1) in
    let pjl := Jb (pj0 - 2 * side + 1) (pj0 - 2 * side + 1) in
    let f (p : list dbnd) (m : mem S) := with_window st p [WSet1 u (PNum (lit 0))] m in
    if dir =? 0 then f [pj; pil] m
    else if dir =? 1 then f [pjl; pi] m
    else Some m.

  (** cd_stencil_2d_cuda.cpp:620-665 *)
  Definition cd_stencil_2d_adj_cf_bdryrhs (i0 j0 i1 j1 : Z) (pi0 pj0 pi1 pj1 : Z) (dir side sgcw : Z) (st_ :
      ptr) (gcw : Z) (u_ rhs_ : ptr) (m : mem S) : option (mem S) :=
    let i := Ib i0 i1 in
    let j := Jb j0 j1 in
    let w := Wb 0 4 in
    let st := make_md_span_g st_ sgcw [j; i; w] in
    let u := make_md_span_g u_ gcw [j; i] in
    let rhs := make_md_span rhs_ [j; i] in
    let ui := 2 * dir + 1 + side in
    let s := 2 * side - 1 in
    let pi := Ib pi0 pi1 in
    let pj := Jb pj0 pj1 in
    let pil := Ib (pi0 - 2 * side + 1) (pi0 - 2 * side + 1) in
    let pjl := Jb (pj0 - 2 * side + 1) (pj0 - 2 * side + 1) in
    let f (v : @expr S) (p : list dbnd) (m : mem S) := with_window st p [WSub rhs (PSt ui * PVec v)%P] m in
    if dir =? 0 then f (shift u dI s) [pj; pil] m
    else if dir =? 1 then f (shift u dJ s) [pjl; pi] m
    else Some m.

  (** ** 3D *)

  (** cd_stencil_3d_cuda.cpp:19-59 *)
  Definition cd_stencil_3d_offdiag (i0 j0 k0 i1 j1 k1 : Z) (bi0 bj0 bk0 bi1 bj1 bk1 : Z) (dx : Z -> S) (beta
      : S) (b0_ b1_ b2_ : ptr) (sgcw : Z) (st_ : ptr) (m : mem S) : option (mem S) :=
    let i := Ib i0 i1 in
    let j := Jb j0 j1 in
    let k := Kb k0 k1 in
    let bi := Ib bi0 bi1 in
    let bj := Jb bj0 bj1 in
    let bk := Kb bk0 bk1 in
    let w := Wb 0 6 in
    let st := make_md_span_g st_ sgcw [k; j; i; w] in
    let b0 := make_md_span b0_ [bk; bj; d_plus bi 1] in
    let b1 := make_md_span b1_ [bi; bk; d_plus bj 1] in
    let b2 := make_md_span b2_ [bj; bi; d_plus bk 1] in
    let d0 := (- beta / (dx 0 * dx 0))%T in
    let d1 := (- beta / (dx 1 * dx 1))%T in
    let d2 := (- beta / (dx 2 * dx 2))%T in
    with_window st [k; j; i]
      [WSet2 1 2 (PVec (d0 .* EStencil up b0 dI)%E);
       WSet2 3 4 (PVec (d1 .* EStencil up b1 dJ)%E);
       WSet2 5 6 (PVec (d2 .* EStencil up b2 dK)%E)] m.

  (** cd_stencil_3d_cuda.cpp:61-87 *)
  Definition cd_stencil_3d_poisson_offdiag (i0 j0 k0 i1 j1 k1 : Z) (dx : Z -> S) (beta : S) (sgcw : Z) (st_
      : ptr) (m : mem S) : option (mem S) :=
    let i := Ib i0 i1 in
    let j := Jb j0 j1 in
    let k := Kb k0 k1 in
    let w := Wb 0 6 in
    let st := make_md_span_g st_ sgcw [k; j; i; w] in
    let d0 := (- beta / (dx 0 * dx 0))%T in
    let d1 := (- beta / (dx 1 * dx 1))%T in
    let d2 := (- beta / (dx 2 * dx 2))%T in
    with_window st [k; j; i] [WSet2 1 2 (PNum d0); WSet2 3 4 (PNum d1); WSet2 5 6 (PNum d2)] m.

  (** cd_stencil_3d_cuda.cpp:89-119 *)
  Definition cd_stencil_3d_v1diag (i0 j0 k0 i1 j1 k1 : Z) (ai0 aj0 ak0 ai1 aj1 ak1 : Z) (alpha : S) (a_ :
      ptr) (sgcw : Z) (st_ : ptr) (m : mem S) : option (mem S) :=
    let i := Ib i0 i1 in
    let j := Jb j0 j1 in
    let k := Kb k0 k1 in
    let ai := Ib ai0 ai1 in
    let aj := Jb aj0 aj1 in
    let ak := Kb ak0 ak1 in
    let w := Wb 0 6 in
    let st := make_md_span_g st_ sgcw [k; j; i; w] in
    let a := make_md_span a_ [ak; aj; ai] in
    with_window st [k; j; i] [WSet1 0 (- (PSt 1 + PSt 2 + PSt 3 + PSt 4 + PSt 5 + PSt 6) + PVec (alpha .* $a)%E)%P] m.

  (** cd_stencil_3d_cuda.cpp:121-143 *)
  Definition cd_stencil_3d_v2diag (i0 j0 k0 i1 j1 k1 : Z) (alpha : S) (sgcw : Z) (st_ : ptr) (m : mem S) :
      option (mem S) :=
    let i := Ib i0 i1 in
    let j := Jb j0 j1 in
    let k := Kb k0 k1 in
    let w := Wb 0 6 in
    let st := make_md_span_g st_ sgcw [k; j; i; w] in
    with_window st [k; j; i] [WSet1 0 (- (PSt 1 + PSt 2 + PSt 3 + PSt 4 + PSt 5 + PSt 6) + PNum alpha)%P] m.

  (** cd_stencil_3d_cuda.cpp:145-166 *)
  Definition cd_stencil_3d_poisson_diag (i0 j0 k0 i1 j1 k1 : Z) (sgcw : Z) (st_ : ptr) (m : mem S) : option
      (mem S) :=
    let i := Ib i0 i1 in
    let j := Jb j0 j1 in
    let k := Kb k0 k1 in
    let w := Wb 0 6 in
    let st := make_md_span_g st_ sgcw [k; j; i; w] in
    with_window st [k; j; i] [WSet1 0 (- (PSt 1 + PSt 2 + PSt 3 + PSt 4 + PSt 5 + PSt 6))%P] m.

  (** cd_stencil_3d_cuda.cpp:168-253 *)
  Definition cd_stencil_3d_adj_diag (i0 j0 k0 i1 j1 k1 : Z) (pi0 pj0 pk0 pi1 pj1 pk1 : Z) (dir side btype
      exOrder : Z) (dx : Z -> S) (beta : S) (b0_ b1_ b2_ : ptr) (sgcw : Z) (st_ : ptr) (m : mem S) : option
      (mem S) :=
    let i := Ib i0 i1 in
    let j := Jb j0 j1 in
    let k := Kb k0 k1 in
    let w := Wb 0 6 in
    let st := make_md_span_g st_ sgcw [k; j; i; w] in
    let b0 := make_md_span b0_ [k; j; d_plus i 1] in
    let b1 := make_md_span b1_ [i; k; d_plus j 1] in
    let b2 := make_md_span b2_ [j; i; d_plus k 1] in
    let h := dx dir in
    let pi := Ib pi0 pi1 in
    let pj := Jb pj0 pj1 in
    let pk := Kb pk0 pk1 in
    let pil := Ib (pi0 - 2 * side + 1) (pi0 - 2 * side + 1) in
    let pjl := Jb (pj0 - 2 * side + 1) (pj0 - 2 * side + 1) in
    let pkl := Kb (pk0 - 2 * side + 1) (pk0 - 2 * side + 1) in
    let bt4 (f : S) (b : @expr S) (p : list dbnd) (m : mem S) :=
      if exOrder =? 2 then with_window st p [WSet1 0 (PSt 0 - PVec ((f .* b) * ((lit 3 * h)%T .+ (lit 16 .* b)))%E)%P] m
      else Some m in
    let bt0 (f : S) (b : @expr S) (p : list dbnd) (m : mem S) :=
      if exOrder =? 2 then with_window st p [WSet1 0 (PSt 0 + PVec (f .* b)%E)%P] m
      else Some m in
    if btype =? 4 then
      let f := (beta / h)%T in
      if dir =? 0 then bt4 f (shift b0 dI side) [pk; pj; pil] m
      else if dir =? 1 then bt4 f (shift b1 dJ side) [pk; pjl; pi] m
      else if dir =? 2 then bt4 f (shift b2 dK side) [pkl; pj; pi] m
      else Some m
    else if btype =? 0 then
      let f := (beta / (lit 3 * h * h))%T in
      if dir =? 0 then bt0 f (ESpan b0) [pk; pj; pil] m
      else if dir =? 1 then bt0 f (ESpan b1) [pk; pjl; pi] m
      else if dir =? 2 then bt0 f (ESpan b2) [pkl; pj; pi] m
      else Some m
    else Some m.

  (** cd_stencil_3d_cuda.cpp:255-330 *)
  Definition cd_stencil_3d_adj_poisson_diag (i0 j0 k0 i1 j1 k1 : Z) (pi0 pj0 pk0 pi1 pj1 pk1 : Z) (dir side
      btype exOrder : Z) (dx : Z -> S) (beta : S) (sgcw : Z) (st_ : ptr) (m : mem S) : option (mem S) :=
    let i := Ib i0 i1 in
    let j := Jb j0 j1 in
    let k := Kb k0 k1 in
    let w := Wb 0 6 in
    let st := make_md_span_g st_ sgcw [k; j; i; w] in
    let h := dx dir in
    let pi := Ib pi0 pi1 in
    let pj := Jb pj0 pj1 in
    let pk := Kb pk0 pk1 in
    let pil := Ib (pi0 - 2 * side + 1) (pi0 - 2 * side + 1) in
    let pjl := Jb (pj0 - 2 * side + 1) (pj0 - 2 * side + 1) in
    let pkl := Kb (pk0 - 2 * side + 1) (pk0 - 2 * side + 1) in
    let bt4 (f : S) (p : list dbnd) (m : mem S) :=
      with_window st p [WSet1 0 (PSt 0 - PNum (f * (lit 3 * h + lit 16))%T)%P] m in
    let bt0 (f : S) (p : list dbnd) (m : mem S) := with_window st p [WSet1 0 (PSt 0 + PNum f)%P] m in
    if negb (exOrder =? 2) then Some m
    else if btype =? 4 then
      let f := (beta / h)%T in
      if dir =? 0 then bt4 f [pk; pj; pil] m
      else if dir =? 1 then bt4 f [pk; pjl; pi] m
      else if dir =? 2 then bt4 f [pkl; pj; pi] m
      else Some m
    else if btype =? 0 then
      let f := (beta / (lit 3 * h * h))%T in
      if dir =? 0 then bt0 f [pk; pj; pil] m
      else if dir =? 1 then bt0 f [pk; pjl; pi] m
      else if dir =? 2 then bt0 f [pkl; pj; pi] m
      else Some m
    else Some m.

  (** cd_stencil_3d_cuda.cpp:332-396 *)
  Definition cd_stencil_3d_adj_cf_diag (i0 j0 k0 i1 j1 k1 : Z) (pi0 pj0 pk0 pi1 pj1 pk1 : Z) (r dir side
      intOrder : Z) (dx : Z -> S) (beta : S) (b0_ b1_ b2_ : ptr) (sgcw : Z) (st_ : ptr) (m : mem S) : option
      (mem S) :=
    let i := Ib i0 i1 in
    let j := Jb j0 j1 in
    let k := Kb k0 k1 in
    let dr := (lit 2 * (lit r - lit 1) / (lit r + lit 1))%T in
    let w := Wb 0 6 in
    let st := make_md_span_g st_ sgcw [k; j; i; w] in
    let b0 := make_md_span b0_ [k; j; d_plus i 1] in
    let b1 := make_md_span b1_ [i; k; d_plus j 1] in
    let b2 := make_md_span b2_ [j; i; d_plus k 1] in
    let h := dx dir in
    let f := (beta / (h * h))%T in
    let pi := Ib pi0 pi1 in
    let pj := Jb pj0 pj1 in
    let pk := Kb pk0 pk1 in
    let pil := Ib (pi0 - 2 * side + 1) (pi0 - 2 * side + 1) in
    let pjl := Jb (pj0 - 2 * side + 1) (pj0 - 2 * side + 1) in
    let pkl := Kb (pk0 - 2 * side + 1) (pk0 - 2 * side + 1) in
    let func (b : @expr S) (p : list dbnd) (m : mem S) :=
      if intOrder =? 1 then with_window st p [WSet1 0 (PSt 0 - PVec ((f / lit 3)%T .* b)%E)%P] m
      else if intOrder =? 2 then with_window st p [WSet1 0 (PSt 0 - PVec ((f * dr)%T .* b)%E)%P] m
      else Some m in
    if dir =? 0 then func (shift b0 dI side) [pk; pj; pil] m
    else if dir =? 1 then func (shift b1 dJ side) [pk; pjl; pi] m
    else if dir =? 2 then func (shift b2 dK side) [pkl; pj; pi] m
    else Some m.

  (** cd_stencil_3d_cuda.cpp:398-455 *)
  Definition cd_stencil_3d_adj_poisson_cf_diag (i0 j0 k0 i1 j1 k1 : Z) (pi0 pj0 pk0 pi1 pj1 pk1 : Z) (r dir
      side intOrder : Z) (dx : Z -> S) (beta : S) (sgcw : Z) (st_ : ptr) (m : mem S) : option (mem S) :=
    let i := Ib i0 i1 in
    let j := Jb j0 j1 in
    let k := Kb k0 k1 in
    let dr := (lit 2 * (lit r - lit 1) / (lit r + lit 1))%T in
    let w := Wb 0 6 in
    let st := make_md_span_g st_ sgcw [k; j; i; w] in
    let h := dx dir in
    let f := (beta / (h * h))%T in
    let pi := Ib pi0 pi1 in
    let pj := Jb pj0 pj1 in
    let pk := Kb pk0 pk1 in
    let pil := Ib (pi0 - 2 * side + 1) (pi0 - 2 * side + 1) in
    let pjl := Jb (pj0 - 2 * side + 1) (pj0 - 2 * side + 1) in
    let pkl := Kb (pk0 - 2 * side + 1) (pk0 - 2 * side + 1) in
    let func (p : list dbnd) (m : mem S) :=
      if intOrder =? 1 then with_window st p [WSet1 0 (PSt 0 - PNum (f / lit 3)%T)%P] m
      else if intOrder =? 2 then with_window st p [WSet1 0 (PSt 0 - PNum (f * dr)%T)%P] m
      else Some m in
    if dir =? 0 then func [pk; pj; pil] m
    else if dir =? 1 then func [pk; pjl; pi] m
    else if dir =? 2 then func [pkl; pj; pi] m
    else Some m.

  (** cd_stencil_3d_cuda.cpp:457-570 *)
  Definition cd_stencil_3d_adj_offdiag (i0 j0 k0 i1 j1 k1 : Z) (pi0 pj0 pk0 pi1 pj1 pk1 : Z) (dir side btype
      exOrder : Z) (dx : Z -> S) (dir_factor neu_factor beta : S) (b0_ b1_ b2_ : ptr) (sgcw : Z) (st_ : ptr)
      (m : mem S) : option (mem S) :=
    let i := Ib i0 i1 in
    let j := Jb j0 j1 in
    let k := Kb k0 k1 in
    let w := Wb 0 6 in
    let st := make_md_span_g st_ sgcw [k; j; i; w] in
    let b0 := make_md_span b0_ [k; j; d_plus i 1] in
    let b1 := make_md_span b1_ [i; k; d_plus j 1] in
    let b2 := make_md_span b2_ [j; i; d_plus k 1] in
    let h := dx dir in
    let u := 2 * dir + 1 + side in
    let v := 2 * dir + 2 - side in
    let pi := Ib pi0 pi1 in
    let pj := Jb pj0 pj1 in
    let pk := Kb pk0 pk1 in
    let pil := Ib (pi0 - 2 * side + 1) (pi0 - 2 * side + 1) in
    let pjl := Jb (pj0 - 2 * side + 1) (pj0 - 2 * side + 1) in
    let pkl := Kb (pk0 - 2 * side + 1) (pk0 - 2 * side + 1) in
    let bt4 (b : @expr S) (p : list dbnd) (m : mem S) :=
      if exOrder =? 1 then with_window st p [WSet1 u (PSt u * PVec ((lit 2 * h)%T ./ (lit 4 .* b +. h))%E)%P] m
      else if exOrder =? 2 then
        let f := ((beta .* b) / (h .* ((lit 3 * h)%T .+ (lit 16 .* b))))%E in
        with_window st p [WSet1 u (PVec (lit (-9) .* f)%E); WSet1 v (PSt v - PVec f)%P] m
      else Some m in
    let bt0 (p : list dbnd) (m : mem S) :=
      if exOrder =? 1 then with_window st p [WSet1 u (PSt u * PNum dir_factor)%P] m
      else if exOrder =? 2 then
        with_window st p [WSet1 v (PSt v + PSt u / PNum (lit 3))%P; WSet1 u (PSt u * PNum (lit 8 / lit 3)%T)%P] m
      else Some m in
    let bt1 (p : list dbnd) (m : mem S) := with_window st p [WSet1 u (PNum (lit 0))] m in
    if btype =? 4 then
      if dir =? 0 then bt4 (shift b0 dI side) [pk; pj; pil] m
      else if dir =? 1 then bt4 (shift b1 dJ side) [pk; pjl; pi] m
      else if dir =? 2 then bt4 (shift b2 dK side) [pkl; pj; pi] m
      else Some m
    else if btype =? 0 then
      if dir =? 0 then bt0 [pk; pj; pil] m
      else if dir =? 1 then bt0 [pk; pjl; pi] m
      else if dir =? 2 then bt0 [pkl; pj; pi] m
      else Some m
    else if btype =? 1 then
      if dir =? 0 then bt1 [pk; pj; pil] m
      else if dir =? 1 then bt1 [pk; pjl; pi] m
      else if dir =? 2 then bt1 [pkl; pj; pi] m
      else Some m
    else Some m.

  (** cd_stencil_3d_cuda.cpp:572-679 *)
  Definition cd_stencil_3d_adj_poisson_offdiag (i0 j0 k0 i1 j1 k1 : Z) (pi0 pj0 pk0 pi1 pj1 pk1 : Z) (dir
      side btype exOrder : Z) (dx : Z -> S) (dir_factor neu_factor beta : S) (sgcw : Z) (st_ : ptr) (m : mem
      S) : option (mem S) :=
    let i := Ib i0 i1 in
    let j := Jb j0 j1 in
    let k := Kb k0 k1 in
    let w := Wb 0 6 in
    let st := make_md_span_g st_ sgcw [k; j; i; w] in
    let h := dx dir in
    let u := 2 * dir + 1 + side in
    let v := 2 * dir + 2 - side in
    let pi := Ib pi0 pi1 in
    let pj := Jb pj0 pj1 in
    let pk := Kb pk0 pk1 in
    let pil := Ib (pi0 - 2 * side + 1) (pi0 - 2 * side + 1) in
    let pjl := Jb (pj0 - 2 * side + 1) (pj0 - 2 * side + 1) in
    let pkl := Kb (pk0 - 2 * side + 1) (pk0 - 2 * side + 1) in
    let bt4 (p : list dbnd) (m : mem S) :=
      if exOrder =? 1 then with_window st p [WSet1 u (PSt u * PNum (lit 2 * h / (lit 4 + h))%T)%P] m
      else if exOrder =? 2 then
        let f := (beta / (h * (lit 3 * h + lit 16)))%T in
        with_window st p [WSet1 u (PNum (lit (-9) * f)%T); WSet1 v (PSt v - PNum f)%P] m
      else Some m in
    let bt0 (p : list dbnd) (m : mem S) :=
      if exOrder =? 1 then with_window st p [WSet1 u (PSt u * PNum dir_factor)%P] m
      else if exOrder =? 2 then
        with_window st p [WSet1 v (PSt v + PSt u / PNum (lit 3))%P; WSet1 u (PSt u * PNum (lit 8 / lit 3)%T)%P] m
      else Some m in
    let bt1 (p : list dbnd) (m : mem S) := with_window st p [WSet1 u (PNum (lit 0))] m in
    if btype =? 4 then
      if dir =? 0 then bt4 [pk; pj; pil] m
      else if dir =? 1 then bt4 [pk; pjl; pi] m
      else if dir =? 2 then bt4 [pkl; pj; pi] m
      else Some m
    else if btype =? 0 then
      if dir =? 0 then bt0 [pk; pj; pil] m
      else if dir =? 1 then bt0 [pk; pjl; pi] m
      else if dir =? 2 then bt0 [pkl; pj; pi] m
      else Some m
    else if btype =? 1 then
      if dir =? 0 then bt1 [pk; pj; pil] m
      else if dir =? 1 then bt1 [pk; pjl; pi] m
      else if dir =? 2 then bt1 [pkl; pj; pi] m
      else Some m
    else Some m.

  (** cd_stencil_3d_cuda.cpp:681-738 *)
  Definition cd_stencil_3d_adj_cf_offdiag (i0 j0 k0 i1 j1 k1 : Z) (ci0 cj0 ck0 ci1 cj1 ck1 : Z) (r dir side
      intOrder sgcw : Z) (st_ : ptr) (m : mem S) : option (mem S) :=
    let i := Ib i0 i1 in
    let j := Jb j0 j1 in
    let k := Kb k0 k1 in
    let w := Wb 0 6 in
    let st := make_md_span_g st_ sgcw [k; j; i; w] in
    let ci := Ib ci0 ci1 in
    let cj := Jb cj0 cj1 in
    let ck := Kb ck0 ck1 in
    let cil := Ib (ci0 - 2 * side + 1) (ci0 - 2 * side + 1) in
    let cjl := Jb (cj0 - 2 * side + 1) (cj0 - 2 * side + 1) in
    let ckl := Kb (ck0 - 2 * side + 1) (ck0 - 2 * side + 1) in
    let u := 2 * dir + 1 + side in
    let v := 2 * dir + 2 - side in
    let func (p : list dbnd) (m : mem S) :=
      if intOrder =? 1 then with_window st p [WSet1 u (PSt u * PNum (lit 2 / lit 3)%T)%P] m
      else if intOrder =? 2 then
        with_window st p
          [WSet1 v (PSt v - PSt u * PNum ((lit r - lit 1) / (lit r + lit 3))%T)%P;
           WSet1 u (PSt u * PNum (lit 8 / ((lit r + lit 1) * (lit r + lit 3)))%T)%P] m
      else Some m in
    if dir =? 0 then func [ck; cj; cil] m
    else if dir =? 1 then func [ck; cjl; ci] m
    else if dir =? 2 then func [ckl; cj; ci] m
    else Some m.

  (** cd_stencil_3d_cuda.cpp:740-788 *)
  Definition cd_stencil_3d_readj_offdiag (i0 j0 k0 i1 j1 k1 : Z) (pi0 pj0 pk0 pi1 pj1 pk1 : Z) (dir side
      sgcw : Z) (st_ : ptr) (m : mem S) : option (mem S) :=
    let i := Ib i0 i1 in
    let j := Jb j0 j1 in
    let k := Kb k0 k1 in
    let w := Wb 0 6 in
    let st := make_md_span_g st_ sgcw [k; j; i; w] in
    let u := 2 * dir + 1 + side in
    let pi := Ib pi0 pi1 in
    let pj := Jb pj0 pj1 in
    let pk := Kb pk0 pk1 in
    let pil := Ib (pi0 - 2 * side + 1) (pi0 - 2 * side + 1) in
    let pjl := Jb (pj0 - 2 * side + 1) (pj0 - 2 * side + 1) in
    let pkl := Kb (pk0 - 2 * side + 1) (pk0 - 2 * side + 1) in
    let f (p : list dbnd) (m : mem S) := with_window st p [WSet1 u (PNum (lit 0))] m in
    if dir =? 0 then f [pk; pj; pil] m
    else if dir =? 1 then f [pk; pjl; pi] m
    else if dir =? 2 then f [pkl; pj; pi] m
    else Some m.

  (** cd_stencil_3d_cuda.cpp:790-844 *)
  Definition cd_stencil_3d_adj_cf_bdryrhs (i0 j0 k0 i1 j1 k1 : Z) (pi0 pj0 pk0 pi1 pj1 pk1 : Z) (dir side
      sgcw : Z) (st_ : ptr) (gcw : Z) (u_ rhs_ : ptr) (m : mem S) : option (mem S) :=
    let i := Ib i0 i1 in
    let j := Jb j0 j1 in
    let k := Kb k0 k1 in
    let w := Wb 0 6 in
    let st := make_md_span_g st_ sgcw [k; j; i; w] in
    let u := make_md_span_g u_ gcw [k; j; i] in
    let rhs := make_md_span rhs_ [k; j; i] in
    let ui := 2 * dir + 1 + side in
    let s := 2 * side - 1 in
    let pi := Ib pi0 pi1 in
    let pj := Jb pj0 pj1 in
    let pk := Kb pk0 pk1 in
    let pil := Ib (pi0 - 2 * side + 1) (pi0 - 2 * side + 1) in
    let pjl := Jb (pj0 - 2 * side + 1) (pj0 - 2 * side + 1) in
    let pkl := Kb (pk0 - 2 * side + 1) (pk0 - 2 * side + 1) in
    let f (v : @expr S) (p : list dbnd) (m : mem S) := with_window st p [WSub rhs (PSt ui * PVec v)%P] m in
    if dir =? 0 then f (shift u dI s) [pk; pj; pil] m
    else if dir =? 1 then f (shift u dJ s) [pk; pjl; pi] m
    else if dir =? 2 then f (shift u dK s) [pkl; pj; pi] m
    else Some m.
End Stencil.
