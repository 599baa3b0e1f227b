# Design of the formal model of thrust-iterators

## 1. What is modelled and how

The library is a set of C++ expression templates over Thrust that let a user write
`with_domain(Kb{..},Jb{..},Ib{..})(x = beta * u.grad_x(h) + ...)`.
The kernels in `src/cuda/*_cuda.cpp` use it to re-implement Fortran (m4) routines.

Model layers (all under `rocq/theories`):

| file | models |
|---|---|
| `Base.v` | option monad (None = undefined behaviour), C arrays, C division, scalars, device memory |
| `ModelBounds.v` | `md_bounds.hpp` |
| `ModelMatrix.v` | `matrix_utils.hpp`, `matrix_traversal_iterator.hpp`, `submatrix_iterator.hpp`, `transpose_iterator.hpp` |
| `ModelIters.v` | `forward_stencil_iterator.hpp`, `coarse_to_fine_iterator.hpp`, `offset_iterator.hpp`, `stencil_impl.hpp`, function objects of `iter_math.hpp`, Thrust adaptors |
| `ModelSpan.v` | `md_device_span.hpp`, index arithmetic of `traits.hpp`, sequential and random-access executions |
| `ModelProxy.v` | `stencil_proxy.hpp`, window part of `md_device_span.hpp`, proxy rules of `traits.hpp`, `tuple_utils.hpp` |
| `ModelVector.v` | `md_device_vector.hpp` |
| `KernelsFlux.v`, `KernelsApply.v` | `cdf_{1,2,3}d_cuda.cpp`, `cd_apply_{1,2,3}d_cuda.cpp` |
| `KernelsCopy.v`, `KernelsBC.v` | `coarse_to_fine_cuda.cpp`, `cd_correct_bc_{1,2,3}d_cuda.cpp` |
| `KernelsStencil.v` | `cd_stencil_{1,2,3}d_cuda.cpp`, all fourteen kernels in each dimension |
| `FortranBase.v` | arrays with index ranges, `do` loops and scalar variables of the Fortran subset used |
| `FortranFlux.v`, `FortranApply.v`, `FortranCopy.v`, `FortranBC.v`, `FortranHomog.v`, `FortranStencil{1,2,3}.v` | the m4 subroutines the kernels replace |
| `FortranNode.v`, `FortranNodeStencil{1,2,3}.v` | the node-centred m4 subroutines (no C++ counterpart) |
| `FortranLoops.v`, `FortranSmooth.v` | strided loops, integer tables; the m4 subroutines that apply a stencil, smoothers, right-hand-side adjustment (no C++ counterpart) |
| `FortranBlock.v` | `cellblocksmooth3d.m4`; LAPACK's `dgetrf` and `dgetrs` are a parameter |
| `FortranExtrap.v` | `linearextrap` of `copycoarsetofine.m4` (no C++ counterpart) |
| `FortranBlockCell.v` | `ccellblkjacobi3d` of `cellsmooth3d.m4`; `dgesv` as `dgetrf` and `dgetrs` |
| `KernelsDot.v` | `dot_offset_test.cpp`, `ls_apply_st_3d_cuda.cpp` |
| `KernelsTest.v` | the library's test programs `*_test.cpp`; a failed `assert` is undefined |
| `ModelSched.v` | threads of a parallel back end, one memory access at a time, and their interleavings |
| `ModelPar.v`, `KernelsBy.v` | the kernels with their library calls executed sequentially or by arbitrarily scheduled threads (`KernelsBy` repeats the kernels with the calls as a parameter; equal to them by conversion) |
| `ModelInt.v`, `ModelIntProxy.v` | the library's index arithmetic in 32-bit `int` and 64-bit `diff_t`, overflow undefined |
| `Spec.v` | specification vocabulary: index points, nested loops, row-major address, value of an expression at a point |
| `SpecIter.v`, `SpecAssign.v`, `SpecVector.v`, `SpecWindow.v` | the same for iterators, assignments, vectors and windows |
| `SpecInt.v` | arrays and domains whose indices and element counts are `int`s |
| `SpecSmooth.v`, `SpecBlock.v`, `SpecAdjust.v` | rows of an assembled stencil, cells, order of execution; systems of a cell, the matrix of a block; known terms moved to the right-hand side |
| `SpecBlockJacobi.v` | what is assumed of the dense solver; blocks and their relaxation |
| `SpecEnergy.v` | the bilinear form of a difference along a grid line |
| `SpecPoly.v` | polynomials, their derivatives, cell centres and faces |
| `SpecTest.v` | contents of an array, boxes inside boxes, marks of the submatrix test |
| `SpecRel.v`, `SpecPrograms.v`, `SpecReference.v`, `SpecRound.v` | programs over any scalar type and relations they preserve; lists of all kernels, of all subroutines and of the pairs (generated by `tools/gen_uniform.py`); rounded arithmetic, an arithmetic of error bounds, rounding to p bits |
| `SpecConverge.v` | repeated sweeps, errors, sub- and supersolutions, diagonal dominance over the rationals |
| `SpecExtrap.v` | pieces of the ghost layer of a patch, extrapolated values, linear data |
| `SpecBlockCell.v` | rows with several unknowns per cell, relaxed in order |
| `SpecBCOrder.v`, `SpecBCCalls.v` | ghost regions around a patch and boundary boxes on them; the calls for a list of boxes |
| `SpecHomogOrder.v` | calls of the homogeneous boundary kernel |
| `SpecBound.v` | the bound for the Poisson problem |
| `SpecPoisson.v` | the assembled Poisson system in memory, the difference operator, the factor of a sweep |
| `SpecRelax.v` | the assembled system: matrix, table and right-hand side in memory |
| `SpecBvp.v` | conditions on the faces; ghost cells filled face by face, then the operator |
| `SpecSolve.v` | a patch and the cells around it; the operator applied to a grid function held in memory |
| `SpecKernel.v`, `SpecBoundary.v`, `SpecSafe.v` | arrays apart in memory, boundary segments and patches, polynomials and boundary conditions, staying inside allocations |
| `Instances.v` | rational and integer scalars, example arrays |
| `Lem*.v` | lemmas |
| `Properties*.v` | property theorems only, each with `Print Assumptions` and a non-vacuity example |

Modelling decisions:

* Scalars (`T`) are an arbitrary record of uninterpreted operations. A theorem over
  every `Scalar` makes no arithmetic assumption, so it also holds for IEEE doubles.
  Where C++ and Fortran associate operations differently the theorem assumes
  `field_laws` (exact arithmetic). Such theorems say nothing about rounding; C63 and
  C64 bound what rounding adds (relative error eps per operation, no overflow or
  underflow).
* Integers are unbounded (`Z`) except in `ModelInt`, `ModelIntProxy`, where every `int`
  operation of the library is undefined (None) when its result is not a 32-bit integer,
  and every `diff_t` operation when it is not a 64-bit one; C52 relates the two. The
  bounds a kernel passes to the library (`i0 - gcw` and the like) are computed exactly
  and checked on entry. C division is truncating and undefined for divisor 0.
* Memory is a list of allocations; a pointer is (allocation, offset); loads and
  stores outside an allocation give None. Spans may alias.
* Templates become data: a span carries its list of direction tags. An
  instantiation that does not compile gives None.
* Thrust algorithms: `copy_n`/`fill_n`/`for_each_n` are modelled as sequential loops and
  as random-access executions in an arbitrary order; an interleaving
  semantics (split read/write steps) is used for schedule independence.

Not modelled: CUDA launch and streams, Thrust's internals, IEEE
overflow, underflow and special values (C63 and C64 model rounding only), template error messages, SAMRAI/Kokkos/test drivers (`test/`, benchmark
code), OpenMP pragmas, LAPACK (a parameter with the hypothesis `solver_correct`; its error
code is not modelled, and `apply` declares the pivots `double precision` where LAPACK
writes integers: the model keeps them abstract). `ls_apply_st_3d` (not part of the build)
is modelled with the library's dot product in place of the function it lacks. The function
`window` of `window_iterator.hpp` calls a constructor with five arguments that does not exist
(it would not compile if used; nothing uses it).

## 2. Trusted base

* Coq 8.16.1 kernel (and `coqchk`).
* Axioms: none expected. `Print Assumptions` is run under every property theorem;
  the results are listed in section 5.
* The hand translation of the C++ sources to Gallina, whose definitions cite file and
  lines.
* The translation of the m4 subroutines. `tools/f2v.py` produced `Fortran*.v` except
  `FortranBase.v` line by line from the m4 text; its output is committed and is what is
  proved about, so an error in the tool would be an error of transcription.
* `tools/mutate.py` (the harness for wrong programs), `tools/props.py` and
  `tools/manifest.py` are not part of any proof.

## 3. Plan per property

| id | modelled by | proof |
|---|---|---|
| C01 | `ModelBounds` | arithmetic on interval membership |
| C02, C03 | `ravel`, `unravel` | induction on the list of extents via a closed form |
| C04 | `mti_*` | position-indexed family; induction over move sequences |
| C05, C06, C07, C08 | `call_helper` | closed form of base, strides and counts; k-th address = row-major address of k-th loop point |
| C09 | `make_transpose` | same closed form |
| C10 | `call_helper` with missing W | same closed form, window base point |
| C11, C12, C13, C14 | `eval` | induction on the expression: iterator family whose k-th dereference is `denote` at the k-th point |
| C15, C16 | `exec_assign` | equality with the nested-loop specification, then frame and value theorems |
| C17, C18 | interleaving semantics | commutation of independent steps, induction over schedules; counterexample for overlap |
| C19 | `it_inc`, `it_adv`, `it_dist` | family laws |
| C20, C21 | `fsi_*` | closed form of the position after k steps |
| C22, C23 | `fsi_adv` | witness (`_refuted`); the true part over any iterator, the exact result of every jump over pointers |
| C24 | `offset_iterator`, `EDot` | induction on moves; loop simulation |
| C25, C26 | `coarse_index`, `EFine` | division lemmas; assignment theorem |
| C27 | `span_at`, `index` | address closed form |
| C28 - C32 | `ModelProxy` | iterators in lock step; per-point semantics; witnesses for the refuted ones |
| C33 | `eval` on strided domain | witness |
| C34, C35 | `ModelVector` | invariant over histories; witnesses |
| C36 - C41 | `Kernels*`, `Fortran*` | loop-by-loop simulation, field identity per element |
| C42 | `Kernels*` | every address formed at a domain point lies in the array; induction over the points |
| C43 | `Kernels*` | value left by each kernel at a cell (`LemValues*`), then a field identity |
| C44 | `Kernels*` | same values, telescoping sums by induction (`LemSum`) |
| C45 | `make_offset_span` | address closed form |
| C46 | `KernelsBC` | the stored expression, evaluated on a polynomial that satisfies the boundary condition, is a field identity |
| C47 | `KernelsStencil` | values at two neighbouring cells |
| C48, C49 | `KernelsStencil`, `SpecEliminate` | entries of a cell beside the segment after each kernel (`LemAdjust*`), then a field identity with the rule of the boundary |
| C50 | `KernelsStencil` | entries and right-hand side of the cell after each kernel, ring identity |
| C51 | `ModelPar`, `KernelsBy` | any scheduled prefix finishes with the result of complete schedules; per kernel, writes apart from reads, ghost pattern, or window locality |
| C52 | `ModelInt`, `ModelIntProxy`, `KernelsBy` | every intermediate value is bounded by the element count of an array; induction over the expression and the loop |
| C53 | `FortranNode*`, `Fortran*` | the two translations are compared: by conversion where the texts agree up to names, loop by loop otherwise; computed counterexamples where they do not |
| C54 | `KernelsDot`, `FortranSmooth`, `SpecSmooth` | the accumulating loop sums one term per column (induction over the columns); one element is assigned per cell, so the sweep lemma `forM_own` gives every value |
| C55 | `FortranSmooth`, `SpecSmooth` | induction over the cells in the order of execution: at a cell's turn the cells before it hold new values, the others old ones (`swept_cells`); the colours give the list of visited cells; consequences (equations hold after a colour, a solution stays) from the description alone |
| C56 | `FortranSmooth`, `SpecBlock` | cells are independent: each reads and writes only its own elements (`forM_local`); Cramer's rule by `field`; the matrix rows element by element, numbering of cells injective |
| C57 | `FortranSmooth`, `SpecAdjust` | invariant over the cells of the layer: the scratch array is zero away from the interface (`move_cell_inv`, `forM_local_inv`); the subtracting loop is a row sum |
| C58 | `FortranBlock`, `SpecBlockJacobi` | the subroutine is the residual followed by one step per block (`cellblockjacobi3d_phases`); the blocks are disjoint, so each step finds the values from before (`forM_local_inv`); the dense row is the stencil row (`dense_row`, a change of summation index); the solver is a hypothesis |
| C59 | `Kernels*`, `SpecEnergy` | the operator at a cell in terms of the solution (`LemOperator`, from `LemValues*`), then summation by parts along every grid line (`line_parts`) |
| C60 | `Kernels*`, `SpecPoly` | the same values; differences of polynomials by a field identity, one variable at a time (`LemPoly`) |
| C61 | `KernelsTest` | each program executed symbolically: C04, C05, C09, C15, C20, C24, C26 for every size (`LemTest1-3`) |
| C62 | `KernelsTest`, `ModelProxy` | C28-C31 row by row (`LemTest4`) |
| C63 | all `Kernels*`, `Fortran*` but nodes and blocks | every program preserves every relation the arithmetic preserves (`LemRel*`, `LemUniform*`); the relation "rounded value within the bound" is preserved (`LemRound`); rounding to nearest meets the model (`LemRound2`); bounds spelled out for fluxes and operator (`LemRound4,5`) |
| C64 | the same | C36-C39, C41 in the rationals plus C63 on both sides (`LemRound3`); bitwise agreement refuted |
| C65 | the same | the relation that always holds (`LemRound3`) |
| C66 | `FortranSmooth`, `KernelsStencil`, `SpecConverge` | from the descriptions of C55 alone: induction over the cells in the order of execution bounds the error after one sweep by q times the one before (`swept_within`, `relaxed_within`), induction over the sweeps (`repeated_within`); dominance of the assembled rows from `LemValues*` |
| C67 | the same | the same induction with one-sided bounds and the signs of the entries (`swept_at_most`, `relaxed_at_most`) |
| C68 | `linearextrap` | every branch is a loop over the cells of a segment reading outside it; linear data by the laws of a field, invariants over the calls for faces, edges and corners |
| C69 | `ccellblkjacobi3d`, LAPACK a parameter | one cell by its five steps, then the state at each cell of the sweep: earlier cells as at the end, later ones as at the start |
| C70 | the boundary kernels as steps that read and write known places | a call writes cells beyond the patch in as many directions as its type says and reads cells beyond it in fewer; steps with disjoint places commute and find their own values in place; a call of the homogeneous kernel is three such steps, and two calls share only equal ones |
| C71 | flux kernel then operator kernel on arrays holding a grid function | the value in a cell (LemOperator) is a linear expression in the values near it |
| C72 | the same over Qc | at a largest value the face terms have one sign; walk along the first direction to a cell beyond the face |
| C73 | the same over Qc | an injective linear map of functions on finitely many cells is onto (elimination, by induction on the number of cells); the solution is then written into memory and the kernels run again |
| C74 | boundary kernel once per face, flux kernel, operator kernel, over Qc | the ghost value is k times the first cell plus l times the second with k + l at most 1 (less than 1 unless Neumann), from the exactness lemmas of the boundary kernels; then the largest-value argument and elimination as for C73 |
| C75 | as C74 | at a largest value the cell and its neighbours agree, so the value spreads along the axes to the anchored face or reacting cell; the values of the closed operator sum to zero, so one equation follows from the others and can be replaced by fixing the value in one cell; then elimination |
| C76 | as C74 | summation by parts (C59) with the ghost values of the conditions, which are multiples of the inner value; a function of energy zero is in the kernel (a square that is never negative has no slope at zero), which C75 shows to be trivial |
| C77 | as C74 | comparison (C75) with a constant, on which the operator is at least the reaction, and with the parabola through the two Dirichlet faces, whose ghost values are those of the condition and on which the operator is at least beta |
| C78 | the kernels of C43, the smoothers of C66 | the entries of a row and the value of the operator in closed form, from which w solves the assembled system; then C66 with the dominance of the assembled rows.  The memory in which the operator was run and the one in which the matrix is assembled are different |
| C79 | the Poisson stencil kernels of C43, the smoothers of C66 | the rows are only weakly dominant, so the error is measured against the parabola that vanishes one cell outside the patch in the first direction: a sweep keeps \|error\| <= E p with E multiplied by q (induction over the order of the cells, then over the sweeps), because the matrix maps p to a positive constant |

A property that is false of the code is proved as `..._refuted` with a witness,
together with the strongest true variant.

## 4. Findings

* Forward stencil: `begin + size` is one past the end reached by `++`; jumping
  backwards onto an exact block multiple moves one stride too far.
* Window assignments over strided domains use a floor count, plain ones a ceiling count.
* Gradients over strided domains pair wrong elements.
* `x - (w(0)*y)` with `w` a window evaluates `y - w(0)*x`-like operand swaps; two
  vector-carrying proxies combined read the same iterator.
* `set_offset` after an unsynchronised device write loses the device data.
* 2D boundary kernels clamp the boundary segment to the patch, Fortran does not.
* Homogeneous Robin extrapolation of order 2 lacks a factor beta in C++ and Fortran; the
  1D Poisson Robin kernel ignores alpha and beta.
* 2D `set_poisson_bc` handles Robin on faces 0 and 1 only; 2D `adj_diag` handles it in
  direction 0 only. The Fortran is the same.
* 2D `adj_diag`, Dirichlet: the diagonal of cell `p - side + 1` is corrected, for side 1
  the cell of the segment and not its inner neighbour; 3D uses `p - 2*side + 1`. The
  Fortran is the same. Without stencil ghost cells (`sgcw = 0`) that cell is outside the
  array: C42 needs `sgcw >= 1` there.
* Robin of order 2: eliminating the ghost value needs the diagonal changed by
  `beta b / (h (3h + 16b))`; all `adj_diag` kernels (and the Fortran) compute
  `beta b / h * (3h + 16b)`.
* A face with a Dirichlet condition of order 2 makes the operator with its ghost values not
  symmetric (C76); with order 1, Neumann and Robin conditions it is symmetric and positive.
* Dirichlet of order 2: after `offdiag`, `adj_offdiag`, `diag` the row is right (C48). The
  2D and 3D `adj_diag` then add a further `beta b / (3h^2)`, which is wrong in this order
  of calls and also if `diag` is called before `adj_offdiag`; 1D does not.
* Coarse-fine corrections of order 1 use the weights 2/3, 1/3 for every ratio: linear
  interpolation only for ratio 2.
* The callers of the stencil kernels are not in the repository. C48, C49, C50 fix the
  order of the calls (given with each theorem); this is an assumption.
* `set_homogenous_bc` in C++ covers orders 1 to 4, the Fortran any order.
* Stencil kernels load both coefficients before storing, the Fortran between stores, so
  they agree only when the coefficient array and the stencil array do not overlap.
* `make_md_vec` ignores `unit_stride`; the free function `window()` does not compile.
* Arrays of more than 2^31 - 1 elements (a 1300^3 patch) overflow `int` although sums of
  offsets are 64-bit; an empty domain one past the end of a nearly maximal array too.
* `ls_apply_st_3d_cuda.cpp` (not in the build): `at_point` assigns through `const T* r_`, so
  it cannot be instantiated. Its offset table span carries the comment "this isn't right".
* Node-centred Fortran in three dimensions (C53, each with a computed case):
  `nodediffusionflux3d` multiplies the third flux by `b1` instead of `b2`;
  `nodediffusionv2apply3d` and `nodepoissonapply3d` difference `flux1` instead of `flux2` in
  the third direction; `adjnodediffusiondiag3d`, `adjnodepoissondiag3d` (Dirichlet, upper
  side) correct the cell beyond the boundary, outside the array in the last row;
  `adjnodediffusioncfdiag3d` (direction 2, order 2) reads `b1`; `adjnodediffusionoffdiag3d`,
  `adjnodepoissonoffdiag3d` (Robin of order 2, upper side, directions 1 and 2) write at
  index 1 instead of `i`; `readjnodediffusionoffdiag3d` takes the plane of direction 2 from
  `pfirst1`.
* `applystencilonpatch2d` (Fortran) loops over `j = lo0..hi0` and `i = lo1..hi1`: on a patch
  that is not square it writes outside and omits cells (C54).
* `cellgs1d` (Fortran) declares the right-hand side with the bounds of `u`: with ghosts on `u`
  and none on `f` it reads other elements (C55).
* `cellrbgs2d`, `cells5rbgs2d`, `cells9rbgs2d` start a row at `lo0 + mod(j+color,2)`, which is
  `lo0 - 1` for a negative odd sum: a patch with a negative lower bound is left (C55).
* `cells9rbgs2d` sweeps two colours, but the diagonal neighbours have the same one: the
  equations of a colour do not hold after its sweep (C55).
* `creatematrix` (Fortran) loops over the columns `1..stencilSize` of a table declared
  `0..stencilSize-1`: it reads behind a table of the declared size, for every block (C56).
* `celladjustsystemrhspatch2d` (Fortran) exchanges the loop bounds of the two directions: on
  a patch that is not square it leaves the arrays and skips cells (C57).
* `cellblockjacobi3d` (Fortran) inherits the read behind the table from `creatematrix`: it fails
  as soon as there is a block and the table has its declared size (C58). Of the tables of
  displacements it reads only the first and the last entry: the blocks are those of equally
  spaced displacements.
* The assertions of the test of the forward stencil fail for small arrays: a dimension of
  two differenced along the second direction, one row, or an array with a single pair; the
  submatrix test stops on a submatrix of one row (C61). The instances in the repository are
  larger.
* The variable-coefficient flux kernels compute b * ((u - u') / h) where the Fortran
  computes (b * (u - u')) / h: in `double` the results differ in the last bits
  (`C64_bitwise_refuted`: b = 49, h = 49). C64 bounds the difference.
* C68: `linearextrap` fills the ghost layer correctly only in the order faces, edges,
  corners: edges read the faces next to them and corners the edges. On edges and corners
  it continues linear data but not bilinear ones (`i*j` is wrong), and a segment two cells
  thick keeps its inner layer. `C68_order_refuted`, `C68_bilinear_refuted`,
  `C68_wide_refuted`.
* C69: `ccellblkjacobi3d` adds to `u` the solution for `f` minus the *off-diagonal* part of
  `A u`. The diagonal part is missing, so it is right only when the cell held zero; a
  solution is doubled (`C69_doubles`, `C69_solution_refuted`), and what it leaves unchanged
  solves the system without its diagonal (`C69_unchanged`). Despite its name it uses the
  new values of the cells before.
* C70: on a patch one cell wide the second order formulas at the two opposite faces read
  each other's ghost cells, so the result depends on the order of the calls
  (`C70_thin_refuted`); corner calls depend on the faces having been done
  (`C70_corner_first_refuted`). The homogeneous kernel has the first defect too
  (`C70_homogenous_thin_refuted`).
- C74: with Neumann conditions on every face and no reaction term a constant can be added
  to the solution (`C74_unique_poisson_1d_neumann_refuted`); C74 excludes this case.
* Traversal equality compares coordinates only; `unravel` divides by zero when an inner
  dimension is empty.

## 5. Assumptions printed

Every theorem of every `Properties*.v` prints "Closed under the global context": no
axiom, not even of the standard library, is used. For the loaded libraries `coqchk` also
lists the seven parameters of `Coq.ssr.ssrunder.Under_rel` (standard library, loaded
indirectly); no theorem depends on them.
