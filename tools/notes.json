{
 "C18": {
  "note": "The ghost-update pattern is independent; the overlapping case is refuted by a witness."
 },
 "C22": {
  "note": "The claim is false of the code; the theorem says that begin+size is never the end, for every array."
 },
 "C23": {
  "note": "The unconditional claim is false (refuted); the theorems give the exact result of every jump over pointers, and correctness outside the failing case over any iterator."
 },
 "C35": {
  "note": "The claim is false of the code; two witness histories."
 },
 "C29": {
  "note": "The claim is false of the code; accepted expressions of two shapes store the wrong value."
 },
 "C32": {
  "note": "The claim is false when a stride does not divide its extent; the processed points are characterised exactly."
 },
 "C33": {
  "note": "The claim is false with a stride in the differentiated direction; proved for any stride in the other directions."
 },
 "C40": {
  "note": "The claim is false of the code; two witnesses, and the true statement for the segment cut to the patch."
 },
 "C46": {
  "note": "Proved with beta = 1 for Robin order 2; the general claim and the 1D Poisson Robin claim are refuted by witnesses."
 },
 "C48": {
  "note": "Robin of order 2, and Dirichlet of order 2 in 2D/3D followed by adj_diag, are refuted by witnesses. The order of the calls is not in the repository: offdiag, adj_offdiag, diag is assumed."
 },
 "C49": {
  "note": "Order 1 is linear interpolation for ratio 2 only; other ratios refuted. Calls in the order offdiag, diag, adj_cf_diag, adj_cf_offdiag."
 },
 "C50": {
  "note": "Calls in the order adj_cf_bdryrhs, readj_offdiag."
 },
 "C51": {
  "note": "One theorem per kernel. Accesses are atomic and sequentially consistent; launches run in stream order. c2f_copy_corner makes no launch. Shared allocations refuted by a witness."
 },
 "C52": {
  "note": "Patches and segments are non-empty. Bounds expressions in the kernel bodies are exact and checked to be int on entry to the library. Larger arrays and empty domains refuted by witnesses."
 },
 "C53": {
  "status": "proved",
  "note": "Nine three-dimensional node subroutines differ from their cell counterparts (C53_..._refuted give computed cases); for these the equality is proved for the arguments that avoid the wrong access. The _at theorems give b f + a L u for arbitrary a, b without laws of arithmetic; equality with the residual needs field_laws."
 },
 "C54": {
  "status": "proved",
  "note": "Stencil arrays without ghosts (sgcw = 0), as the Fortran declares them. The equalities and values need field_laws: the Fortran scales each term, the library the sum. applystencilonpatch2d is proved for square patches and refuted for a 4 by 2 one."
 },
 "C55": {
  "status": "proved",
  "note": "Field laws. u is disjoint from the matrix and the right-hand side; the entries stay inside u's declared box (C55_stays gives a sufficient condition). The local array of celljacobi is a separate allocation. Refuted: cellgs1d with f declared on its own bounds; cellrbgs2d on negative rows; equations after a nine point red-black colour."
 },
 "C56": {
  "status": "proved",
  "note": "Field laws for the four relaxations; none for creatematrix. Written arrays share no allocation with those read. creatematrix is proved when the column behind the table leads out of the block, and shown to fail when the table ends where declared."
 },
 "C57": {
  "status": "proved",
  "note": "Field laws. Tables leading at most one cell away; rhs, u, stencil and the local array in separate allocations; the layer of cells inside rhs. celladjustsystemrhspatch2d is proved for patches with equal bounds in both directions and refuted for a 2 by 1 one."
 },
 "C58": {
  "status": "proved",
  "note": "Field laws. The dense solver is a parameter assumed to solve nonsingular systems of the block's size (the case uses Cramer's rule, proved correct). The local arrays are separate allocations. Proved when the column behind the table leads out of the blocks; shown to fail when the table ends where declared."
 },
 "C59": {
  "status": "proved",
  "note": "Field laws; the sign over the rationals. The patch has a cell in every direction. The fluxes and the operator kernel are run one after the other on one memory."
 },
 "C60": {
  "status": "proved",
  "note": "Field laws, spacings not zero. Degree three in each variable with a constant coefficient; degree two with a coefficient linear along the faces' direction."
 },
 "C61": {
  "status": "proved",
  "note": "Any scalar type. The copies to and from a device_vector are left out. The assertions hold for arrays with at least two rows and pairs; refuted otherwise."
 },
 "C62": {
  "status": "proved",
  "note": "Any scalar type. Array sizes are those the programs assert."
 },
 "C63": {
  "status": "proved",
  "note": "Standard model of rounding over the rationals: relative error eps < 1 per operation, no overflow or underflow; negation and integer literals exact. Elements whose formula divides by a quantity with terms of both signs get no bound. Node and block subroutines are not covered."
 },
 "C64": {
  "status": "proved",
  "note": "Grid spacings not zero; conditions of C36-C39 and C41. Bitwise agreement is refuted."
 },
 "C65": {
  "status": "proved",
  "note": "Any scalar types. Node and block subroutines are not covered."
 },
 "C66": {
  "status": "proved",
  "note": "Exact rational arithmetic. The right-hand side box of cellgs1d starts where the box of u does, colours and rows as in C55; Jacobi weight between 0 and 1; all repetitions succeed. The assembled matrices are those without boundary adjustment."
 },
 "C67": {
  "status": "proved",
  "note": "Exact rational arithmetic; conditions of C66 on boxes, colours and weight."
 },
 "C68": {
  "status": "proved",
  "note": "Stored values: any scalar type, segment one cell thick in its normal directions. Linear data: field laws, ghost width at least one, two cells per direction, faces before edges before corners."
 },
 "C69": {
  "status": "proved",
  "note": "Field laws; u, r and the local array apart from each other and from f and the matrix; solver_correct assumed of the dense solver; successful run; entries lead to cells of u's array. That a solution is kept is refuted."
 },
 "C70": {
  "status": "proved",
  "note": "No laws of arithmetic used. Boxes one cell thick next to the patch; u apart from the coefficients. The laws of a field are used only for the Fortran subroutine (through C39)."
 },
 "C71": {
  "status": "proved",
  "note": "Any field. Output arrays apart from the input arrays; u has a ghost layer that can be read."
 },
 "C72": {
  "status": "proved",
  "note": "Over the rationals (Qc), exact arithmetic. Dirichlet data: the values beyond the faces are given."
 },
 "C73": {
  "status": "proved",
  "note": "Over the rationals (Qc), exact arithmetic. The given memory is one on which the kernels complete; ghost width at least 1 and u apart from the coefficients for existence."
 },
 "C74": {
  "status": "proved",
  "note": "Over the rationals (Qc), exact arithmetic. Coefficient arrays of ghost width 0, u apart from them. The Neumann case without reaction is shown not unique (refuted theorem, 1D Poisson)."
 },
 "C75": {
  "status": "proved",
  "note": "Over the rationals (Qc), exact arithmetic. Same setting as C74; removes its condition on the first direction, and completes its refuted Neumann case."
 },
 "C76": {
  "status": "proved",
  "note": "Over the rationals (Qc), exact arithmetic. For Dirichlet conditions of order 2 symmetry is refuted (1D Poisson, two cells)."
 },
 "C77": {
  "status": "proved",
  "note": "Over the rationals (Qc), exact arithmetic."
 },
 "C78": {
  "status": "proved",
  "note": "Over the rationals (Qc), exact arithmetic."
 },
 "C79": {
  "status": "proved",
  "note": "Over the rationals (Qc), exact arithmetic. Values around the patch are held fixed."
 }
}