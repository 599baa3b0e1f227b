import json
P=[]
def p(title, statement, quantifier, why, anchors):
    P.append(dict(id="C%02d"%(len(P)+1), title=title, statement=statement, quantifier=quantifier, why_tests_cant=why, anchors=anchors))

MU="src/cuda/matrix_utils.hpp"; MT="src/cuda/matrix_traversal_iterator.hpp"; SP="src/cuda/md_device_span.hpp"
FS="src/cuda/forward_stencil_iterator.hpp"; PX="src/cuda/stencil_proxy.hpp"; TR="src/cuda/traits.hpp"; IM="src/cuda/iter_math.hpp"

p("Bounds denote exactly the inclusive index interval and +,-,expand,shift move the advertised ends",
  "Ib{f,l} denotes exactly the indices f..l: lb() is the smallest, ub() the largest, size() their number when the stride is 1. b+x extends the upper end by x when x>=0 and the lower end by -x when x<0; b-x extends the lower end; expand(x) both; shift(x) translates the set. Ghost expansion leaves a window (W) dimension alone and make_md_span discards any stride.",
  "all integer first/last/offset values (of either sign)",
  "unbounded integers and sign cases; a unit test fixes a handful of literal bounds",
  ["src/cuda/md_bounds.hpp: bounds, dir_bounds, detail::expand_bounds", SP+": make_md_span"])
p("ravel numbers the cells of a box 0..size-1, once each, in row-major order",
  "For any box of positive extents, ravel maps the in-range coordinates one-to-one onto 0..(product of extents)-1, and the order of the numbers is the lexicographic order of the coordinates (last coordinate fastest).",
  "every dimension count N, every extent vector, every coordinate",
  "quantifies over all shapes and all dimension counts; tests enumerate a few shapes with N<=3",
  [MU+": ravel, stride_dim, stride_from_size"])
p("unravel inverts ravel, including at the one-past-the-end position",
  "For every index 0<=p<size, unravel yields the unique in-range coordinate whose ravel is p; for p=size it yields the distinguished end coordinate, whose ravel is size. The specialised N=1,2,3 code and the general loop agree.",
  "every N>=1, positive extents, every 0<=p<=size",
  "all shapes/dimension counts, and the truncated-division special cases",
  [MU+": unravel, ravel"])
p("Traversal ++ / -- / += / - obey the random-access iterator laws",
  "On a matrix traversal iterator at position p in [0,size]: ++ moves to p+1 (p<size), -- moves to p-1 (p>0), +=d moves to p+d whenever 0<=p+d<=size, distance between positions p and q is q-p, and two iterators of the same range compare equal exactly when their positions are equal. Hence every path of moves that stays in range ends where its net displacement says.",
  "every N, positive extents, position, displacement and every finite sequence of moves that stays in range",
  "histories of moves are unbounded; branch-free carry/borrow code has corner cases at every roll-over",
  [MT+": increment, decrement, advance, distance_to, equal"])
p("A span called with a domain enumerates exactly the domain's elements, each once, in the order of the domain's loops",
  "Calling a span with bounds (b1..bN) yields a traversal of length product of the extents whose k-th element is the span's element at the k-th point of the nested loops over b1 (outermost) .. bN (innermost); distinct k give distinct addresses.",
  "every storage order, every loop order (any permutation of dimensions), all bounds and offsets, all k",
  "all shapes and permutations; tests cover a few orders on small boxes",
  [SP+": operator(), call_helper", "src/cuda/submatrix_iterator.hpp: make_submatrix_helper", TR+": map_index, transpose_sequence"])
p("Storage order is invisible: the value seen at an index point does not depend on the domain's loop order",
  "For a fixed span, evaluating over two domains that are permutations of each other visits the same (index point, address) pairs; the element associated with an index point is always the one at the row-major position of that point in the declared storage order.",
  "all storage orders, permutations, bounds, points",
  "all permutations in all dimensions",
  [SP+": call_helper", TR+": transpose_sequence_t, map_index_v", "src/cuda/transpose_iterator.hpp: make_transpose"])
p("Iterating a sub-domain never leaves the allocation",
  "If the domain is contained in the span's bounds, every address dereferenced by the traversal lies within the span's allocation [0, product of span extents).",
  "all spans, sub-domains (with strides), and positions",
  "an out-of-bounds read need not crash a test, and all shapes matter",
  [SP+": call_helper", "src/cuda/submatrix_iterator.hpp"])
p("Strided domains visit first, first+s, first+2s, ... up to last, for direct element access",
  "With a domain bound of stride s>=1, the traversal has ceil((last-first+1)/s) points in that dimension and visits exactly the indices first+s*c <= last.",
  "all strides >=1, all bounds, also when the stride does not divide the extent",
  "divisibility corner cases for all extents",
  ["src/cuda/submatrix_iterator.hpp: n, stride", SP+": call_helper"])
p("make_transpose enumerates a dense array with its dimensions permuted",
  "make_transpose<I...>(it, sz) has product(sz) elements and its k-th element is the array element whose coordinate in dimension I_j is the j-th digit of k in the permuted extents.",
  "all dimension counts, extents and permutations",
  "all shapes and permutations",
  ["src/cuda/transpose_iterator.hpp: make_transpose_fn"])
p("Windows: dereferencing at a domain point yields the start of that point's W-block",
  "For a span whose last dimension is W, iterating its window over a domain of the other dimensions yields, at every point, a pointer w such that w[i] is the element (point, W=first+i); windows of different points do not overlap.",
  "all spans with a trailing W dimension, all domains/loop orders, all points and i in the W extent",
  "all shapes/orders; overlap is a relational property over all pairs of points",
  [SP+": window, call_helper", "src/cuda/submatrix_iterator.hpp"])
p("Gradients: grad_d(h) is (u[d+1]-u[d])/h and grad_d(h,down) is (u[d]-u[d-1])/h at every domain point",
  "In any expression and for any domain (unit stride in d) and any storage order, the value of u.grad_d(h,up) at a point is (u at the point moved +1 in d minus u at the point)/h; with down it is (u at the point minus u moved -1)/h.",
  "all dimensions d, storage orders, loop orders, domains, points, memories",
  "roll-over at every row/plane boundary for every shape",
  [SP+": stencil_helper, grad_x, grad_y, grad_z", FS, MT+": stencil", IM+": gradient"])
p("stencil_d yields the pair of neighbouring elements",
  "u.stencil_d() evaluates at each point to the pair (u at point, u at point+1 in d); with down to (u at point-1, u at point); scalar arithmetic on it acts on both components.",
  "all dimensions, orders, domains, points",
  "all shapes; roll-over positions",
  [SP+": stencil_helper, stencil_x/y/z", "src/cuda/stencil_impl.hpp"])
p("Shifts translate the index point, compose additively and commute",
  "u.shift_d(s) at a point is u at the point moved by s in d; shift_xy/xz/yz move in both; repeated shifts add up and shifts in different dimensions commute.",
  "all shift amounts, dimensions, nestings, expressions shifted, domains, points",
  "unbounded nesting and offsets",
  [SP+": shift_helper, shift_x/y/z, shift_xy/xz/yz"])
p("Lazy arithmetic is pointwise arithmetic",
  "Any expression built with + - * / from spans, numbers, gradients, stencils, shifts evaluates, at the k-th element of the domain, to the same arithmetic expression over the operands' values at the k-th index point, with the operands on the side they were written.",
  "all expression trees (any depth), storage orders of the operands, domains, k, memories",
  "expression trees are unbounded; tests try a few",
  [IM+": transform_op, apply_left, apply_right, apply_zip", SP+": operator()"])
p("with_domain(D)(x = e) writes e's value at exactly the elements of x indexed by D and nothing else",
  "After the assignment, for e whose reads do not overlap other elements' writes, each element of x at a point of D holds e's value at that point computed from the initial memory, and every other memory location is unchanged. with_lhs_domain uses x's own bounds.",
  "all expressions, spans, domains, memories",
  "frame condition over all memory and all shapes",
  [SP+": assign_proxy, with_domain, with_lhs_domain"])
p("Scalar assignment fills exactly the domain",
  "with_domain(D)(x = c) sets x at every point of D to c and leaves every other location unchanged.",
  "all spans, domains (strided too), values, memories",
  "frame condition over all memory",
  [SP+": assign_proxy (fill_n branch)"])
p("Assignments are schedule independent when elements do not read each other's targets",
  "If no element's right-hand side reads a location written by a different element, every interleaving of the elements' reads and writes (any thread schedule) produces the same memory as left-to-right execution.",
  "all numbers of elements, all interleavings of read and write steps",
  "GPU schedules are unbounded and not reproducible in a test",
  [SP+": assign_proxy, with_domain (thrust::copy_n / fill_n / for_each_n on the device)"])
p("In-place ghost updates of the boundary kernels meet the independence condition; general overlapping in-place assignments do not",
  "u = g(u.shift(s)) over a one-cell-thick domain normal to the shift reads no element it writes, so its result is schedule independent. Without that, e.g. u = u.shift_x(-1) over a row, two schedules give different results (the library does not detect it).",
  "all box domains of thickness one in the shifted dimension, all s != 0; a witness for the negative half",
  "schedules are unbounded; a serial test backend hides the race",
  [SP+": assign_proxy", "src/cuda/cd_correct_bc_*_cuda.cpp"])
p("Stepping and jumping agree: sequential and random-access back ends read the same elements",
  "For every lazy expression over a domain, the iterator after n increments, after one += n, or after any split into forward jumps, denotes the same element for 0<=n<size, and distance(it, it+n)=n for 0<=n<=size; so serial (++ based) and parallel (it+n based) Thrust back ends compute the same values.",
  "all expressions, domains, n, splittings of n",
  "the serial back end used in tests never exercises it+n",
  [FS, MT, IM, "src/cuda/coarse_to_fine_iterator.hpp", "src/cuda/offset_iterator.hpp"])
p("Forward stencil ++ and -- walk the interior pairs and are mutually inverse",
  "From begin, k increments (k<=size) reach the k-th position; the pair dereferenced there is (element, next element along the stencil dimension), skipping each block's last layer; -- undoes ++ at every position including the end.",
  "all N, extents, stencil dimensions, positions",
  "all roll-over positions of all shapes",
  [FS+": increment, decrement, dereference", MT+": stencil"])
p("Forward stencil jumps forward inside the range land on the right pair",
  "it += d from position p with d>=0 and p+d<size yields exactly the state reached by d increments.",
  "all shapes, positions, displacements",
  "quotient/remainder roll-over arithmetic for all blocks",
  [FS+": advance"])
p("Forward stencil: begin+size equals the end reached by ++ (refuted)",
  "A random-access iterator must satisfy begin+size == (++ applied size times). The code's at-last correction makes begin+size land one element further, so the two ends compare different and (begin+size)-1 via -- is not the last element.",
  "all shapes (claimed) - a concrete counterexample refutes it, and the deviation is characterised for all shapes",
  "the existing test only checks distance(), which ignores the position; equality is never tested at the end",
  [FS+": advance (at_last), equal"])
p("Forward stencil jumps backward land on the right pair (only when not crossing an exact block multiple)",
  "it += d from position p to any position p+d < size yields the state reached by increments, unless the jump leaves the current block backwards and lands on the first pair of a block; in that case, and only then, the code moves one stencil stride too far (so the unconditional claim is refuted).",
  "all shapes, positions, displacements; counterexample for the general claim",
  "boundary case at exact multiples, for every shape",
  [FS+": advance (backwards)"])
p("Offset iterator: element i is the base element displaced by the i-th offset vector; dot sums coefficient times displaced element",
  "o[i] dereferences first + sum_j stride_j*offset(i,j) under any sequence of moves; st.dot(u.offset(o)) at a point equals sum over i of st(point,i) * u(point + offset_i) with offsets listed (x,y,z) fastest-dimension first.",
  "all stencil sizes n, offsets (either sign), shapes, storage with matching loop order, points",
  "all stencil sizes/offsets/shapes; the reversal of strides is only tested for one layout",
  ["src/cuda/offset_iterator.hpp", SP+": dot_impl, dot_helper, offset_helper"])
p("coarse_index is floor division by the refinement ratio",
  "For r>=1, coarse_index(r, f) is the unique c with c*r <= f < (c+1)*r, for negative f too.",
  "all ratios r>=1 and all integers f",
  "unbounded integers, sign cases with truncating division",
  ["src/cuda/coarse_to_fine_iterator.hpp: coarse_index", "m4/copycoarsetofine.m4: copycoarsetofine3d"])
p("Coarse-to-fine copies give each fine cell the value of the coarse cell containing it",
  "with_domain(fine line)(f = c.fine(r, ...)) sets each fine cell on the line to the coarse value at floor(fine/r) in the missing dimension and the given coarse index in the others; nothing else changes.",
  "all axes, ratios, fine ranges (negative and unaligned), spans, memories",
  "unaligned and negative starts for all ratios",
  [SP+": fine, coarse_to_fine", "src/cuda/coarse_to_fine_iterator.hpp", "src/cuda/coarse_to_fine_cuda.cpp"])
p("at(), host-side index() and domain assignment address the same element",
  "x.at(p) is the location written by with_domain at point p, and md_device_vector::index(p) is the same linear position for a vector with the same bounds; in-range points map one-to-one into the allocation.",
  "all bounds, orders, points",
  "relates three independent address computations for all shapes",
  [SP+": at", "src/md_device_vector.hpp: index", MU+": ravel"])
p("Window (stencil) expressions evaluate pointwise: st(i) reads entry i, vectors read their value at the point",
  "For expressions combining st(i) entries, numbers and lazy vectors where a lazy vector is written to the right of (or directly beside) the part of the expression that already contains lazy vectors, the value at each point is the written arithmetic expression.",
  "all well-formed proxy expression trees, domains, points, memories",
  "unbounded expression trees; positional tuple bookkeeping",
  [PX+": stencil_proxy, maybe_invoke_with, get_iterators", "src/cuda/tuple_utils.hpp", TR+": next_proxy_index"])
p("Window expressions outside the supported shapes are silently wrong (refuted)",
  "Prefixing a lazy vector to an expression that already contains one (x - (st(0)*y)), or combining two vector-carrying sub-expressions ((st(0)*x)+(st(1)*y)), should either be rejected (rule 6) or evaluate pointwise; the code accepts them and reads the wrong operand.",
  "counterexamples, for the claim over all accepted expressions",
  "compiles and runs without error; only particular data reveal it",
  [TR+": next_proxy_index (rules 1-6)", PX+": maybe_invoke_with, prepend_to_tuple"])
p("Window assignments run in order within a point and touch only that point's window",
  "with_domain(st.window(), D)(a1, a2, ...) performs at every point of D the assignments in order, later ones seeing earlier results, st(i,j)=pair writing both; only the named entries of the windows in D change; the result is schedule independent when right-hand vectors do not read the written windows.",
  "all assignment lists, domains, memories, schedules",
  "order dependence and frame over all memory/schedules",
  [PX+": tp_invoke, stencil_assign_proxy", SP+": with_domain (window overload)"])
p("x -= (window expression) subtracts pointwise",
  "with_domain(st.window(), D)(x -= st(i)*v) sets x(p) to x(p) - st(p,i)*v(p) for each p in D and leaves the rest unchanged.",
  "all domains, memories, expressions",
  "frame over all memory and all shapes",
  [SP+": operator-=", PX+": self_assign_proxy, tp_layered_invoke"])
p("Window assignments over strided domains cover the whole domain (refuted when the stride does not divide the extent)",
  "A window assignment over a strided domain should process the same points as a plain assignment over it. The element count is product of floor((last-first)/stride) whereas the traversal has the ceiling count per dimension, so trailing points are skipped; they agree when every stride divides its extent.",
  "all strides/extents with divisibility; counterexample otherwise",
  "needs a non-dividing stride, never tested",
  [SP+": with_domain (window overload, sz)", "src/cuda/md_bounds.hpp: size"])
p("Gradients over strided domains (refuted)",
  "With a domain of stride s>1 in the differentiated dimension, grad should still difference adjacent elements at each visited point; the code widens the domain by one index, not one stride, and pairs elements s apart or changes the row length, giving wrong values.",
  "counterexample; the positive statement holds for stride 1 in that dimension and any stride in the others",
  "no test uses gradients on strided domains",
  [SP+": stencil_helper", FS, "src/cuda/submatrix_iterator.hpp"])
p("Host/device vector: host() always shows the device data as of the last data() access",
  "For any history of fill_random, data()-then-device-write, host(), conversion to std::vector and set_offset on a synchronised vector, host() and the std::vector conversion return the current device contents.",
  "all histories (any length) in which device writes go through a data() call made after the last host()/conversion and set_offset is only used when synchronised",
  "unbounded histories",
  ["src/md_device_vector.hpp: data, host, operator std::vector, fill_random, set_offset"])
p("Host/device vector coherence for arbitrary histories (refuted)",
  "host() should always equal the device contents. Counterexamples: set_offset after an unsynchronised device write overwrites device data with the stale host copy; writing through a retained data() pointer after host() leaves host() stale.",
  "counterexample histories",
  "needs particular interleavings of calls",
  ["src/md_device_vector.hpp: set_offset, data, host"])
p("Flux kernels compute the Fortran flux (1D, 2D, 3D)",
  "flux and poisson_flux leave memory in exactly the state the Fortran celldiffusionflux/cellpoissonflux subroutine leaves it, in exact (field) arithmetic.",
  "all patch bounds, ghost widths, spacings, coefficients, field data; any field of scalars",
  "all shapes and data; tests sample random data on one shape",
  ["src/cuda/cdf_1d_cuda.cpp","src/cuda/cdf_2d_cuda.cpp","src/cuda/cdf_3d_cuda.cpp","m4/celldiffusionflux1d.m4","m4/celldiffusionflux2d.m4","m4/celldiffusionflux3d.m4"])
p("Apply/residual kernels compute the Fortran operator (1D, 2D, 3D)",
  "The six residual/apply kernels leave memory as the Fortran celldiffusionapply subroutines do, in exact arithmetic, and each residual equals f minus the corresponding apply.",
  "all bounds, ghost widths, coefficients, data; any field",
  "all shapes and data",
  ["src/cuda/cd_apply_1d_cuda.cpp","src/cuda/cd_apply_2d_cuda.cpp","src/cuda/cd_apply_3d_cuda.cpp","m4/celldiffusionapply1d.m4","m4/celldiffusionapply2d.m4","m4/celldiffusionapply3d.m4"])
p("Coarse-to-fine kernels compute the Fortran copies",
  "copy and copy_corner leave memory as copycoarsetofine3d / copycoarsetofinecorner3d do, with no arithmetic assumption at all (bit exact).",
  "all axes, boxes, ratios >= 1, data",
  "all shapes, negative/unaligned indices",
  ["src/cuda/coarse_to_fine_cuda.cpp","m4/copycoarsetofine.m4"])
p("Boundary-correction kernels compute the Fortran ghost values (1D, 2D, 3D)",
  "set_bc, set_poisson_bc, set_corner_bc and set_homogenous_bc leave memory as the Fortran routines do for every face, boundary type and extrapolation order, provided the boundary segment lies in the patch in the tangential directions (2D, 3D edges and 3D Poisson) or meets it (3D faces). set_homogenous_bc: orders 1 to 4.",
  "all faces/types/orders, bounds, ghost widths, data; any field",
  "all shapes/data and the product of all mode switches",
  ["src/cuda/cd_correct_bc_1d_cuda.cpp","src/cuda/cd_correct_bc_2d_cuda.cpp","src/cuda/cd_correct_bc_3d_cuda.cpp","m4/cellsetcorrectionbc1d.m4","m4/cellsetcorrectionbc2d.m4","m4/cellsetcorrectionbc3d.m4"])
p("Boundary kernels agree with Fortran for segments reaching beyond the patch (refuted; true after cutting)",
  "The Fortran 2D routines loop over the whole boundary segment; the C++ clamps it to the patch, so ghost cells beyond the patch corners are set by Fortran and left untouched by C++ (also 3D Poisson). For every segment meeting the patch the C++ does what the Fortran does on the segment cut to the patch along the face.",
  "counterexample segment reaching outside the patch",
  "tests only use segments inside the patch",
  ["src/cuda/cd_correct_bc_2d_cuda.cpp: ib, jb","m4/cellsetcorrectionbc2d.m4"])
p("Stencil-coefficient kernels compute the Fortran matrices (1D, 2D, 3D)",
  "Every kernel of cd_stencil_{1,2,3}d_cuda (offdiag, diag, adj_*, readj_*, *_bdryrhs) leaves memory as its Fortran counterpart, in exact arithmetic, for side in {0,1}; the readj kernels and the 1D and 2D adj_poisson_diag with no arithmetic assumption. Kernels that read face coefficients need the stencil array in another allocation; those dividing by the spacing in a different order need it non-zero.",
  "all bounds, directions, sides, boundary types, orders, ratios, data; any field",
  "all shapes/data and all mode switches",
  ["src/cuda/cd_stencil_1d_cuda.cpp","src/cuda/cd_stencil_2d_cuda.cpp","src/cuda/cd_stencil_3d_cuda.cpp","m4/celldiffusionstencilcoeffs1d.m4","m4/celldiffusionstencilcoeffs2d.m4","m4/celldiffusionstencilcoeffs3d.m4"])
p("Kernels are memory safe on arrays of the documented sizes",
  "If every array passed has the extent the Fortran subroutine declares for it, the 76 kernels never read or write outside the arrays, always have a result, and leave the allocations their sizes. Required: ghost width of the solution >= 1 for fluxes and boundary values, >= 0 elsewhere; boundary segments in the ghost layer next to the patch and meeting it along the face; stencil ghost width >= 1 for the 2D diagonal correction (>= 0 elsewhere); for set_homogenous_bc a patch at least order - 1 cells wide. Without the condition the 1D flux, set_homogenous_bc and the 2D diagonal correction do leave the array.",
  "all bounds, ghost widths >= the stated minimum, segments, mode switches, data",
  "out-of-bounds accesses need not be observable in a test",
  ["src/cuda/cdf_*_cuda.cpp","src/cuda/cd_apply_*_cuda.cpp","src/cuda/cd_correct_bc_*_cuda.cpp","src/cuda/cd_stencil_*_cuda.cpp"])
p("The assembled stencil applied to u equals the matrix-free operator",
  "Row by row, the coefficients produced by offdiag followed by v1diag, dotted with u at the cell and its neighbours, equal diffusion_v1_apply of the fluxes of u; likewise v2diag with diffusion_v2_apply and poisson_offdiag, poisson_diag with poisson_flux, poisson_v2_apply; in 1D, 2D and 3D.",
  "all bounds, spacings (non-zero), coefficients, data; any field",
  "cross-kernel algebraic identity for all data and shapes",
  ["src/cuda/cd_stencil_*_cuda.cpp","src/cuda/cd_apply_*_cuda.cpp","src/cuda/cdf_*_cuda.cpp"])
p("Discrete conservation: the summed divergence telescopes to the boundary fluxes",
  "The sum over all cells of the patch of the result of poisson_v2_apply equals minus beta times the sum, over the two faces of the patch in each direction, of the difference of the boundary fluxes over h; diffusion_v1_apply and diffusion_v2_apply add alpha times the sum of a u, of u. 1D, 2D, 3D.",
  "all extents, data; any field",
  "sums of unbounded length",
  ["src/cuda/cd_apply_1d_cuda.cpp","src/cuda/cd_apply_2d_cuda.cpp","src/cuda/cd_apply_3d_cuda.cpp"])
p("Offset spans with 1-based and 0-based bounds address the same table",
  "make_offset_span for const and non-const data (0-based vs 1-based bounds) give the same linear element for corresponding (row, column), and match md_device_vector::set_offset's layout.",
  "all row/column counts and indices",
  "all sizes",
  [SP+": make_offset_span", "src/md_device_vector.hpp: make_offset_vec, set_offset"])
p("Boundary kernels continue the polynomials satisfying the boundary condition",
  "On a line of cells normal to the boundary whose first cells hold a polynomial that satisfies the homogeneous Dirichlet, Neumann or Robin condition at the face, of degree up to the extrapolation order (2 for Neumann), the ghost value stored is that polynomial's value at the ghost centre. Holds for Robin order 2 only when beta = 1 (a factor beta is missing, in the Fortran too) and in the 1D Poisson kernel only for slope = value/2, because alpha and beta are ignored (both refuted in general). set_homogenous_bc: zero boundary value, orders 1 to 4.",
  "all patches, faces, ghost cells of the segment, spacings, coefficients, polynomials; any field of characteristic 0",
  "consistency order of a formula: quantifies over all polynomials and spacings",
  ["src/cuda/cd_correct_bc_1d_cuda.cpp","src/cuda/cd_correct_bc_2d_cuda.cpp","src/cuda/cd_correct_bc_3d_cuda.cpp"])
p("The assembled matrix is symmetric and its rows sum to the reaction term",
  "After offdiag and a diag kernel the coefficient coupling a cell to its upper neighbour equals the coefficient coupling that neighbour back, in every direction, and the coefficients of a row add up to alpha*a (v1diag), alpha (v2diag) or 0 (poisson_diag).",
  "all patches, spacings (zero included), coefficients, data; any field; 1D, 2D, 3D",
  "relation between different cells for all shapes and data",
  ["src/cuda/cd_stencil_1d_cuda.cpp","src/cuda/cd_stencil_2d_cuda.cpp","src/cuda/cd_stencil_3d_cuda.cpp"])
p("Correcting the off-diagonal eliminates the ghost value by the boundary condition",
  "At a cell beside a physical boundary the row left by offdiag, adj_offdiag and diag, applied to the boundary datum in the place of the ghost value, equals the row left by offdiag and diag applied to the ghost value that the boundary condition determines: Dirichlet by a line (datum at 1/d) or a parabola through the cells, Neumann, Robin by a line (2D: direction 0 only). False for Robin of order 2 (adj_diag lacks parentheses) and for Dirichlet of order 2 in 2D and 3D if adj_diag is called as well (refuted).",
  "all patches, segments, sides, spacings, coefficients, data; diffusion with variable or constant reaction and Poisson; any field of characteristic 0; 1D, 2D, 3D",
  "algebraic identity between two matrices for all data; a test fixes one",
  ["src/cuda/cd_stencil_1d_cuda.cpp","src/cuda/cd_stencil_2d_cuda.cpp","src/cuda/cd_stencil_3d_cuda.cpp"])
p("Coarse-fine corrections interpolate the ghost value",
  "At a cell beside a coarse-fine interface the row after offdiag, diag, adj_cf_diag and adj_cf_offdiag, applied to the coarse value, equals the uncorrected row applied to the value interpolated in the ghost cell: from the coarse and the two fine cells by a parabola (order 2, any ratio), from the coarse and one fine cell by a line (order 1, ratio 2). False for order 1 with other ratios (refuted).",
  "all patches, segments, sides, ratios >= 1, spacings, coefficients, data; any field of characteristic 0; 1D, 2D, 3D",
  "algebraic identity for all ratios and data",
  ["src/cuda/cd_stencil_1d_cuda.cpp","src/cuda/cd_stencil_2d_cuda.cpp","src/cuda/cd_stencil_3d_cuda.cpp"])
p("Moving ghost values to the right-hand side keeps the residual",
  "adj_cf_bdryrhs followed by readj_offdiag leaves right-hand side minus matrix times values unchanged at the cells beside the segment, and afterwards the row no longer depends on the ghost value.",
  "all patches, segments, sides, ghost widths, data; any field; 1D, 2D, 3D",
  "relation between two arrays before and after, for all data",
  ["src/cuda/cd_stencil_1d_cuda.cpp","src/cuda/cd_stencil_2d_cuda.cpp","src/cuda/cd_stencil_3d_cuda.cpp"])
p("Kernels give the same result however their threads are scheduled",
  "When every launch of a kernel runs with one thread per element and the threads' memory accesses interleave in any order, the kernel leaves the memory of the sequential kernel, and faults exactly when that one does. Needs the written array to share no allocation with the arrays read (refuted otherwise) and the segments to be those of the patch; boundary kernels read and write the same array, and are still independent of the schedule.",
  "all schedules of all launches, all patches, segments, ghost widths, parameters, memories; every launching kernel of src/cuda",
  "absence of data races: a run shows one interleaving",
  ["src/cuda/cdf_1d_cuda.cpp","src/cuda/cdf_2d_cuda.cpp","src/cuda/cdf_3d_cuda.cpp","src/cuda/cd_apply_1d_cuda.cpp","src/cuda/cd_correct_bc_2d_cuda.cpp","src/cuda/cd_stencil_2d_cuda.cpp","src/cuda/coarse_to_fine_cuda.cpp",SP])
p("The index arithmetic does not overflow",
  "The library computes sizes, strides, positions and offsets in int (sums of offsets in 64 bits). For arrays with int index ranges and at most 2^31 - 1 elements, and non-empty domains inside them, no operation overflows: statements, window statements, at() and all kernels compute what they compute with mathematical integers, by increments or by jumps. With more elements (a 1300^3 patch), or for an empty domain past the end of a nearly maximal array, overflow occurs (refuted).",
  "all arrays, domains, expressions, jump lists, windows; all kernels with their patches, segments, ghost widths, memories",
  "overflow needs arrays of billions of elements; intermediate values are invisible to a test",
  [MU+": ravel, unravel, stride_dim",MT+": advance, increment",SP+": call_helper",PX,"src/cuda/cdf_3d_cuda.cpp","src/cuda/cd_apply_3d_cuda.cpp","src/cuda/cd_stencil_3d_cuda.cpp","src/cuda/cd_correct_bc_3d_cuda.cpp"])
p("The node-centred subroutines agree with the cell-centred ones",
  "Each node-centred Fortran subroutine leaves the memory its cell-centred counterpart leaves when called with the same arguments and no stencil ghosts; the node operators return b f + a L u, with L u the cell operator, and equal the cell residual for a = -1, b = 1. False for nine three-dimensional subroutines (wrong array or index, refuted); they agree on the remaining directions, sides and boundary types.",
  "all patches, segments, sides, boundary types, orders, coefficients and memories; 1D, 2D, 3D; all 57 subroutines",
  "no test calls them; equality of two programs on all inputs",
  ["m4/nodediffusionflux1d.m4","m4/nodediffusionflux2d.m4","m4/nodediffusionflux3d.m4","m4/nodediffusionapply3d.m4","m4/nodediffusionstencilcoeffs1d.m4","m4/nodediffusionstencilcoeffs2d.m4","m4/nodediffusionstencilcoeffs3d.m4"])
p("The dot product with an offset table multiplies by the assembled matrix",
  "st.dot(u.offset(o)) assigned over a domain stores at every cell c the sum over the entries s of st(s,c) times u at c displaced by column s of the table, and changes nothing else; the Fortran applystencil subroutines store b f + a A u with the same A; the two agree. False for applystencilonpatch2d on patches that are not square (refuted).",
  "all patches, ghost widths, stencil sizes, offset tables, coefficients and memories; 1D, 2D, 3D",
  "sums of any length over any table; equality of two programs",
  ["src/cuda/dot_offset_test.cpp","src/cuda/ls_apply_st_3d_cuda.cpp",SP+": dot, offset","m4/applystencil1d.m4","m4/applystencil2d.m4","m4/applystencil3d.m4"])
p("The point smoothers are Gauss-Seidel, red-black and weighted Jacobi sweeps",
  "cellgs*d replaces u at every cell of the patch, in the order of execution, by (f - sum of the other entries) / diagonal with the newest values; cellrbgs*d does so on the cells of one colour; two colours make up the patch; with entries leading to the other colour the equations of a colour hold after its sweep; celljacobi*d adds w (f - A u) / diagonal with the old values; a solution stays a solution under all of them; cells5rbgs2d, cells9rbgs2d and cells7rbgs3d are the general sweeps for their tables. Refuted: cellgs1d when f and u have different bounds, negative rows in 2D, equations after a nine point colour.",
  "all patches, bounds, colours, stencil sizes, offset tables, right-hand sides and memories; 1D, 2D, 3D; exact arithmetic",
  "order-dependent results over unbounded patches; fixed points",
  ["m4/cellsmooth1d.m4","m4/cellsmooth2d.m4","m4/cellsmooth3d.m4"])
p("Block relaxation solves the system of a cell",
  "cellblock1x1jacobi{1,2}d and cellblock2x2jacobi{1,2}d change the one or two unknowns of every cell of the patch so that the change solves the cell's system (a number, or the matrix with rows a(0) a(1) and a(2) a(3)) for the weighted right-hand side, unless it is singular, and change nothing else; creatematrix stores the entries of a block's stencil in the dense matrix at row and column of the two cells and leaves entries to cells outside out. Refuted: creatematrix on a table of the declared size, where it reads behind the table.",
  "all patches, ghost widths, blocks, tables, matrices, right-hand sides and memories; exact arithmetic for the solves",
  "all matrices and sizes; out-of-bounds reads rarely show in a run",
  ["m4/cellblocksmooth1d.m4","m4/cellblocksmooth2d.m4","m4/cellblocksmooth3d.m4: creatematrix"])
p("Adjusting the right-hand side moves exactly the known terms",
  "adjcellcrsfinebdryrhs*d subtracts, at the cells next to an interface, the terms of their rows that lie across the interface (for tables that lead at most one cell away) and changes nothing else but its scratch array; celladjustsystemrhspatch*d adds the row sums over the table to f. Refuted: celladjustsystemrhspatch2d on patches that are not square.",
  "all patches, interfaces, directions, sides, stencil sizes, tables, unknowns and memories; 1D, 2D, 3D; exact arithmetic",
  "scratch values carried from cell to cell; all interfaces and tables",
  ["m4/celladjustrhs1d.m4","m4/celladjustrhs2d.m4","m4/celladjustrhs3d.m4"])
p("Block Jacobi corrects every block by a solve with the old residual",
  "With a dense solver that solves nonsingular systems, cellblockjacobi3d changes u on every block so that the stencil rows of the block's cells, restricted to the block, applied to the change give w times the residual f - A u from before the call; blocks start every block size from the first to the last displacement; nothing else changes but the local arrays. Refuted: with an offset table of the declared size the subroutine reads behind it as soon as there is a block.",
  "all patches, block sizes and numbers, stencil sizes, tables, regular blocks, right-hand sides, memories, and all solvers that are correct; exact arithmetic",
  "all matrices and block layouts; independence of the blocks; reads out of bounds rarely show",
  ["m4/cellblocksmooth3d.m4: cellblockjacobi3d, apply, creatematrix"])
p("The operator is a symmetric, non-negative form",
  "Computing the fluxes and then the operator, and summing the result against any grid function z, gives beta times the sum over interior faces of the coefficient times the two differences, plus the fluxes through the outer faces against z, plus alpha times the reaction term against z; two grid functions with the same boundary ratio give the same number either way round; over the rationals with non-negative coefficients the form of a function with itself is not negative when no ghost value times its neighbour exceeds the neighbour's square.",
  "all non-empty patches, ghost widths, spacings, coefficients, solutions and test functions; with cell coefficient, without, and Poisson; 1D, 2D, 3D; exact arithmetic",
  "an identity of sums over unbounded patches and all test functions; solvers (conjugate gradients) rely on it but no finite set of runs shows it",
  ["src/cuda/cdf_1d_cuda.cpp","src/cuda/cdf_2d_cuda.cpp","src/cuda/cdf_3d_cuda.cpp","src/cuda/cd_apply_1d_cuda.cpp","src/cuda/cd_apply_2d_cuda.cpp","src/cuda/cd_apply_3d_cuda.cpp"])
p("The operator is exact on polynomials",
  "If the solution holds the values of a polynomial of degree three in each variable at the cell centres and the coefficient is constant, the computed operator is the differential operator of the polynomial at every cell; likewise for degree two and a coefficient linear along the direction of its faces.",
  "all patches, polynomials, origins, nonzero spacings, coefficients and memories; with cell coefficient, without, and Poisson; 1D, 2D, 3D; exact arithmetic",
  "all polynomials and all cells; the order of accuracy cannot be read off a few grids",
  ["src/cuda/cdf_1d_cuda.cpp","src/cuda/cdf_2d_cuda.cpp","src/cuda/cdf_3d_cuda.cpp","src/cuda/cd_apply_1d_cuda.cpp","src/cuda/cd_apply_2d_cuda.cpp","src/cuda/cd_apply_3d_cuda.cpp"])
p("The library's iterator tests hold for every size and content",
  "The programs in md_device_span_test, coarse_to_fine_iterator_test, submatrix_iterator_test, transpose_iterator_test, offset_iterator_test and forward_stencil_iterator_test finish with no assertion failing and leave the documented arrays: strided copies touch exactly lo, lo+s, ...; gradients are differences over the spacing; refinement copies the containing coarse cell; marks and numbers land on the cells of the submatrix; a transpose permutes the indices and its inverse undoes it; offsets displace by their row; forward differences subtract neighbours. Nothing else in memory changes. Refuted: the assertions of the forward stencil and submatrix tests for arrays of one row or one pair.",
  "all bounds, strides, ghost widths, extents, permutations, offset tables, ratios and array contents; any scalar type",
  "the repository runs each program on one or two literal sizes",
  ["src/cuda/md_device_span_test.cpp","src/cuda/coarse_to_fine_iterator_test.cpp","src/cuda/submatrix_iterator_test.cpp","src/cuda/transpose_iterator_test.cpp","src/cuda/offset_iterator_test.cpp","src/cuda/forward_stencil_iterator_test.cpp"])
p("The library's window tests hold for every content",
  "init, transform, transform2, transform3, transform4 and rhs of window_iterator_test finish and leave, entry by entry, the numbers written in their expressions, with entries not assigned and all other memory unchanged.",
  "all contents of the arrays (their sizes are fixed by the programs) and any scalar type",
  "the repository runs them on constant or random contents",
  ["src/cuda/window_iterator_test.cpp","src/cuda/stencil_proxy.hpp"])

p("Rounded results are the exact ones up to a computed bound",
  "With a relative error of at most eps per operation, every kernel and every reference subroutine completes exactly when it does in exact arithmetic, and every element it leaves differs from the exact one by at most ((1 - eps)^-k - 1) M, where k counts the roundings along its formula and M is the sum of the sizes of its terms; k and M are computed by running the same program on bounds. Fluxes have a relative error of three roundings (two for Poisson), the operator 3 + d roundings of the size of its terms in d dimensions. Rounding to nearest with p bits satisfies the hypothesis with eps = 2^-p.",
  "80 kernels and 104 subroutines, all their integer arguments and addresses, all scalar parameters, memories and rounding functions of relative error eps < 1; no overflow or underflow",
  "a test compares doubles with doubles for a few inputs and a tolerance picked by hand; the worst case over all inputs is never run",
  ["src/cuda/cdf_3d_cuda.cpp","src/cuda/cd_apply_3d_cuda.cpp","src/cuda/cd_stencil_3d_cuda.cpp","m4/celldiffusionflux3d.m4"])
p("Kernels and Fortran agree up to rounding",
  "For each of the 76 kernels with a Fortran counterpart, run in the same rounded arithmetic on the same memory: both fail or both complete with arrays of the same lengths, and corresponding elements differ by at most the sum of the two bounds of C63. Refuted: agreement to the last bit; the flux kernel and its subroutine differ in double precision.",
  "all pairs, arguments, addresses, nonzero spacings, memories, rounding functions of relative error eps",
  "the repository's comparison tests use a fixed tolerance on random data",
  ["src/cuda/cdf_1d_cuda.cpp: flux","m4/celldiffusionflux1d.m4"])
p("Values do not influence control flow",
  "Whether a kernel or subroutine completes, and the lengths of the arrays it leaves, depend on the array lengths, the integers and the addresses only: on any other element values and scalar parameters of any other scalar type the outcome is the same. In particular NaNs, infinities, zeros and division by zero cannot make a run go out of bounds.",
  "80 kernels and 104 subroutines, all arguments, any two scalar types, memories of the same shape",
  "all values of all types cannot be run",
  ["src/cuda/md_device_span.hpp","src/cuda/stencil_proxy.hpp","src/cuda/cd_correct_bc_3d_cuda.cpp","m4/cellsmooth3d.m4"])

p("Repeated sweeps converge to the solution",
  "When in every row of the patch the off-diagonal entries together are at most q <= 1 times the diagonal one, x solves the equations and u has its values around the patch, then k Gauss-Seidel sweeps (lexicographic, or red-black with both colours, for a table or a fixed stencil) leave every cell within q^k E of x, where E bounded the error at the start; k Jacobi sweeps of weight w leave it within (1 - w + w q)^k E. For q < 1 that gets below any tolerance and x is the only solution. The matrices the stencil kernels assemble have q = K/(K+A) for face coefficients in [0, B], beta >= 0 and alpha a >= A > 0, K = 2 B sum_d beta/h_d^2.",
  "12 smoother subroutines, all patches, tables, strides, array contents and numbers of sweeps; rational scalars",
  "a test runs a few sweeps for one system; convergence is about all systems and any number of sweeps",
  ["m4/cellsmooth1d.m4","m4/cellsmooth2d.m4","m4/cellsmooth3d.m4","src/cuda/cd_stencil_2d_cuda.cpp"])
p("Sweeps respect bounds on the solution",
  "When the diagonal entries of the patch are positive and the others are not, and u starts between a subsolution (A x1 <= f) and a supersolution (A x2 >= f), it stays between them after any number of sweeps of any of the twelve smoothers: no over- or undershoot. A constant is such a bound when the right-hand sides are on the right side of it times the row sums.",
  "12 smoother subroutines, all patches, tables, array contents and numbers of sweeps; rational scalars",
  "monotonicity is about all systems and starting values, not about a run",
  ["m4/cellsmooth1d.m4","m4/cellsmooth2d.m4","m4/cellsmooth3d.m4"])

p("Linear extrapolation into ghost cells",
  "A call of linearextrap for a boundary segment one cell thick stores on every cell of it the value extrapolated from before the call: 2x - y along the normal of a face, x + y - z from the square towards the patch on an edge or corner; nothing else changes, and other types or numbers do nothing. Called for all faces, then all edges, then all corners (in any order within each), it continues linear data of a patch of at least two cells per direction over the whole first ghost layer. Refuted: the same for another order of the three, for bilinear data, and for segments two cells thick.",
  "all patches, ghost widths, segments, faces, edges, corners, orders and array contents; any scalar type for the stored values, field laws for linear data",
  "26 pieces times all patch shapes, orders and contents cannot be run",
  ["m4/copycoarsetofine.m4: linearextrap"])

p("Relaxation with several unknowns per cell",
  "After ccellblkjacobi3d the change of the unknowns of every cell of the patch solves the system of the diagonal entry of the cell for f minus the other entries times u, where u is new at the cells visited before and old elsewhere; r holds the change, and besides u and r on the patch only the local array changes. From zero in a cell that is a step of block Gauss-Seidel. Refuted: a solution is kept. The diagonal entry times the old values is not taken off, so a cell whose equations hold and which reads no new values gets twice its values, and what stays unchanged solves the equations without their diagonal entries.",
  "all patches, numbers of unknowns, tables, ghost widths, array contents and correct dense solvers, for invertible diagonal entries; field laws",
  "no test calls the subroutine; one run cannot tell a step from zero from a step in general",
  ["m4/cellsmooth3d.m4: ccellblkjacobi3d"])

p("Order and repetition of boundary calls",
  "Filling the ghost cells of a patch takes a list of calls of a boundary kernel, one for each boundary box, with any mixture of conditions and orders. When faces come before edges and edges before corners, no two boxes share a ghost cell and the patch is as thick as the formulas reach, every other order gives the same memory, or the same failure, and doing all the calls again changes nothing. The same holds for the homogeneous kernel of 2D patches, C++ and Fortran, although each of its calls also fills the two corners of its face and calls for adjoining faces share a corner. Refuted without the provisos: a corner before a face it uses gives another result, and on a patch of one cell the second order formula on a face reads the ghost cell of the opposite face.",
  "all patches, lists of boxes and their permutations, conditions, ghost widths, coefficients and array contents; any scalar arithmetic",
  "a test makes one call or one list of calls in one order",
  ["src/cuda/cd_correct_bc_1d_cuda.cpp: set_bc, set_poisson_bc", "src/cuda/cd_correct_bc_2d_cuda.cpp: set_bc, set_poisson_bc, set_corner_bc, set_homogenous_bc", "src/cuda/cd_correct_bc_3d_cuda.cpp: set_bc, set_poisson_bc"])

p("Superposition",
  "With the same coefficients, running the flux kernel and the operator kernel on x u + y v gives x times the result for u plus y times the result for v, in every cell of the patch. Only the values of the grid function in the patch and in the cells beyond its faces matter: corner ghost cells and the previous contents of the flux and result arrays have no influence.",
  "all patches, grid functions, coefficients, factors, ghost widths and other array contents, for the three operators in one, two and three dimensions; over any field",
  "a test compares one or a few results, and linearity relates all triples of inputs",
  ["src/cuda/cdf_1d_cuda.cpp: flux, poisson_flux", "src/cuda/cdf_2d_cuda.cpp: flux, poisson_flux", "src/cuda/cdf_3d_cuda.cpp: flux, poisson_flux", "src/cuda/cd_apply_1d_cuda.cpp: diffusion_v1_apply, diffusion_v2_apply, poisson_v2_apply", "src/cuda/cd_apply_2d_cuda.cpp: diffusion_v1_apply, diffusion_v2_apply, poisson_v2_apply", "src/cuda/cd_apply_3d_cuda.cpp: diffusion_v1_apply, diffusion_v2_apply, poisson_v2_apply"])

p("Comparison and maximum principle",
  "With positive coefficients, if the result for one grid function is at most that for another in the patch, and the first is at most the second in the cells beyond the faces, then it is at most the second in the whole patch. If the result is nowhere positive, the function is bounded in the patch by a bound on its values beyond the faces (a non-negative one when there is a reaction term), and likewise from below.",
  "all patches, all grid functions and coefficients with beta and the first face coefficients positive and the others non-negative, over the rationals; three operators in one, two and three dimensions",
  "the statement is about all pairs of grid functions on all patches",
  ["src/cuda/cdf_1d_cuda.cpp: flux, poisson_flux", "src/cuda/cdf_2d_cuda.cpp: flux, poisson_flux", "src/cuda/cdf_3d_cuda.cpp: flux, poisson_flux", "src/cuda/cd_apply_1d_cuda.cpp: diffusion_v1_apply, diffusion_v2_apply, poisson_v2_apply", "src/cuda/cd_apply_2d_cuda.cpp: diffusion_v1_apply, diffusion_v2_apply, poisson_v2_apply", "src/cuda/cd_apply_3d_cuda.cpp: diffusion_v1_apply, diffusion_v2_apply, poisson_v2_apply"])

p("The discrete problem has exactly one solution",
  "With positive coefficients, for every right-hand side and all values beyond the faces of the patch there is a grid function for which the flux kernel and the operator kernel give this right-hand side, and only one. It is reached in the memory by changing only the cells of u in the patch.",
  "all patches, right-hand sides, ghost values and coefficients with beta and the first face coefficients positive and the others non-negative, over the rationals; three operators in one, two and three dimensions",
  "existence of a solution for all data cannot be tested",
  ["src/cuda/cdf_1d_cuda.cpp: flux, poisson_flux", "src/cuda/cdf_2d_cuda.cpp: flux, poisson_flux", "src/cuda/cdf_3d_cuda.cpp: flux, poisson_flux", "src/cuda/cd_apply_1d_cuda.cpp: diffusion_v1_apply, diffusion_v2_apply, poisson_v2_apply", "src/cuda/cd_apply_2d_cuda.cpp: diffusion_v1_apply, diffusion_v2_apply, poisson_v2_apply", "src/cuda/cd_apply_3d_cuda.cpp: diffusion_v1_apply, diffusion_v2_apply, poisson_v2_apply"])

p("The boundary value problem is well posed",
  "Give every face of the patch a Dirichlet (order 1 or 2), Neumann or Robin (order 1, right signs) condition, fill the ghost cells by one call of the boundary kernel per face, then run the flux kernel and the operator kernel. With positive coefficients, and a face of the first direction that is not Neumann (or a positive reaction term), every right-hand side in the patch is reached by exactly one grid function, by changing only the cells of u in the patch; and a larger right-hand side gives a larger solution. With Neumann conditions everywhere and no reaction the solution is not unique.",
  "all patches at least as thick as the formulas need, all right-hand sides, conditions, ghost widths from 1 and coefficients with beta, the spacings and the first face coefficients positive and the others non-negative, over the rationals; three operators in one, two and three dimensions (Robin conditions not for the Poisson operator)",
  "existence and uniqueness for all data cannot be tested, and the composition of three kernels has too many inputs",
  ["src/cuda/cd_correct_bc_1d_cuda.cpp: set_bc, set_poisson_bc", "src/cuda/cd_correct_bc_2d_cuda.cpp: set_bc, set_poisson_bc", "src/cuda/cd_correct_bc_3d_cuda.cpp: set_bc, set_poisson_bc", "src/cuda/cdf_1d_cuda.cpp: flux, poisson_flux", "src/cuda/cdf_2d_cuda.cpp: flux, poisson_flux", "src/cuda/cdf_3d_cuda.cpp: flux, poisson_flux", "src/cuda/cd_apply_1d_cuda.cpp: diffusion_v1_apply, diffusion_v2_apply, poisson_v2_apply", "src/cuda/cd_apply_2d_cuda.cpp: diffusion_v1_apply, diffusion_v2_apply, poisson_v2_apply", "src/cuda/cd_apply_3d_cuda.cpp: diffusion_v1_apply, diffusion_v2_apply, poisson_v2_apply"])

p("One anchored face suffices; the closed problem",
  "In the setting of C74 with all face coefficients positive: if any one face of the patch is not Neumann, or any one cell has a reaction term, a larger right-hand side gives a larger solution and every right-hand side has a solution. If all faces are Neumann and there is no reaction, the operator's values sum to zero over the patch, two solutions for the same data differ by a constant, and for data of sum zero there is a solution with any prescribed value in any prescribed cell.",
  "all patches at least as thick as the formulas need, all data, conditions, ghost widths from 1 and positive coefficients, over the rationals; three operators in one, two and three dimensions",
  "solvability, uniqueness up to a constant and the compatibility condition are statements about all data",
  ["src/cuda/cd_correct_bc_1d_cuda.cpp: set_bc, set_poisson_bc", "src/cuda/cd_correct_bc_2d_cuda.cpp: set_bc, set_poisson_bc", "src/cuda/cd_correct_bc_3d_cuda.cpp: set_bc, set_poisson_bc", "src/cuda/cdf_1d_cuda.cpp: flux, poisson_flux", "src/cuda/cdf_2d_cuda.cpp: flux, poisson_flux", "src/cuda/cdf_3d_cuda.cpp: flux, poisson_flux", "src/cuda/cd_apply_1d_cuda.cpp: diffusion_v1_apply, diffusion_v2_apply, poisson_v2_apply", "src/cuda/cd_apply_2d_cuda.cpp: diffusion_v1_apply, diffusion_v2_apply, poisson_v2_apply", "src/cuda/cd_apply_3d_cuda.cpp: diffusion_v1_apply, diffusion_v2_apply, poisson_v2_apply"])

p("The boundary value problem is symmetric and positive",
  "In the setting of C75 with Dirichlet conditions of order 1 (and Neumann or Robin conditions): filling the ghost cells and applying the operator is symmetric (the sum of L w times z is the sum of L z times w), not negative (the sum of L w times w), positive for every non-zero w when some face is not Neumann or some cell reacts, and the solution is the grid function of least energy. With a Dirichlet condition of order 2 it is not symmetric.",
  "all patches at least as thick as the formulas need, all pairs of grid functions, conditions, ghost widths from 1 and positive coefficients, over the rationals; three operators in one, two and three dimensions",
  "conjugate gradients and multigrid rely on it; a test checks finitely many pairs of grid functions",
  ["src/cuda/cd_correct_bc_1d_cuda.cpp: set_bc, set_poisson_bc", "src/cuda/cd_correct_bc_2d_cuda.cpp: set_bc, set_poisson_bc", "src/cuda/cd_correct_bc_3d_cuda.cpp: set_bc, set_poisson_bc", "src/cuda/cdf_1d_cuda.cpp: flux, poisson_flux", "src/cuda/cdf_2d_cuda.cpp: flux, poisson_flux", "src/cuda/cdf_3d_cuda.cpp: flux, poisson_flux", "src/cuda/cd_apply_1d_cuda.cpp: diffusion_v1_apply, diffusion_v2_apply, poisson_v2_apply", "src/cuda/cd_apply_2d_cuda.cpp: diffusion_v1_apply, diffusion_v2_apply, poisson_v2_apply", "src/cuda/cd_apply_3d_cuda.cpp: diffusion_v1_apply, diffusion_v2_apply, poisson_v2_apply"])

p("The boundary value problem is stable",
  "In the setting of C75: if the data of two problems differ by at most M times the reaction coefficient in every cell, the solutions differ by at most M. For the Poisson operator with Dirichlet conditions of order 1 at both ends of a direction (any admissible conditions elsewhere): if the data differ by at most M, the solutions differ by at most M/beta times ((n h)^2 + h^2)/8, where n is the number of cells and h the spacing in that direction; n h is the length of the patch, so the bound does not grow with the resolution.",
  "all patches at least as thick as the formulas need, all pairs of problems with the same coefficients, conditions, ghost widths from 1 and positive coefficients, over the rationals; one, two and three dimensions, every direction",
  "a bound uniform in the data and in the resolution cannot be found by testing",
  ["src/cuda/cd_correct_bc_1d_cuda.cpp: set_bc, set_poisson_bc", "src/cuda/cd_correct_bc_2d_cuda.cpp: set_bc, set_poisson_bc", "src/cuda/cd_correct_bc_3d_cuda.cpp: set_bc, set_poisson_bc", "src/cuda/cdf_1d_cuda.cpp: flux, poisson_flux", "src/cuda/cdf_2d_cuda.cpp: flux, poisson_flux", "src/cuda/cdf_3d_cuda.cpp: flux, poisson_flux", "src/cuda/cd_apply_1d_cuda.cpp: diffusion_v1_apply, diffusion_v2_apply, poisson_v2_apply", "src/cuda/cd_apply_2d_cuda.cpp: diffusion_v1_apply, diffusion_v2_apply, poisson_v2_apply", "src/cuda/cd_apply_3d_cuda.cpp: diffusion_v1_apply, diffusion_v2_apply, poisson_v2_apply"])

p("Assembling the matrix and relaxing solves the problem of the operator kernels",
  "Let the flux and operator kernels, run on the grid function w, give r. Let the stencil kernels have assembled the matrix of the same coefficients, the offset table list the cell itself and its neighbours in the order of the entries, and f hold r. Then w solves the assembled system, and when u has the values of w around the patch and is within E of w on it, n sweeps of Gauss-Seidel, red-black Gauss-Seidel or Jacobi leave it within q^n E of w, where q < 1 is computed from the bounds on the coefficients and the spacings.",
  "all patches, coefficients with positive reaction and face values in [0, B], grid functions, ghost widths from 1, starting values, numbers of sweeps, over the rationals; both variants of the operator, one, two and three dimensions",
  "agreement of three separately written pieces of code (matrix-free kernels, stencil assembly, smoothers) for every problem and every number of sweeps",
  ["src/cuda/cd_stencil_1d_cuda.cpp: offdiag, v1diag, v2diag", "src/cuda/cd_stencil_2d_cuda.cpp: offdiag, v1diag, v2diag", "src/cuda/cd_stencil_3d_cuda.cpp: offdiag, v1diag, v2diag", "src/cuda/cdf_1d_cuda.cpp: flux", "src/cuda/cdf_2d_cuda.cpp: flux", "src/cuda/cdf_3d_cuda.cpp: flux", "src/cuda/cd_apply_1d_cuda.cpp: diffusion_v1_apply, diffusion_v2_apply", "src/cuda/cd_apply_2d_cuda.cpp: diffusion_v1_apply, diffusion_v2_apply", "src/cuda/cd_apply_3d_cuda.cpp: diffusion_v1_apply, diffusion_v2_apply", "m4/cellsmooth1d.m4", "m4/cellsmooth2d.m4", "m4/cellsmooth3d.m4"])

p("Relaxing the assembled Poisson matrix converges, at a rate given by the grid",
  "Let the stencil kernels have assembled the matrix of the operator without reaction, whose rows sum to zero and are only weakly dominant, and let f hold the three-, five- or seven-point difference operator applied to a grid function w. When u has the values of w around the patch and is within E of w on it, n sweeps of Gauss-Seidel, red-black Gauss-Seidel (general or fixed stencil) or Jacobi leave it within q^n E (N+1)^2/4 of w, where N is the number of cells in the first direction and q = 1 - 4/(N+1)^2 times the share of the first direction in the sum of 1/h^2; q is below one. For Jacobi with weight om from 0 to 1 (2/3 in one dimension) the factor is 1 - om + om q. The two red-black sweeps have opposite colours, with first row plus colour not negative, as in C66; in one dimension the Gauss-Seidel routine needs f to have the ghost width of u.",
  "all non-empty patches, positive beta, nonzero spacings, grid functions, ghost widths from 1, starting values, numbers of sweeps, over the rationals; one, two and three dimensions; values around the patch held fixed",
  "the claim bounds the error for every grid and every number of sweeps; a test sees a residual going down on some grids",
  ["src/cuda/cd_stencil_1d_cuda.cpp: poisson_offdiag, poisson_diag", "src/cuda/cd_stencil_2d_cuda.cpp: poisson_offdiag, poisson_diag", "src/cuda/cd_stencil_3d_cuda.cpp: poisson_offdiag, poisson_diag", "m4/cellsmooth1d.m4", "m4/cellsmooth2d.m4", "m4/cellsmooth3d.m4"])

with open('/verif/properties.jsonl','w') as f:
    for x in P: f.write(json.dumps(x)+"\n")
print(len(P))
