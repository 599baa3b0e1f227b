{
 "claims": [
  {
   "property": "C01",
   "status": "proved",
   "theorems": [
    "C01_interval",
    "C01_arithmetic",
    "C01_ghost_bounds",
    "C01_plain_bounds"
   ],
   "note": ""
  },
  {
   "property": "C02",
   "status": "proved",
   "theorems": [
    "C02_ravel_bijective",
    "C02_ravel_row_major"
   ],
   "note": ""
  },
  {
   "property": "C03",
   "status": "proved",
   "theorems": [
    "C03_unravel_inverts",
    "C03_unravel_end",
    "C03_special_cases"
   ],
   "note": ""
  },
  {
   "property": "C04",
   "status": "proved",
   "theorems": [
    "C04_traversal_laws"
   ],
   "note": ""
  },
  {
   "property": "C05",
   "status": "proved",
   "theorems": [
    "C05_span_enumerates_domain",
    "C05_addresses_distinct"
   ],
   "note": ""
  },
  {
   "property": "C06",
   "status": "proved",
   "theorems": [
    "C06_loop_order_invisible"
   ],
   "note": ""
  },
  {
   "property": "C07",
   "status": "proved",
   "theorems": [
    "C07_inside_allocation"
   ],
   "note": ""
  },
  {
   "property": "C08",
   "status": "proved",
   "theorems": [
    "C08_strided_indices",
    "C08_strided_traversal"
   ],
   "note": ""
  },
  {
   "property": "C09",
   "status": "proved",
   "theorems": [
    "C09_transpose"
   ],
   "note": ""
  },
  {
   "property": "C10",
   "status": "proved",
   "theorems": [
    "C10_windows",
    "C10_windows_disjoint"
   ],
   "note": ""
  },
  {
   "property": "C11",
   "status": "proved",
   "theorems": [
    "C11_gradients"
   ],
   "note": ""
  },
  {
   "property": "C12",
   "status": "proved",
   "theorems": [
    "C12_stencil_pairs",
    "C12_scalar_arithmetic"
   ],
   "note": ""
  },
  {
   "property": "C13",
   "status": "proved",
   "theorems": [
    "C13_shift_moves_point",
    "C13_corner_shifts",
    "C13_shifts_add",
    "C13_shifts_commute",
    "C13_shift_zero"
   ],
   "note": ""
  },
  {
   "property": "C14",
   "status": "proved",
   "theorems": [
    "C14_pointwise"
   ],
   "note": ""
  },
  {
   "property": "C15",
   "status": "proved",
   "theorems": [
    "C15_assignment",
    "C15_reads_sound",
    "C15_other_allocations",
    "C15_with_lhs_domain"
   ],
   "note": ""
  },
  {
   "property": "C16",
   "status": "proved",
   "theorems": [
    "C16_fill"
   ],
   "note": ""
  },
  {
   "property": "C17",
   "status": "proved",
   "theorems": [
    "C17_every_schedule",
    "C17_any_order"
   ],
   "note": ""
  },
  {
   "property": "C18",
   "status": "proved",
   "theorems": [
    "C18_ghost_updates_independent",
    "C18_overlap_schedule_dependent_refuted"
   ],
   "note": "The ghost-update pattern is independent; the overlapping case is refuted by a witness."
  },
  {
   "property": "C19",
   "status": "proved",
   "theorems": [
    "C19_jumps_equal_steps",
    "C19_distance",
    "C19_decrement_undoes_increment"
   ],
   "note": ""
  },
  {
   "property": "C20",
   "status": "proved",
   "theorems": [
    "C20_pointers_are_random_access",
    "C20_traversals_are_random_access",
    "C20_traversal_stencil",
    "C20_pairs",
    "C20_inc_dec",
    "C20_distance"
   ],
   "note": ""
  },
  {
   "property": "C21",
   "status": "proved",
   "theorems": [
    "C21_forward_jump",
    "C21_traversal_jump"
   ],
   "note": ""
  },
  {
   "property": "C22",
   "status": "proved",
   "theorems": [
    "C22_begin_plus_size_refuted"
   ],
   "note": "The claim is false of the code; the theorem says that begin+size is never the end, for every array."
  },
  {
   "property": "C23",
   "status": "proved",
   "theorems": [
    "C23_backward_jump",
    "C23_position_in_block",
    "C23_backward_jump_refuted",
    "C23_jump_exact"
   ],
   "note": "The unconditional claim is false (refuted); the theorems give the exact result of every jump over pointers, and correctness outside the failing case over any iterator."
  },
  {
   "property": "C24",
   "status": "proved",
   "theorems": [
    "C24_offset_iterator",
    "C24_dot"
   ],
   "note": ""
  },
  {
   "property": "C25",
   "status": "proved",
   "theorems": [
    "C25_coarse_index_floor"
   ],
   "note": ""
  },
  {
   "property": "C26",
   "status": "proved",
   "theorems": [
    "C26_coarse_to_fine"
   ],
   "note": ""
  },
  {
   "property": "C27",
   "status": "proved",
   "theorems": [
    "C27_at",
    "C27_index",
    "C27_one_to_one",
    "C27_vector_size"
   ],
   "note": ""
  },
  {
   "property": "C28",
   "status": "proved",
   "theorems": [
    "C28_window_expression",
    "C28_defined"
   ],
   "note": ""
  },
  {
   "property": "C29",
   "status": "proved",
   "theorems": [
    "C29_accepted_shapes_refuted",
    "C29_prefixed_vector_refuted",
    "C29_merged_vectors_refuted"
   ],
   "note": "The claim is false of the code; accepted expressions of two shapes store the wrong value."
  },
  {
   "property": "C30",
   "status": "proved",
   "theorems": [
    "C30_in_order",
    "C30_effect",
    "C30_frame",
    "C30_schedules",
    "C30_local_windows"
   ],
   "note": ""
  },
  {
   "property": "C31",
   "status": "proved",
   "theorems": [
    "C31_subtract"
   ],
   "note": ""
  },
  {
   "property": "C32",
   "status": "proved",
   "theorems": [
    "C32_strided_window_refuted",
    "C32_points_processed",
    "C32_strides_divide"
   ],
   "note": "The claim is false when a stride does not divide its extent; the processed points are characterised exactly."
  },
  {
   "property": "C33",
   "status": "proved",
   "theorems": [
    "C33_strided_gradient_refuted",
    "C33_other_strides"
   ],
   "note": "The claim is false with a stride in the differentiated direction; proved for any stride in the other directions."
  },
  {
   "property": "C34",
   "status": "proved",
   "theorems": [
    "C34_one_array"
   ],
   "note": ""
  },
  {
   "property": "C35",
   "status": "proved",
   "theorems": [
    "C35_set_offset_loses_device_writes_refuted",
    "C35_retained_pointer_refuted"
   ],
   "note": "The claim is false of the code; two witness histories."
  },
  {
   "property": "C36",
   "status": "proved",
   "theorems": [
    "C36_flux_1d",
    "C36_flux_2d",
    "C36_flux_3d",
    "C36_poisson_flux_1d",
    "C36_poisson_flux_2d",
    "C36_poisson_flux_3d"
   ],
   "note": ""
  },
  {
   "property": "C37",
   "status": "proved",
   "theorems": [
    "C37_1d_diffusion_v1_res",
    "C37_1d_diffusion_v2_res",
    "C37_1d_poisson_v1_res",
    "C37_1d_diffusion_v1_apply",
    "C37_1d_diffusion_v2_apply",
    "C37_1d_poisson_v2_apply",
    "C37_2d_diffusion_v1_res",
    "C37_2d_diffusion_v2_res",
    "C37_2d_poisson_v1_res",
    "C37_2d_diffusion_v1_apply",
    "C37_2d_diffusion_v2_apply",
    "C37_2d_poisson_v2_apply",
    "C37_3d_diffusion_v1_res",
    "C37_3d_diffusion_v2_res",
    "C37_3d_poisson_v1_res",
    "C37_3d_diffusion_v1_apply",
    "C37_3d_diffusion_v2_apply",
    "C37_3d_poisson_v2_apply",
    "C37_residual_1d_diffusion_v1_res",
    "C37_residual_1d_diffusion_v2_res",
    "C37_residual_1d_poisson_v1_res",
    "C37_residual_2d_diffusion_v1_res",
    "C37_residual_2d_diffusion_v2_res",
    "C37_residual_2d_poisson_v1_res",
    "C37_residual_3d_diffusion_v1_res",
    "C37_residual_3d_diffusion_v2_res",
    "C37_residual_3d_poisson_v1_res"
   ],
   "note": ""
  },
  {
   "property": "C38",
   "status": "proved",
   "theorems": [
    "C38_copy",
    "C38_copy_corner",
    "C38_copy_value"
   ],
   "note": ""
  },
  {
   "property": "C39",
   "status": "proved",
   "theorems": [
    "C39_set_bc_1d",
    "C39_set_poisson_bc_1d",
    "C39_set_bc_2d",
    "C39_set_poisson_bc_2d",
    "C39_set_corner_bc_2d",
    "C39_set_homogenous_bc_2d",
    "C39_set_bc_3d",
    "C39_set_poisson_bc_3d"
   ],
   "note": ""
  },
  {
   "property": "C40",
   "status": "proved",
   "theorems": [
    "C40_set_bc_2d_refuted",
    "C40_set_poisson_bc_3d_refuted",
    "C40_set_bc_2d",
    "C40_set_poisson_bc_2d",
    "C40_set_poisson_bc_3d"
   ],
   "note": "The claim is false of the code; two witnesses, and the true statement for the segment cut to the patch."
  },
  {
   "property": "C41",
   "status": "proved",
   "theorems": [
    "C41_offdiag_1d",
    "C41_poisson_offdiag_1d",
    "C41_v1diag_1d",
    "C41_v2diag_1d",
    "C41_poisson_diag_1d",
    "C41_adj_diag_1d",
    "C41_adj_poisson_diag_1d",
    "C41_adj_cf_diag_1d",
    "C41_adj_poisson_cf_diag_1d",
    "C41_adj_offdiag_1d",
    "C41_adj_poisson_offdiag_1d",
    "C41_adj_cf_offdiag_1d",
    "C41_readj_offdiag_1d",
    "C41_adj_cf_bdryrhs_1d",
    "C41_offdiag_2d",
    "C41_poisson_offdiag_2d",
    "C41_v1diag_2d",
    "C41_v2diag_2d",
    "C41_poisson_diag_2d",
    "C41_adj_diag_2d",
    "C41_adj_poisson_diag_2d",
    "C41_adj_cf_diag_2d",
    "C41_adj_poisson_cf_diag_2d",
    "C41_adj_offdiag_2d",
    "C41_adj_poisson_offdiag_2d",
    "C41_adj_cf_offdiag_2d",
    "C41_readj_offdiag_2d",
    "C41_adj_cf_bdryrhs_2d",
    "C41_offdiag_3d",
    "C41_poisson_offdiag_3d",
    "C41_v1diag_3d",
    "C41_v2diag_3d",
    "C41_poisson_diag_3d",
    "C41_adj_diag_3d",
    "C41_adj_poisson_diag_3d",
    "C41_adj_cf_diag_3d",
    "C41_adj_poisson_cf_diag_3d",
    "C41_adj_offdiag_3d",
    "C41_adj_poisson_offdiag_3d",
    "C41_adj_cf_offdiag_3d",
    "C41_readj_offdiag_3d",
    "C41_adj_cf_bdryrhs_3d"
   ],
   "note": ""
  },
  {
   "property": "C42",
   "status": "proved",
   "theorems": [
    "C42_cdf_1d_flux",
    "C42_cdf_2d_flux",
    "C42_cdf_3d_flux",
    "C42_cdf_1d_poisson_flux",
    "C42_cdf_2d_poisson_flux",
    "C42_cdf_3d_poisson_flux",
    "C42_cd_apply_1d_diffusion_v1_res",
    "C42_cd_apply_1d_diffusion_v2_res",
    "C42_cd_apply_1d_poisson_v1_res",
    "C42_cd_apply_1d_diffusion_v1_apply",
    "C42_cd_apply_1d_diffusion_v2_apply",
    "C42_cd_apply_1d_poisson_v2_apply",
    "C42_cd_apply_2d_diffusion_v1_res",
    "C42_cd_apply_2d_diffusion_v2_res",
    "C42_cd_apply_2d_poisson_v1_res",
    "C42_cd_apply_2d_diffusion_v1_apply",
    "C42_cd_apply_2d_diffusion_v2_apply",
    "C42_cd_apply_2d_poisson_v2_apply",
    "C42_cd_apply_3d_diffusion_v1_res",
    "C42_cd_apply_3d_diffusion_v2_res",
    "C42_cd_apply_3d_poisson_v1_res",
    "C42_cd_apply_3d_diffusion_v1_apply",
    "C42_cd_apply_3d_diffusion_v2_apply",
    "C42_cd_apply_3d_poisson_v2_apply",
    "C42_c2f_copy",
    "C42_c2f_copy_corner",
    "C42_cd_2d_set_homogenous_bc",
    "C42_cd_1d_set_bc",
    "C42_cd_1d_set_poisson_bc",
    "C42_cd_2d_set_bc",
    "C42_cd_2d_set_poisson_bc",
    "C42_cd_2d_set_corner_bc",
    "C42_cd_3d_set_bc",
    "C42_cd_3d_set_poisson_bc",
    "C42_cd_stencil_1d_offdiag",
    "C42_cd_stencil_1d_poisson_offdiag",
    "C42_cd_stencil_1d_v1diag",
    "C42_cd_stencil_1d_v2diag",
    "C42_cd_stencil_1d_poisson_diag",
    "C42_cd_stencil_1d_adj_diag",
    "C42_cd_stencil_1d_adj_poisson_diag",
    "C42_cd_stencil_1d_adj_cf_diag",
    "C42_cd_stencil_1d_adj_poisson_cf_diag",
    "C42_cd_stencil_1d_adj_offdiag",
    "C42_cd_stencil_1d_adj_poisson_offdiag",
    "C42_cd_stencil_1d_adj_cf_offdiag",
    "C42_cd_stencil_1d_readj_offdiag",
    "C42_cd_stencil_1d_adj_cf_bdryrhs",
    "C42_cd_stencil_2d_offdiag",
    "C42_cd_stencil_2d_poisson_offdiag",
    "C42_cd_stencil_2d_v1diag",
    "C42_cd_stencil_2d_v2diag",
    "C42_cd_stencil_2d_poisson_diag",
    "C42_cd_stencil_2d_adj_diag",
    "C42_cd_stencil_2d_adj_poisson_diag",
    "C42_cd_stencil_2d_adj_cf_diag",
    "C42_cd_stencil_2d_adj_poisson_cf_diag",
    "C42_cd_stencil_2d_adj_offdiag",
    "C42_cd_stencil_2d_adj_poisson_offdiag",
    "C42_cd_stencil_2d_adj_cf_offdiag",
    "C42_cd_stencil_2d_readj_offdiag",
    "C42_cd_stencil_2d_adj_cf_bdryrhs",
    "C42_cd_stencil_3d_offdiag",
    "C42_cd_stencil_3d_poisson_offdiag",
    "C42_cd_stencil_3d_v1diag",
    "C42_cd_stencil_3d_v2diag",
    "C42_cd_stencil_3d_poisson_diag",
    "C42_cd_stencil_3d_adj_diag",
    "C42_cd_stencil_3d_adj_poisson_diag",
    "C42_cd_stencil_3d_adj_cf_diag",
    "C42_cd_stencil_3d_adj_poisson_cf_diag",
    "C42_cd_stencil_3d_adj_offdiag",
    "C42_cd_stencil_3d_adj_poisson_offdiag",
    "C42_cd_stencil_3d_adj_cf_offdiag",
    "C42_cd_stencil_3d_readj_offdiag",
    "C42_cd_stencil_3d_adj_cf_bdryrhs"
   ],
   "note": ""
  },
  {
   "property": "C43",
   "status": "proved",
   "theorems": [
    "C43_v1_1d",
    "C43_v2_1d",
    "C43_poisson_1d",
    "C43_v1_2d",
    "C43_v2_2d",
    "C43_poisson_2d",
    "C43_v1_3d",
    "C43_v2_3d",
    "C43_poisson_3d"
   ],
   "note": ""
  },
  {
   "property": "C44",
   "status": "proved",
   "theorems": [
    "C44_v1_1d",
    "C44_v2_1d",
    "C44_poisson_1d",
    "C44_v1_2d",
    "C44_v2_2d",
    "C44_poisson_2d",
    "C44_v1_3d",
    "C44_v2_3d",
    "C44_poisson_3d"
   ],
   "note": ""
  },
  {
   "property": "C45",
   "status": "proved",
   "theorems": [
    "C45_offset_tables",
    "C45_set_offset"
   ],
   "note": ""
  },
  {
   "property": "C46",
   "status": "proved",
   "theorems": [
    "C46_set_bc_1d",
    "C46_set_bc_2d",
    "C46_set_bc_3d",
    "C46_set_poisson_bc_1d",
    "C46_set_poisson_bc_2d",
    "C46_set_poisson_bc_3d",
    "C46_set_homogenous_bc_2d",
    "C46_robin_order_2_refuted",
    "C46_poisson_robin_1d_refuted"
   ],
   "note": "Proved with beta = 1 for Robin order 2; the general claim and the 1D Poisson Robin claim are refuted by witnesses."
  },
  {
   "property": "C47",
   "status": "proved",
   "theorems": [
    "C47_symmetric_v1_1d",
    "C47_rowsum_v1_1d",
    "C47_symmetric_v2_1d",
    "C47_rowsum_v2_1d",
    "C47_symmetric_poisson_1d",
    "C47_rowsum_poisson_1d",
    "C47_symmetric_v1_2d",
    "C47_rowsum_v1_2d",
    "C47_symmetric_v2_2d",
    "C47_rowsum_v2_2d",
    "C47_symmetric_poisson_2d",
    "C47_rowsum_poisson_2d",
    "C47_symmetric_v1_3d",
    "C47_rowsum_v1_3d",
    "C47_symmetric_v2_3d",
    "C47_rowsum_v2_3d",
    "C47_symmetric_poisson_3d",
    "C47_rowsum_poisson_3d"
   ],
   "note": ""
  },
  {
   "property": "C48",
   "status": "proved",
   "theorems": [
    "C48_physical_v1_1d",
    "C48_physical_v2_1d",
    "C48_physical_poisson_1d",
    "C48_physical_v1_2d",
    "C48_physical_v2_2d",
    "C48_physical_poisson_2d",
    "C48_physical_v1_3d",
    "C48_physical_v2_3d",
    "C48_physical_poisson_3d",
    "C48_robin2_refuted",
    "C48_dirichlet2_adj_diag_2d_refuted",
    "C48_dirichlet2_adj_diag_3d_refuted"
   ],
   "note": "Robin of order 2, and Dirichlet of order 2 in 2D/3D followed by adj_diag, are refuted by witnesses. The order of the calls is not in the repository: offdiag, adj_offdiag, diag is assumed."
  },
  {
   "property": "C49",
   "status": "proved",
   "theorems": [
    "C49_coarse_v1_1d",
    "C49_coarse_v2_1d",
    "C49_coarse_poisson_1d",
    "C49_coarse_v1_2d",
    "C49_coarse_v2_2d",
    "C49_coarse_poisson_2d",
    "C49_coarse_v1_3d",
    "C49_coarse_v2_3d",
    "C49_coarse_poisson_3d",
    "C49_linear_refuted"
   ],
   "note": "Order 1 is linear interpolation for ratio 2 only; other ratios refuted. Calls in the order offdiag, diag, adj_cf_diag, adj_cf_offdiag."
  },
  {
   "property": "C50",
   "status": "proved",
   "theorems": [
    "C50_residual_1d",
    "C50_residual_2d",
    "C50_residual_3d"
   ],
   "note": "Calls in the order adj_cf_bdryrhs, readj_offdiag."
  },
  {
   "property": "C51",
   "status": "proved",
   "theorems": [
    "C51_schedules",
    "C51_cdf_1d_flux",
    "C51_cdf_2d_flux",
    "C51_cdf_3d_flux",
    "C51_cdf_1d_poisson_flux",
    "C51_cdf_2d_poisson_flux",
    "C51_cdf_3d_poisson_flux",
    "C51_cd_apply_1d_diffusion_v1_res",
    "C51_cd_apply_1d_diffusion_v2_res",
    "C51_cd_apply_1d_poisson_v1_res",
    "C51_cd_apply_1d_diffusion_v1_apply",
    "C51_cd_apply_1d_diffusion_v2_apply",
    "C51_cd_apply_1d_poisson_v2_apply",
    "C51_cd_apply_2d_diffusion_v1_res",
    "C51_cd_apply_2d_diffusion_v2_res",
    "C51_cd_apply_2d_poisson_v1_res",
    "C51_cd_apply_2d_diffusion_v1_apply",
    "C51_cd_apply_2d_diffusion_v2_apply",
    "C51_cd_apply_2d_poisson_v2_apply",
    "C51_cd_apply_3d_diffusion_v1_res",
    "C51_cd_apply_3d_diffusion_v2_res",
    "C51_cd_apply_3d_poisson_v1_res",
    "C51_cd_apply_3d_diffusion_v1_apply",
    "C51_cd_apply_3d_diffusion_v2_apply",
    "C51_cd_apply_3d_poisson_v2_apply",
    "C51_cd_1d_set_bc",
    "C51_cd_1d_set_poisson_bc",
    "C51_cd_2d_set_bc",
    "C51_cd_2d_set_poisson_bc",
    "C51_cd_2d_set_corner_bc",
    "C51_cd_3d_set_bc",
    "C51_cd_3d_set_poisson_bc",
    "C51_cd_stencil_1d_offdiag",
    "C51_cd_stencil_1d_poisson_offdiag",
    "C51_cd_stencil_1d_v1diag",
    "C51_cd_stencil_1d_v2diag",
    "C51_cd_stencil_1d_poisson_diag",
    "C51_cd_stencil_1d_adj_diag",
    "C51_cd_stencil_1d_adj_poisson_diag",
    "C51_cd_stencil_1d_adj_cf_diag",
    "C51_cd_stencil_1d_adj_poisson_cf_diag",
    "C51_cd_stencil_1d_adj_offdiag",
    "C51_cd_stencil_1d_adj_poisson_offdiag",
    "C51_cd_stencil_1d_adj_cf_offdiag",
    "C51_cd_stencil_1d_readj_offdiag",
    "C51_cd_stencil_1d_adj_cf_bdryrhs",
    "C51_cd_stencil_2d_offdiag",
    "C51_cd_stencil_2d_poisson_offdiag",
    "C51_cd_stencil_2d_v1diag",
    "C51_cd_stencil_2d_v2diag",
    "C51_cd_stencil_2d_poisson_diag",
    "C51_cd_stencil_2d_adj_diag",
    "C51_cd_stencil_2d_adj_poisson_diag",
    "C51_cd_stencil_2d_adj_cf_diag",
    "C51_cd_stencil_2d_adj_poisson_cf_diag",
    "C51_cd_stencil_2d_adj_offdiag",
    "C51_cd_stencil_2d_adj_poisson_offdiag",
    "C51_cd_stencil_2d_adj_cf_offdiag",
    "C51_cd_stencil_2d_readj_offdiag",
    "C51_cd_stencil_2d_adj_cf_bdryrhs",
    "C51_cd_stencil_3d_offdiag",
    "C51_cd_stencil_3d_poisson_offdiag",
    "C51_cd_stencil_3d_v1diag",
    "C51_cd_stencil_3d_v2diag",
    "C51_cd_stencil_3d_poisson_diag",
    "C51_cd_stencil_3d_adj_diag",
    "C51_cd_stencil_3d_adj_poisson_diag",
    "C51_cd_stencil_3d_adj_cf_diag",
    "C51_cd_stencil_3d_adj_poisson_cf_diag",
    "C51_cd_stencil_3d_adj_offdiag",
    "C51_cd_stencil_3d_adj_poisson_offdiag",
    "C51_cd_stencil_3d_adj_cf_offdiag",
    "C51_cd_stencil_3d_readj_offdiag",
    "C51_cd_stencil_3d_adj_cf_bdryrhs",
    "C51_cd_2d_set_homogenous_bc",
    "C51_shared_refuted"
   ],
   "note": "One theorem per kernel. Accesses are atomic and sequentially consistent; launches run in stream order. c2f_copy_corner makes no launch. Shared allocations refuted by a witness."
  },
  {
   "property": "C52",
   "status": "proved",
   "theorems": [
    "C52_statement",
    "C52_with_domain",
    "C52_with_lhs_domain",
    "C52_random_access",
    "C52_window",
    "C52_at",
    "C52_cdf_1d_flux",
    "C52_cdf_2d_flux",
    "C52_cdf_3d_flux",
    "C52_cdf_1d_poisson_flux",
    "C52_cdf_2d_poisson_flux",
    "C52_cdf_3d_poisson_flux",
    "C52_cd_apply_1d_diffusion_v1_res",
    "C52_cd_apply_1d_diffusion_v2_res",
    "C52_cd_apply_1d_poisson_v1_res",
    "C52_cd_apply_1d_diffusion_v1_apply",
    "C52_cd_apply_1d_diffusion_v2_apply",
    "C52_cd_apply_1d_poisson_v2_apply",
    "C52_cd_apply_2d_diffusion_v1_res",
    "C52_cd_apply_2d_diffusion_v2_res",
    "C52_cd_apply_2d_poisson_v1_res",
    "C52_cd_apply_2d_diffusion_v1_apply",
    "C52_cd_apply_2d_diffusion_v2_apply",
    "C52_cd_apply_2d_poisson_v2_apply",
    "C52_cd_apply_3d_diffusion_v1_res",
    "C52_cd_apply_3d_diffusion_v2_res",
    "C52_cd_apply_3d_poisson_v1_res",
    "C52_cd_apply_3d_diffusion_v1_apply",
    "C52_cd_apply_3d_diffusion_v2_apply",
    "C52_cd_apply_3d_poisson_v2_apply",
    "C52_cd_1d_set_bc",
    "C52_cd_1d_set_poisson_bc",
    "C52_cd_2d_set_bc",
    "C52_cd_2d_set_poisson_bc",
    "C52_cd_2d_set_corner_bc",
    "C52_cd_3d_set_bc",
    "C52_cd_3d_set_poisson_bc",
    "C52_cd_stencil_1d_offdiag",
    "C52_cd_stencil_1d_poisson_offdiag",
    "C52_cd_stencil_1d_v1diag",
    "C52_cd_stencil_1d_v2diag",
    "C52_cd_stencil_1d_poisson_diag",
    "C52_cd_stencil_1d_adj_diag",
    "C52_cd_stencil_1d_adj_poisson_diag",
    "C52_cd_stencil_1d_adj_cf_diag",
    "C52_cd_stencil_1d_adj_poisson_cf_diag",
    "C52_cd_stencil_1d_adj_offdiag",
    "C52_cd_stencil_1d_adj_poisson_offdiag",
    "C52_cd_stencil_1d_adj_cf_offdiag",
    "C52_cd_stencil_1d_readj_offdiag",
    "C52_cd_stencil_1d_adj_cf_bdryrhs",
    "C52_cd_stencil_2d_offdiag",
    "C52_cd_stencil_2d_poisson_offdiag",
    "C52_cd_stencil_2d_v1diag",
    "C52_cd_stencil_2d_v2diag",
    "C52_cd_stencil_2d_poisson_diag",
    "C52_cd_stencil_2d_adj_diag",
    "C52_cd_stencil_2d_adj_poisson_diag",
    "C52_cd_stencil_2d_adj_cf_diag",
    "C52_cd_stencil_2d_adj_poisson_cf_diag",
    "C52_cd_stencil_2d_adj_offdiag",
    "C52_cd_stencil_2d_adj_poisson_offdiag",
    "C52_cd_stencil_2d_adj_cf_offdiag",
    "C52_cd_stencil_2d_readj_offdiag",
    "C52_cd_stencil_2d_adj_cf_bdryrhs",
    "C52_cd_stencil_3d_offdiag",
    "C52_cd_stencil_3d_poisson_offdiag",
    "C52_cd_stencil_3d_v1diag",
    "C52_cd_stencil_3d_v2diag",
    "C52_cd_stencil_3d_poisson_diag",
    "C52_cd_stencil_3d_adj_diag",
    "C52_cd_stencil_3d_adj_poisson_diag",
    "C52_cd_stencil_3d_adj_cf_diag",
    "C52_cd_stencil_3d_adj_poisson_cf_diag",
    "C52_cd_stencil_3d_adj_offdiag",
    "C52_cd_stencil_3d_adj_poisson_offdiag",
    "C52_cd_stencil_3d_adj_cf_offdiag",
    "C52_cd_stencil_3d_readj_offdiag",
    "C52_cd_stencil_3d_adj_cf_bdryrhs",
    "C52_cd_2d_set_homogenous_bc",
    "C52_c2f_copy_corner",
    "C52_large_patch_refuted",
    "C52_empty_domain_refuted"
   ],
   "note": "Patches and segments are non-empty. Bounds expressions in the kernel bodies are exact and checked to be int on entry to the library. Larger arrays and empty domains refuted by witnesses."
  },
  {
   "property": "C53",
   "status": "proved",
   "theorems": [
    "C53_nodediffusionflux1d",
    "C53_nodepoissonflux1d",
    "C53_nodediffusionflux2d",
    "C53_nodepoissonflux2d",
    "C53_nodediffusionflux3d",
    "C53_nodepoissonflux3d",
    "C53_nodediffusionv1apply1d",
    "C53_nodediffusionv1apply1d_at",
    "C53_nodediffusionv2apply1d",
    "C53_nodediffusionv2apply1d_at",
    "C53_nodepoissonapply1d",
    "C53_nodepoissonapply1d_at",
    "C53_nodediffusionv1apply2d",
    "C53_nodediffusionv1apply2d_at",
    "C53_nodediffusionv2apply2d",
    "C53_nodediffusionv2apply2d_at",
    "C53_nodepoissonapply2d",
    "C53_nodepoissonapply2d_at",
    "C53_nodediffusionv1apply3d",
    "C53_nodediffusionv1apply3d_at",
    "C53_nodediffusionv2apply3d",
    "C53_nodepoissonapply3d",
    "C53_nodediffusionoffdiag1d",
    "C53_nodepoissonoffdiag1d",
    "C53_nodediffusionv1diag1d",
    "C53_nodediffusionv2diag1d",
    "C53_nodepoissondiag1d",
    "C53_adjnodediffusiondiag1d",
    "C53_adjnodepoissondiag1d",
    "C53_adjnodediffusioncfdiag1d",
    "C53_adjnodepoissoncfdiag1d",
    "C53_adjnodediffusionoffdiag1d",
    "C53_adjnodepoissonoffdiag1d",
    "C53_adjnodediffusioncfoffdiag1d",
    "C53_readjnodediffusionoffdiag1d",
    "C53_adjnodediffusioncfbdryrhs1d",
    "C53_nodediffusionoffdiag2d",
    "C53_nodepoissonoffdiag2d",
    "C53_nodediffusionv1diag2d",
    "C53_nodediffusionv2diag2d",
    "C53_nodepoissondiag2d",
    "C53_adjnodediffusiondiag2d",
    "C53_adjnodepoissondiag2d",
    "C53_adjnodediffusioncfdiag2d",
    "C53_adjnodepoissoncfdiag2d",
    "C53_adjnodediffusionoffdiag2d",
    "C53_adjnodepoissonoffdiag2d",
    "C53_adjnodediffusioncfoffdiag2d",
    "C53_readjnodediffusionoffdiag2d",
    "C53_adjnodediffusioncfbdryrhs2d",
    "C53_nodediffusionoffdiag3d",
    "C53_nodepoissonoffdiag3d",
    "C53_nodediffusionv1diag3d",
    "C53_nodediffusionv2diag3d",
    "C53_nodepoissondiag3d",
    "C53_adjnodediffusiondiag3d",
    "C53_adjnodepoissondiag3d",
    "C53_adjnodediffusioncfdiag3d",
    "C53_adjnodepoissoncfdiag3d",
    "C53_adjnodediffusionoffdiag3d",
    "C53_adjnodepoissonoffdiag3d",
    "C53_adjnodediffusioncfoffdiag3d",
    "C53_readjnodediffusionoffdiag3d",
    "C53_adjnodediffusioncfbdryrhs3d",
    "C53_nodediffusionflux3d_refuted",
    "C53_nodediffusionv2apply3d_refuted",
    "C53_nodepoissonapply3d_refuted",
    "C53_adjnodediffusiondiag3d_refuted",
    "C53_adjnodepoissondiag3d_refuted",
    "C53_adjnodediffusioncfdiag3d_refuted",
    "C53_adjnodediffusionoffdiag3d_refuted",
    "C53_adjnodepoissonoffdiag3d_refuted",
    "C53_readjnodediffusionoffdiag3d_refuted"
   ],
   "note": "Nine three-dimensional node subroutines differ from their cell counterparts (C53_..._refuted give computed cases); for these the equality is proved for the arguments that avoid the wrong access. The _at theorems give b f + a L u for arbitrary a, b without laws of arithmetic; equality with the residual needs field_laws."
  },
  {
   "property": "C54",
   "status": "proved",
   "theorems": [
    "C54_dot_offset_1d_value",
    "C54_dot_offset_2d_value",
    "C54_dot_offset_3d_value",
    "C54_applystencilatpoint1d_value",
    "C54_applystencilatpoint2d_value",
    "C54_applystencilatpoint3d_value",
    "C54_applystencilonpatch1d_value",
    "C54_applystencilonpatch2d_square",
    "C54_applystencilonpatch3d_value",
    "C54_applystencilonpatch2d_refuted",
    "C54_dot_offset_1d_fortran",
    "C54_dot_offset_2d_fortran_square",
    "C54_dot_offset_3d_fortran",
    "C54_ls_apply_st_3d_fortran"
   ],
   "note": "Stencil arrays without ghosts (sgcw = 0), as the Fortran declares them. The equalities and values need field_laws: the Fortran scales each term, the library the sum. applystencilonpatch2d is proved for square patches and refuted for a 4 by 2 one."
  },
  {
   "property": "C55",
   "status": "proved",
   "theorems": [
    "C55_cellgs1d",
    "C55_cellgs2d",
    "C55_cellgs3d",
    "C55_cellgs1d_refuted",
    "C55_cellrbgs1d",
    "C55_cellrbgs2d",
    "C55_cellrbgs3d",
    "C55_cellrbgs2d_refuted",
    "C55_colours",
    "C55_cellrbgs1d_solves",
    "C55_cellrbgs2d_solves",
    "C55_cellrbgs3d_solves",
    "C55_cells9rbgs2d_refuted",
    "C55_cellgs1d_fixed",
    "C55_cellgs2d_fixed",
    "C55_cellgs3d_fixed",
    "C55_cellrbgs1d_fixed",
    "C55_cellrbgs2d_fixed",
    "C55_cellrbgs3d_fixed",
    "C55_celljacobi1d",
    "C55_celljacobi1d_fixed",
    "C55_celljacobi2d",
    "C55_celljacobi2d_fixed",
    "C55_celljacobi3d",
    "C55_celljacobi3d_fixed",
    "C55_cells5rbgs2d",
    "C55_cells9rbgs2d",
    "C55_cells7rbgs3d",
    "C55_stays",
    "C55_bipartite",
    "C55_diagonal"
   ],
   "note": "Field laws. u is disjoint from the matrix and the right-hand side; the entries stay inside u's declared box (C55_stays gives a sufficient condition). The local array of celljacobi is a separate allocation. Refuted: cellgs1d with f declared on its own bounds; cellrbgs2d on negative rows; equations after a nine point red-black colour."
  },
  {
   "property": "C56",
   "status": "proved",
   "theorems": [
    "C56_cellblock1x1jacobi1d",
    "C56_cellblock1x1jacobi2d",
    "C56_cellblock2x2jacobi1d",
    "C56_cellblock2x2jacobi2d",
    "C56_creatematrix",
    "C56_creatematrix_refuted"
   ],
   "note": "Field laws for the four relaxations; none for creatematrix. Written arrays share no allocation with those read. creatematrix is proved when the column behind the table leads out of the block, and shown to fail when the table ends where declared."
  },
  {
   "property": "C57",
   "status": "proved",
   "theorems": [
    "C57_adjcellcrsfinebdryrhs1d",
    "C57_adjcellcrsfinebdryrhs2d_0",
    "C57_adjcellcrsfinebdryrhs2d_1",
    "C57_adjcellcrsfinebdryrhs3d_0",
    "C57_adjcellcrsfinebdryrhs3d_1",
    "C57_adjcellcrsfinebdryrhs3d_2",
    "C57_celladjustsystemrhspatch1d",
    "C57_celladjustsystemrhspatch2d",
    "C57_celladjustsystemrhspatch2d_refuted"
   ],
   "note": "Field laws. Tables leading at most one cell away; rhs, u, stencil and the local array in separate allocations; the layer of cells inside rhs. celladjustsystemrhspatch2d is proved for patches with equal bounds in both directions and refuted for a 2 by 1 one."
  },
  {
   "property": "C58",
   "status": "proved",
   "theorems": [
    "C58_cellblockjacobi3d",
    "C58_cellblockjacobi3d_refuted"
   ],
   "note": "Field laws. The dense solver is a parameter assumed to solve nonsingular systems of the block's size (the case uses Cramer's rule, proved correct). The local arrays are separate allocations. Proved when the column behind the table leads out of the blocks; shown to fail when the table ends where declared."
  },
  {
   "property": "C59",
   "status": "proved",
   "theorems": [
    "C59_weak_v1_1d",
    "C59_weak_v2_1d",
    "C59_weak_poisson_1d",
    "C59_weak_v1_2d",
    "C59_weak_v2_2d",
    "C59_weak_poisson_2d",
    "C59_weak_v1_3d",
    "C59_weak_v2_3d",
    "C59_weak_poisson_3d",
    "C59_selfadjoint_v1_1d",
    "C59_selfadjoint_v2_1d",
    "C59_selfadjoint_poisson_1d",
    "C59_selfadjoint_v1_2d",
    "C59_selfadjoint_v2_2d",
    "C59_selfadjoint_poisson_2d",
    "C59_selfadjoint_v1_3d",
    "C59_selfadjoint_v2_3d",
    "C59_selfadjoint_poisson_3d",
    "C59_nonneg_v1_1d",
    "C59_nonneg_v2_1d",
    "C59_nonneg_poisson_1d",
    "C59_nonneg_v1_2d",
    "C59_nonneg_v2_2d",
    "C59_nonneg_poisson_2d",
    "C59_nonneg_v1_3d",
    "C59_nonneg_v2_3d",
    "C59_nonneg_poisson_3d"
   ],
   "note": "Field laws; the sign over the rationals. The patch has a cell in every direction. The fluxes and the operator kernel are run one after the other on one memory."
  },
  {
   "property": "C60",
   "status": "proved",
   "theorems": [
    "C60_const_v1_1d",
    "C60_const_v2_1d",
    "C60_const_poisson_1d",
    "C60_const_v1_2d",
    "C60_const_v2_2d",
    "C60_const_poisson_2d",
    "C60_const_v1_3d",
    "C60_const_v2_3d",
    "C60_const_poisson_3d",
    "C60_var_v1_1d",
    "C60_var_v2_1d",
    "C60_var_v1_2d",
    "C60_var_v2_2d",
    "C60_var_v1_3d",
    "C60_var_v2_3d"
   ],
   "note": "Field laws, spacings not zero. Degree three in each variable with a constant coefficient; degree two with a coefficient linear along the faces' direction."
  },
  {
   "property": "C61",
   "status": "proved",
   "theorems": [
    "C61_stride_1d",
    "C61_stride_2d",
    "C61_stride_3d",
    "C61_span_1d",
    "C61_span_2d",
    "C61_coarse_to_fine",
    "C61_tabulate",
    "C61_submatrix",
    "C61_submatrix_refuted",
    "C61_transpose",
    "C61_transpose_back",
    "C61_offset",
    "C61_forward_difference",
    "C61_forward_assertions",
    "C61_forward_assertions_refuted"
   ],
   "note": "Any scalar type. The copies to and from a device_vector are left out. The assertions hold for arrays with at least two rows and pairs; refuted otherwise."
  },
  {
   "property": "C62",
   "status": "proved",
   "theorems": [
    "C62_init",
    "C62_transform",
    "C62_transform2",
    "C62_transform3",
    "C62_transform4",
    "C62_rhs"
   ],
   "note": "Any scalar type. Array sizes are those the programs assert."
  },
  {
   "property": "C63",
   "status": "proved",
   "theorems": [
    "C63_kernels",
    "C63_subroutines",
    "C63_nearest",
    "C63_gamma",
    "C63_flux_1d_err",
    "C63_flux_2d_err",
    "C63_flux_3d_err",
    "C63_poisson_flux_1d_err",
    "C63_poisson_flux_2d_err",
    "C63_poisson_flux_3d_err",
    "C63_v1_apply_1d_err",
    "C63_v1_apply_2d_err",
    "C63_v1_apply_3d_err"
   ],
   "note": "Standard model of rounding over the rationals: relative error eps < 1 per operation, no overflow or underflow; negation and integer literals exact. Elements whose formula divides by a quantity with terms of both signs get no bound. Node and block subroutines are not covered."
  },
  {
   "property": "C64",
   "status": "proved",
   "theorems": [
    "C64_agree",
    "C64_programs",
    "C64_exact",
    "C64_bitwise_refuted"
   ],
   "note": "Grid spacings not zero; conditions of C36-C39 and C41. Bitwise agreement is refuted."
  },
  {
   "property": "C65",
   "status": "proved",
   "theorems": [
    "C65_kernels",
    "C65_subroutines"
   ],
   "note": "Any scalar types. Node and block subroutines are not covered."
  },
  {
   "property": "C66",
   "status": "proved",
   "theorems": [
    "C66_cellgs1d",
    "C66_cellgs2d",
    "C66_cellgs3d",
    "C66_cellrbgs1d",
    "C66_cellrbgs2d",
    "C66_cellrbgs3d",
    "C66_cells5rbgs2d",
    "C66_cells9rbgs2d",
    "C66_cells7rbgs3d",
    "C66_celljacobi1d",
    "C66_celljacobi2d",
    "C66_celljacobi3d",
    "C66_small",
    "C66_unique",
    "C66_assembled_v1_1d",
    "C66_assembled_v2_1d",
    "C66_assembled_v1_2d",
    "C66_assembled_v2_2d",
    "C66_assembled_v1_3d",
    "C66_assembled_v2_3d",
    "C66_ratio"
   ],
   "note": "Exact rational arithmetic. The right-hand side box of cellgs1d starts where the box of u does, colours and rows as in C55; Jacobi weight between 0 and 1; all repetitions succeed. The assembled matrices are those without boundary adjustment."
  },
  {
   "property": "C67",
   "status": "proved",
   "theorems": [
    "C67_cellgs1d",
    "C67_cellgs2d",
    "C67_cellgs3d",
    "C67_cellrbgs1d",
    "C67_cellrbgs2d",
    "C67_cellrbgs3d",
    "C67_cells5rbgs2d",
    "C67_cells9rbgs2d",
    "C67_cells7rbgs3d",
    "C67_celljacobi1d",
    "C67_celljacobi2d",
    "C67_celljacobi3d",
    "C67_constant_above",
    "C67_constant_below"
   ],
   "note": "Exact rational arithmetic; conditions of C66 on boxes, colours and weight."
  },
  {
   "property": "C68",
   "status": "proved",
   "theorems": [
    "C68_values",
    "C68_other",
    "C68_linear",
    "C68_order_refuted",
    "C68_bilinear_refuted",
    "C68_wide_refuted"
   ],
   "note": "Stored values: any scalar type, segment one cell thick in its normal directions. Linear data: field laws, ghost width at least one, two cells per direction, faces before edges before corners."
  },
  {
   "property": "C69",
   "status": "proved",
   "theorems": [
    "C69_swept",
    "C69_doubles",
    "C69_solution_refuted",
    "C69_unchanged",
    "C69_from_zero"
   ],
   "note": "Field laws; u, r and the local array apart from each other and from f and the matrix; solver_correct assumed of the dense solver; successful run; entries lead to cells of u's array. That a solution is kept is refuted."
  },
  {
   "property": "C70",
   "status": "proved",
   "theorems": [
    "C70_set_bc_1d_order",
    "C70_set_bc_1d_again",
    "C70_set_poisson_bc_1d_order",
    "C70_set_poisson_bc_1d_again",
    "C70_set_bc_2d_order",
    "C70_set_bc_2d_again",
    "C70_set_poisson_bc_2d_order",
    "C70_set_poisson_bc_2d_again",
    "C70_corner_bc_2d_order",
    "C70_corner_bc_2d_again",
    "C70_set_bc_3d_order",
    "C70_set_bc_3d_again",
    "C70_set_poisson_bc_3d_order",
    "C70_set_poisson_bc_3d_again",
    "C70_corner_first_refuted",
    "C70_thin_refuted",
    "C70_homogenous_2d_order",
    "C70_homogenous_2d_again",
    "C70_homogenous_2d_fortran_order",
    "C70_homogenous_2d_fortran_again",
    "C70_homogenous_thin_refuted"
   ],
   "note": "No laws of arithmetic used. Boxes one cell thick next to the patch; u apart from the coefficients. The laws of a field are used only for the Fortran subroutine (through C39)."
  },
  {
   "property": "C71",
   "status": "proved",
   "theorems": [
    "C71_linear_v1_1d",
    "C71_linear_v2_1d",
    "C71_linear_poisson_1d",
    "C71_linear_v1_2d",
    "C71_linear_v2_2d",
    "C71_linear_poisson_2d",
    "C71_linear_v1_3d",
    "C71_linear_v2_3d",
    "C71_linear_poisson_3d"
   ],
   "note": "Any field. Output arrays apart from the input arrays; u has a ghost layer that can be read."
  },
  {
   "property": "C72",
   "status": "proved",
   "theorems": [
    "C72_compare_v1_1d",
    "C72_compare_v2_1d",
    "C72_compare_poisson_1d",
    "C72_compare_v1_2d",
    "C72_compare_v2_2d",
    "C72_compare_poisson_2d",
    "C72_compare_v1_3d",
    "C72_compare_v2_3d",
    "C72_compare_poisson_3d",
    "C72_above_v1_1d",
    "C72_above_v2_1d",
    "C72_above_poisson_1d",
    "C72_above_v1_2d",
    "C72_above_v2_2d",
    "C72_above_poisson_2d",
    "C72_above_v1_3d",
    "C72_above_v2_3d",
    "C72_above_poisson_3d",
    "C72_below_v1_1d",
    "C72_below_v2_1d",
    "C72_below_poisson_1d",
    "C72_below_v1_2d",
    "C72_below_v2_2d",
    "C72_below_poisson_2d",
    "C72_below_v1_3d",
    "C72_below_v2_3d",
    "C72_below_poisson_3d"
   ],
   "note": "Over the rationals (Qc), exact arithmetic. Dirichlet data: the values beyond the faces are given."
  },
  {
   "property": "C73",
   "status": "proved",
   "theorems": [
    "C73_unique_v1_1d",
    "C73_unique_v2_1d",
    "C73_unique_poisson_1d",
    "C73_unique_v1_2d",
    "C73_unique_v2_2d",
    "C73_unique_poisson_2d",
    "C73_unique_v1_3d",
    "C73_unique_v2_3d",
    "C73_unique_poisson_3d",
    "C73_solve_v1_1d",
    "C73_solve_v2_1d",
    "C73_solve_poisson_1d",
    "C73_solve_v1_2d",
    "C73_solve_v2_2d",
    "C73_solve_poisson_2d",
    "C73_solve_v1_3d",
    "C73_solve_v2_3d",
    "C73_solve_poisson_3d"
   ],
   "note": "Over the rationals (Qc), exact arithmetic. The given memory is one on which the kernels complete; ghost width at least 1 and u apart from the coefficients for existence."
  },
  {
   "property": "C74",
   "status": "proved",
   "theorems": [
    "C74_compare_v1_1d",
    "C74_compare_v2_1d",
    "C74_compare_poisson_1d",
    "C74_compare_v1_2d",
    "C74_compare_v2_2d",
    "C74_compare_poisson_2d",
    "C74_compare_v1_3d",
    "C74_compare_v2_3d",
    "C74_compare_poisson_3d",
    "C74_unique_v1_1d",
    "C74_unique_v2_1d",
    "C74_unique_poisson_1d",
    "C74_unique_v1_2d",
    "C74_unique_v2_2d",
    "C74_unique_poisson_2d",
    "C74_unique_v1_3d",
    "C74_unique_v2_3d",
    "C74_unique_poisson_3d",
    "C74_solve_v1_1d",
    "C74_solve_v2_1d",
    "C74_solve_poisson_1d",
    "C74_solve_v1_2d",
    "C74_solve_v2_2d",
    "C74_solve_poisson_2d",
    "C74_solve_v1_3d",
    "C74_solve_v2_3d",
    "C74_solve_poisson_3d",
    "C74_unique_poisson_1d_neumann_refuted"
   ],
   "note": "Over the rationals (Qc), exact arithmetic. Coefficient arrays of ghost width 0, u apart from them. The Neumann case without reaction is shown not unique (refuted theorem, 1D Poisson)."
  },
  {
   "property": "C75",
   "status": "proved",
   "theorems": [
    "C75_compare_v1_1d",
    "C75_compare_v2_1d",
    "C75_compare_poisson_1d",
    "C75_compare_v1_2d",
    "C75_compare_v2_2d",
    "C75_compare_poisson_2d",
    "C75_compare_v1_3d",
    "C75_compare_v2_3d",
    "C75_compare_poisson_3d",
    "C75_solve_v1_1d",
    "C75_solve_v2_1d",
    "C75_solve_poisson_1d",
    "C75_solve_v1_2d",
    "C75_solve_v2_2d",
    "C75_solve_poisson_2d",
    "C75_solve_v1_3d",
    "C75_solve_v2_3d",
    "C75_solve_poisson_3d",
    "C75_closed_sum_v1_1d",
    "C75_closed_sum_v2_1d",
    "C75_closed_sum_poisson_1d",
    "C75_closed_sum_v1_2d",
    "C75_closed_sum_v2_2d",
    "C75_closed_sum_poisson_2d",
    "C75_closed_sum_v1_3d",
    "C75_closed_sum_v2_3d",
    "C75_closed_sum_poisson_3d",
    "C75_closed_unique_v1_1d",
    "C75_closed_unique_v2_1d",
    "C75_closed_unique_poisson_1d",
    "C75_closed_unique_v1_2d",
    "C75_closed_unique_v2_2d",
    "C75_closed_unique_poisson_2d",
    "C75_closed_unique_v1_3d",
    "C75_closed_unique_v2_3d",
    "C75_closed_unique_poisson_3d",
    "C75_closed_solve_v1_1d",
    "C75_closed_solve_v2_1d",
    "C75_closed_solve_poisson_1d",
    "C75_closed_solve_v1_2d",
    "C75_closed_solve_v2_2d",
    "C75_closed_solve_poisson_2d",
    "C75_closed_solve_v1_3d",
    "C75_closed_solve_v2_3d",
    "C75_closed_solve_poisson_3d"
   ],
   "note": "Over the rationals (Qc), exact arithmetic. Same setting as C74; removes its condition on the first direction, and completes its refuted Neumann case."
  },
  {
   "property": "C76",
   "status": "proved",
   "theorems": [
    "C76_symmetric_v1_1d",
    "C76_symmetric_v2_1d",
    "C76_symmetric_poisson_1d",
    "C76_symmetric_v1_2d",
    "C76_symmetric_v2_2d",
    "C76_symmetric_poisson_2d",
    "C76_symmetric_v1_3d",
    "C76_symmetric_v2_3d",
    "C76_symmetric_poisson_3d",
    "C76_nonneg_v1_1d",
    "C76_nonneg_v2_1d",
    "C76_nonneg_poisson_1d",
    "C76_nonneg_v1_2d",
    "C76_nonneg_v2_2d",
    "C76_nonneg_poisson_2d",
    "C76_nonneg_v1_3d",
    "C76_nonneg_v2_3d",
    "C76_nonneg_poisson_3d",
    "C76_definite_v1_1d",
    "C76_definite_v2_1d",
    "C76_definite_poisson_1d",
    "C76_definite_v1_2d",
    "C76_definite_v2_2d",
    "C76_definite_poisson_2d",
    "C76_definite_v1_3d",
    "C76_definite_v2_3d",
    "C76_definite_poisson_3d",
    "C76_energy_v1_1d",
    "C76_energy_v2_1d",
    "C76_energy_poisson_1d",
    "C76_energy_v1_2d",
    "C76_energy_v2_2d",
    "C76_energy_poisson_2d",
    "C76_energy_v1_3d",
    "C76_energy_v2_3d",
    "C76_energy_poisson_3d",
    "C76_symmetric_poisson_1d_order2_refuted"
   ],
   "note": "Over the rationals (Qc), exact arithmetic. For Dirichlet conditions of order 2 symmetry is refuted (1D Poisson, two cells)."
  },
  {
   "property": "C77",
   "status": "proved",
   "theorems": [
    "C77_reaction_v1_1d",
    "C77_reaction_v2_1d",
    "C77_poisson_1d_direction0",
    "C77_reaction_v1_2d",
    "C77_reaction_v2_2d",
    "C77_poisson_2d_direction0",
    "C77_poisson_2d_direction1",
    "C77_reaction_v1_3d",
    "C77_reaction_v2_3d",
    "C77_poisson_3d_direction0",
    "C77_poisson_3d_direction1",
    "C77_poisson_3d_direction2"
   ],
   "note": "Over the rationals (Qc), exact arithmetic."
  },
  {
   "property": "C78",
   "status": "proved",
   "theorems": [
    "C78_solution_v1_1d",
    "C78_cellgs_v1_1d",
    "C78_cellrbgs_v1_1d",
    "C78_celljacobi_v1_1d",
    "C78_solution_v2_1d",
    "C78_cellgs_v2_1d",
    "C78_cellrbgs_v2_1d",
    "C78_celljacobi_v2_1d",
    "C78_solution_v1_2d",
    "C78_cellgs_v1_2d",
    "C78_cellrbgs_v1_2d",
    "C78_cells5rbgs_v1_2d",
    "C78_celljacobi_v1_2d",
    "C78_solution_v2_2d",
    "C78_cellgs_v2_2d",
    "C78_cellrbgs_v2_2d",
    "C78_cells5rbgs_v2_2d",
    "C78_celljacobi_v2_2d",
    "C78_solution_v1_3d",
    "C78_cellgs_v1_3d",
    "C78_cellrbgs_v1_3d",
    "C78_cells7rbgs_v1_3d",
    "C78_celljacobi_v1_3d",
    "C78_solution_v2_3d",
    "C78_cellgs_v2_3d",
    "C78_cellrbgs_v2_3d",
    "C78_cells7rbgs_v2_3d",
    "C78_celljacobi_v2_3d"
   ],
   "note": "Over the rationals (Qc), exact arithmetic."
  },
  {
   "property": "C79",
   "status": "proved",
   "theorems": [
    "C79_rate_1d",
    "C79_cellgs_1d",
    "C79_cellrbgs_1d",
    "C79_celljacobi_1d",
    "C79_rate_2d",
    "C79_cellgs_2d",
    "C79_cellrbgs_2d",
    "C79_cells5rbgs_2d",
    "C79_celljacobi_2d",
    "C79_rate_3d",
    "C79_cellgs_3d",
    "C79_cellrbgs_3d",
    "C79_cells7rbgs_3d",
    "C79_celljacobi_3d"
   ],
   "note": "Over the rationals (Qc), exact arithmetic. Values around the patch are held fixed."
  }
 ]
}
