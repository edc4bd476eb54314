{
 "claims": [
  {
   "property": "C01",
   "status": "proved",
   "theorems": [
    "C01_sort_zfit_dict_ranks",
    "C01_missing_zwarn",
    "C01_missing_chi2_leaves_helper_refuted",
    "C01_row_sort_is_dict_sort"
   ],
   "note": "Full ranking spec (permutation, order incl. NaN/inf, stability, no helper column) for every rectangular table with integer zwarn and float chi2; the extra refuted theorem records that the helper column is left behind when chi2 is missing (error path)."
  },
  {
   "property": "C02",
   "status": "partial",
   "theorems": [
    "C02_sort_by_cols",
    "C02_sort_by_cols_last_first",
    "C02_key_and_type_errors_leave_dict",
    "C02_all_or_nothing_refuted"
   ],
   "note": "Permutation/lexicographic/stable proved; KeyError and ValueError leave the dict untouched; refuted for ragged dicts (IndexError after partial update)."
  },
  {
   "property": "C03",
   "status": "proved",
   "theorems": [
    "C03_deltachi2_is_gap_to_next_good_fit",
    "C03_lengths_and_last",
    "C03_table_deltachi2"
   ],
   "note": ""
  },
  {
   "property": "C04",
   "status": "proved",
   "theorems": [
    "C04_deltachi2_nonneg"
   ],
   "note": ""
  },
  {
   "property": "C05",
   "status": "proved",
   "theorems": [
    "C05_small_deltachi2_iff_competitor",
    "C05_table_small_deltachi2"
   ],
   "note": ""
  },
  {
   "property": "C06",
   "status": "proved",
   "theorems": [
    "C06_small_gap_is_flagged"
   ],
   "note": ""
  },
  {
   "property": "C07",
   "status": "partial",
   "theorems": [
    "C07_trim_keeps_best_of_each_type",
    "C07_order_unchanged_refuted",
    "C07_table_at_most_nminima_per_type"
   ],
   "note": "Per-type content, ranking and survival of the best row proved; 'order unchanged' refuted for exact chi2 ties across types (re-sort after alphabetical regrouping)."
  },
  {
   "property": "C08",
   "status": "proved",
   "theorems": [
    "C08_znum_and_best",
    "C08_best_fit_pca"
   ],
   "note": ""
  },
  {
   "property": "C09",
   "status": "proved",
   "theorems": [
    "C09_badfit_mask_is_five_bits",
    "C09_bits_only_added"
   ],
   "note": "Table-assembly part here; the fit flags are covered under C30."
  },
  {
   "property": "C10",
   "status": "proved",
   "theorems": [
    "C10_nodata_and_coverage_flags"
   ],
   "note": ""
  },
  {
   "property": "C11",
   "status": "partial",
   "theorems": [
    "C11_negative_model_partial",
    "C11_negative_model_nearest",
    "C11_zero_amplitude_refuted"
   ],
   "note": "Partial: equivalence with sign proved except for a coefficient of exactly 0 when all spectypes have archetypes (<= versus <), which is refuted."
  },
  {
   "property": "C12",
   "status": "proved",
   "theorems": [
    "C12_coefficients_preserved",
    "C12_uniform_width"
   ],
   "note": ""
  },
  {
   "property": "C13",
   "status": "partial",
   "theorems": [
    "C13_one_block_per_target",
    "C13_locality",
    "C13_no_minima_raises",
    "C13_partial_minima_refuted"
   ],
   "note": "Proved for every successful call, raising proved when a target has no minima; refuted: a target lacking minima only for its widest template makes vstack of all tables fail."
  },
  {
   "property": "C14",
   "status": "proved",
   "theorems": [
    "C14_gather_terminates",
    "C14_gather_delivers",
    "C14_finished_run_exists"
   ],
   "note": ""
  },
  {
   "property": "C15",
   "status": "proved",
   "theorems": [
    "C15_results_independent_of_distribution"
   ],
   "note": ""
  },
  {
   "property": "C16",
   "status": "proved",
   "theorems": [
    "C16_distribute_work_partition",
    "C16_distribute_work_errors"
   ],
   "note": ""
  },
  {
   "property": "C17",
   "status": "proved",
   "theorems": [
    "C17_heaviest_first_greedy",
    "C17_balance"
   ],
   "note": ""
  },
  {
   "property": "C18",
   "status": "proved",
   "theorems": [
    "C18_gpu_ranks_first",
    "C18_cpu_ranks_idle"
   ],
   "note": ""
  },
  {
   "property": "C19",
   "status": "proved",
   "theorems": [
    "C19_array_split_covers"
   ],
   "note": ""
  },
  {
   "property": "C20",
   "status": "proved",
   "theorems": [
    "C20_ring_terminates",
    "C20_ring_each_slice_once",
    "C20_ring_never_repeats",
    "C20_finished_run_exists"
   ],
   "note": ""
  },
  {
   "property": "C21",
   "status": "proved",
   "theorems": [
    "C21_distributed_scan_equals_serial"
   ],
   "note": ""
  },
  {
   "property": "C22",
   "status": "partial",
   "theorems": [
    "C22_scan_swaps_targets_refuted",
    "C22_scan_sorted_targets_partial"
   ],
   "note": "Refuted in general: results are stored by position in mpdist[i] (weight order) while they were computed in the order of targets.local(); three targets with 1, 3, 5 spectra on two processes get swapped chi2 in every complete run. Proved when the local targets are in order of decreasing number of spectra."
  },
  {
   "property": "C23",
   "status": "proved",
   "theorems": [
    "C23_fit_schedule_independent"
   ],
   "note": ""
  },
  {
   "property": "C24",
   "status": "partial",
   "theorems": [
    "C24_enough_redshifts_partial",
    "C24_more_ranks_than_redshifts_refuted"
   ],
   "note": "Proved when there are at least as many redshifts as ranks; refuted otherwise (empty slice, ValueError on max of empty array)."
  },
  {
   "property": "C25",
   "status": "proved",
   "theorems": [
    "C25_rebalance"
   ],
   "note": ""
  },
  {
   "property": "C26",
   "status": "partial",
   "theorems": [
    "C26_failing_worker_hangs_refuted",
    "C26_no_failure_terminates_partial"
   ],
   "note": "Refuted: the worker prints its traceback and puts nothing, so the parent waits on the queue for ever in every schedule. Without failures termination is proved for all schedules."
  },
  {
   "property": "C27",
   "status": "proved",
   "theorems": [
    "C27_find_minima_exact",
    "C27_first_is_global_minimum",
    "C27_nan_is_no_minimum",
    "C27_empty_raises"
   ],
   "note": ""
  },
  {
   "property": "C28",
   "status": "proved",
   "theorems": [
    "C28_minfit_recovers_parabola",
    "C28_minfit_flags_bad_fits",
    "C28_error_is_width"
   ],
   "note": "Vertex, minimum, curvature and absence of warning in Q for any polyfit that is the exact least-squares fit on >=3 points; 1/sqrt(curvature)=width over the reals."
  },
  {
   "property": "C29",
   "status": "proved",
   "theorems": [
    "C29_fitz_contract",
    "C29_best_minimum_fitted"
   ],
   "note": ""
  },
  {
   "property": "C30",
   "status": "proved",
   "theorems": [
    "C30_flags"
   ],
   "note": ""
  },
  {
   "property": "C31",
   "status": "partial",
   "theorems": [
    "C31_coefficients_good_fit_partial",
    "C31_archetype_fit_consistent",
    "C31_coefficients_elsewhere_refuted",
    "C31_chi2_is_vertex_value_refuted"
   ],
   "note": "Refuted: the template coefficients are computed at the parabola vertex, before the fallback to the scan minimum, and chi2 of a good fit is the vertex value, not the chi2 at that redshift. Proved: the coefficients of an unflagged fit are those at its redshift; archetype fits are consistent."
  },
  {
   "property": "C32",
   "status": "partial",
   "theorems": [
    "C32_no_prior_sigma_refuted",
    "C32_prior_given_partial"
   ],
   "note": "Refuted without prior_sigma when n_nearest is used (prior.copy() of None, AttributeError); proved total when a prior is given."
  },
  {
   "property": "C33",
   "status": "partial",
   "theorems": [
    "C33_get_dv_value",
    "C33_get_dv_zero_iff_equal",
    "C33_get_dv_monotone",
    "C33_get_dv_swapped",
    "C33_merge_test_asymmetric_refuted",
    "C33_merge_test_consistent_partial"
   ],
   "note": "get_dv facts proved; the merge test is not symmetric (refuted), but consistent up to a factor 1+mvd/(c-mvd)."
  },
  {
   "property": "C34",
   "status": "partial",
   "theorems": [
    "C34_missing_target_unchanged",
    "C34_own_row_used",
    "C34_results_keep_shape",
    "C34_gaussian",
    "C34_zero_width_refuted",
    "C34_lorentzien"
   ],
   "note": "Missing targets, own row, shape, gaussian (Q) and lorentzien (R) proved; a zero width yields NaN at the centre (refuted)."
  },
  {
   "property": "C35",
   "status": "partial",
   "theorems": [
    "C35_finite_points_inside",
    "C35_all_minima_inside_partial",
    "C35_edge_point_lost_refuted",
    "C35_outside_minimum_refuted",
    "C35_empty_window_no_minimum"
   ],
   "note": "Finite points are inside the window (proved for every increasing grid); every returned minimum inside when the window lies strictly inside the grid; at a grid edge the first in-window point is overwritten by inf (refuted)."
  },
  {
   "property": "C36",
   "status": "proved",
   "theorems": [
    "C36_edges",
    "C36_brackets",
    "C36_short_raises"
   ],
   "note": ""
  },
  {
   "property": "C37",
   "status": "proved",
   "theorems": [
    "C37_bin_average",
    "C37_rest_frame",
    "C37_interpolant_exists"
   ],
   "note": ""
  },
  {
   "property": "C38",
   "status": "proved",
   "theorems": [
    "C38_flux_conserved",
    "C38_rebinning_range",
    "C38_split_bin"
   ],
   "note": ""
  },
  {
   "property": "C39",
   "status": "proved",
   "theorems": [
    "C39_linear",
    "C39_bounded",
    "C39_constant"
   ],
   "note": ""
  },
  {
   "property": "C40",
   "status": "partial",
   "theorems": [
    "C40_outside_raises",
    "C40_inside_succeeds",
    "C40_terminates",
    "C40_length_mismatch_refuted",
    "C40_xmin_bypass_refuted"
   ],
   "note": "Outside ranges raise, inside ranges succeed and terminate; refuted: the documented ValueError for x and y of different lengths is not raised, and a caller-supplied xmin/xmax bypasses the guard."
  },
  {
   "property": "C41",
   "status": "partial",
   "theorems": [
    "C41_gpu_equals_cpu_partial",
    "C41_last_edge_refuted"
   ],
   "note": "GPU result equals the CPU one when the last edge is strictly inside the template range; refuted when the last edge equals the last sample (the kernel reads past the end)."
  },
  {
   "property": "C42",
   "status": "proved",
   "theorems": [
    "C42_batch_is_pointwise",
    "C42_shapes"
   ],
   "note": ""
  },
  {
   "property": "C43",
   "status": "proved",
   "theorems": [
    "C43_least_squares",
    "C43_with_prior"
   ],
   "note": ""
  },
  {
   "property": "C44",
   "status": "partial",
   "theorems": [
    "C44_masked_pixels",
    "C44_nan_refuted"
   ],
   "note": "Proved for every replaced finite value; refuted for NaN/inf (0*NaN poisons the right-hand side and chi2)."
  },
  {
   "property": "C45",
   "status": "proved",
   "theorems": [
    "C45_nonnegative",
    "C45_empty_sentinel"
   ],
   "note": ""
  },
  {
   "property": "C46",
   "status": "proved",
   "theorems": [
    "C46_penalty"
   ],
   "note": ""
  },
  {
   "property": "C47",
   "status": "partial",
   "theorems": [
    "C47_nnls_nonnegative",
    "C47_bvls_in_bounds",
    "C47_nnls_optimum_partial",
    "C47_bvls_optimum_partial",
    "C47_nnls_single_partial",
    "C47_nnls_refuted",
    "C47_bvls_refuted"
   ],
   "note": "Feasibility proved. The solver minimises |Mx-y| on the normal equations, not chi2: the constrained optimum is proved when the unconstrained optimum is feasible, and for a single template; refuted in general by concrete 2x2 systems (for every solver meeting its contract)."
  },
  {
   "property": "C48",
   "status": "partial",
   "theorems": [
    "C48_columns",
    "C48_disjoint_support",
    "C48_layout",
    "C48_only_amplitudes_bounded",
    "C48_amplitudes_not_negative",
    "C48_repeated_band_refuted"
   ],
   "note": "Column support, independence after resolution and coefficient layout proved for distinct bands; with a repeated band the fitted coefficients are lost (refuted)."
  },
  {
   "property": "C49",
   "status": "proved",
   "theorems": [
    "C49_one_at_a_time",
    "C49_success",
    "C49_independent"
   ],
   "note": ""
  },
  {
   "property": "C50",
   "status": "proved",
   "theorems": [
    "C50_order",
    "C50_values",
    "C50_values_cosmics",
    "C50_defined"
   ],
   "note": ""
  },
  {
   "property": "C51",
   "status": "partial",
   "theorems": [
    "C51_order_irrelevant",
    "C51_same_keys",
    "C51_cosmics_refuted"
   ],
   "note": "Proved without cosmic rejection for all permutations (same spectra up to order of keys, identical list when the key order is kept); with cosmic rejection refuted: on ties the first exposure is dropped."
  },
  {
   "property": "C52",
   "status": "partial",
   "theorems": [
    "C52_single",
    "C52_unmasked_partial",
    "C52_masked_refuted"
   ],
   "note": "Flux kept and exact new ivar proved for every spectrum; identity proved when no pixel is masked; refuted with masked pixels: the resolution columns of masked pixels are zeroed, neighbours fall below 0.99 and lose their weight, again at each re-coadd."
  },
  {
   "property": "C53",
   "status": "partial",
   "theorems": [
    "C53_refuted",
    "C53_flat_partial",
    "C53_at_most_one_partial",
    "C53_which_is_dropped_partial"
   ],
   "note": "Refuted: np.sum(gradivar) has no axis, so a sharp feature in identical exposures is masked. Proved: constant exposures are never masked, at most one exposure per pixel is dropped and nothing else changes."
  },
  {
   "property": "C54",
   "status": "partial",
   "theorems": [
    "C54_history_partial",
    "C54_R_while_packed_refuted",
    "C54_rectangular_refuted",
    "C54_no_resolution_refuted"
   ],
   "note": "Proved for every history of pack/unpack/Rcsr/R on a spectrum whose resolution is square with full-width diagonals; refuted outside: R does not exist while packed, a data array narrower than the grid comes back with another shape, and a spectrum without resolution cannot be packed."
  },
  {
   "property": "C55",
   "status": "proved",
   "theorems": [
    "C55_low_resolution",
    "C55_no_resolution"
   ],
   "note": ""
  },
  {
   "property": "C56",
   "status": "partial",
   "theorems": [
    "C56_cpu_fresh",
    "C56_gpu_only_partial",
    "C56_one_degree_partial",
    "C56_mixed_refuted",
    "C56_defined"
   ],
   "note": "Proved for every history of CPU calls, of calls that are all on the GPU and of calls with one degree; refuted for mixed histories: after a GPU call with n terms and a CPU call with m, the GPU call with m terms returns the old array."
  },
  {
   "property": "C57",
   "status": "proved",
   "theorems": [
    "C57_wavegrids_mpi",
    "C57_wavegrids_serial"
   ],
   "note": "Proved for MPI and serial use under the assumption that equal hashes mean equal grids (see C81)."
  },
  {
   "property": "C58",
   "status": "partial",
   "theorems": [
    "C58_eval_is_fitted_partial",
    "C58_igm_refuted",
    "C58_target_models",
    "C58_masked_models",
    "C58_shared_hash_refuted",
    "C58_row_of_target"
   ],
   "note": "Proved for a fit without IGM transmission, any number of basis vectors, padded coefficients and any resolution matrix (float rounding not modelled); per-target models and row lookup proved; refuted when the transmission is not 1 in the fitted range (eval leaves it out) and for spectra that share a hash with different grids."
  },
  {
   "property": "C59",
   "status": "partial",
   "theorems": [
    "C59_fulltype_roundtrip_partial",
    "C59_white_space",
    "C59_fulltype_injective",
    "C59_fulltype_roundtrip_refuted"
   ],
   "note": "Proved for stripped names without ':::' where the spectype does not end with ':' (or the subtype is empty); refuted without these conditions. Injectivity on such names and white-space behaviour proved in full."
  },
  {
   "property": "C60",
   "status": "partial",
   "theorems": [
    "C60_file_roundtrip_partial",
    "C60_file_roundtrip_refuted"
   ],
   "note": "Proved for every result table in which each target has one znum=0 row, znum<128 and each row's full type has a scan; values are compared after the float32 cast of the file, rows grouped by target. Refuted when a best fit carries a full type without a scan (archetype subtypes): read_zscan raises KeyError."
  },
  {
   "property": "C61",
   "status": "partial",
   "theorems": [
    "C61_atomic_partial",
    "C61_zscan_atomic_partial",
    "C61_zscan_complete",
    "C61_atomic_refuted"
   ],
   "note": "Proved at every crash point for the FITS writers and for write_zscan when nothing is replaced; refuted for write_zscan(clobber=True) over an existing file, which is removed first."
  },
  {
   "property": "C62",
   "status": "partial",
   "theorems": [
    "C62_select_partial",
    "C62_select_nozfit",
    "C62_select_refuted"
   ],
   "note": "Proved for distinct existing ids; refuted for missing ids (KeyError), none (ValueError), repeated ids (repeated rows)."
  },
  {
   "property": "C63",
   "status": "partial",
   "theorems": [
    "C63_int8_exact_partial",
    "C63_int8_refuted"
   ],
   "note": "int8 keeps a value iff it is in [-128,127]; refuted beyond."
  },
  {
   "property": "C64",
   "status": "partial",
   "theorems": [
    "C64_pack_roundtrip_partial",
    "C64_unpack_roundtrip",
    "C64_pack_injective",
    "C64_pack_refuted"
   ],
   "note": "Round trip proved exactly for mjd in [0,100000) and fiber in [0,10000); the inverse direction for all ids; refuted outside."
  },
  {
   "property": "C65",
   "status": "partial",
   "theorems": [
    "C65_key_format",
    "C65_header_lists_templates",
    "C65_header_roundtrip_partial",
    "C65_header_refuted",
    "C65_path",
    "C65_boss_header_partial"
   ],
   "note": "Proved for the first hundred templates (DESI headers: base names in the given directory; BOSS headers: default file names); refuted beyond a hundred."
  },
  {
   "property": "C66",
   "status": "proved",
   "theorems": [
    "C66_target_rows",
    "C66_any_masks"
   ],
   "note": "Whole load per process (every target, file, band, row). The any-masks theorem covers mixtures of files with and without MASK for everything but ivar."
  },
  {
   "property": "C67",
   "status": "partial",
   "theorems": [
    "C67_masks_partial",
    "C67_mixed_masks_refuted"
   ],
   "note": "Refuted for mixtures: the mask offset only advances over bands with a MASK HDU, so a later mask lands on an earlier spectrum (witness). Proved when all bands have masks."
  },
  {
   "property": "C68",
   "status": "proved",
   "theorems": [
    "C68_target_list",
    "C68_weights"
   ],
   "note": "Order of first appearance plus the weights used for the distribution."
  },
  {
   "property": "C69",
   "status": "partial",
   "theorems": [
    "C69_window_partial",
    "C69_only_n",
    "C69_no_options",
    "C69_outside",
    "C69_mintarget_alone_refuted",
    "C69_per_file_refuted",
    "C69_negative_refuted",
    "C69_negative_few_refuted"
   ],
   "note": "Refuted: --mintarget alone always fails, the window is cut per file, negative values select nothing. Proved for in-range windows, -n alone, no options, and the out-of-range error."
  },
  {
   "property": "C70",
   "status": "partial",
   "theorems": [
    "C70_pixels_partial",
    "C70_sigma_test",
    "C70_negative_ivar_refuted"
   ],
   "note": "Non-finite, too negative and masked pixels: proved. Refuted: negative finite ivar is kept. The sigma test is related to the real square root."
  },
  {
   "property": "C71",
   "status": "partial",
   "theorems": [
    "C71_bits_partial",
    "C71_reset",
    "C71_one_row",
    "C71_all_fibers_refuted"
   ],
   "note": "Bits are characterised exactly: a bit is set iff SOME fibermap row of the target has the condition. Refuted for 'all': a good and a broken fiber give NODATA and erase the redshift."
  },
  {
   "property": "C72",
   "status": "partial",
   "theorems": [
    "C72_model_rows_partial",
    "C72_model_complete",
    "C72_needs_outfile_refuted"
   ],
   "note": "Soundness for every run that succeeds, completeness when every zbest id was fitted. Refuted: --model with --details but no --outfile fails."
  },
  {
   "property": "C73",
   "status": "proved",
   "theorems": [
    "C73_range",
    "C73_red",
    "C73_blue",
    "C73_decreasing_obs",
    "C73_decreasing_rest",
    "C73_array"
   ],
   "note": "Real arithmetic (Reals axioms)."
  },
  {
   "property": "C74",
   "status": "proved",
   "theorems": [
    "C74_skip_is_identity",
    "C74_same",
    "C74_when"
   ],
   "note": "Real arithmetic."
  },
  {
   "property": "C75",
   "status": "partial",
   "theorems": [
    "C75_inoue_partial",
    "C75_low_z_refuted",
    "C75_hole_refuted"
   ],
   "note": "Three of four terms for all inputs; the Lyman-continuum LAF term for z>=1.2 off one wavelength. Refuted: z<1.2 (formula overwritten) and lambda=5.7 lambda_L (no formula applies)."
  },
  {
   "property": "C76",
   "status": "partial",
   "theorems": [
    "C76_bounds_partial",
    "C76_negative_refuted"
   ],
   "note": "Refuted for negative requests, returned unchanged."
  },
  {
   "property": "C77",
   "status": "partial",
   "theorems": [
    "C77_range",
    "C77_defined",
    "C77_constant_refuted"
   ],
   "note": "Proved for every array with two different wavelengths (range, ends, strict monotonicity, affine); refuted for constant arrays (division by zero gives nan)."
  },
  {
   "property": "C78",
   "status": "proved",
   "theorems": [
    "C78_split_roundtrip"
   ],
   "note": "For every number of names, cameras and terms, with trailing padding."
  },
  {
   "property": "C79",
   "status": "partial",
   "theorems": [
    "C79_copy_ids_match_data_mpi_partial",
    "C79_copy_ids_match_data_serial_refuted",
    "C79_copy_ids_match_data_serial_partial"
   ],
   "note": "Holds with MPI; refuted without (local() in input order, ids in weight order); holds serially when the input is already in weight order."
  },
  {
   "property": "C80",
   "status": "partial",
   "theorems": [
    "C80_few_targets_partial",
    "C80_no_gpu_refuted",
    "C80_weights_refuted",
    "C80_many_targets_refuted"
   ],
   "note": "Proved when there are at most 10000 unit-weight targets per GPU rank; refuted otherwise (more targets, heavy weights, or no GPU at all): CPU ranks get targets but an empty redshift list."
  },
  {
   "property": "C81",
   "status": "partial",
   "theorems": [
    "C81_outer_points_partial",
    "C81_regular_grids_partial",
    "C81_middle_refuted",
    "C81_band_refuted"
   ],
   "note": "Proved: without a band name the hash (assumed injective) fixes the length and the four outer points, hence regular linear and logarithmic grids; refuted for grids that differ in the middle and for any two grids with one band name."
  },
  {
   "property": "C82",
   "status": "proved",
   "theorems": [
    "C82_prior_matrix",
    "C82_zero_sigma_raises"
   ],
   "note": ""
  },
  {
   "property": "C83",
   "status": "partial",
   "theorems": [
    "C83_guard_differs_refuted",
    "C83_rejects_valid_refuted"
   ],
   "note": "Refuted: the batched guard compares different extremes from the scalar one, so some inputs accepted by the CPU path are rejected and vice versa."
  },
  {
   "property": "C84",
   "status": "partial",
   "theorems": [
    "C84_bands_partial",
    "C84_bands_coadd_partial",
    "C84_coadd_refuted",
    "C84_method_refuted"
   ],
   "note": "Proved without coadd and with one exposure per wavehash; refuted for several exposures: bands keeps one entry per exposure."
  },
  {
   "property": "C85",
   "status": "partial",
   "theorems": [
    "C85_resolution_refuted",
    "C85_shared_resolution_partial",
    "C85_uniform_weights_partial",
    "C85_cosmics_refuted"
   ],
   "note": "Proved when exposures share the resolution, and when each exposure has constant weights; refuted in general (columns are weighted by ivar instead of rows), and with cosmic rejection (dropped weights stay in the numerator)."
  },
  {
   "property": "C86",
   "status": "partial",
   "theorems": [
    "C86_constructor_mutates_refuted",
    "C86_unchanged_partial"
   ],
   "note": "Refuted: ivar is modified in place where the resolution is low; proved unchanged otherwise."
  },
  {
   "property": "C87",
   "status": "partial",
   "theorems": [
    "C87_no_coadd_partial",
    "C87_after_coadd_refuted"
   ],
   "note": "Proved for histories without compute_coadd; refuted after it: the GPU arrays of the individual exposures are returned."
  },
  {
   "property": "C88",
   "status": "partial",
   "theorems": [
    "C88_default_R_refuted",
    "C88_default_R_dict_refuted",
    "C88_with_R_partial",
    "C88_dict_partial"
   ],
   "note": "Refuted: the default R=None raises TypeError for every non-empty table (R[i]); proved with one matrix per row, and for dictionaries."
  },
  {
   "property": "C89",
   "status": "partial",
   "theorems": [
    "C89_secondary_headers_partial",
    "C89_scores_header_refuted"
   ],
   "note": "Proved for FIBERMAP and EXP_FIBERMAP; refuted for SCORES -> TSNR2 (different names)."
  },
  {
   "property": "C90",
   "status": "partial",
   "theorems": [
    "C90_template_list_partial",
    "C90_missing_file",
    "C90_template_list_refuted"
   ],
   "note": "Proved when no stripped line has a single character; refuted for one-character names."
  },
  {
   "property": "C91",
   "status": "proved",
   "theorems": [
    "C91_skymask"
   ],
   "note": ""
  },
  {
   "property": "C92",
   "status": "proved",
   "theorems": [
    "C92_batches"
   ],
   "note": ""
  },
  {
   "property": "C93",
   "status": "proved",
   "theorems": [
    "C93_entrywise",
    "C93_unknown_model",
    "C93_empty"
   ],
   "note": ""
  },
  {
   "property": "C94",
   "status": "partial",
   "theorems": [
    "C94_inoue_partial",
    "C94_short_wavelength_refuted"
   ],
   "note": "Positive always; <=1 above the Lyman limit; refuted far below it (z=0, 23.4 A)."
  },
  {
   "property": "C95",
   "status": "partial",
   "theorems": [
    "C95_batch_partial",
    "C95_scan_partial",
    "C95_solver_failure_refuted",
    "C95_rectangular_refuted"
   ],
   "note": "Proved for square resolution matrices and solvers that agree where the CPU one succeeds; every redshift where the CPU fit did not fail gets exactly the CPU numbers. Refuted: after a solver failure the GPU reports coefficients 9999999 and a huge chi2 of that model instead of the sentinel; a rectangular resolution matrix makes the kernel read out of bounds."
  },
  {
   "property": "C96",
   "status": "partial",
   "theorems": [
    "C96_any_order_transposed",
    "C96_any_order_plain",
    "C96_reproducible",
    "C96_documented_product_refuted",
    "C96_documented_product_partial"
   ],
   "note": "The result does not depend on the thread order; it is the transpose of the documented product (refuted by a 1x2 example), which is the same thing for the weighted normal matrices the package computes (partial)."
  },
  {
   "property": "C97",
   "status": "partial",
   "theorems": [
    "C97_names_identify_archetypes",
    "C97_fulltype_round_trip_partial",
    "C97_semicolon_refuted"
   ],
   "note": "Names are always distinct and found again; the type string round-trips when no SUBTYPE contains ':::' or ';' (partial); refuted otherwise (IndexError / ValueError)."
  },
  {
   "property": "C98",
   "status": "proved",
   "theorems": [
    "C98_best_of_single_fits"
   ],
   "note": "For every environment (solver, IGM function), per camera or not, with or without prior; exact arithmetic."
  },
  {
   "property": "C100",
   "status": "partial",
   "theorems": [
    "C100_transmission_consumed_refuted",
    "C100_unchanged_partial",
    "C100_given_equals_computed"
   ],
   "note": "Refuted: every successful call given an absorption array replaces the caller's arrays by their first row, and repeating the call raises IndexError. Unchanged when no entry is an array."
  },
  {
   "property": "C101",
   "status": "proved",
   "theorems": [
    "C101_prior_for_single_fits",
    "C101_prior_only_per_camera"
   ],
   "note": "Prior sigma with non-zero square."
  },
  {
   "property": "C103",
   "status": "partial",
   "theorems": [
    "C103_archetype_by_type_partial",
    "C103_same_type_refuted"
   ],
   "note": "Proved for pairwise different RRTYPE; refuted for two files of the same type (the first is silently dropped)."
  },
  {
   "property": "C99",
   "status": "partial",
   "theorems": [
    "C99_eval_is_fitted_partial",
    "C99_zero_archetype_refuted",
    "C99_other_transmission_refuted"
   ],
   "note": "Exact arithmetic; one spectrum per grid; own transmission; some archetype coefficient non-zero (partial). Refuted: a fit with zero archetype coefficients and non-zero Legendre terms is evaluated as zero everywhere; with the transmission fit_z passes (not the archetype's own at that redshift) the evaluated model differs from the fitted one."
  },
  {
   "property": "C102",
   "status": "partial",
   "theorems": [
    "C102_nearest_archetypes",
    "C102_too_many_refuted",
    "C102_no_prior_refuted",
    "C102_common_polynomials_refuted"
   ],
   "note": "Proved per camera with a prior. Refuted: n larger than the number of archetypes, no prior, or common polynomials: never returns."
  },
  {
   "property": "C104",
   "status": "proved",
   "theorems": [
    "C104_what_the_file_says",
    "C104_direct"
   ],
   "note": "Real numbers instead of float64; FITS reading itself is not modelled."
  },
  {
   "property": "C105",
   "status": "proved",
   "theorems": [
    "C105_grid",
    "C105_accepted",
    "C105_bad_text"
   ],
   "note": "Real numbers: float rounding of np.arange can add a point at the end of the range."
  },
  {
   "property": "C106",
   "status": "partial",
   "theorems": [
    "C106_asked_range_refuted",
    "C106_ignored",
    "C106_asked_range_partial"
   ],
   "note": "Refuted: a file with a REDSHIFTS HDU keeps its own redshifts and the option is ignored without an error (C106_asked_range_refuted, C106_ignored). Proved for files without that HDU."
  },
  {
   "property": "C107",
   "status": "partial",
   "theorems": [
    "C107_all_used_partial",
    "C107_last_wins",
    "C107_all_used_refuted"
   ],
   "note": "Refuted for repeated (type, subtype): the earlier template is silently dropped (C107_all_used_refuted); which one is used is characterised by C107_last_wins, and all are used when the pairs differ."
  },
  {
   "property": "C108",
   "status": "partial",
   "theorems": [
    "C108_text_path",
    "C108_default",
    "C108_list",
    "C108_files_exist",
    "C108_pathlib_refuted",
    "C108_load_pathlib_refuted",
    "C108_pathlib_dir_partial",
    "C108_opened_file"
   ],
   "note": "Text, list and default arguments are characterised completely. Refuted for pathlib paths: find_templates raises AttributeError for a pathlib path to a file although its check accepts PosixPath, and load_templates raises TypeError for every pathlib path."
  },
  {
   "property": "C109",
   "status": "proved",
   "theorems": [
    "C109_rows",
    "C109_slices_join"
   ],
   "note": "local_data models templates.py 584-597 on rebin_template (DWave) and transmission_Lyman; rational rebinning, real transmission. More ranks than redshifts: C24."
  },
  {
   "property": "C110",
   "status": "proved",
   "theorems": [
    "C110_refinement_never_fails"
   ],
   "note": "Model: fitz with archetypes off; scan and refit compute the template data at one redshift (C109: the data of several redshifts are those of each) and a total function of them."
  },
  {
   "property": "C111",
   "status": "partial",
   "theorems": [
    "C111_edges_same_as_wavelengths_partial",
    "C111_stale_limits_refuted"
   ],
   "note": "Partial: holds when no plain array follows an annotated entry; otherwise minedge/maxedge of an earlier entry are used for the coverage check (C111_stale_limits_refuted). fitz and DistTemplate pass only annotated entries or only wavelengths."
  },
  {
   "property": "C112",
   "status": "partial",
   "theorems": [
    "C112_transmission_at_best_redshift_partial",
    "C112_transmission_of_other_redshift_refuted"
   ],
   "note": "Partial: holds when BAD_MINFIT is not set. Refuted otherwise: trans is computed at the parabola minimum (or left None when that redshift is not covered) while the archetypes are evaluated at the minimum of the refined scan."
  },
  {
   "property": "C113",
   "status": "proved",
   "theorems": [
    "C113_partition",
    "C113_balance",
    "C113_mean",
    "C113_no_group"
   ],
   "note": "Exact rationals; the order of equal weights is a parameter with only the argsort contract assumed."
  },
  {
   "property": "C114",
   "status": "partial",
   "theorems": [
    "C114_each_file_once",
    "C114_goes_on_partial",
    "C114_nothing_left_refuted",
    "C114_boss_ranks_refuted",
    "C114_directory_name_refuted",
    "C114_counts",
    "C114_plan_nodes"
   ],
   "note": "Partition whenever the run goes on is proved without conditions; going on needs the conditions of C114_goes_on_partial. Refuted otherwise: nothing left to do gives AssertionError, BOSS with more ranks than --maxnodes gives AssertionError, a directory that is not a number stops all ranks."
  },
  {
   "property": "C115",
   "status": "partial",
   "theorems": [
    "C115_names_partial",
    "C115_injective_partial",
    "C115_two_outputs",
    "C115_outputs_not_inputs",
    "C115_details_not_inputs",
    "C115_outdir_collision_refuted",
    "C115_prefix_twice_refuted",
    "C115_log_directory_refuted",
    "C115_log_partial"
   ],
   "note": "Proved for names with the prefix only at the start and .fits only at the end. Refuted otherwise: same name in two directories with --outdir, prefix repeated in the name, .fits in a directory name moves the log."
  },
  {
   "property": "C116",
   "status": "partial",
   "theorems": [
    "C116_todo",
    "C116_none_found",
    "C116_resume",
    "C116_avoided_directory_refuted",
    "C116_relative_refuted"
   ],
   "note": "Exact characterisation proved; refuted part: files directly in the avoided directory are still taken, and a relative --reduxdir makes the avoided directory ineffective."
  },
  {
   "property": "C117",
   "status": "partial",
   "theorems": [
    "C117_nothing_overwritten",
    "C117_numbered_partial",
    "C117_gap_refuted"
   ],
   "note": "Nothing overwritten proved for all; always succeeding only when the logs are numbered without gap; refuted with a gap."
  },
  {
   "property": "C118",
   "status": "partial",
   "theorems": [
    "C118_tries_partial",
    "C118_at_most_two",
    "C118_logs_kept",
    "C118_all_files",
    "C118_dryrun",
    "C118_never_run_refuted"
   ],
   "note": "Full behaviour when old logs are numbered; at-most-two, logs kept and every file attempted without condition; refuted: with a gap in the old logs the command is never run."
  },
  {
   "property": "C119",
   "status": "partial",
   "theorems": [
    "C119_time",
    "C119_scale_partial",
    "C119_boss_scale_refuted",
    "C119_zero_processes_refuted"
   ],
   "note": "hh:mm:ss proved; scaling proved for DESI; refuted for BOSS (TypeError) and --mp 0."
  },
  {
   "property": "C120",
   "status": "partial",
   "theorems": [
    "C120_every_spectrum",
    "C120_chosen",
    "C120_succeeds_partial",
    "C120_missing_or_repeated_refuted"
   ],
   "note": "Which spectra each object gets is proved without conditions; success proved for readable inputs with distinct known ids. Refuted otherwise: an id not in the files gives KeyError, a repeated id AssertionError, instead of being skipped."
  },
  {
   "property": "C121",
   "status": "partial",
   "theorems": [
    "C121_one_plate",
    "C121_unmatched_joined_refuted",
    "C121_same_object_partial"
   ],
   "note": "One plate: proved (id decodes). Several plates: proved for THING_IDs which are valid; refuted for THING_ID -1 (unmatched fibres): different objects are merged."
  },
  {
   "property": "C122",
   "status": "partial",
   "theorems": [
    "C122_kept_partial",
    "C122_outside",
    "C122_last_pixel_refuted"
   ],
   "note": "Proved up to one pixel; refuted at the end: a spectrum which ends within the window always loses its last pixel."
  },
  {
   "property": "C123",
   "status": "partial",
   "theorems": [
    "C123_entries",
    "C123_columns_sum_to_one",
    "C123_not_negative",
    "C123_flux_conserved",
    "C123_band",
    "C123_widths",
    "C123_flat_refuted"
   ],
   "note": "Over Coq reals. The flux conservation is proved; refuted part: rows do not sum to one near the edges so a flat model does not stay flat."
  },
  {
   "property": "C124",
   "status": "partial",
   "theorems": [
    "C124_brick_truncated_refuted",
    "C124_short_partial",
    "C124_one_row_each",
    "C124_common_partial",
    "C124_mixed_refuted"
   ],
   "note": "One row each proved without conditions; the name is proved for plate-MJD of at most 8 characters; refuted for the usual 10 characters (S8 column truncates)."
  },
  {
   "property": "C125",
   "status": "partial",
   "theorems": [
    "C125_window",
    "C125_window_length",
    "C125_mintarget_alone_refuted",
    "C125_checks",
    "C125_checks_without_mpi_refuted",
    "C125_rrdesi_checks"
   ],
   "note": "Refuted parts: --mintarget without -n is ignored, and rrboss checks its options only under MPI."
  },
  {
   "property": "C126",
   "status": "proved",
   "theorems": [
    "C126_options",
    "C126_parsers",
    "C126_any_order",
    "C126_unknown",
    "C126_required",
    "C126_bad_value",
    "C126_missing_value",
    "C126_unknown_option"
   ],
   "note": "For any parser with distinct option names, and for the two parsers of redrock. argparse itself is modelled (exact and abbreviated options, joined values, negative numbers, --, nargs); int() as sign and digits, float() a parameter."
  },
  {
   "property": "C127",
   "status": "partial",
   "theorems": [
    "C127_separate_word_refuted",
    "C127_joined_partial"
   ],
   "note": "--option=range is proved for every range; refuted for the separate word: argparse takes a word like -0.005,1.7,3e-4 (the default value itself) for an unknown option and exits with code 2."
  },
  {
   "property": "C128",
   "status": "partial",
   "theorems": [
    "C128_desi_refused_refuted",
    "C128_boss_refused_refuted",
    "C128_every_file_fails_refuted",
    "C128_with_option_partial"
   ],
   "note": "Refuted for both data types: rrdesi takes its files only with -i/--infiles, and rrboss has no --outfile or --details; each file is then tried twice and given up (with the model of C118). Proved for the command with -i added."
  },
  {
   "property": "C129",
   "status": "partial",
   "theorems": [
    "C129_settings",
    "C129_nminima",
    "C129_no_prior_fails_refuted",
    "C129_rrboss_archetypes_refuted"
   ],
   "note": "The table of settings is proved. Refuted: without prior (prior <= 0 or --archetypes-no-legendre) fitz never returns a result (uses C32), and rrboss --archetypes raises AttributeError."
  },
  {
   "property": "C130",
   "status": "partial",
   "theorems": [
    "C130_ranks_partial",
    "C130_zero_refuted"
   ],
   "note": "Proved for m >= 1; refuted for m <= 0: every rank returns silently."
  },
  {
   "property": "C131",
   "status": "partial",
   "theorems": [
    "C131_only_asked",
    "C131_all_asked",
    "C131_success_partial",
    "C131_model_alone_refuted",
    "C131_no_target_refuted"
   ],
   "note": "Only and all requested outputs proved; refuted: --model without --outfile passes the checks, and fails after all computations; no target fails with --outfile."
  },
  {
   "property": "C132",
   "status": "partial",
   "theorems": [
    "C132_history_partial",
    "C132_kept",
    "C132_all_reachable",
    "C132_inverse",
    "C132_none_kept_refuted"
   ],
   "note": "C132_history_partial: every key history of a session whose fits are numbered 0..n-1 and can be drawn. Missing: C132_none_kept_refuted (no target of the file has a fit: IndexError instead of a message)."
  },
  {
   "property": "C133",
   "status": "partial",
   "theorems": [
    "C133_scaled",
    "C133_zero_partial",
    "C133_flux",
    "C133_refuted"
   ],
   "note": "C133_refuted: plotspec.py 169 multiplies Template.eval by (1+z) although eval applies no 1/(1+z): C133_scaled shows the drawn model is (1+z) times the fitted one, for every fit; right only at z=0 (C133_zero_partial)."
  },
  {
   "property": "C134",
   "status": "partial",
   "theorems": [
    "C134_shown",
    "C134_labels",
    "C134_each",
    "C134_green",
    "C134_faithful",
    "C134_unnamed_refuted",
    "C134_badfit"
   ],
   "note": "Exact label for every integer; bits without a name (12-15, 24 and above) leave no trace (C134_unnamed_refuted)."
  },
  {
   "property": "C135",
   "status": "partial",
   "theorems": [
    "C135_limits",
    "C135_model_inside_partial",
    "C135_masked_refuted",
    "C135_keep",
    "C135_label_refuted"
   ],
   "note": "C135_masked_refuted: one masked pixel makes np.max(model) NaN and the model is ignored; C135_label_refuted: after left/right the limits are kept and the label can be outside."
  },
  {
   "property": "C136",
   "status": "partial",
   "theorems": [
    "C136_curves_partial",
    "C136_subtype_refuted",
    "C136_truth"
   ],
   "note": "C136_subtype_refuted: scans of types with a subtype (STAR:::A, QSO:::HIZ) are never drawn, since the full type is not one of the three keys looked up."
  },
  {
   "property": "C137",
   "status": "partial",
   "theorems": [
    "C137_template_found",
    "C137_files_refuted",
    "C137_datatype",
    "C137_archetype_partial",
    "C137_archetype_refuted"
   ],
   "note": "C137_files_refuted: only the first DESI file is read; C137_archetype_refuted: a fit with a polynomial per camera is never drawn (ValueError)."
  },
  {
   "property": "C138",
   "status": "proved",
   "theorems": [
    "C138_isolated",
    "C138_neighbours",
    "C138_all_or_none",
    "C138_order"
   ],
   "note": "Whole serial run modelled (Model_Run.v). Examples C138_one_stops_all, C138_repeated_id, C138_hash_clash show what the hypotheses exclude."
  },
  {
   "property": "C139",
   "status": "proved",
   "theorems": [
    "C139_row",
    "C139_coefficients",
    "C139_no_template_lost",
    "C139_chi2"
   ],
   "note": "C139_coefficients and C139_chi2 are for PCA templates (linsolve_ok: np.linalg.solve solves exactly); C139_chi2 for targets with some weight, redshifts above -1 and a fine scan of at least three points."
  },
  {
   "property": "C140",
   "status": "partial",
   "theorems": [
    "C140_template_order_partial",
    "C140_template_order_refuted"
   ],
   "note": "C140_template_order_partial: when no fits of different templates tie. C140_template_order_refuted: a target without data, all fits tie and the first template wins."
  },
  {
   "property": "C141",
   "status": "proved",
   "theorems": [
    "C141_no_data"
   ],
   "note": ""
  },
  {
   "property": "C142",
   "status": "proved",
   "theorems": [
    "C142_last_of_a_name",
    "C142_earlier_ignored",
    "C142_lengths"
   ],
   "note": "The model sorts equal full types stably, as numpy does for up to 16 templates."
  },
  {
   "property": "C143",
   "status": "proved",
   "theorems": [
    "C143_batch",
    "C143_template_data"
   ],
   "note": ""
  },
  {
   "property": "C144",
   "status": "proved",
   "theorems": [
    "C144_mpi_gives_serial_table",
    "C144_mpi_gives_only_serial_table",
    "C144_distributed_run",
    "C144_too_many_ranks"
   ],
   "note": "Whole runs composed (Model_RunMPI.v) from the serial run, the ring and the gather. A rank that raises ends the run in the model (C26 treats that)."
  },
  {
   "property": "C145",
   "status": "proved",
   "theorems": [
    "C145_succeeds",
    "C145_every_target"
   ],
   "note": "Exact arithmetic: overflow and NaN are outside the model; serial CPU run of Model_Run.v (no archetypes, no priors)."
  },
  {
   "property": "C146",
   "status": "partial",
   "theorems": [
    "C146_no_options",
    "C146_reuse_partial",
    "C146_same_table_partial",
    "C146_same_rows_partial",
    "C146_grid_not_checked_refuted",
    "C146_same_templates",
    "C146_distinct_targets",
    "C146_other_grid_refuted",
    "C146_fewer_templates_refuted",
    "C146_more_targets_refuted"
   ],
   "note": "Serial CPU run, no archetypes. Partial: needs a scan whose chi2 and penalty are float32 numbers (kept_exactly) and a best fit (znum 0) of every target in the table written beside it; the redshift grid of the file is not checked (refuted), a file with other templates or without a target raises KeyError (refuted as a convenience, proved as C146_same_templates)."
  },
  {
   "property": "C147",
   "status": "partial",
   "theorems": [
    "C147_mpi_fails_refuted",
    "C147_last_rank_partial"
   ],
   "note": "Refuted in general: the gather overwrites fits with the unfitted entries of the last rank. Message schedule from the gather model of C14."
  },
  {
   "property": "C148",
   "status": "partial",
   "theorems": [
    "C148_in_the_file",
    "C148_twice_refuted",
    "C148_other_redshift_refuted"
   ],
   "note": "Refuted when the prior is passed again with the file: it is then counted twice (witness with another redshift). Priors with finite values; the infinite values of tophat are in C35."
  },
  {
   "property": "C149",
   "status": "partial",
   "theorems": [
    "C149_shared",
    "C149_pca",
    "C149_legendre",
    "C149_legendre_partial",
    "C149_sorted_together",
    "C149_more_fits_refuted",
    "C149_misaligned_refuted",
    "C149_pca_cut_refuted",
    "C149_first_decides_refuted"
   ],
   "note": "Partial: the Legendre column is aligned only when templates without archetypes have as many minima as the first (C149_legendre_partial; general places in C149_legendre; refutations for fewer, more, cut PCA coefficients, and first template without archetypes). Array level: dtypes and the flattening of one-column arrays are not modelled."
  },
  {
   "property": "C150",
   "status": "partial",
   "theorems": [
    "C150_columns",
    "C150_types",
    "C150_succeeds",
    "C150_only_first_refuted",
    "C150_missing_refuted",
    "C150_datatype_anywhere_refuted",
    "C150_name_taken_refuted"
   ],
   "note": "Success and contents characterised exactly; refuted as convenience: only the first target's keys count, KeyError on missing keys, _datatype anywhere in a key, name clash. Conversion to a numpy column is an arbitrary function."
  },
  {
   "property": "C151",
   "status": "partial",
   "theorems": [
    "C151_outcome",
    "C151_same_table_partial",
    "C151_equal_numbers_partial",
    "C151_no_targets",
    "C151_wrong_table_refuted"
   ],
   "note": "Partial: equality with the serial run is proved for targets in order of decreasing number of spectra (C151_same_table_partial, both directions) and refuted otherwise by a concrete run with two processes (C151_wrong_table_refuted: every complete run gives wrong redshifts). C151_outcome says exactly what every run gives, without that order. CPU, no archetypes, priors or scan file; floats as exact rationals."
  },
  {
   "property": "C152",
   "status": "proved",
   "theorems": [
    "C152_own_data",
    "C152_targetids"
   ],
   "note": "End to end on the model of reading, resolution, coadd, sky mask, scan, fit, table and warning bits (C152_own_data for any two runs; C152_targetids). The files must be in order (tables of the right size, masks in all or none, one grid per band). One process, no archetypes; resolution and coadd_fibermap of desispec are inputs; floats as exact rationals."
  },
  {
   "property": "C153",
   "status": "partial",
   "theorems": [
    "C153_one_row",
    "C153_fibermap_partial",
    "C153_targetids_refuted",
    "C153_two_files_refuted"
   ],
   "note": "Partial: one row per target proved (C153_one_row); parallel to FIBERMAP proved for one file with distinct targets without --targetids (C153_fibermap_partial), refuted for --targetids in another order and for a target in two files."
  },
  {
   "property": "C154",
   "status": "partial",
   "theorems": [
    "C154_complete",
    "C154_absent_refuted"
   ],
   "note": "C154_complete proves the first part; C154_absent_refuted proves that any selection with an id in none of the files never ends, which refutes that absent ids are skipped."
  },
  {
   "property": "C155",
   "status": "proved",
   "theorems": [
    "C155_dead_pixels"
   ],
   "note": "Exact equality of the tables (both directions), on the end-to-end model of C152. Rows must have as many fluxes as wavelengths; exact rationals, so an overflow of flux times zero weight to NaN is not covered (the reader removes non-finite values only)."
  },
  {
   "property": "C156",
   "status": "partial",
   "theorems": [
    "C156_coadd",
    "C156_allspec_refuted"
   ],
   "note": "Partial: proved for coadded spectra (C156_coadd, for every spectrum that reaches the scan); refuted for --allspec by a concrete pair of files (C156_allspec_refuted)."
  },
  {
   "property": "C157",
   "status": "proved",
   "theorems": [
    "C157_mpi_gives_serial_table",
    "C157_only_serial_table"
   ],
   "note": "CPU ranks only; at most as many ranks as redshifts of each template; composition of the end-to-end model (C152) with C144 (zfind under MPI), C66 (reading) and C16 (distribution)."
  },
  {
   "property": "C158",
   "status": "partial",
   "theorems": [
    "C158_run_partial",
    "C158_rrdesi_partial",
    "C158_exact_solver_homogeneous",
    "C158_refuted"
   ],
   "note": "Partial: refuted for PCA galaxy templates by a computed run (C158_refuted: best redshift 0 against 0.88); proved for templates without the penalty, for zfind (C158_run_partial, equality of results including errors) and for rrdesi from files (C158_rrdesi_partial; coadds without cosmic-ray rejection and with inverse variances >= 0). The solver is any function that is homogeneous, which an exact solver is (C158_exact_solver_homogeneous)."
  },
  {
   "property": "C159",
   "status": "partial",
   "theorems": [
    "C159_rrdesi_partial",
    "C159_rrboss_partial",
    "C159_mixed_nodes_refuted",
    "C159_targets_on_root_only_refuted"
   ],
   "note": "Proved for rrdesi and rrboss with any number of ranks, options, files and schedules. Refuted: with --gpu and without --max-gpuprocs on nodes of which only some have /proc/driver/nvidia/gpus only some ranks gather the bus ids and the job hangs; DistTargetsCopy with the targets on one process only (as its documentation says) fails on the others and hangs."
  },
  {
   "property": "C160",
   "status": "partial",
   "theorems": [
    "C160_rrdesi_partial",
    "C160_rrboss_partial",
    "C160_no_abort_refuted",
    "C160_archetype_name_refuted",
    "C160_archetype_read_refuted"
   ],
   "note": "Proved for any failure inside the try block (or alike on all ranks before it) with the default abort. Refuted: --no-mpi-abort leaves the other ranks waiting for ever; so do the failures outside the try block that only one rank has (archetype file name without '-': IndexError on rank 0; archetypes unreadable on one rank)."
  },
  {
   "property": "C161",
   "status": "partial",
   "theorems": [
    "C161_spectra",
    "C161_own_data_partial",
    "C161_files_partial",
    "C161_cosmics_refuted"
   ],
   "note": "Proved: order of the spectra of a target (C161_spectra, exact arithmetic: equal tables); order of files, bands and rows for rrdesi with --allspec or with cosmic-ray rejection off. Refuted with the default rejection: of two exposures that contradict each other the order of the files decides which one is masked, and chi2 and redshift change."
  },
  {
   "property": "C162",
   "status": "partial",
   "theorems": [
    "C162_never_negative",
    "C162_a_number_partial",
    "C162_a_number_refuted"
   ],
   "note": "The sign is proved with no restriction. Not-a-NaN is proved for |flux|,|model| <= 2^510 (about 3e153); refuted beyond: a masked pixel with flux 1e200 gives inf*0 = NaN and so a NaN chi2 for the whole target."
  },
  {
   "property": "C163",
   "status": "partial",
   "theorems": [
    "C163_masked_pixels_partial",
    "C163_masked_pixels_refuted"
   ],
   "note": "Proved for values up to 2^510; refuted for a masked pixel of 1e200 (its square overflows, times zero weight is NaN)."
  },
  {
   "property": "C164",
   "status": "partial",
   "theorems": [
    "C164_accuracy_partial",
    "C164_order_refuted"
   ],
   "note": "Proved: the bound, for finite results (partial: overflow excluded). Refuted: that the order of summation does not matter."
  },
  {
   "property": "C165",
   "status": "proved",
   "theorems": [
    "C165_deltachi2"
   ],
   "note": "Proved in full (chi2 finite and non-negative)."
  },
  {
   "property": "C166",
   "status": "partial",
   "theorems": [
    "C166_flag_means_close",
    "C166_close_means_flag_partial",
    "C166_close_means_flag_refuted"
   ],
   "note": "Proved: flag means |difference| < 9 exactly. Converse proved for |difference| <= 9 - 2^-49 and refuted between: 9 and 2^-60 differ by less than 9, but the rounded difference is 9."
  },
  {
   "property": "C167",
   "status": "partial",
   "theorems": [
    "C167_in_range_partial",
    "C167_increasing_partial",
    "C167_in_range_refuted"
   ],
   "note": "Proved for at least two different wavelengths up to 2^1000; refuted for a single wavelength (0/0 is NaN)."
  },
  {
   "property": "C168",
   "status": "partial",
   "theorems": [
    "C168_between",
    "C168_increasing_partial",
    "C168_increasing_refuted"
   ],
   "note": "Proved: one more edge, interleaved with the centers. Strictly increasing is proved when another double lies between any two neighbouring centers (and centers >= 2^-1000), refuted for three adjacent doubles, whose two inner edges coincide."
  },
  {
   "property": "C169",
   "status": "partial",
   "theorems": [
    "C169_shape",
    "C169_in_range_partial",
    "C169_in_range_refuted",
    "C169_spacing_partial"
   ],
   "note": "Proved for an interval of at least 2^-900 and at most 2^20 points: range, order, ends, and each point within 8 2^-53 (|lo|+|hi|) of equal spacing; refuted for subnormal intervals (0 to 8*2^-1074 in 15 points reaches 13*2^-1074)."
  },
  {
   "property": "C170",
   "status": "partial",
   "theorems": [
    "C170_every_redshift",
    "C170_equal_edges_refuted"
   ],
   "note": "Proved (wavelengths need not even be sorted). Refuted for edges that are not strictly increasing, as centers2edges returns for three adjacent doubles: ZeroDivisionError."
  },
  {
   "property": "C171",
   "status": "partial",
   "theorems": [
    "C171_not_negative_partial",
    "C171_not_negative_refuted"
   ],
   "note": "Refuted: a spectrum that is zero at one sample can give -2^-52 (cancellation in the straight line). Proved for positive spectra in which neighbouring samples differ by less than a factor 2^49 and do not under- or overflow."
  },
  {
   "property": "C172",
   "status": "partial",
   "theorems": [
    "C172_weight",
    "C172_flux_accuracy_partial",
    "C172_one_exposure_refuted",
    "C172_masked_partial"
   ],
   "note": "Proved: the weight (finite result), the error bound of the flux (no underflowing product, finite result) and, for a pixel masked in every exposure, of the plain mean. Refuted: the coadd of a single exposure can be one unit in the last place lower or higher than its flux."
  },
  {
   "property": "C173",
   "status": "proved",
   "theorems": [
    "C173_flat"
   ],
   "note": "Proved for the stated ranges."
  },
  {
   "property": "C174",
   "status": "proved",
   "theorems": [
    "C174_velocity"
   ],
   "note": "Proved for the stated ranges."
  },
  {
   "property": "C175",
   "status": "partial",
   "theorems": [
    "C175_one_file_partial",
    "C175_several_files_refuted",
    "C175_last_window_refuted"
   ],
   "note": "Proved for one input file with distinct targets (details table and REDSHIFTS table). Refuted for several files: the window is cut in each file separately, so a target listed at different places in two files is fitted from part of its spectra, and appears in two windows with different results. Refuted: a last window reaching over the end is not shortened but raises RuntimeError."
  },
  {
   "property": "C176",
   "status": "partial",
   "theorems": [
    "C176_recovered_partial",
    "C176_perfect_is_flagged",
    "C176_best_row_refuted"
   ],
   "note": "Proved in exact arithmetic: there is always a row of the right template within one grid step (C176_recovered_partial: PCA template, the only one of its type, data that determine the coefficients). Proved too that the claim of a good fit is false: if the true redshift is also a point of the fine scan, the parabola through a chi2 of zero has its minimum at or below zero, and the row is always flagged BAD_MINFIT (C176_perfect_is_flagged). Refuted: the row need not come first. A galaxy that fits exactly, with negative reported chi2, is listed after a star with a worse but unflagged fit."
  },
  {
   "property": "C177",
   "status": "partial",
   "theorems": [
    "C177_redshifts",
    "C177_details",
    "C177_order",
    "C177_strict_order_refuted",
    "C177_deltachi2_partial",
    "C177_deltachi2_refuted",
    "C177_finite_refuted"
   ],
   "note": "Proved: which rows there are and what each column keeps (C177_redshifts, C177_details: nearest single-precision number, relative error 2^-24, infinite from 2^128-2^103 on, integers unchanged exactly in range, SUBTYPE never cut, ValueError exactly without a row of znum 0), order (C177_order), DELTACHI2 below 9 with a competitor means flagged and above 9 means not flagged (C177_deltachi2_partial). Refuted: strict order, DELTACHI2 equal to 9 in the file both flagged and unflagged, a finite chi2 that is infinite in the file."
  },
  {
   "property": "C178",
   "status": "partial",
   "theorems": [
    "C178_unflagged",
    "C178_minfit",
    "C178_row",
    "C178_parabola",
    "C178_not_a_number_refuted"
   ],
   "note": "Proved for minfit and lines 259-320 of fitz with correctly rounded operations (C178_minfit, C178_row), given that np.polyfit returns finite numbers, the leading one at most 2^1021, and that squares are non-negative numbers; the only way to have no row is the ValueError at the vertex. The parabola is the one through the points around the first smallest chi2, and Z_FITLIMIT is raised exactly when the evaluation failed or the fitted or reported redshift lies beyond the second or the last but one grid point (C178_parabola). An unflagged fit always opened upwards, with no assumption (C178_unflagged). Refuted without the assumption: a not-a-number among the coefficients gives an unflagged row whose redshift is not a number."
  },
  {
   "property": "C179",
   "status": "partial",
   "theorems": [
    "C179_models_partial",
    "C179_long_type_refuted",
    "C179_same_prefix_refuted"
   ],
   "note": "Proved for runs without archetypes, on the CPU, with templates in order, type names of at most six characters, one spectrum per wavelength hash and no intergalactic absorption in the fitted range (C179_models_partial); whenever the run succeeds no rendering fails. Refuted for longer type names: zfind stores six characters of SPECTYPE, and the lookup of the template raises KeyError (C179_long_type_refuted). With absorption the models leave it out (C58_igm_refuted). C179_same_prefix_refuted: with two types sharing their first six characters (GALAXYA and GALAXY) the best fit of the first is rendered with the template of the second, without any error."
  },
  {
   "property": "C180",
   "status": "partial",
   "theorems": [
    "C180_same_table_partial",
    "C180_outcome",
    "C180_wrong_table_refuted"
   ],
   "note": "Proved when all files have the same bands (with --allspec: the same number of bands) and each selected target is in a file which keeps it (C180_same_table_partial). Without this C180_outcome characterises the table of every complete run: the scan of each target is that of another target determined by the weights alone. Refuted for three files with one, two and three cameras, default options and two processes: the first two targets get each other's scans (C180_wrong_table_refuted). CPU, no archetypes, no MPI; read_spectra as in C153."
  },
  {
   "property": "C181",
   "status": "partial",
   "theorems": [
    "C181_table",
    "C181_model_file_partial",
    "C181_needs_all_bands",
    "C181_some_bands_refuted"
   ],
   "note": "Proved when every target has spectra of all bands of the run, type names have at most six characters and nothing is absorbed in the range (C181_model_file_partial); the redshift file does not depend on --model (C181_table, always). When a target lacks one of the bands no model file is ever written (C181_needs_all_bands), e.g. three files with one, two and three cameras: redshifts written, then KeyError (C181_some_bands_refuted). CPU, one process, no archetypes; float32 rounding, headers and HDU names left out."
  },
  {
   "property": "C182",
   "status": "proved",
   "theorems": [
    "C182_gathered",
    "C182_mpi_files"
   ],
   "note": "Proved (C182_gathered for any table, C182_mpi_files for every run with MPI that ends); no condition on bands, absorption or template names. CPU, no archetypes; exceptions on a rank count as the end of the run; gather and bcast deliver."
  },
  {
   "property": "C183",
   "status": "partial",
   "theorems": [
    "C183_reevaluated_partial",
    "C183_reset_needs_galaxy",
    "C183_no_data_refuted"
   ],
   "note": "Partial: proved for rows that were not reset for lack of data, templates whose type names have at most six characters, grids covered by the templates, no absorption, one matrix per row (without matrices see C88). A reset row bears SPECTYPE GALAXY and a blank SUBTYPE, so eval_model raises KeyError on every selection containing one unless such a template is among those of the run (C183_reset_needs_galaxy); C183_no_data_refuted is a run with star templates only and one target on a badly positioned fibre, whose whole table cannot be evaluated. CPU, no archetypes; exact rationals; with R = None the code may raise TypeError before the KeyError."
  },
  {
   "property": "C184",
   "status": "partial",
   "theorems": [
    "C184_file_or_default",
    "C184_any_listing_order",
    "C184_directory",
    "C184_variables_partial",
    "C184_slash_refuted",
    "C184_value_in_name_refuted",
    "C184_nothing_found"
   ],
   "note": "Proved for files, defaults, directories written without a dollar sign and any listing order (C184_file_or_default, C184_directory, C184_any_listing_order). With variables proved if the value is not empty, has no slash at its end and does not occur again in the paths (C184_variables_partial). Refuted otherwise: with A=/data/arch/ the place $A gives the name $Arrarchetype-galaxy.fits, which opens nothing (C184_slash_refuted); with A=arch every 'arch' in the name is replaced (C184_value_in_name_refuted). An empty directory gives the empty list without an error (C184_nothing_found). rrdesi checks the place with os.path.exists before, without expanding variables, so there only plain names arrive; the API takes both."
  },
  {
   "property": "C185",
   "status": "partial",
   "theorems": [
    "C185_same_templates_partial",
    "C185_missing_file",
    "C185_options_refuted"
   ],
   "note": "Proved for at most a hundred templates (see C65) whose redshifts do not come from an option (--zscan-galaxy, --zscan-qso, --zscan-star): C185_same_templates_partial; missing files: C185_missing_file. Refuted with such an option: the header does not keep it, so a template without REDSHIFTS HDU comes back with the default redshifts (C185_options_refuted). TEMFIL cards (rrdesi); file reading as in C104."
  },
  {
   "property": "C186",
   "status": "partial",
   "theorems": [
    "C186_last_name",
    "C186_unreadable",
    "C186_latest_version_refuted"
   ],
   "note": "Proved that the last name wins, for every type and listing order, and that absent types are absent (C186_last_name), an unreadable file stops the call (C186_unreadable). Refuted that it is the latest version: of ...-v2.fits and ...-v10.fits the first is used, as names are compared as strings (C186_latest_version_refuted). Reading a file is a function (contents not modelled here)."
  },
  {
   "property": "C187",
   "status": "partial",
   "theorems": [
    "C187_accepted",
    "C187_any_file_refuted",
    "C187_no_archetypes_refuted",
    "C187_announced_refuted"
   ],
   "note": "Partial: the exact condition is proved (C187_accepted): it exists and is readable, is not an empty directory, a file has a dash in its base name, and All_archetypes succeeds. So a valid archetype file without a dash in its name stops rrdesi with IndexError (C187_any_file_refuted), a directory that holds other files only is accepted and no archetypes are used (C187_no_archetypes_refuted), and the type announced for a file is that of its name, not of its contents (C187_announced_refuted). Without MPI."
  },
  {
   "property": "C188",
   "status": "proved",
   "theorems": [
    "C188_same_values",
    "C188_seen_by_all",
    "C188_copy_only_if_needed",
    "C188_native",
    "C188_order_of_file",
    "C188_needed"
   ],
   "note": "Proved for all arrays and both host orders; the number a sequence of bytes stands for is an arbitrary function. C188_needed: without the conversion, code that ignores the byte order reads other numbers."
  },
  {
   "property": "C189",
   "status": "partial",
   "theorems": [
    "C189_roundtrip_partial",
    "C189_only_these",
    "C189_exactly_these",
    "C189_slash_refuted",
    "C189_lost_refuted",
    "C189_target_ids",
    "C189_repeated_target"
   ],
   "note": "Partial: exactly the names without '/' that are neither empty nor '.' survive (C189_exactly_these). Otherwise the file is written without complaint and cannot be read (C189_slash_refuted), or is read with a scan missing (C189_lost_refuted)."
  },
  {
   "property": "C190",
   "status": "partial",
   "theorems": [
    "C190_own_names",
    "C190_one_after_other_partial",
    "C190_never_missing",
    "C190_last_step",
    "C190_same_name_refuted",
    "C190_clobber_refuted",
    "C190_name_taken"
   ],
   "note": "Partial: proved for runs one after the other (also after crashes) and for any number of runs at the same time whose temporary names differ. The temporary name of write_zbest and write_zscan is the output name with .tmp in every run: two runs at the same time can leave a mixture under the output name (C190_same_name_refuted). With clobber write_zscan removes the file first; without it the output file never goes missing (C190_never_missing)."
  }
 ]
}