{
 "claims": [
  {
   "property": "C01",
   "status": "proved",
   "theorems": [
    "C01_remap3d_delivers"
   ],
   "note": "All schedules and send-completion policies of the message machine; all tilings, nq, permute, modes."
  },
  {
   "property": "C02",
   "status": "proved",
   "theorems": [
    "C02_remap3d_safe",
    "C02_setup_total"
   ],
   "note": "An out-of-bounds access is a Bad step of the machine; exec_all excludes Bad steps. Holds for arbitrary contents and overlapping or missing output boxes."
  },
  {
   "property": "C03",
   "status": "proved",
   "theorems": [
    "C03_in_place"
   ],
   "note": ""
  },
  {
   "property": "C04",
   "status": "proved",
   "theorems": [
    "C04_timing"
   ],
   "note": "Point-to-point mode; any two maximal executions, each under its own schedule and eager policy."
  },
  {
   "property": "C05",
   "status": "proved",
   "theorems": [
    "C05_no_deadlock"
   ],
   "note": ""
  },
  {
   "property": "C06",
   "status": "proved",
   "theorems": [
    "C06_back_to_back"
   ],
   "note": "3d remaps; the whole-FFT version is C38."
  },
  {
   "property": "C07",
   "status": "proved",
   "theorems": [
    "C07_plans_agree"
   ],
   "note": "2d version: C13_plans_agree."
  },
  {
   "property": "C08",
   "status": "proved",
   "theorems": [
    "C08_modes"
   ],
   "note": ""
  },
  {
   "property": "C09",
   "status": "proved",
   "theorems": [
    "C09_pack3d",
    "C09_unpack3d",
    "C09_permute1",
    "C09_permute2",
    "C09_pack2d",
    "C09_unpack2d",
    "C09_permute2d"
   ],
   "note": "2d memcpy routines for 8-byte scalars (see C14)."
  },
  {
   "property": "C10",
   "status": "proved",
   "theorems": [
    "C10_groups",
    "C13_groups"
   ],
   "note": ""
  },
  {
   "property": "C11",
   "status": "proved",
   "theorems": [
    "C11_counts",
    "C11_slots",
    "C13_counts",
    "C13_slots"
   ],
   "note": ""
  },
  {
   "property": "C12",
   "status": "proved",
   "theorems": [
    "C12_back"
   ],
   "note": ""
  },
  {
   "property": "C13",
   "status": "proved",
   "theorems": [
    "C13_remap2d_delivers",
    "C13_remap2d_safe",
    "C13_plans_agree",
    "C13_groups",
    "C13_counts",
    "C13_slots"
   ],
   "note": ""
  },
  {
   "property": "C14",
   "status": "proved",
   "theorems": [
    "C14_single_precision_memcpy_refuted",
    "C14_overrun_refuted",
    "C13_remap2d_delivers",
    "C13_remap2d_safe"
   ],
   "note": "The code violates the natural claim in single precision; the property states both the failure (the _refuted theorems) and the guarded positive claim (C13 theorems with esize = 8 or packflag <> 2)."
  },
  {
   "property": "C15",
   "status": "proved",
   "theorems": [
    "C15_grids_3d",
    "C15_grids_2d",
    "C15_places_3d",
    "C15_places_2d",
    "C15_exact_laws",
    "C15_double_laws"
   ],
   "note": "The theorems hold for every arithmetic satisfying area_laws; exact arithmetic and IEEE double arithmetic (53-bit, ties to even) are both shown to."
  },
  {
   "property": "C16",
   "status": "proved",
   "theorems": [
    "C16_layouts_tile_3d",
    "C16_layouts_tile_2d"
   ],
   "note": ""
  },
  {
   "property": "C17",
   "status": "proved",
   "theorems": [
    "C17_least_surface",
    "C17_least_surface_double",
    "C17_few_divisors",
    "C17_many_divisors_refuted",
    "C17_2d_always_flat",
    "C17_2d_flat_double",
    "C17_2d_flat_double_refuted",
    "C17_2d_perimeter_refuted"
   ],
   "note": "Stated with its exact limits; the unrestricted claim is refuted."
  },
  {
   "property": "C18",
   "status": "proved",
   "theorems": [
    "C18_dims_3d",
    "C18_bad_dims_3d",
    "C18_dims_2d"
   ],
   "note": ""
  },
  {
   "property": "C19",
   "status": "proved",
   "theorems": [
    "C19_rejects_3d",
    "C19_accepted_tiles_3d",
    "C19_rejects_2d",
    "C19_accepted_tiles_2d",
    "C19_overlap_refuted",
    "C19_output_refuted",
    "C19_2d_refuted"
   ],
   "note": "The claim of the documentation (and of the error message) is refuted; the property states what is checked."
  },
  {
   "property": "C20",
   "status": "proved",
   "theorems": [
    "C20_fftsize_3d",
    "C20_fftsize_2d"
   ],
   "note": ""
  },
  {
   "property": "C21",
   "status": "proved",
   "theorems": [
    "C21_sizes_3d",
    "C21_sizes_2d",
    "C21_midfast_refuted"
   ],
   "note": "The unrestricted 3d claim is refuted."
  },
  {
   "property": "C46",
   "status": "proved",
   "theorems": [
    "C46_skip_3d",
    "C46_skip_2d"
   ],
   "note": "MPI_Allreduce is modelled as one global value, so agreement of the ranks is by construction; the theorems characterise the value."
  },
  {
   "property": "C22",
   "status": "proved",
   "theorems": [
    "C22_kiss_is_dft",
    "C22_ring",
    "C22_dft_inverse"
   ],
   "note": "Exact real arithmetic (rounding not modelled); twiddles are the exact cos/sin values."
  },
  {
   "property": "C23",
   "status": "proved",
   "theorems": [
    "C23_factorisation",
    "C23_smooth"
   ],
   "note": "floor(sqrt(n)) is taken to be exact."
  },
  {
   "property": "C24",
   "status": "proved",
   "theorems": [
    "C24_batch",
    "C24_batch_any_arithmetic"
   ],
   "note": ""
  },
  {
   "property": "C25",
   "status": "proved",
   "theorems": [
    "C25_forward_is_dft"
   ],
   "note": "Exact real arithmetic; the DFT is the standard-library sum with sin and cos. All grids, rank counts, tilings, permutations, settings and schedules."
  },
  {
   "property": "C26",
   "status": "proved",
   "theorems": [
    "C26_backward_is_inverse_dft",
    "C26_backward_exact",
    "C26_scaling_refuted",
    "C26_overflow_refuted"
   ],
   "note": "Exact real arithmetic. Two defects found: normnum=outsize leaves elements unscaled when insize > outsize, and exchange=1 buffers can overflow in the backward direction."
  },
  {
   "property": "C27",
   "status": "proved",
   "theorems": [
    "C27_round_trip",
    "C27_round_trip_exact"
   ],
   "note": "Exact real arithmetic; the exact form says what happens to elements beyond outsize."
  },
  {
   "property": "C28",
   "status": "proved",
   "theorems": [
    "C28_out_of_place",
    "C28_forward_refuted",
    "C28_backward_refuted",
    "C28_out_of_place_2d",
    "C28_forward_refuted_2d",
    "C28_backward_refuted_2d"
   ],
   "note": "Any arithmetic, 3d and 2d. False without the guards; the failures are exhibited by runs."
  },
  {
   "property": "C29",
   "status": "proved",
   "theorems": [
    "C29_settings_independent",
    "C29_settings_independent_2d"
   ],
   "note": "Any arithmetic, both directions; room3 includes the buffer-size proviso of C26 for exchange=1 backward (3d)."
  },
  {
   "property": "C30",
   "status": "proved",
   "theorems": [
    "C30_remaponly",
    "C30_only_remaps",
    "C30_there_and_back",
    "C30_out_of_place_refuted",
    "C30_remaponly_2d",
    "C30_only_remaps_2d",
    "C30_there_and_back_2d",
    "C30_out_of_place_refuted_2d"
   ],
   "note": "Any data type, 3d and 2d."
  },
  {
   "property": "C31",
   "status": "proved",
   "theorems": [
    "C31_one_remap",
    "C31_out_of_place_refuted",
    "C31_one_remap_2d",
    "C31_out_of_place_refuted_2d"
   ],
   "note": "Any data type, 3d and 2d."
  },
  {
   "property": "C37",
   "status": "proved",
   "theorems": [
    "C37_plan_reuse",
    "C37_plan_reuse_2d"
   ],
   "note": "Any arithmetic, any finite sequence of calls."
  },
  {
   "property": "C38",
   "status": "proved",
   "theorems": [
    "C38_any_schedule",
    "C38_any_schedule_2d"
   ],
   "note": "Any arithmetic; L does not depend on the schedule or on buffering."
  },
  {
   "property": "C32",
   "status": "proved",
   "theorems": [
    "C32_forward_is_dft_2d"
   ],
   "note": "Exact real arithmetic."
  },
  {
   "property": "C33",
   "status": "proved",
   "theorems": [
    "C33_backward_is_inverse_dft_2d",
    "C33_backward_exact_2d",
    "C33_scaling_refuted_2d",
    "C33_round_trip_2d",
    "C33_round_trip_exact_2d"
   ],
   "note": "Exact real arithmetic; the unguarded scaling claim is refuted."
  },
  {
   "property": "C34",
   "status": "proved",
   "theorems": [
    "C34_misuse_reported",
    "C34_only_misuse_reported",
    "C34_legal_calls_return",
    "C34_fits"
   ],
   "note": "Any history of calls. Destructors excepted (C36). Legal calls assume memoryflag is not switched after setup and the buffers cover every remap; C34_fits proves the latter for exchange=0."
  },
  {
   "property": "C35",
   "status": "proved",
   "theorems": [
    "C35_misuse_reported",
    "C35_only_misuse_reported",
    "C35_legal_calls_return",
    "C35_fits",
    "C35_second_setup_refuted"
   ],
   "note": "Defect found: a second setup() of an FFT2d object is not reported; the statement is guarded accordingly."
  },
  {
   "property": "C36",
   "status": "proved",
   "theorems": [
    "C36_destroy_3d",
    "C36_destroy_2d",
    "C36_destroy_remap",
    "C36_unused_2d_refuted",
    "C36_unused_remap_undefined",
    "C36_leak_refuted",
    "C36_foreign_free_refuted",
    "C36_strict_refuted"
   ],
   "note": "Defects found: destroying an FFT2d or Remap object that was never set up; memoryflag switched after setup. Positive theorems read delete-then-use of the stateless Memory object leniently; the strict reading is refuted."
  },
  {
   "property": "C39",
   "status": "proved",
   "theorems": [
    "C39_tune_ready",
    "C39_can_setup_3d",
    "C39_can_setup_2d",
    "C39_overflow_refuted",
    "C39_clock_refuted"
   ],
   "note": "Times are exact rationals, the clock arbitrary. Defects found: exchange=1 trials overrun buffers for differing 3d layouts; division by zero with a coarse clock."
  },
  {
   "property": "C40",
   "status": "proved",
   "theorems": [
    "C40_tune_choice",
    "C40_slower_refuted",
    "C40_initial_refuted"
   ],
   "note": "The unguarded claim is refuted; the exact rule is proved."
  },
  {
   "property": "C44",
   "status": "proved",
   "theorems": [
    "C44_memusage",
    "C44_exact_3d",
    "C44_exact_2d",
    "C44_counts_3d",
    "C44_counts_2d",
    "C44_under_refuted",
    "C44_over_refuted"
   ],
   "note": "The difference between memusage and allocated bytes is given exactly; zero for all-collective settings if a request has the size of a pointer."
  },
  {
   "property": "C45",
   "status": "proved",
   "theorems": [
    "C45_precision"
   ],
   "note": "FFT3d and FFT2d constructors, both builds."
  },
  {
   "property": "C47",
   "status": "proved",
   "theorems": [
    "C47_lockstep",
    "C47_choice_refuted"
   ],
   "note": "Ranks may choose different settings; if they choose the same, they make the same communicating calls."
  },
  {
   "property": "C48",
   "status": "proved",
   "theorems": [
    "C48_defaults_3d",
    "C48_defaults_2d",
    "C48_packflag_2d_refuted"
   ],
   "note": "FFT2d starts with packflag 0, not the documented 2."
  },
  {
   "property": "C41",
   "status": "proved",
   "theorems": [
    "C41_fft3d",
    "C41_fft2d",
    "C41_remap3d",
    "C41_remap2d",
    "C41_points3",
    "C41_points2"
   ],
   "note": "Effects compared through the setup, tune and heap models; x-1 on INT_MIN is undefined."
  },
  {
   "property": "C42",
   "status": "proved",
   "theorems": [
    "C42_set",
    "C42_sequence",
    "C42_get",
    "C42_readable",
    "C42_best_refuted",
    "C42_remap_set",
    "C42_remap_memory_refuted"
   ],
   "note": "cbest, ebest, pbest, besttime cannot be read; a remap ignores the documented keyword memory."
  },
  {
   "property": "C43",
   "status": "proved",
   "theorems": [
    "C43_ev",
    "C43_values",
    "C43_remap3d",
    "C43_remap2d",
    "C43_far_refuted",
    "C43_fft3d_exact",
    "C43_fft3d",
    "C43_grid_refuted",
    "C43_check_refuted",
    "C43_fft2d_exact",
    "C43_fft2d",
    "C43_grid2_refuted"
   ],
   "note": "The original claim (total number of scalars fits) is false: 4096 ranks and 2 x 2 x 2^20 points overflow in (ip+1)*n. Proved: exact under the tile bound iff processors times points fits per grid dimension; and the simple sufficient condition."
  },
  {
   "property": "C49",
   "status": "proved",
   "theorems": [
    "C49_setup3d",
    "C49_setup2d",
    "C49_remap3d",
    "C49_remap2d",
    "C49_alike3d",
    "C49_alike2d",
    "C49_dimensions_refuted",
    "C49_settings_refuted"
   ],
   "note": "Replaces the assumption that setup sees all ranks' arguments by a proof. That all ranks pass the same dimensions and settings is nowhere documented or checked; the refutations show it is needed."
  },
  {
   "property": "C50",
   "status": "proved",
   "theorems": [
    "C50_only_1d_3d",
    "C50_only_1d_2d"
   ],
   "note": ""
  },
  {
   "property": "C51",
   "status": "proved",
   "theorems": [
    "C51_rounded_1d",
    "C51_growth",
    "C51_higham"
   ],
   "note": "The arithmetic is any one satisfying the rounding model; C53 instantiates it."
  },
  {
   "property": "C52",
   "status": "proved",
   "theorems": [
    "C52_forward_3d",
    "C52_backward_3d",
    "C52_round_trip_3d",
    "C52_forward_2d",
    "C52_backward_2d",
    "C52_round_trip_2d"
   ],
   "note": "Error relative to the sum of moduli, not to the largest value."
  },
  {
   "property": "C53",
   "status": "proved",
   "theorems": [
    "C53_double",
    "C53_float",
    "C53_forward_3d",
    "C53_round_trip_3d",
    "C53_round_trip_3d_single",
    "C53_round_trip_2d"
   ],
   "note": "Accuracy of the C library's cos and sin is a hypothesis; no fused multiply-add."
  },
  {
   "property": "C54",
   "status": "proved",
   "theorems": [
    "C54_same_3d",
    "C54_same_2d",
    "C54_forward_3d",
    "C54_backward_3d",
    "C54_forward_2d",
    "C54_backward_2d",
    "C54_setup_3d",
    "C54_plans_3d",
    "C54_setup_2d",
    "C54_plans_2d",
    "C54_mkl_3d_refuted",
    "C54_mkl_2d_refuted"
   ],
   "note": "The libraries are modelled by their documented interface and exact arithmetic; alignment requirements and status values are not modelled."
  },
  {
   "property": "C55",
   "status": "proved",
   "theorems": [
    "C55_test3d",
    "C55_test2d",
    "C55_simple",
    "C55_modes_refuted",
    "C55_surface_3d",
    "C55_surface_2d"
   ],
   "note": "Rounding of doubles enters through rd_laws, proved for IEEE doubles (fl_laws) and exact arithmetic (id_laws); pow and sqrt of simple.cpp are any values in range."
  },
  {
   "property": "C56",
   "status": "proved",
   "theorems": [
    "C56_run_3d",
    "C56_run_2d",
    "C56_remap_only_3d",
    "C56_remap_only_2d",
    "C56_simple",
    "C56_test3d",
    "C56_test2d",
    "C56_3d_refuted",
    "C56_2d_refuted",
    "C56_3d_large",
    "C56_2d_large"
   ],
   "note": "Transforms in exact arithmetic except with -r; IEEE arithmetic in C61."
  },
  {
   "property": "C57",
   "status": "proved",
   "theorems": [
    "C57_validate_3d",
    "C57_validate_2d",
    "C57_nan_refuted"
   ],
   "note": "Deviations in exact arithmetic (IEEE in C61); the NaN refutation uses IEEE doubles."
  },
  {
   "property": "C58",
   "status": "proved",
   "theorems": [
    "C58_random",
    "C58_period",
    "C58_stream",
    "C58_seed_refuted"
   ],
   "note": "The double AM*seed returned is an arbitrary function of the integer state here, the rounded product in C61."
  },
  {
   "property": "C59",
   "status": "proved",
   "theorems": [
    "C59_options",
    "C59_globals",
    "C59_ranges",
    "C59_ranks",
    "C59_no_undefined_behaviour",
    "C59_numbers",
    "C59_run_3d",
    "C59_run_2d",
    "C59_seed_refuted",
    "C59_seed_2d_refuted",
    "C59_product_refuted",
    "C59_tune_refuted"
   ],
   "note": "atof is an arbitrary function; the runs are in exact arithmetic."
  },
  {
   "property": "C60",
   "status": "proved",
   "theorems": [
    "C60_output_3d",
    "C60_output_2d",
    "C60_division_3d_refuted",
    "C60_division_2d_refuted",
    "C60_points_refuted",
    "C60_permuted_refuted"
   ],
   "note": "Output is the list of lines; the token between ranks is C85; the digits printed are not modelled."
  },
  {
   "property": "C61",
   "status": "proved",
   "theorems": [
    "C61_validate_double",
    "C61_validate_single",
    "C61_run_double_3d",
    "C61_run_double_2d",
    "C61_run_single_3d",
    "C61_run_single_2d",
    "C61_growth",
    "C61_test3d_double",
    "C61_test2d_double",
    "C61_test3d_single",
    "C61_test2d_single",
    "C61_random_single_refuted"
   ],
   "note": "Worst-case bounds; accuracy of cos and sin is a hypothesis; no fused multiply-add or extended registers."
  },
  {
   "property": "C62",
   "status": "proved",
   "theorems": [
    "C62_delivers",
    "C62_complete",
    "C62_variant",
    "C62_setup_memory",
    "C62_setup_memory_refuted"
   ],
   "note": "MPI_Fint is taken as integer(c_int), which the source assumes."
  },
  {
   "property": "C63",
   "status": "proved",
   "theorems": [
    "C63_construct",
    "C63_parameters",
    "C63_method",
    "C63_life",
    "C63_bad_precision",
    "C63_setup_memory",
    "C63_remap",
    "C63_remap_life",
    "C63_int_wrap",
    "C63_wrap_refuted"
   ],
   "note": "Python 2 subset used by the file; numpy arrays are addresses."
  },
  {
   "property": "C64",
   "status": "proved",
   "theorems": [
    "C64_sequence_3d",
    "C64_sequence_2d",
    "C64_barriers_3d",
    "C64_barriers_2d",
    "C64_trial_3d",
    "C64_trial_2d",
    "C64_trial_events",
    "C64_main_3d",
    "C64_main_2d"
   ],
   "note": "MPI_Barrier is modelled as an all-to-all of empty messages."
  },
  {
   "property": "C65",
   "status": "proved",
   "theorems": [
    "C65_sequence",
    "C65_streams",
    "C65_order_refuted"
   ],
   "note": "C65_order_refuted: with a different order on one rank the messages of two remaps are exchanged silently. All objects share the buffers of the rank; own buffers are a special case."
  },
  {
   "property": "C66",
   "status": "proved",
   "theorems": [
    "C66_pair_3d",
    "C66_pair_2d",
    "C66_self_3d",
    "C66_self_2d",
    "C66_total_3d",
    "C66_total_2d",
    "C66_fft_3d",
    "C66_fft_2d",
    "C66_balance_3d",
    "C66_balance_2d"
   ],
   "note": "Counts are over the MPI calls in the program of a rank, which has no branches around them."
  },
  {
   "property": "C67",
   "status": "proved",
   "theorems": [
    "C67_remap",
    "C67_fft",
    "C67_plans",
    "C67_p2p_remap",
    "C67_p2p_fft",
    "C67_tune",
    "C67_refuted"
   ],
   "note": "The sentence 'every failure is reported' is false; the property states the exact outcome, C67_refuted has the counterexamples."
  },
  {
   "property": "C68",
   "status": "proved",
   "theorems": [
    "C68_layout_3d",
    "C68_layout_2d",
    "C68_layout_simple",
    "C68_single_laws",
    "C68_layout_refuted",
    "C68_options_sound",
    "C68_options_complete",
    "C68_cut_refuted",
    "C68_numbers",
    "C68_init_words_refuted",
    "C68_init_kinds",
    "C68_nloop_refuted",
    "C68_tune_time_refuted",
    "C68_tune_time",
    "C68_start_3d",
    "C68_start_2d",
    "C68_step_index_3d_refuted",
    "C68_index_2d",
    "C68_step_2d",
    "C68_validate_3d",
    "C68_validate_2d",
    "C68_validate_zero",
    "C68_validate_same",
    "C68_report_refuted",
    "C68_output_refuted",
    "C68_timing_refuted",
    "C68_timing",
    "C68_keyword",
    "C68_simple"
   ],
   "note": "Theorems named _refuted give the parts in which the Fortran programs differ from their purpose or from the C++ programs."
  },
  {
   "property": "C69",
   "status": "proved",
   "theorems": [
    "C69_numbers",
    "C69_options_2d",
    "C69_options_3d",
    "C69_grid_refuted",
    "C69_layout_3d",
    "C69_layout_2d",
    "C69_surface_refuted",
    "C69_random",
    "C69_main",
    "C69_output_refuted",
    "C69_simple_refuted"
   ],
   "note": "Theorems named _refuted are the counterexamples; C69_main and C69_output_refuted state the failures in general."
  },
  {
   "property": "C70",
   "status": "proved",
   "theorems": [
    "C70_parseval_1d",
    "C70_parseval_2d",
    "C70_parseval_3d",
    "C70_rounded_1d",
    "C70_growth",
    "C70_element_3d",
    "C70_element_2d",
    "C70_forward_3d",
    "C70_backward_3d",
    "C70_round_trip_3d",
    "C70_forward_2d",
    "C70_backward_2d",
    "C70_round_trip_2d",
    "C70_double_forward_3d",
    "C70_double_round_trip_3d",
    "C70_single_round_trip_3d",
    "C70_double_round_trip_2d"
   ],
   "note": "Same hypotheses as C51-C53 (overflow guard stated with the sum of moduli)."
  },
  {
   "property": "C71",
   "status": "proved",
   "theorems": [
    "C71_run_double_3d",
    "C71_run_double_2d",
    "C71_run_single_3d",
    "C71_run_single_2d",
    "C71_growth",
    "C71_test3d_double",
    "C71_test2d_double",
    "C71_test3d_single",
    "C71_test2d_single"
   ],
   "note": "The runs of C61 with the norm bound of C70; the printed error follows because no element exceeds the norm."
  },
  {
   "property": "C72",
   "status": "proved",
   "theorems": [
    "C72_double",
    "C72_float",
    "C72_plain",
    "C72_fused",
    "C72_forward_3d",
    "C72_round_trip_3d",
    "C72_round_trip_3d_single",
    "C72_round_trip_2d",
    "C72_norm_forward_3d",
    "C72_norm_round_trip_3d",
    "C72_norm_round_trip_3d_single",
    "C72_norm_round_trip_2d",
    "C72_areas",
    "C72_min",
    "C72_same_grid_refuted"
   ],
   "note": "The source does not say which products a compiler fuses, so a parameter does; it ranges over more than machines can do. C72_same_grid_refuted: two builds may choose different grids. The printed errors of the test programs (C61, C71) are not restated for fused arithmetic."
  },
  {
   "property": "C73",
   "status": "proved",
   "theorems": [
    "C73_trials",
    "C73_rounds",
    "C73_time",
    "C73_limit_refuted",
    "C73_rounds_refuted"
   ],
   "note": "C73_time: exact arithmetic, waiting at barriers and broadcasts takes no time. Refuted: tmax kept exactly; never more than niter rounds per trial."
  },
  {
   "property": "C74",
   "status": "proved",
   "theorems": [
    "C74_results",
    "C74_besttime_refuted"
   ],
   "note": "besttime after the test run alone is rank 0's (C74_besttime_refuted)."
  },
  {
   "property": "C75",
   "status": "proved",
   "theorems": [
    "C75_report",
    "C75_c",
    "C75_ends",
    "C75_others",
    "C75_calls"
   ],
   "note": "Times and quotients are exact; the logarithm is any function. What setup and tune leave in the object is arbitrary here (C64, C73, C74 say what it is)."
  },
  {
   "property": "C76",
   "status": "proved",
   "theorems": [
    "C76_python",
    "C76_python_zero_refuted",
    "C76_python_mode_refuted",
    "C76_fortran",
    "C76_fortran_refuted",
    "C76_fortran_size_refuted"
   ],
   "note": "The reports are the same only up to the differences stated; the _refuted theorems are runs in which they show."
  },
  {
   "property": "C77",
   "status": "proved",
   "theorems": [
    "C77_pack_3d",
    "C77_unpack_3d",
    "C77_permute_3d",
    "C77_long_pack_3d",
    "C77_long_unpack_3d",
    "C77_memcpy_silent_3d_refuted",
    "C77_memcpy_crash_3d_refuted",
    "C77_remap_pack_3d",
    "C77_remap_unpack_3d",
    "C77_array_overflow_3d_refuted",
    "C77_remap_strict_3d",
    "C77_end_beyond_3d_refuted",
    "C77_pack_2d",
    "C77_unpack_2d",
    "C77_permute_2d",
    "C77_end_beyond_2d_refuted",
    "C77_long_pack_2d",
    "C77_long_unpack_2d",
    "C77_memcpy_silent_2d_refuted",
    "C77_remap_pack_2d",
    "C77_remap_unpack_2d",
    "C77_array_overflow_2d_refuted"
   ],
   "note": "Equal to the unbounded routines under the stated bounds, with the exact condition for each; the _refuted theorems show that the bounds are needed."
  },
  {
   "property": "C78",
   "status": "proved",
   "theorems": [
    "C78_remap_3d",
    "C78_remap_2d",
    "C78_delivers_3d",
    "C78_compute_3d",
    "C78_compute_2d",
    "C78_forward_3d",
    "C78_roundtrip_3d",
    "C78_forward_2d",
    "C78_roundtrip_2d",
    "C78_remap_silent_refuted"
   ],
   "note": "Pointers may be formed beyond one past the array (strict = false), see C77; setup()'s own ints are C43."
  },
  {
   "property": "C79",
   "status": "proved",
   "theorems": [
    "C79_forward_3d",
    "C79_forward_2d",
    "C79_backward_3d",
    "C79_backward_2d",
    "C79_backward_3d_refuted",
    "C79_backward_2d_refuted"
   ],
   "note": "The backward claims are for layouts of one kind (parameter same); the _refuted theorems show that the kind matters. With exchange=1 the buffers must suffice for the backward remaps, see C21."
  },
  {
   "property": "C80",
   "status": "proved",
   "theorems": [
    "C80_remap_3d",
    "C80_remap_2d",
    "C80_forward_3d",
    "C80_forward_2d",
    "C80_back_3d_refuted",
    "C80_back_2d_refuted"
   ],
   "note": "Output boxes reaching outside the grid are covered for remaps, not for transforms. The last sentence is proved by concrete executions (the _refuted theorems)."
  },
  {
   "property": "C81",
   "status": "proved",
   "theorems": [
    "C81_between",
    "C81_apart",
    "C81_overlap",
    "C81_pending_refuted"
   ],
   "note": "pending messages of the caller with tag 0 are refuted; wildcard receives of the caller are not modelled"
  },
  {
   "property": "C82",
   "status": "proved",
   "theorems": [
    "C82_multiplier_3d",
    "C82_multiplier_2d",
    "C82_convolution_3d",
    "C82_convolution_2d",
    "C82_loop_3d",
    "C82_loop_2d"
   ],
   "note": "exact arithmetic over the reals; for exchange=1 in 3d the buffers are assumed to suffice, as for C26 (see C21)"
  },
  {
   "property": "C83",
   "status": "proved",
   "theorems": [
    "C83_sequence_3d",
    "C83_sequence_2d",
    "C83_trial_3d",
    "C83_trial_2d",
    "C83_main_3d",
    "C83_main_2d",
    "C83_validate_3d",
    "C83_validate_2d",
    "C83_index_refuted",
    "C83_double_refuted",
    "C83_empty_refuted"
   ],
   "note": "setup()'s own arithmetic is C43; output() of the test programs is C86; 2d for 8-byte elements; the buffers are assumed to suffice for backward calls in 3d as for C26"
  },
  {
   "property": "C84",
   "status": "proved",
   "theorems": [
    "C84_linear_3d",
    "C84_linear_2d",
    "C84_shift_3d",
    "C84_shift_2d",
    "C84_real_3d",
    "C84_real_2d",
    "C84_two_real_3d",
    "C84_two_real_2d",
    "C84_energy_3d",
    "C84_energy_2d",
    "C84_hermitian_3d",
    "C84_hermitian_2d",
    "C84_filter_3d",
    "C84_filter_2d"
   ],
   "note": "exact arithmetic over the reals; for exchange=1 in 3d the backward buffers are assumed to suffice, as for C26 (see C21)"
  },
  {
   "property": "C85",
   "status": "proved",
   "theorems": [
    "C85_output",
    "C85_order",
    "C85_undefined",
    "C85_main_3d",
    "C85_main_2d",
    "C85_main_order_3d",
    "C85_main_order_2d"
   ],
   "note": "printing is a step that reads the array and changes nothing; buffering of the text by the system is not modelled; modes 2 and 3 under the guard of C60"
  },
  {
   "property": "C86",
   "status": "proved",
   "theorems": [
    "C86_output_3d",
    "C86_output_2d",
    "C86_main_3d",
    "C86_main_2d",
    "C86_order_3d",
    "C86_order_2d",
    "C86_points_refuted",
    "C86_layout_refuted"
   ],
   "note": "2d for 8-byte elements; the buffers are assumed to suffice for backward calls in 3d as for C26; modes 2 and 3 under the guard of C60"
  }
 ]
}