{
 "claims": [
  {
   "property": "C01",
   "status": "proved",
   "theorems": [
    "C01_update_places_slice"
   ],
   "note": ""
  },
  {
   "property": "C02",
   "status": "proved",
   "theorems": [
    "C02_never_resized",
    "C02_overrun_lands_on_last_slots",
    "C02_negative_start_counts_from_the_end",
    "C02_refused_leaves_everything"
   ],
   "note": ""
  },
  {
   "property": "C03",
   "status": "proved",
   "theorems": [
    "C03_state_update_overwrites",
    "C03_update_strategy"
   ],
   "note": ""
  },
  {
   "property": "C04",
   "status": "proved",
   "theorems": [
    "C04_precedence",
    "C04_keywords"
   ],
   "note": ""
  },
  {
   "property": "C05",
   "status": "proved",
   "theorems": [
    "C05_runs_in_order",
    "C05_trace_is_a_prefix",
    "C05_deterministic",
    "C05_unknown_name",
    "C05_not_a_list"
   ],
   "note": ""
  },
  {
   "property": "C06",
   "status": "proved",
   "theorems": [
    "C06_key_never_advances",
    "C06_second_call_same_keys",
    "C06_repository_strategies_qualify"
   ],
   "note": ""
  },
  {
   "property": "C07",
   "status": "proved",
   "theorems": [
    "C07_frame",
    "C07_missing_name"
   ],
   "note": ""
  },
  {
   "property": "C08",
   "status": "proved",
   "theorems": [
    "C08_samples_recorded",
    "C08_serial_kernels_qualify",
    "C08_flow_kernel_qualifies",
    "C08_call_succeeds"
   ],
   "note": ""
  },
  {
   "property": "C09",
   "status": "proved",
   "theorems": [
    "C09_batching_invisible"
   ],
   "note": ""
  },
  {
   "property": "C10",
   "status": "proved",
   "theorems": [
    "C10_chains_independent"
   ],
   "note": ""
  },
  {
   "property": "C11",
   "status": "proved",
   "theorems": [
    "C11_local_steps",
    "C11_global_steps"
   ],
   "note": ""
  },
  {
   "property": "C12",
   "status": "proved",
   "theorems": [
    "C12_consecutive_calls",
    "C12_slot_count",
    "C12_tiling",
    "C12_lossy"
   ],
   "note": ""
  },
  {
   "property": "C13",
   "status": "proved",
   "theorems": [
    "C13_random_walk",
    "C13_random_walk_raises",
    "C13_mala",
    "C13_mala_raises",
    "C13_hmc",
    "C13_flow_proposal"
   ],
   "note": ""
  },
  {
   "property": "C14",
   "status": "proved",
   "theorems": [
    "C14_local_kernels",
    "C14_mala_gradient",
    "C14_hmc_energy",
    "C14_flow_kernel",
    "C14_local_steps",
    "C14_global_steps"
   ],
   "note": ""
  },
  {
   "property": "C15",
   "status": "proved",
   "theorems": [
    "C15_random_walk",
    "C15_mala",
    "C15_hmc",
    "C15_flow_proposal"
   ],
   "note": ""
  },
  {
   "property": "C16",
   "status": "proved",
   "theorems": [
    "C16_random_walk_balance",
    "C16_proposal_density",
    "C16_all_pairs"
   ],
   "note": ""
  },
  {
   "property": "C17",
   "status": "proved",
   "theorems": [
    "C17_mala_ratio",
    "C17_proposal_density",
    "C17_all_pairs",
    "C17_mala_balance",
    "C17_vector_step_raises"
   ],
   "note": ""
  },
  {
   "property": "C18",
   "status": "proved",
   "theorems": [
    "C18_flow_balance",
    "C18_constant_invisible"
   ],
   "note": ""
  },
  {
   "property": "C19",
   "status": "proved",
   "theorems": [
    "C19_reversible",
    "C19_velocity_verlet",
    "C19_velocity_is_gradient"
   ],
   "note": ""
  },
  {
   "property": "C20",
   "status": "proved",
   "theorems": [
    "C20_volume",
    "C20_phase_space_balance",
    "C20_target_balance",
    "C20_all_momenta"
   ],
   "note": ""
  },
  {
   "property": "C21",
   "status": "proved",
   "theorems": [
    "C21_diagonal_metric",
    "C21_dense_metric_refuted",
    "C21_scalar_metric_raises"
   ],
   "note": ""
  },
  {
   "property": "C22",
   "status": "proved",
   "theorems": [
    "C22_batched_logpdf"
   ],
   "note": ""
  },
  {
   "property": "C23",
   "status": "proved",
   "theorems": [
    "C23_sample_flow",
    "C23_raises"
   ],
   "note": ""
  },
  {
   "property": "C24",
   "status": "proved",
   "theorems": [
    "C24_extra_entry",
    "C24_recorded_can_differ"
   ],
   "note": ""
  },
  {
   "property": "C25",
   "status": "proved",
   "theorems": [
    "C25_strictly_increasing",
    "C25_onto",
    "C25_continuous",
    "C25_knots",
    "C25_linear_outside"
   ],
   "note": ""
  },
  {
   "property": "C26",
   "status": "proved",
   "theorems": [
    "C26_inverse_of_forward",
    "C26_forward_of_inverse"
   ],
   "note": ""
  },
  {
   "property": "C27",
   "status": "proved",
   "theorems": [
    "C27_logdet",
    "C27_inverse_logdet"
   ],
   "note": ""
  },
  {
   "property": "C28",
   "status": "proved",
   "theorems": [
    "C28_valid",
    "C28_zero_slope",
    "C28_default_well_conditioned"
   ],
   "note": ""
  },
  {
   "property": "C29",
   "status": "proved",
   "theorems": [
    "C29_mlp_affine",
    "C29_scalar_affine",
    "C29_rqspline",
    "C29_affine_coupling",
    "C29_pass_through",
    "C29_affine_coupling_pass"
   ],
   "note": ""
  },
  {
   "property": "C30",
   "status": "proved",
   "theorems": [
    "C30_realnvp",
    "C30_rqspline_untrained_affine",
    "C30_rqspline_trained_refuted",
    "C30_rqspline_swapped_order"
   ],
   "note": ""
  },
  {
   "property": "C31",
   "status": "proved",
   "theorems": [
    "C31_realnvp",
    "C31_rqspline",
    "C31_realnvp_pointwise",
    "C31_rqspline_layer_differentiable",
    "C31_affine_coupling"
   ],
   "note": ""
  },
  {
   "property": "C32",
   "status": "proved",
   "theorems": [
    "C32_realnvp",
    "C32_rqspline",
    "C32_samples",
    "C32_realnvp_custom_base_refuted"
   ],
   "note": ""
  },
  {
   "property": "C33",
   "status": "proved",
   "theorems": [
    "C33_realnvp_masks",
    "C33_rqspline_masks",
    "C33_first_masks",
    "C33_num_bins"
   ],
   "note": ""
  },
  {
   "property": "C34",
   "status": "proved",
   "theorems": [
    "C34_best_epoch",
    "C34_succeeds"
   ],
   "note": ""
  },
  {
   "property": "C35",
   "status": "proved",
   "theorems": [
    "C35_full_batches",
    "C35_small_data",
    "C35_batch_size_zero"
   ],
   "note": ""
  },
  {
   "property": "C36",
   "status": "proved",
   "theorems": [
    "C36_training_set",
    "C36_refused",
    "C36_unwritten_slots",
    "C36_fresh_buffer_refused"
   ],
   "note": ""
  },
  {
   "property": "C37",
   "status": "proved",
   "theorems": [
    "C37_effects",
    "C37_failed_call_changes_nothing",
    "C37_history"
   ],
   "note": ""
  },
  {
   "property": "C38",
   "status": "proved",
   "theorems": [
    "C38_exchange_permutes"
   ],
   "note": ""
  },
  {
   "property": "C39",
   "status": "proved",
   "theorems": [
    "C39_exchange_balance",
    "C39_sweep_invariant"
   ],
   "note": ""
  },
  {
   "property": "C40",
   "status": "proved",
   "theorems": [
    "C40_ends_fixed",
    "C40_gap_law",
    "C40_interior_order",
    "C40_sorted_refuted"
   ],
   "note": ""
  },
  {
   "property": "C41",
   "status": "proved",
   "theorems": [
    "C41_call",
    "C41_kernels_keep_dim",
    "C41_production_frozen",
    "C41_truth",
    "C41_ensemble_preserved_refuted"
   ],
   "note": ""
  },
  {
   "property": "C42",
   "status": "proved",
   "theorems": [
    "C42_gradient",
    "C42_unit_temperature",
    "C42_bundle_targets",
    "C42_same_acceptance_iff_flat_prior"
   ],
   "note": ""
  },
  {
   "property": "C43",
   "status": "proved",
   "theorems": [
    "C43_objective",
    "C43_inside_box",
    "C43_no_nan",
    "C43_gradients_inside",
    "C43_no_steps",
    "C43_resources_unchanged",
    "C43_ascends",
    "C43_bounds_validated"
   ],
   "note": ""
  },
  {
   "property": "C44",
   "status": "proved",
   "theorems": [
    "C44_base_schedule",
    "C44_pt_schedule",
    "C44_constructor"
   ],
   "note": ""
  },
  {
   "property": "C45",
   "status": "proved",
   "theorems": [
    "C45_base_run",
    "C45_pt_run",
    "C45_tempered_steps"
   ],
   "note": ""
  },
  {
   "property": "C46",
   "status": "proved",
   "theorems": [
    "C46_base_production_frozen",
    "C46_pt_production_frozen"
   ],
   "note": ""
  },
  {
   "property": "C47",
   "status": "proved",
   "theorems": [
    "C47_training_buffers_kept",
    "C47_base_second_run",
    "C47_pt_second_run",
    "C47_one_flag_per_slot_refuted"
   ],
   "note": ""
  },
  {
   "property": "C48",
   "status": "proved",
   "theorems": [
    "C48_buffer_roundtrip",
    "C48_buffer_not_restored_refuted",
    "C48_state_never_restored"
   ],
   "note": ""
  },
  {
   "property": "C49",
   "status": "proved",
   "theorems": [
    "C49_kernel_draws",
    "C49_serial_chain",
    "C49_flow_chain",
    "C49_tempered_chain",
    "C49_local_call",
    "C49_global_call",
    "C49_tempering_call",
    "C49_training_call",
    "C49_call_streams",
    "C49_run_streams",
    "C49_bundle_streams"
   ],
   "note": ""
  },
  {
   "property": "C50",
   "status": "proved",
   "theorems": [
    "C50_default_names",
    "C50_precedence",
    "C50_pytree_roundtrip"
   ],
   "note": ""
  },
  {
   "property": "C51",
   "status": "proved",
   "theorems": [
    "C51_endpoints",
    "C51_velocity",
    "C51_line"
   ],
   "note": ""
  },
  {
   "property": "C52",
   "status": "proved",
   "theorems": [
    "C52_value",
    "C52_right_iff",
    "C52_backward",
    "C52_constant_fields",
    "C52_time_fields",
    "C52_shift_samples",
    "C52_shift_inverse",
    "C52_shift_right_iff",
    "C52_not_the_sample_density_refuted",
    "C52_whitening",
    "C52_fresh_model",
    "C52_dopri5"
   ],
   "note": ""
  },
  {
   "property": "C53",
   "status": "proved",
   "theorems": [
    "C53_decay",
    "C53_masks_leave_binary",
    "C53_trained_realnvp_refuted",
    "C53_trained_statistics",
    "C53_trained_base_covariance",
    "C53_trained_base_refuted"
   ],
   "note": ""
  },
  {
   "property": "C54",
   "status": "proved",
   "theorems": [
    "C54_mlp_shape",
    "C54_mlp_value",
    "C54_mlp_differentiable",
    "C54_fresh_realnvp",
    "C54_fresh_rqspline"
   ],
   "note": ""
  },
  {
   "property": "C55",
   "status": "proved",
   "theorems": [
    "C55_samples",
    "C55_density",
    "C55_formula",
    "C55_composable",
    "C55_composable_sample"
   ],
   "note": ""
  },
  {
   "property": "C56",
   "status": "proved",
   "theorems": [
    "C56_full_batches",
    "C56_small_data",
    "C56_examples",
    "C56_loss",
    "C56_best_epoch",
    "C56_succeeds"
   ],
   "note": ""
  },
  {
   "property": "C57",
   "status": "proved",
   "theorems": [
    "C57_positive",
    "C57_whitened",
    "C57_flow_matching",
    "C57_constant_column"
   ],
   "note": ""
  },
  {
   "property": "C58",
   "status": "proved",
   "theorems": [
    "C58_clip",
    "C58_clip_bound",
    "C58_constant_gradient"
   ],
   "note": ""
  },
  {
   "property": "C59",
   "status": "proved",
   "theorems": [
    "C59_mlp_parameters",
    "C59_streams_apart",
    "C59_reads"
   ],
   "note": ""
  },
  {
   "property": "C60",
   "status": "proved",
   "theorems": [
    "C60_balance_iff",
    "C60_realnvp_balance",
    "C60_rqspline_zero_affine_balance",
    "C60_fresh_rqspline_balance",
    "C60_fresh_realnvp_balance",
    "C60_rqspline_trained_refuted",
    "C60_realnvp_trained_refuted"
   ],
   "note": ""
  },
  {
   "property": "C61",
   "status": "proved",
   "theorems": [
    "C61_epoch_loss",
    "C61_returned_model",
    "C61_realnvp_objective",
    "C61_rqspline_objective",
    "C61_maximum_likelihood",
    "C61_shift_gradient",
    "C61_returned_not_recorded_refuted"
   ],
   "note": ""
  },
  {
   "property": "C62",
   "status": "proved",
   "theorems": [
    "C62_realnvp_round_trip",
    "C62_rqspline_round_trip",
    "C62_realnvp_sizes",
    "C62_rqspline_sizes",
    "C62_classes",
    "C62_missing"
   ],
   "note": ""
  },
  {
   "property": "C63",
   "status": "proved",
   "theorems": [
    "C63_names",
    "C63_arrays",
    "C63_same_model",
    "C63_masks_become_parameters"
   ],
   "note": ""
  },
  {
   "property": "C64",
   "status": "proved",
   "theorems": [
    "C64_realnvp_tree",
    "C64_rqspline_tree",
    "C64_realnvp_frame",
    "C64_rqspline_frame",
    "C64_base_mark",
    "C64_spline_masks",
    "C64_realnvp_masks",
    "C64_statistics"
   ],
   "note": ""
  },
  {
   "property": "C65",
   "status": "proved",
   "theorems": [
    "C65_log_prob",
    "C65_base",
    "C65_realnvp_base"
   ],
   "note": ""
  },
  {
   "property": "C66",
   "status": "proved",
   "theorems": [
    "C66_failed_steps"
   ],
   "note": ""
  },
  {
   "property": "C67",
   "status": "proved",
   "theorems": [
    "C67_file_name",
    "C67_round_trip",
    "C67_same_file",
    "C67_own_argument",
    "C67_missing",
    "C67_state_file",
    "C67_all_buffers",
    "C67_bundle_names"
   ],
   "note": ""
  },
  {
   "property": "C68",
   "status": "proved",
   "theorems": [
    "C68_no_bins",
    "C68_not_finite",
    "C68_fresh",
    "C68_acceptances",
    "C68_binary32",
    "C68_histogram"
   ],
   "note": ""
  },
  {
   "property": "C69",
   "status": "proved",
   "theorems": [
    "C69_strategies",
    "C69_bundle_strategies",
    "C69_samplers",
    "C69_base_bundle",
    "C69_pt_bundle",
    "C69_base_saved",
    "C69_pt_saved"
   ],
   "note": ""
  },
  {
   "property": "C70",
   "status": "proved",
   "theorems": [
    "C70_arguments",
    "C70_pt_arguments",
    "C70_conditions",
    "C70_trained",
    "C70_pt_trained",
    "C70_result",
    "C70_log_prob"
   ],
   "note": ""
  },
  {
   "property": "C71",
   "status": "proved",
   "theorems": [
    "C71_base_outcome",
    "C71_pt_outcome",
    "C71_finite_run_goes_on",
    "C71_base_returns",
    "C71_pt_returns",
    "C71_spline_returns"
   ],
   "note": ""
  },
  {
   "property": "C72",
   "status": "proved",
   "theorems": [
    "C72_base_honest",
    "C72_pt_honest",
    "C72_value",
    "C72_base_support",
    "C72_pt_support"
   ],
   "note": ""
  },
  {
   "property": "C73",
   "status": "proved",
   "theorems": [
    "C73_adaptations",
    "C73_at_least_one",
    "C73_bundle",
    "C73_pt_support",
    "C73_binary32",
    "C73_initial_binary32",
    "C73_bundle_binary32",
    "C73_support_binary32",
    "C73_initial_refuted"
   ],
   "note": ""
  },
  {
   "property": "C74",
   "status": "proved",
   "theorems": [
    "C74_diagonal",
    "C74_outcome",
    "C74_acceptance",
    "C74_wrong_shape",
    "C74_covariance",
    "C74_full_matrix_refuted",
    "C74_all_pairs",
    "C74_balance_fails"
   ],
   "note": ""
  },
  {
   "property": "C75",
   "status": "proved",
   "theorems": [
    "C75_steps",
    "C75_serial_kind",
    "C75_group_kind",
    "C75_training",
    "C75_tempering",
    "C75_update_state"
   ],
   "note": ""
  },
  {
   "property": "C76",
   "status": "proved",
   "theorems": [
    "C76_kernels",
    "C76_serial",
    "C76_group",
    "C76_optimizer",
    "C76_base",
    "C76_pt"
   ],
   "note": ""
  },
  {
   "property": "C77",
   "status": "proved",
   "theorems": [
    "C77_kernels",
    "C77_serial",
    "C77_group",
    "C77_optimizer",
    "C77_base",
    "C77_pt",
    "C77_closure"
   ],
   "note": ""
  },
  {
   "property": "C78",
   "status": "proved",
   "theorems": [
    "C78_knots",
    "C78_forward",
    "C78_inverse",
    "C78_layer",
    "C78_defaults",
    "C78_network"
   ],
   "note": ""
  },
  {
   "property": "C79",
   "status": "proved",
   "theorems": [
    "C79_random_walk",
    "C79_langevin",
    "C79_hmc",
    "C79_flow",
    "C79_production",
    "C79_production_end"
   ],
   "note": ""
  },
  {
   "property": "C80",
   "status": "proved",
   "theorems": [
    "C80_training",
    "C80_returned"
   ],
   "note": ""
  },
  {
   "property": "C81",
   "status": "proved",
   "theorems": [
    "C81_production_twice"
   ],
   "note": ""
  },
  {
   "property": "C82",
   "status": "proved",
   "theorems": [
    "C82_base",
    "C82_pt",
    "C82_flow_batch_refuted"
   ],
   "note": ""
  },
  {
   "property": "C83",
   "status": "proved",
   "theorems": [
    "C83_base",
    "C83_pt",
    "C83_training_refuted"
   ],
   "note": ""
  },
  {
   "property": "C84",
   "status": "proved",
   "theorems": [
    "C84_flow",
    "C84_limit",
    "C84_production",
    "C84_production_end"
   ],
   "note": ""
  },
  {
   "property": "C85",
   "status": "proved",
   "theorems": [
    "C85_flow",
    "C85_production"
   ],
   "note": ""
  },
  {
   "property": "C86",
   "status": "proved",
   "theorems": [
    "C86_kernels",
    "C86_serial",
    "C86_group",
    "C86_tempering"
   ],
   "note": ""
  },
  {
   "property": "C87",
   "status": "proved",
   "theorems": [
    "C87_independent",
    "C87_pooled"
   ],
   "note": ""
  },
  {
   "property": "C88",
   "status": "proved",
   "theorems": [
    "C88_bundle",
    "C88_pt_bundle",
    "C88_spline",
    "C88_spline_pt",
    "C88_origin_refuted"
   ],
   "note": ""
  },
  {
   "property": "C89",
   "status": "proved",
   "theorems": [
    "C89_layer",
    "C89_value",
    "C89_network"
   ],
   "note": ""
  },
  {
   "property": "C90",
   "status": "proved",
   "theorems": [
    "C90_step",
    "C90_chain",
    "C90_all_chains"
   ],
   "note": ""
  },
  {
   "property": "C91",
   "status": "proved",
   "theorems": [
    "C91_hmc_energy",
    "C91_hmc_acceptance",
    "C91_hmc_unstable",
    "C91_mala_trapezoid",
    "C91_mala_gaussian",
    "C91_mala_closer"
   ],
   "note": ""
  },
  {
   "property": "C92",
   "status": "proved",
   "theorems": [
    "C92_optimization",
    "C92_first_step",
    "C92_wrong_way",
    "C92_training_step",
    "C92_training_bounded",
    "C92_bundle"
   ],
   "note": ""
  },
  {
   "property": "C93",
   "status": "proved",
   "theorems": [
    "C93_step",
    "C93_probability",
    "C93_exact",
    "C93_forgets",
    "C93_stuck"
   ],
   "note": ""
  },
  {
   "property": "C94",
   "status": "proved",
   "theorems": [
    "C94_down",
    "C94_up",
    "C94_cold_end",
    "C94_call",
    "C94_production",
    "C94_price",
    "C94_better_comes_down"
   ],
   "note": ""
  },
  {
   "property": "C95",
   "status": "proved",
   "theorems": [
    "C95_rate",
    "C95_bias",
    "C95_perfect"
   ],
   "note": ""
  },
  {
   "property": "C96",
   "status": "proved",
   "theorems": [
    "C96_correlation",
    "C96_decay",
    "C96_stationary",
    "C96_worth",
    "C96_exact"
   ],
   "note": ""
  },
  {
   "property": "C97",
   "status": "proved",
   "theorems": [
    "C97_local",
    "C97_global",
    "C97_production"
   ],
   "note": ""
  },
  {
   "property": "C98",
   "status": "proved",
   "theorems": [
    "C98_local",
    "C98_global",
    "C98_even",
    "C98_stationary"
   ],
   "note": ""
  },
  {
   "property": "C99",
   "status": "proved",
   "theorems": [
    "C99_call",
    "C99_calls"
   ],
   "note": ""
  },
  {
   "property": "C100",
   "status": "proved",
   "theorems": [
    "C100_kept",
    "C100_local",
    "C100_one",
    "C100_global"
   ],
   "note": ""
  }
 ]
}