{"claims": [
  {"property": "C01", "status": "proved", "theorems": ["C01_digital_int_exact"], "note": "GCC's reading of << on negative values (strict_shl = false); the C++17 reading is C53."},
  {"property": "C02", "status": "proved", "theorems": ["C02_digital_bnn_exact"], "note": ""},
  {"property": "C03", "status": "proved", "theorems": ["C03_digital_tnn_exact"], "note": "GCC's reading of << on negative values; TNN_I to TNN_III shift nothing negative, see C53."},
  {"property": "C04", "status": "proved", "theorems": ["C04_mode_invisible"], "note": ""},
  {"property": "C05", "status": "proved", "theorems": ["C05_cells_decode"], "note": "Any reachable state; in digital configurations the write is also shown to succeed."},
  {"property": "C06", "status": "proved", "theorems": ["C06_write_frame", "C06_mvm_frame"], "note": "All 17 modes, digital and analog."},
  {"property": "C07", "status": "proved", "theorems": ["C07_last_write_only"], "note": ""},
  {"property": "C08", "status": "proved", "theorems": ["C08_mat_ignored"], "note": "All worlds, digital and analog."},
  {"property": "C09", "status": "proved", "theorems": ["C09_result_frame", "C09_increment", "C09_wrap_refuted"], "note": "Frame in every mode; increment independent of res exactly in 15 modes and modulo 2^32 in I_UINT_W_OFFS and TNN_V, with a witness that the wrap happens."},
  {"property": "C10", "status": "proved", "theorems": ["C10_guard"], "note": "M, N below 2^31 (a 32-bit int cannot exceed larger ones)."},
  {"property": "C11", "status": "proved", "theorems": ["C11_no_crossbar"], "note": ""},
  {"property": "C12", "status": "proved", "theorems": ["C12_counters", "C12_counters_step"], "note": "Histories without crossbar creation; software refreshes are covered per step."},
  {"property": "C13", "status": "proved", "theorems": ["C13_support_matrix", "C13_after_load"], "note": "Invariant of every history, from the initial configuration; the support matrix is the predicate supported of Spec.v."},
  {"property": "C14", "status": "proved", "theorems": ["C14_noop_update", "C14_update_idempotent"], "note": "Duplicate-free update objects without NaN, which is what the JSON library can deliver."},
  {"property": "C15", "status": "proved", "theorems": ["C15_update_keeps_crossbar", "C15_update_recreates"], "note": ""},
  {"property": "C16", "status": "proved", "theorems": ["C16_getter_dimensions"], "note": "Along reachable states (sequences in which no call throws)."},
  {"property": "C17", "status": "proved", "theorems": ["C17_digital_memory_safe"], "note": "After every settled history (reach); buffer sizes are hypotheses."},
  {"property": "C18", "status": "proved", "theorems": ["C18_stale_resolution", "C18_resolution_check_refuted"], "note": "Expectation refuted by a witness; the general theorem says that after an accepted resolution of -1 every finite-ADC document is rejected."},
  {"property": "C19", "status": "proved", "theorems": ["C19_w_res_update_ignored", "C19_w_res_null_refuted"], "note": "Expectation refuted: the update changes no later answer in any reachable state; the null dereference is a witness history."},
  {"property": "C20", "status": "proved", "theorems": ["C20_load_determines", "C20_load_keeps", "C20_read_disturb_leaks_refuted", "C20_profile_leaks_refuted"], "note": "Expectation refuted by two witness histories; the general theorems say which fields a load determines and which it keeps."},
  {"property": "C21", "status": "proved", "theorems": ["C21_ideal_exact"], "note": "Exact real arithmetic; slices of width 0 excluded (they divide by zero); histograms off in BNN/TNN modes."},
  {"property": "C22", "status": "proved", "theorems": ["C22_off_by_one_refuted"], "note": "Expectation refuted in bit-exact binary32, for every libm and noise source, in seven modes."},
  {"property": "C23", "status": "proved", "theorems": ["C23_loses_bits_refuted", "C23_undefined_refuted"], "note": "Expectation refuted in bit-exact binary32, in every mode except I_UINT_W_OFFS."},
  {"property": "C24", "status": "proved", "theorems": ["C24_transfer"], "note": "Exact reals, CAL_MAX and calibrated ranges; resolutions 2..30 (above 30: C58)."},
  {"property": "C25", "status": "proved", "theorems": ["C25_monotone_exact", "C25_monotone_single"], "note": "Exact arithmetic and IEEE binary32 with any libm; single precision needs a positive finite scale and a finite range with positive step."},
  {"property": "C26", "status": "proved", "theorems": ["C26_zero_and_odd", "C26_odd_at_thresholds_refuted"], "note": "Oddness exactly at decision thresholds is refuted for every configuration."},
  {"property": "C27", "status": "proved", "theorems": ["C27_idempotent"], "note": "Exact reals."},
  {"property": "C28", "status": "proved", "theorems": ["C28_in_range", "C28_never_clips"], "note": "Exact real arithmetic. C28_in_range also covers the currents of TNN_IV/TNN_V before their correction offset."},
  {"property": "C29", "status": "proved", "theorems": ["C29_clips_refuted", "C29_clips_single_refuted"], "note": "Expectation refuted at every resolution 1..30 in exact arithmetic, and in binary32 with 8 bits."},
  {"property": "C30", "status": "proved", "theorems": ["C30_any_schedule", "C30_elementwise", "C30_profiled", "C30_missing_layer"], "note": "Every permutation of the index set; atomic per-element steps (elements are disjoint)."},
  {"property": "C31", "status": "proved", "theorems": ["C31_nonneg_exact", "C31_nonneg_single", "C31_quiet_exact", "C31_quiet", "C31_lrs_rounded_refuted"], "note": "Non-negativity for every reachable state in exact arithmetic and for every written cell in binary32. 'Exactly HRS or LRS' holds in exact arithmetic; in binary32 the programmed LRS current is fl(fl(LRS-HRS)+HRS), which is refuted to equal LRS."},
  {"property": "C32", "status": "proved", "theorems": ["C32_d2d_ignored_refuted"], "note": "Finding: the expectation is refuted; the theorem says that d2d_var never changes any answer."},
  {"property": "C33", "status": "proved", "theorems": ["C33_temporary"], "note": ""},
  {"property": "C34", "status": "proved", "theorems": ["C34_weights_lost_refuted", "C34_terminates_refuted", "C34_erased_refuted", "C34_zero_refuted"], "note": "Finding: the expectation is refuted. The loss of the programmed currents and the termination hold for every state; the erased results for every state with one cell per weight, an ideal converter and no noise; the zero result of a document that is right without c2c_var is a witness."},
  {"property": "C35", "status": "proved", "theorems": ["C35_cycles_count_resets"], "note": "both arrays; also digital_only with read_disturb leaked on"},
  {"property": "C36", "status": "proved", "theorems": ["C36_factor_formula", "C36_factor_shape"], "note": "exact arithmetic, 0 <= cycles < 1423518 (the validity range, see C41_validity_exact)"},
  {"property": "C37", "status": "proved", "theorems": ["C37_lrs", "C37_lrs_exact", "C37_hrs"], "note": "C37_lrs and C37_hrs hold in any arithmetic"},
  {"property": "C38", "status": "proved", "theorems": ["C38_software", "C38_nominal_exact"], "note": "includes the exact trigger condition; rows >= M of TNN_IV/TNN_V never hold weights and are not covered by the current clause"},
  {"property": "C39", "status": "proved", "theorems": ["C39_cell_based", "C39_within_tolerance", "C39_refresh_count"], "note": ""},
  {"property": "C40", "status": "proved", "theorems": ["C40_second_array_refuted", "C40_second_array_exact_refuted"], "note": "expectation refuted; with SOFTWARE and nonzero noise a refresh draws new noise for the second array without counting a cycle, so currents are claimed unchanged only for mitigation OFF/CELL_BASED or zero noise"},
  {"property": "C41", "status": "proved", "theorems": ["C41_flag", "C41_new", "C41_validity_exact"], "note": ""},
  {"property": "C42", "status": "proved", "theorems": ["C42_unique", "C42_range", "C42_zero", "C42_grows", "C42_shrinks", "C42_loss", "C42_limit", "C42_computed", "C65_kirchhoff"], "note": "Stated for the current determined by Kirchhoff's law; C65 shows that it is the one the code computes, and C42_computed states range, zero and loss directly for the results of compute_currents. Exact arithmetic, positive wire resistance (its sign is not validated)."},
  {"property": "C43", "status": "proved", "theorems": ["C43_write_safe", "C43_write_oob", "C43_mvm_safe", "C43_mvm_oob", "C43_unwritten"], "note": "Finding: exact characterisation. An MVM must also use no more rows than the last write. With c2c_var the failing MVM is shown never to succeed; without, that it fails out of bounds. SOFTWARE refreshes excluded."},
  {"property": "C44", "status": "proved", "theorems": ["C44_rows_dropped"], "note": "Finding, any arithmetic."},
  {"property": "C45", "status": "proved", "theorems": ["C45_frozen"], "note": "Expectation refuted in general form: for every arithmetic, mode, reachable state, noise sequence and history of MVMs and getters without software refresh, two successful answers to the same MVM agree; equality including failures when read disturb and profiling are off (read disturb and profiling may themselves fail differently after more cycles)."},
  {"property": "C46", "status": "proved", "theorems": ["C46_conserves", "C46_in_range_counted", "C46_results_unchanged"], "note": "In-range counting is proved in exact arithmetic; the other two for every machine."},
  {"property": "C47", "status": "proved", "theorems": ["C47_full_scale_refuted", "C47_reachable_refuted", "C47_label", "C47_label_whole_bin_refuted"], "note": "Expectation refuted: full-scale currents write behind the last bin."},
  {"property": "C48", "status": "proved", "theorems": ["C48_samples", "C48_mean_refuted"], "note": ""},
  {"property": "C49", "status": "proved", "theorems": ["C49_exact", "C49_callback", "C49_others"], "note": ""},
  {"property": "C50", "status": "proved", "theorems": ["C50_verbose_set_config_dies", "C50_verbose_recreation_dies"], "note": "Expectation refuted: the process terminates."},
  {"property": "C51", "status": "proved", "theorems": ["C51_weight_rejected", "C51_weight_accepted", "C51_input_rejected", "C51_input_accepted", "C51_effective_on_domain"], "note": "weights are rejected in analog configurations too"},
  {"property": "C52", "status": "proved", "theorems": ["C52_short_split_truncates", "C52_long_split_ub", "C52_split_checked_refuted"], "note": "Finding. In I_UINT_W_OFFS a too long SPLIT is already undefined behaviour when the crossbar is created, so the second theorem speaks about the differential modes."},
  {"property": "C53", "status": "proved", "theorems": ["C53_no_shift_ub", "C53_negative_row", "C53_integer", "C53_offset_row", "C53_ternary", "C53_shift_ub"], "note": "finding: on a strict machine every valid MVM of a differential integer mode with a negative row is undefined; exact descriptions for the differential integer modes and for TNN_II..TNN_V; analog I_OFFS_W_DIFF never returns for a matrix with a negative row sum; one in-domain witness per affected mode; the exactness theorem for the unaffected modes holds on strict machines"},
  {"property": "C54", "status": "proved", "theorems": ["C54_py_no_crossbar", "C54_py_outside", "C54_py_guarded", "C54_py_tnn_iv_refuted"], "note": "finding: expectation refuted; outside is for digital configurations and in-domain inputs"},
  {"property": "C55", "status": "proved", "theorems": ["C55_set_config_failures"], "note": ""},
  {"property": "C56", "status": "proved", "theorems": ["C56_lossless", "C56_any_schedule"], "note": ""},
  {"property": "C57", "status": "proved", "theorems": ["C57_update_freq_zero"], "note": "For every state with read disturb on and frequency 0; the example shows that 0 is accepted."},
  {"property": "C58", "status": "proved", "theorems": ["C58_high_resolution", "C58_one_level_refuted", "C58_resolution_one_refuted"], "note": "Finding: expectation refuted. High resolutions for every configuration and library function; single-level converters for every reachable state; the exact outcome (undefined conversion) of one document by witness."},
  {"property": "C59", "status": "proved", "theorems": ["C59_narrow_mvm"], "note": "Exact error term for the modes with stored row sums."},
  {"property": "C60", "status": "proved", "theorems": ["C60_throwing_update", "C60_rows_refuted", "C60_no_write_refuted", "C60_throwing_update_refuted"], "note": "Finding: expectation refuted for every throwing update, in any arithmetic; the exact outcome of one history by witness."},
  {"property": "C61", "status": "proved", "theorems": ["C61_update_forgets"], "note": "every mitigation, any arithmetic; cells refreshed by the same call are excluded (they are reprogrammed)"},
  {"property": "C62", "status": "proved", "theorems": ["C62_hidden", "C62_hidden_noise"], "note": "First: zero sigma, the answers never change, whatever happened in between. Second: any sigma and noise sequence, mitigation off, the answers of a history of MVMs are those of the same crossbar with read disturb off. Software refresh is excluded because it rewrites the array."},
  {"property": "C63", "status": "proved", "theorems": ["C63_unread_rows_refuted"], "note": "expectation refuted"},
  {"property": "C64", "status": "proved", "theorems": ["C64_fine_exact"], "note": "Exact real arithmetic, differential modes and BNN_V."},
  {"property": "C65", "status": "proved", "theorems": ["C65_kirchhoff", "C65_w_res"], "note": "Exact arithmetic; needs a positive wire resistance in the solver."},
  {"property": "C66", "status": "proved", "theorems": ["C66_memoryless"], "note": "Any arithmetic, every mode, ADC and parasitics setting."},
  {"property": "C67", "status": "proved", "theorems": ["C67_write_safe", "C67_mvm_safe"], "note": "Any arithmetic. The solver left over by an update of w_res to 0 is excluded (par = None), see C19."},
  {"property": "C68", "status": "proved", "theorems": ["C68_load_stores_document", "C68_load_rejects_exactly"], "note": "Values compared with an independent reading of the document (DocSpec.v: says, typed)."},
  {"property": "C69", "status": "proved", "theorems": ["C69_update_merges_document", "C69_structural_update_is_reload"], "note": "Structural case assumes the old crossbar's destructor does not end the process (C50)."},
  {"property": "C70", "status": "proved", "theorems": ["C70_wire_error"], "note": "Exact reals, ideal converter; I_OFFS_W_DIFF with GCC's meaning of negative left shifts (C53)."},
  {"property": "C71", "status": "proved", "theorems": ["C71_below_full_scale", "C71_too_small"], "note": "Exact reals, ideal converter. Contrast with C21: without wire resistance results are exact."},
  {"property": "C72", "status": "proved", "theorems": ["C72_records", "C72_only_mvms", "C72_range_kept"], "note": "any arithmetic; closed under the global context"},
  {"property": "C73", "status": "proved", "theorems": ["C73_bins"], "note": "exact reals; modes without slices, since the integer modes convert without profiling"},
  {"property": "C74", "status": "proved", "theorems": ["C74_profiled_mvm"], "note": "exact reals; BNN_VI and TNN_I, new layer"},
  {"property": "C75", "status": "proved", "theorems": ["C75_reload_refuted"], "note": "expectation refuted: histograms are static and survive set_config, so a wider crossbar loaded later writes out of bounds; binary32 witness (C72_range_kept is the general cause)"},
  {"property": "C76", "status": "proved", "theorems": ["C76_lenient_load", "C76_wrong_types_refuted", "C76_huge_fraction_ub"], "note": "Expectation refuted with a witness; the positive theorem says exactly what a sloppy document is taken for."},
  {"property": "C77", "status": "proved", "theorems": ["C77_wide_weights", "C77_mode_visible_refuted"], "note": "Positive theorem in full; the mode-invisibility expectation for such weights is refuted with a witness."},
  {"property": "C78", "status": "proved", "theorems": ["C78_odd_weights", "C78_zero_weight_refuted", "C78_two_weight_refuted"], "note": "Positive theorem in full; that the modes of a family agree on such numbers is refuted with witnesses."},
  {"property": "C79", "status": "proved", "theorems": ["C79_report", "C79_report_defined", "C79_report_undefined", "C79_variance", "C79_report_undefined_refuted", "C79_variance_refuted", "C79_lost_sample_refuted", "C79_empty_mean_refuted"], "note": "Positive theorems in exact arithmetic; the parts that fail are refuted with witnesses."},
  {"property": "C80", "status": "proved", "theorems": ["C80_mean_bias", "C80_half_bin_refuted"], "note": "Bias proved; the expectation of half a bin refuted with a reachable witness."},
  {"property": "C81", "status": "proved", "theorems": ["C81_memory", "C81_zeros_refuted", "C81_rewrite_refuted"], "note": "Full semantics proved for every mode; the two naive expectations are refuted with reachable witnesses."},
  {"property": "C82", "status": "proved", "theorems": ["C82_analog_memory"], "note": "Exact arithmetic, ideal cells, INF_ADC; I_OFFS_W_DIFF with the compiler's meaning of shifts of negative numbers."},
  {"property": "C83", "status": "proved", "theorems": ["C83_finite_memory"], "note": "Exact arithmetic, ideal cells, MAX calibration; exactness for twelve modes (I_UINT_W_OFFS, BNN_III, BNN_IV convert partial sums)."},
  {"property": "C84", "status": "proved", "theorems": ["C84_wires_off"], "note": "Expectation refuted for every such history; the example shows the outcome in five integer modes."},
  {"property": "C85", "status": "proved", "theorems": ["C85_refresh_refuted", "C85_never_counted", "C85_mvm_safe", "C85_refresh_rearms"], "note": "Expectation refuted for every state of three modes; proved safe in the other modes."},
  {"property": "C86", "status": "proved", "theorems": ["C86_half_read_installed", "C86_half_read_refuted"], "note": "Expectation refuted; the first theorem says for all states what happens instead. The content left by the JSON parser is arbitrary in the model."},
  {"property": "C87", "status": "proved", "theorems": ["C87_accepted", "C87_zero_bins_refuted", "C87_bad_bins_refuted"], "note": "Expectation refuted: no size is rejected, and none of the unusable ones is ever answered; the example lists six bin sizes."},
  {"property": "C88", "status": "proved", "theorems": ["C88_zero_width_refuted"], "note": "Expectation refuted for every such state without wire resistance and cycle noise; the example shows acceptance in all six modes."},
  {"property": "C89", "status": "proved", "theorems": ["C89_negative_wire_refuted", "C89_accepted"], "note": "Expectation refuted for every such state; modes that subtract two columns are not covered. C89_accepted: w_res = -2 is accepted in all six modes; the examples show amplified and negative MVM results in binary32."},
  {"property": "C90", "status": "proved", "theorems": ["C90_exact_single"], "note": "IEEE binary32, eleven modes; the examples meet the hypotheses in all of them."}
]}
