{
 "claims": [
  {
   "property": "C01",
   "status": "partial",
   "theorems": [
    "C01_hw_eq_ref_partial",
    "C01_hw_eq_ref_without_keep_partial",
    "C01_keep_flag_refuted",
    "C01_track_error_one_refuted",
    "C01_sum_overflow_refuted",
    "C01_agree_where_reference_defined_partial",
    "C01_negative_sum_refuted",
    "C01_keep_conflict_refuted",
    "C01_error_one_refuted",
    "C01_dirty_slot_refuted",
    "C01_reference_stricter_refuted"
   ],
   "note": "False in general. Proved on every legal input: wherever the reference is defined the firmware is defined and agrees, outside four named situations (a linked-track sum that reads as negative in 16 bits; keep flag set by the reference only; a track of error 1 next to a cluster one unit below it; an empty slot with an error linked to a hadronic cluster). Each is shown to break agreement alone, and a reference overflow where the firmware is defined is exhibited. The earlier theorems with simpler hypotheses (sums_fit, no error 1) are kept."
  },
  {
   "property": "C02",
   "status": "proved",
   "theorems": [
    "C02_at_most_one_link",
    "C02_tk2em_link",
    "C02_tk2calo_link_dronly",
    "C02_tk2calo_link_drdpt",
    "C02_em2calo_link",
    "C02_link_ref_em",
    "C02_link_ref_had"
   ],
   "note": "All four link functions, every array length: at most one bit, set exactly on the first nearest admissible object. The drdpt metric for legal tracks and hadronic clusters, EM to hadronic for fields in range, the other two unconditionally."
  },
  {
   "property": "C03",
   "status": "proved",
   "theorems": [
    "C03_charged_slot_is_track_or_empty",
    "C03_charged_kept_iff"
   ],
   "note": "Copy-or-empty for every input with a defined run; the keep condition on legal inputs whose cluster sums fit (sums_fit; beyond that C72)."
  },
  {
   "property": "C04",
   "status": "proved",
   "theorems": [
    "C04_muon_output"
   ],
   "note": "Legal input: fields in the range of their types, pts and errors not negative (phys). No condition on the sums."
  },
  {
   "property": "C05",
   "status": "proved",
   "theorems": [
    "C05_particle_ids"
   ],
   "note": "Legal input: fields in the range of their types, pts and errors not negative (phys). No condition on the sums."
  },
  {
   "property": "C06",
   "status": "proved",
   "theorems": [
    "C06_photon_pt"
   ],
   "note": "Legal inputs for which the sums formed for one cluster fit their types (phys, sums_fit; implied by bounds on the inputs alone, C11_no_overflow_fits). Beyond that see C72. "
  },
  {
   "property": "C07",
   "status": "proved",
   "theorems": [
    "C07_electron_iff"
   ],
   "note": "Legal inputs for which the sums formed for one cluster fit their types (phys, sums_fit; implied by bounds on the inputs alone, C11_no_overflow_fits). Beyond that see C72. "
  },
  {
   "property": "C08",
   "status": "proved",
   "theorems": [
    "C08_neutral_from_cluster"
   ],
   "note": "Legal inputs for which the sums formed for one cluster fit their types (phys, sums_fit; implied by bounds on the inputs alone, C11_no_overflow_fits). Beyond that see C72. "
  },
  {
   "property": "C09",
   "status": "proved",
   "theorems": [
    "C09_neutral_selection",
    "C09_ptsort_hwopt_top_n",
    "C09_top_n_unique",
    "C09_top_n_sorted_and_dominating"
   ],
   "note": "The sorter for every list and size, and the neutral output of the whole algorithm on legal inputs whose cluster sums fit (beyond that C72_result)."
  },
  {
   "property": "C10",
   "status": "proved",
   "theorems": [
    "C10_sorters_agree"
   ],
   "note": ""
  },
  {
   "property": "C11",
   "status": "proved",
   "theorems": [
    "C11_no_overflow_fits",
    "C11_defined",
    "C11_negative_error_out_of_bounds"
   ],
   "note": "Definedness on the stated domain; negative track error is proved to be an out-of-bounds table access for every such input."
  },
  {
   "property": "C12",
   "status": "proved",
   "theorems": [
    "C12_dr2_symmetric",
    "C12_dr2_zero_on_equal_points",
    "C12_dr2_range",
    "C12_dr2_exact",
    "C12_dr2_aliasing_refuted",
    "C12_dr2_cap_is_min"
   ],
   "note": "The refuted theorem is the aliasing half of the property itself (far objects look near outside the 10-bit difference range)."
  },
  {
   "property": "C13",
   "status": "proved",
   "theorems": [
    "C13_metric_below_cap_and_exact"
   ],
   "note": ""
  },
  {
   "property": "C14",
   "status": "partial",
   "theorems": [
    "C14_empty_track_inert",
    "C14_empty_hadcalo_inert",
    "C14_empty_muon_inert",
    "C14_empty_emcalo_inert_refuted",
    "C14_empty_emcalo_inert_partial",
    "C14_empty_emcalo_near_partial",
    "C14_empty_emcalo_photon_refuted"
   ],
   "note": "Proved for tracks (with hwPtErr 0), hadronic clusters and muons on every legal input: the two runs agree, or both overflow an int. False for EM slots (counterexamples proved: an empty slot takes a track from another cluster; tracks summing beyond 32767 turn it into a photon); proved for EM slots that take no track from another EM cluster, the tracks around the slot summing to at most 32767."
  },
  {
   "property": "C15",
   "status": "proved",
   "theorems": [
    "C15_muon_tracks_do_not_touch_calo"
   ],
   "note": "Legal input: fields in the range of their types, pts and errors not negative (phys). The two runs agree, or both overflow an int."
  },
  {
   "property": "C16",
   "status": "proved",
   "theorems": [
    "C16_input_roundtrip"
   ],
   "note": ""
  },
  {
   "property": "C17",
   "status": "proved",
   "theorems": [
    "C17_output_roundtrip"
   ],
   "note": ""
  },
  {
   "property": "C18",
   "status": "proved",
   "theorems": [
    "C18_wrapper_computes_pfalgo"
   ],
   "note": ""
  },
  {
   "property": "C19",
   "status": "proved",
   "theorems": [
    "C19_pack_in_layout",
    "C19_pack_out_layout",
    "C19_configurations_fit",
    "C19_pack_in_asserts",
    "C19_pack_out_asserts"
   ],
   "note": ""
  },
  {
   "property": "C20",
   "status": "proved",
   "theorems": [
    "C20_hw_eq_ref",
    "C20_hw_value",
    "C20_equal_when_defined"
   ],
   "note": ""
  },
  {
   "property": "C21",
   "status": "proved",
   "theorems": [
    "C21_only_scales_down"
   ],
   "note": ""
  },
  {
   "property": "C22",
   "status": "proved",
   "theorems": [
    "C22_nothing_without_vertex_track",
    "C22_everything_with_strong_activity"
   ],
   "note": ""
  },
  {
   "property": "C23",
   "status": "proved",
   "theorems": [
    "C23_monotone"
   ],
   "note": ""
  },
  {
   "property": "C24",
   "status": "partial",
   "theorems": [
    "C24_sum_overflow_refuted",
    "C24_product_overflow_refuted",
    "C24_wraparound_suppresses_neutral_refuted",
    "C24_no_overflow_partial",
    "C24_firmware_defined",
    "C24_reference_defined",
    "C24_agree_when_defined"
   ],
   "note": "The full statement (both functions defined and equal on every in-range input) is false: the int sum overflows in both, the reference product overflows int, and the firmware product wraps so that a soft track next to a hard one removes a neutral (three refutations). Proved instead: exactly when each of the two is defined and what it then returns (C24_firmware_defined, C24_reference_defined), that they agree whenever both are defined (C24_agree_when_defined), and a sufficient condition on the inputs (C24_no_overflow_partial: n tracks of pt at most P with n*P^2 < 2^21)."
  },
  {
   "property": "C25",
   "status": "partial",
   "theorems": [
    "C25_lut_divide_accuracy_partial",
    "C25_lut_divide_value",
    "C25_lut_divide_by_zero",
    "C25_lut_divide_wraps_refuted"
   ],
   "note": "The value for every argument (C25_lut_divide_value); accuracy for the non-wrapping quotients; the wrap for large quotients is exhibited as a refutation, and division by zero is characterised."
  },
  {
   "property": "C26",
   "status": "proved",
   "theorems": [
    "C26_histogram_content",
    "C26_order_irrelevant"
   ],
   "note": ""
  },
  {
   "property": "C27",
   "status": "proved",
   "theorems": [
    "C27_bin_valid",
    "C27_center_roundtrip",
    "C27_monotone"
   ],
   "note": ""
  },
  {
   "property": "C28",
   "status": "proved",
   "theorems": [
    "C28_firmware_eq_reference",
    "C28_track_order_irrelevant"
   ],
   "note": ""
  },
  {
   "property": "C29",
   "status": "proved",
   "theorems": [
    "C29_first_maximal_bin"
   ],
   "note": ""
  },
  {
   "property": "C30",
   "status": "partial",
   "theorems": [
    "C30_negative_pt_saturates_bin_refuted",
    "C30_negative_pt_moves_vertex_refuted",
    "C30_nonnegative_pt_partial"
   ],
   "note": "False: a negative pt saturates the bin (general statement and a whole-event witness where the vertex moves). Agreement with the reference proved for every non-negative pt."
  },
  {
   "property": "C31",
   "status": "partial",
   "theorems": [
    "C31_out_of_bounds_refuted",
    "C31_in_bounds_iff_partial"
   ],
   "note": "False: z0 in [300,319] or [-359,-340] indexes bin 15 of 15. Proved to be the exact condition."
  },
  {
   "property": "C32",
   "status": "proved",
   "theorems": [
    "C32_first_maximal_slice",
    "C32_multiplicity_and_flag",
    "C32_slices_in_range",
    "C32_far_negative_z0_wraps_refuted",
    "C32_multiplicity_counts_empty_slots_refuted"
   ],
   "note": "The main claim is proved for every track array of up to 163 tracks (16-bit sums). The refuted theorems record what the English property excludes or what the 5-bit types add: far-negative z0 wraps to the far-positive bin, empty slots count as tracks, 16 tracks in a bin wrap the multiplicity."
  },
  {
   "property": "C33",
   "status": "proved",
   "theorems": [
    "C33_tree_reduction"
   ],
   "note": ""
  },
  {
   "property": "C34",
   "status": "partial",
   "theorems": [
    "C34_stale_output_refuted",
    "C34_output_partial"
   ],
   "note": "False: multiplicity, z0 and flag are stale for an event without positive pt. Proved: the output is determined by the tracks whenever some slice has positive pt."
  },
  {
   "property": "C35",
   "status": "proved",
   "theorems": [
    "C35_firmware_slices",
    "C35_reference_slices",
    "C35_arrivals_of_one_fibre"
   ],
   "note": ""
  },
  {
   "property": "C36",
   "status": "proved",
   "theorems": [
    "C36_merge_equal",
    "C36_merge_firmware_result",
    "C36_merge_reference_result",
    "C36_slices_are_sorted"
   ],
   "note": "Region contents are equal for all sorted sector lists; the reference result needs no capacity condition, the firmware result needs sector capacity <= region capacity (exact, C38)."
  },
  {
   "property": "C37",
   "status": "partial",
   "theorems": [
    "C37_firmware_equals_reference_partial",
    "C37_any_capacities",
    "C37_reference_regions",
    "C37_firmware_regions"
   ],
   "note": "Equality for every configuration with NCALO >= 7 and for all capacities with sector <= region. In the default and CTP7 configurations (NCALO = 5) the firmware writes out of bounds (C38), so the unrestricted claim is false."
  },
  {
   "property": "C38",
   "status": "partial",
   "theorems": [
    "C38_default_build_refuted",
    "C38_merge_in_bounds_iff",
    "C38_hadcalo_in_bounds_iff_partial",
    "C38_configurations"
   ],
   "note": "False in the default build: NCALO = 5 < 7 makes every call write outside tmp. Proved to be the exact condition."
  },
  {
   "property": "C39",
   "status": "proved",
   "theorems": [
    "C39_global_coordinates",
    "C39_firmware_same_regions"
   ],
   "note": "Stated for the reference with any number of fibres per sector; C39_firmware_same_regions transfers it to the firmware."
  },
  {
   "property": "C40",
   "status": "proved",
   "theorems": [
    "C40_no_loss"
   ],
   "note": "As C39."
  },
  {
   "property": "C41",
   "status": "proved",
   "theorems": [
    "C41_reference_history",
    "C41_muon_history",
    "C41_firmware_local"
   ],
   "note": ""
  },
  {
   "property": "C42",
   "status": "proved",
   "theorems": [
    "C42_merge_of_12_into_4",
    "C42_muon_regions",
    "C42_muon_chain"
   ],
   "note": "Nominal input ranges: muon phi within its sector."
  },
  {
   "property": "C43",
   "status": "proved",
   "theorems": [
    "C43_mux_layout",
    "C43_without_muxing",
    "C43_without_muxing_unbounded",
    "C43_other_mux_factors_rejected",
    "C43_unnamed_writes_nothing"
   ],
   "note": "Every mux factor dividing 144, every event history, both signs of nempty; other mux factors abort in the constructor."
  },
  {
   "property": "C44",
   "status": "partial",
   "theorems": [
    "C44_flush_on_close_partial",
    "C44_numbering_refuted"
   ],
   "note": "The flushed words are right for every history. The frame numbers are right exactly when the number of patterns is 0 or nmux-1 modulo nmux (proved as an iff), so the full statement is false (C44_numbering_refuted)."
  },
  {
   "property": "C45",
   "status": "proved",
   "theorems": [
    "C45_recoverable_iff",
    "C45_testbench_settings",
    "C45_all_links",
    "C45_default_links_without_fillers_lose_data",
    "C45_text_reads_back",
    "C45_columns"
   ],
   "note": "Exact condition on nlinks, of which the two settings named in the property are corollaries; stated on the characters of the file."
  },
  {
   "property": "C46",
   "status": "proved",
   "theorems": [
    "C46_memory_image",
    "C46_excess_dropped",
    "C46_text_reads_back",
    "C46_other_settings_write_nothing",
    "C46_columns"
   ],
   "note": "On the line list and on the characters of the file."
  },
  {
   "property": "C47",
   "status": "proved",
   "theorems": [
    "C47_cluster",
    "C47_input_track",
    "C47_track",
    "C47_muon",
    "C47_region",
    "C47_many_regions",
    "C47_region_bytes"
   ],
   "note": "Both directions: written objects read back with transient flags reset and nothing else consumed; bytes read are exactly the canonical encoding of the result."
  },
  {
   "property": "C48",
   "status": "partial",
   "theorems": [
    "C48_regions_in_order_partial",
    "C48_no_return_statement_refuted",
    "C48_event_zero",
    "C48_event_without_regions",
    "C48_events_in_order_partial"
   ],
   "note": "Proved for a compiler under which Event::readFromFile returns true where its return statement is missing. By the C++ standard every call that reads an event is undefined (C48_no_return_statement_refuted), so the full claim fails. Events numbered 0 and events without regions are characterised exactly."
  },
  {
   "property": "C49",
   "status": "proved",
   "theorems": [
    "C49_tracks",
    "C49_hadcalo",
    "C49_emcalo",
    "C49_muons",
    "C49_values_that_fit_are_kept"
   ],
   "note": "All vectors shorter than 2^32 and all capacities."
  },
  {
   "property": "C50",
   "status": "proved",
   "theorems": [
    "C50_neutrals",
    "C50_charged",
    "C50_missing_track_asserts"
   ],
   "note": "All arrays; the indeterminate fields of the local particle are universally quantified."
  },
  {
   "property": "C51",
   "status": "proved",
   "theorems": [
    "C51_had_equals_equivalence",
    "C51_em_equals_equivalence",
    "C51_track_equals_equivalence",
    "C51_mu_equals_equivalence",
    "C51_pf_equals_charged_equivalence",
    "C51_pf_equals_neutral_equivalence",
    "C51_had_equals_sees",
    "C51_em_equals_sees",
    "C51_track_equals_sees",
    "C51_mu_equals_sees",
    "C51_pf_equals_charged_sees",
    "C51_pf_equals_neutral_sees",
    "C51_count_nonzero_counts"
   ],
   "note": ""
  },
  {
   "property": "C52",
   "status": "proved",
   "theorems": [
    "C52_outputs_in_type_range_any_input",
    "C52_outputs_in_range"
   ],
   "note": "Legal input: fields in the range of their types, pts and errors not negative (phys). No condition on the sums."
  },
  {
   "property": "C53",
   "status": "proved",
   "theorems": [
    "C53_decode_total_in_range"
   ],
   "note": ""
  },
  {
   "property": "C54",
   "status": "proved",
   "theorems": [
    "C54_vertex_position"
   ],
   "note": "Soft-float model of the binary32 product; infinite and NaN products are left to a universally quantified function."
  },
  {
   "property": "C55",
   "status": "proved",
   "theorems": [
    "C55_hadcalo",
    "C55_emcalo",
    "C55_muon",
    "C55_track"
   ],
   "note": "All field values, all prior contents."
  },
  {
   "property": "C56",
   "status": "proved",
   "theorems": [
    "C56_table",
    "C56_text_determines_events",
    "C56_unnamed",
    "C56_unnamed_dump_refuted"
   ],
   "note": "All event sequences shorter than 2^32. The track quality flag, hwPtPuppi and the z0 of muon candidates are not printed."
  },
  {
   "property": "C57",
   "status": "partial",
   "theorems": [
    "C57_exit_code_partial",
    "C57_undefined_only_by_overflow",
    "C57_passes_partial",
    "C57_builds",
    "C57_no_return_statement_refuted",
    "C57_mp7_pattern_files",
    "C57_ctp7_pattern_files",
    "C57_human_readable_file"
   ],
   "note": "Every dump: the exit code, or the undefined behaviour, is determined; the latter happens only by an int overflow in the firmware or the reference on a region that is reached (C57_undefined_only_by_overflow). Partial because it is proved for a compiler under which nextRegion returns true where its return statement is missing (see C48); by the C++ standard the program is undefined on every non-empty dump (C57_no_return_statement_refuted)."
  },
  {
   "property": "C58",
   "status": "partial",
   "theorems": [
    "C58_exit_code_partial",
    "C58_passes_partial",
    "C58_never_fails_on_mismatch",
    "C58_default_configuration_refuted",
    "C58_no_return_statement_refuted"
   ],
   "note": "The natural claim is false: in configurations with room for fewer than seven clusters per region (the default of data.h, which the scripts select) the first test reads outside an array (C58_default_configuration_refuted), a negative cluster pt hits an assertion, and codes 1 and 3 are never returned (C58_never_fails_on_mismatch; em, track and muon regions are compared with themselves). The exact verdict is proved for a compiler under which nextEvent returns true where its return statement is missing."
  },
  {
   "property": "C59",
   "status": "partial",
   "theorems": [
    "C59_dump_out_content",
    "C59_dump_in_content",
    "C59_dump_out_determines_regions",
    "C59_dump_in_shows_ten_tracks_partial",
    "C59_dump_in_omits_tracks_refuted"
   ],
   "note": "dump_out.txt is proved in full. dump_in.txt omits tracks 10 to 19 of each sector (C59_dump_in_omits_tracks_refuted); two runs have the same dump_in.txt exactly when they agree in everything else. The track quality is in neither file."
  },
  {
   "property": "C60",
   "status": "proved",
   "theorems": [
    "C60_pattern_files",
    "C60_pattern_files_determine_objects"
   ],
   "note": "All runs; configurations whose regions fit on the 144 links."
  },
  {
   "property": "C61",
   "status": "partial",
   "theorems": [
    "C61_run",
    "C61_no_errors_partial",
    "C61_no_return_statement_refuted",
    "C61_exit_code_hides_errors_refuted"
   ],
   "note": "Proved except that the exit code does not depend on the errors counted (C61_exit_code_hides_errors_refuted), for a compiler under which nextEvent returns true where its return statement is missing (see C48; otherwise C61_no_return_statement_refuted). Negative pt makes firmware and reference disagree (C30)."
  },
  {
   "property": "C62",
   "status": "proved",
   "theorems": [
    "C62_text_files",
    "C62_pattern_files",
    "C62_pattern_files_determine_tests"
   ],
   "note": "All runs (compiler as in C61)."
  },
  {
   "property": "C63",
   "status": "partial",
   "theorems": [
    "C63_complete_events",
    "C63_cut_in_run_number",
    "C63_cut_in_body_refuted",
    "C63_cut_in_body_regions_refuted",
    "C63_cut_in_body_vertexing_test_refuted",
    "C63_cut_in_body_regionizer_test_refuted",
    "C63_cut_in_tail_partial",
    "C63_stale_event_refuted"
   ],
   "note": "Complete events are read as written whatever follows; cuts within the run number change nothing. For every other position of the cut the claim is refuted, with the exact behaviour: use of an uninitialised count, or (C63_cut_in_tail_partial) acceptance of an event completed with values of the previous one."
  },
  {
   "property": "C64",
   "status": "proved",
   "theorems": [
    "C64_stored",
    "C64_pt_nearest",
    "C64_angle_unit",
    "C64_vertex_angles",
    "C64_inverse_pt",
    "C64_not_a_number",
    "C64_monotone",
    "C64_sorted_by_pt",
    "C64_cluster",
    "C64_cluster_defined",
    "C64_muon",
    "C64_input_track",
    "C64_propagated_track"
   ],
   "note": "All finite arguments, rational or not representable ones included; infinities and NaN are undefined."
  },
  {
   "property": "C65",
   "status": "partial",
   "theorems": [
    "C65_cluster",
    "C65_muon",
    "C65_input_track_partial",
    "C65_propagated_track",
    "C65_setters",
    "C65_puppi_weight",
    "C65_min_pt",
    "C65_large_phi_refuted",
    "C65_large_vertex_eta_refuted"
   ],
   "note": "All contents with |hwPhi| < 1440 and vertex angles up to 4000000 units; refuted beyond (C65_large_phi_refuted for all such azimuths, C65_large_vertex_eta_refuted)."
  },
  {
   "property": "C66",
   "status": "partial",
   "theorems": [
    "C66_phi",
    "C66_half_turn",
    "C66_defined",
    "C66_turns_partial",
    "C66_same_direction_refuted"
   ],
   "note": "All but the uniqueness of the representation of a direction, which is refuted; the strongest true variant is C66_turns_partial."
  },
  {
   "property": "C67",
   "status": "proved",
   "theorems": [
    "C67_table",
    "C67_weak_activity_drops",
    "C67_some_pt_is_lost",
    "C67_monotone",
    "C67_accuracy"
   ],
   "note": "For all libm functions meeting libm_ok (increasing, a few values within a percent); an instance is shown."
  },
  {
   "property": "C68",
   "status": "partial",
   "theorems": [
    "C68_completes_refuted",
    "C68_no_region",
    "C68_lines_agree_partial"
   ],
   "note": "The natural claim is refuted for the three configurations of data.h (C68_completes_refuted); C68_lines_agree_partial proves it for vertex searches over nall <= NTRACK tracks."
  },
  {
   "property": "C69",
   "status": "proved",
   "theorems": [
    "C69_lines_agree",
    "C69_tracks"
   ],
   "note": "For all sequences of rand() results (RAND_MAX = 2^31-1) and all z0bin/convertZ0 right on the z0 that occur; the source file has their definitions commented out and does not compile as it stands."
  },
  {
   "property": "C70",
   "status": "partial",
   "theorems": [
    "C70_calls_partial",
    "C70_calls_unique",
    "C70_same_size_partial",
    "C70_events_first",
    "C70_nothing_lost_refuted",
    "C70_defined_refuted"
   ],
   "note": "C70_calls_partial says what every sequence of calls does; the natural claim is refuted in both parts (C70_nothing_lost_refuted, C70_defined_refuted). As C48, for a compiler under which Event::readFromFile returns true."
  },
  {
   "property": "C71",
   "status": "partial",
   "theorems": [
    "C71_region_partial",
    "C71_calls_partial",
    "C71_reused_refuted",
    "C71_one_cluster_refuted",
    "C71_additions"
   ],
   "note": "The natural claim is refuted (C71_reused_refuted, C71_one_cluster_refuted); proved for one call and for as many calls as the energies fit."
  },
  {
   "property": "C72",
   "status": "proved",
   "theorems": [
    "C72_defined_iff",
    "C72_result",
    "C72_exact_where_sums_fit",
    "C72_positions",
    "C72_photon_bound_refuted",
    "C72_neutral_bound_refuted",
    "C72_full_turn"
   ],
   "note": "Every legal input. The two _refuted theorems show that the bounds of C06 and C08 need their condition on the sums."
  },
  {
   "property": "C73",
   "status": "proved",
   "theorems": [
    "C73_defined_iff",
    "C73_result",
    "C73_photon_bound",
    "C73_neutral_bound_refuted"
   ],
   "note": "Every legal input; the keep flag as in the code."
  },
  {
   "property": "C74",
   "status": "proved",
   "theorems": [
    "C74_mismatch_report"
   ],
   "note": "Every pair of objects in range; every name on one line."
  },
  {
   "property": "C75",
   "status": "proved",
   "theorems": [
    "C75_console"
   ],
   "note": "Under the convention of C57 that nextRegion returns true where its return statement is missing (by the C++ standard the program is undefined, see C48 and C57). std::cout and stdout are one stream."
  },
  {
   "property": "C76",
   "status": "proved",
   "theorems": [
    "C76_firmware",
    "C76_reference",
    "C76_shift",
    "C76_mirror",
    "C76_reference_shift",
    "C76_reference_mirror"
   ],
   "note": "Firmware and reference; C76_firmware and C76_reference combine motion and reordering, the shift and mirror theorems have no condition beyond the legal input."
  },
  {
   "property": "C77",
   "status": "proved",
   "theorems": [
    "C77_track_order",
    "C77_reference_track_order",
    "C77_any_order",
    "C77_reference_any_order",
    "C77_track_ties_refuted",
    "C77_cluster_ties_refuted"
   ],
   "note": "Firmware and reference. The tie conditions are stated on the candidate lists of the specification; two refuted theorems show that they are needed."
  },
  {
   "property": "C78",
   "status": "proved",
   "theorems": [
    "C78_isolated_group",
    "C78_superposition",
    "C78_selection",
    "C78_reference_isolated_group",
    "C78_reference_superposition",
    "C78_reference_selection",
    "C78_close_events_refuted"
   ],
   "note": "Firmware and reference: isolated groups in arbitrary increasing slots, superposition of two separated events, selection of fewer neutrals; a refuted theorem shows that the distances are needed."
  },
  {
   "property": "C79",
   "status": "proved",
   "theorems": [
    "C79_neutrals_independent",
    "C79_reference_neutrals_independent",
    "C79_motion",
    "C79_reference_motion",
    "C79_unseen_charged",
    "C79_reference_unseen_charged",
    "C79_reference_order",
    "C79_order",
    "C79_order_no_wrap",
    "C79_order_decides_overflow_refuted"
   ],
   "note": "Firmware and reference. The motion, locality and independence theorems are equations between runs, undefined ones included, with no condition on the input. C79_order_decides_overflow_refuted shows the limit of the order theorems."
  },
  {
   "property": "C80",
   "status": "proved",
   "theorems": [
    "C80_console",
    "C80_comparison"
   ],
   "note": "Whole runs: any dump, any uninitialised memory, sizes below 2^30. The comparison is proved on arbitrary regions because (C58) the program itself never meets differing ones. fill_stream messages are modelled but unreachable. Nothing is claimed about what has been printed before an assertion fails."
  },
  {
   "property": "C81",
   "status": "proved",
   "theorems": [
    "C81_console",
    "C81_rounding"
   ],
   "note": "Whole runs: any dump, any uninitialised memory. The text printf makes of the quotients and resolutions is a parameter assumed to be one word; the integers it is made from are proved (the counts and the sums of squares). The conversion of infinite and NaN positions is a parameter."
  },
  {
   "property": "C82",
   "status": "proved",
   "theorems": [
    "C82_trace",
    "C82_harmless",
    "C82_session_results",
    "C82_session_lines",
    "C82_silent"
   ],
   "note": "Physical events with fewer than 2^31 objects of each kind; the square roots shown are within one hundredth and the coordinates within 0.51 hundredths. Harmlessness and silence hold for every input. float(n) and sqrt are modelled as correctly rounded 24-bit operations, printf %.2f as correctly rounded."
  },
  {
   "property": "C83",
   "status": "proved",
   "theorems": [
    "C83_firmware",
    "C83_reference",
    "C83_words",
    "C83_negative_refuted",
    "C83_more_neutrals_refuted"
   ],
   "note": "Firmware: hadronic pts not negative and NSELCALO <= NCALO; C83_negative_refuted and C83_more_neutrals_refuted show that stale buffer contents come out otherwise."
  },
  {
   "property": "C84",
   "status": "proved",
   "theorems": [
    "C84_mp7_files_replay",
    "C84_ctp7_files_replay"
   ],
   "note": "For tests whose hadronic pts are not negative (C83). CTP7: the first 171 tests, see C57."
  },
  {
   "property": "C85",
   "status": "proved",
   "theorems": [
    "C85_firmware",
    "C85_reference",
    "C85_overflow_refuted"
   ],
   "note": "For sums of pt that fit their registers; C85_overflow_refuted shows that the firmware creates energy otherwise."
  },
  {
   "property": "C86",
   "status": "proved",
   "theorems": [
    "C86_console"
   ],
   "note": "For runs that end; in the configurations of data.h the program reads beyond its tracks (C68)."
  },
  {
   "property": "C87",
   "status": "proved",
   "theorems": [
    "C87_numbers",
    "C87_no_superfluous_digit",
    "C87_console"
   ],
   "note": "The two functions simple_vtx.cpp does not define are parameters, as in C69."
  },
  {
   "property": "C88",
   "status": "proved",
   "theorems": [
    "C88_summary"
   ],
   "note": "sqrt is taken to be correctly rounded, as IEEE 754 asks."
  },
  {
   "property": "C89",
   "status": "proved",
   "theorems": [
    "C89_charged",
    "C89_neutral",
    "C89_neutral_indeterminate",
    "C89_charged_indeterminate",
    "C89_set_weight",
    "C89_set_pt"
   ],
   "note": "The parts left indeterminate by the conversions are stated as such (two runs that differ)."
  },
  {
   "property": "C90",
   "status": "proved",
   "theorems": [
    "C90_near_a_track",
    "C90_displaced",
    "C90_one_more_track",
    "C90_sectors",
    "C90_sector_order",
    "C90_heaviest_wins",
    "C90_saturation_matters"
   ],
   "note": "C90_saturation_matters shows that the bound 511 in C90_sectors is needed."
  },
  {
   "property": "C91",
   "status": "proved",
   "theorems": [
    "C91_defined",
    "C91_rotation",
    "C91_mirror",
    "C91_local",
    "C91_arrival_order",
    "C91_arrival_order_pts",
    "C91_muon_defined",
    "C91_muon_rotation",
    "C91_muon_mirror"
   ],
   "note": "Firmware for one fibre per sector and at least as many slots per region as per sector (C38); only the hadronic regionizer exists as firmware."
  },
  {
   "property": "C92",
   "status": "proved",
   "theorems": [
    "C92_defined",
    "C92_near_a_track",
    "C92_displaced",
    "C92_one_more_track",
    "C92_order",
    "C92_optimised_order"
   ],
   "note": "Tracks that lie in the reading window of no slice are excluded (C31). The displacement keeps the tracks between 0 and 299, where the slices are regular. The optimised finder for 0 <= pt and any table of slices, with the same previous output, which shows through in an event without pt (C34)."
  },
  {
   "property": "C93",
   "status": "proved",
   "theorems": [
    "C93_vertex_files_replay",
    "C93_regionizer_files_replay"
   ],
   "note": "Vertex files: the four files of the histogramming test. Regionizer files: the multiplexed files with all objects; the single-object and doubled files hold parts of the same words (C60)."
  },
  {
   "property": "C94",
   "status": "proved",
   "theorems": [
    "C94_pf_test",
    "C94_pf_files",
    "C94_puppi_test",
    "C94_regionizer_test",
    "C94_regionizer_files",
    "C94_vertex_test",
    "C94_vertex_files",
    "C94_pf_negative_refuted"
   ],
   "note": "Compiler as in C48 (nextRegion and nextEvent return true). Particle flow: hadronic pts not negative (C94_pf_negative_refuted shows it is needed); hwPtPuppi, which is neither printed nor written, may differ between the runs. The two memories must hold values of the types of the objects."
  },
  {
   "property": "C95",
   "status": "proved",
   "theorems": [
    "C95_mp7",
    "C95_mp7_words",
    "C95_mp7_closing",
    "C95_ctp7",
    "C95_human_readable",
    "C95_regionizer_input_dump",
    "C95_regionizer_output_dump",
    "C95_vertex_input_dump",
    "C95_vertex_output_dump"
   ],
   "note": "The files are append-only streams of characters; what is on disk is a prefix of what was written (stdio buffering, no reordering). Other file-system failures are not modelled. MP7: fewer than 2^32 patterns."
  },
  {
   "property": "C96",
   "status": "proved",
   "theorems": [
    "C96_regions",
    "C96_regions_firmware",
    "C96_muon_regions",
    "C96_muon_chain"
   ],
   "note": "The sum statements range over every function of the pt and payload, since eta and phi are re-expressed in the coordinates of the region (C39, C40). Firmware: sector buffers no larger than region buffers, as in the code."
  },
  {
   "property": "C97",
   "status": "proved",
   "theorems": [
    "C97_soft",
    "C97_soft_muons",
    "C97_soft_muon_chain",
    "C97_more_slots",
    "C97_hardest",
    "C97_hardest_muons",
    "C97_muon_crowded_out_refuted"
   ],
   "note": "Thresholds are non-negative, since a cleared slot has pt 0. C97_hyp_slots shows that C97_hardest needs sector buffers as large as the region."
  },
  {
   "property": "C98",
   "status": "proved",
   "theorems": [
    "C98_runs",
    "C98_legal",
    "C98_defined",
    "C98_chain",
    "C98_puppi",
    "C98_links",
    "C98_charged",
    "C98_neutral",
    "C98_photon_from_nothing_refuted",
    "C98_calm",
    "C98_calm_puppi",
    "C98_em_like_refuted"
   ],
   "note": "The three differences of particle flow that remain are those of C01 and are named in the hypotheses. EM clusters, tracks and muons have no firmware regionizer in the repository, so both sides use the reference for them; the hadronic regionizer needs NCALO >= 7 (C38). C98_puppi needs alpha sums below 2^31 (C24). C98_photon_from_nothing_refuted shows why the photon statement bounds the track sum."
  },
  {
   "property": "C99",
   "status": "proved",
   "theorems": [
    "C99_track",
    "C99_photon",
    "C99_neutral",
    "C99_hard_track_refuted",
    "C99_em_like_refuted"
   ],
   "note": "C99_hard_track_refuted and C99_em_like_refuted show that the cut on the track and the condition on the electromagnetic part are needed. Near means inside the linking radius of particle flow (squared distance below 84, 756 and 525); phi on the fibre within -392..391 so that the 10-bit local phi does not wrap (C39)."
  },
  {
   "property": "C100",
   "status": "proved",
   "theorems": [
    "C100_mirror",
    "C100_turn",
    "C100_local",
    "C100_order",
    "C100_order_of_ties_refuted"
   ],
   "note": "The muon regions repeat only after half a turn (4 muon sectors, 6 regions), so for other angles the statement asks that the muons of the two regions be the same."
  },
  {
   "property": "C101",
   "status": "proved",
   "theorems": [
    "C101_weighted",
    "C101_charged",
    "C101_charged_exact",
    "C101_neutral",
    "C101_calm_defined",
    "C101_calm",
    "C101_wrapped_refuted"
   ],
   "note": "Charged candidates without any condition; photons and neutral hadrons if no sum of a region exceeds its type, which C101_wrapped_refuted shows to be needed; C101_calm and C101_calm_defined have a condition on the fibres only."
  },
  {
   "property": "C102",
   "status": "proved",
   "theorems": [
    "C102_origin",
    "C102_kept"
   ],
   "note": "Muons are taken to lie in their muon sector (phi in (-180,180]), as in C42."
  }
 ]
}