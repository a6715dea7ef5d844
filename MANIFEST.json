{
 "claims": [
  {
   "property": "C01",
   "status": "proved",
   "theorems": [
    "C01_slice_is_python_slice",
    "C01_slice_reads",
    "C01_slice_reads_bound"
   ],
   "note": ""
  },
  {
   "property": "C02",
   "status": "proved",
   "theorems": [
    "C02_pipeline_is_list_function",
    "C02_pipe_left_to_right"
   ],
   "note": ""
  },
  {
   "property": "C03",
   "status": "proved",
   "theorems": [
    "C03_futures_resolved_once",
    "C03_part_lives_a_complete_push"
   ],
   "note": ""
  },
  {
   "property": "C04",
   "status": "proved",
   "theorems": [
    "C04_count_filter",
    "C04_spy_count",
    "C04_city_balance"
   ],
   "note": ""
  },
  {
   "property": "C05",
   "status": "proved",
   "theorems": [
    "C05_stop_gives_prefix",
    "C05_sink_before_sees_all",
    "C05_stop_when"
   ],
   "note": ""
  },
  {
   "property": "C06",
   "status": "proved",
   "theorems": [
    "C06_fork_branches_isolated",
    "C06_isolation_needs_condition_refuted"
   ],
   "note": "unconditional isolation is refuted; proved under the condition the property names"
  },
  {
   "property": "C07",
   "status": "proved",
   "theorems": [
    "C07_split_is_the_gap_partition"
   ],
   "note": "an empty list of indices gives one empty piece, which select_peaks then rejects with IndexError (C08_empty_index_refuted)"
  },
  {
   "property": "C08",
   "status": "proved",
   "theorems": [
    "C08_found_peaks",
    "C08_empty_index_refuted"
   ],
   "note": "proved for non-empty index lists; the empty one raises IndexError, shown by the refuted theorem"
  },
  {
   "property": "C09",
   "status": "proved",
   "theorems": [
    "C09_rebin_conserves"
   ],
   "note": ""
  },
  {
   "property": "C10",
   "status": "proved",
   "theorems": [
    "C10_rebinned_times_inside_and_ordered",
    "C10_padded_time_refuted"
   ],
   "note": "zero padding of S2s whose first sample is not positive moves the first time out of the peak (refuted theorem)"
  },
  {
   "property": "C100",
   "status": "proved",
   "theorems": [
    "C100_peaks",
    "C100_energy",
    "C100_event",
    "C100_total",
    "C100_lost_refuted",
    "C100_hypotheses"
   ],
   "note": "C100_event needs that no peak is lost. Example: C100_ex."
  },
  {
   "property": "C101",
   "status": "proved",
   "theorems": [
    "C101_phyllis",
    "C101_trude",
    "C101_berenice",
    "C101_unknown_mode",
    "C101_trude_calibrated_refuted",
    "C101_nodeconv_refuted",
    "C101_nodeconv_one_refuted"
   ],
   "note": "Examples: C101_ex, C101_phyllis_ex. The guards (modes, PMTs in use) are needed, as the refuted theorems show."
  },
  {
   "property": "C102",
   "status": "proved",
   "theorems": [
    "C102_event",
    "C102_length",
    "C102_run",
    "C102_rounding_refuted"
   ],
   "note": "Examples: C102_ex, C102_length_ex, C102_run_ex. Counts outside 16 bits are excluded by hypothesis."
  },
  {
   "property": "C103",
   "status": "proved",
   "theorems": [
    "C103_event",
    "C103_not_passing",
    "C103_no_s2",
    "C103_lost_refuted"
   ],
   "note": "Examples: C103_ex, C103_no_s2_ex. The energy needs the guards that C103_lost_refuted shows."
  },
  {
   "property": "C104",
   "status": "proved",
   "theorems": [
    "C104_file",
    "C104_repeated_refuted"
   ],
   "note": "Exact arithmetic up to the rounding to 32 bits when stored, an arbitrary function; the filter tables, triggers and constants are in C74 and C86"
  },
  {
   "property": "C105",
   "status": "proved",
   "theorems": [
    "C105_events",
    "C105_other_events",
    "C105_no_pmaps_refuted",
    "C105_irene"
   ],
   "note": "The reader as a function from the tables of the files to the events and the exception that ends them. C105_no_pmaps_refuted records that a file without PMaps is not skipped."
  },
  {
   "property": "C106",
   "status": "proved",
   "theorems": [
    "C106_run",
    "C106_zrms",
    "C106_bad_file",
    "C106_irene",
    "C106_no_s2_refuted",
    "C106_no_sipms_refuted"
   ],
   "note": "Algorithm barycenter; square root and arctangent are oracles. The corrections, the range of events and the copy of the simulation are not part of it."
  },
  {
   "property": "C107",
   "status": "proved",
   "theorems": [
    "C107_run",
    "C107_bad_file",
    "C107_irene"
   ],
   "note": "Algorithm barycenter for the position of the peak, no clustering of hits; square root and arctangent are oracles and the interpolation of the map of corrections is to the nearest bin. The range of events and the copies of the simulation and of the database are not part of it."
  },
  {
   "property": "C108",
   "status": "proved",
   "theorems": [
    "C108_run",
    "C108_bad_file",
    "C108_temp",
    "C108_sophronia",
    "C108_no_hits",
    "C108_irene"
   ],
   "note": "Shortest paths, the rounding of positions and the norm of a voxel diagonal are oracles, and the interpolation of the map of corrections is to the nearest bin. The correction in time is not part of it (it does not end well, C108_temp), nor the range of events and the copy of the simulation. That the samples of the S2s are not negative is a hypothesis for the chain from irene."
  },
  {
   "property": "C109",
   "status": "proved",
   "theorems": [
    "C109_tables",
    "C109_run",
    "C109_bad_file",
    "C109_configuration",
    "C109_refused",
    "C109_sophronia"
   ],
   "note": "The deconvolution of an image is an oracle (C45, C65, C83, C94 are about it), as is the rounding to six decimals; the interpolation of the map of corrections is to the nearest bin; no correction in time. With three distances a run may stop (an event without a large cluster), so only the tables of runs that end well are described for it."
  },
  {
   "property": "C11",
   "status": "proved",
   "theorems": [
    "C11_pmt_sipm_aligned",
    "C11_misaligned_stride_refuted"
   ],
   "note": "for a rebinning factor that is a multiple of the SiPM/PMT sampling ratio; otherwise construction can fail (refuted theorem)"
  },
  {
   "property": "C110",
   "status": "proved",
   "theorems": [
    "C110_irene",
    "C110_stopped",
    "C110_diomira",
    "C110_chain"
   ],
   "note": "The range of events, the copies of the simulation and of the database are not part of it. Random numbers are inputs, the filters of the electronics and square roots oracles (C79, C93, C102)."
  },
  {
   "property": "C111",
   "status": "proved",
   "theorems": [
    "C111_hypathia",
    "C111_stopped",
    "C111_masked_refuted"
   ],
   "note": "The range of events and the copy of the simulation are not part of it. Random numbers are inputs (C97). C111_masked_refuted shows that the hypothesis that all PMTs are in use is needed."
  },
  {
   "property": "C112",
   "status": "proved",
   "theorems": [
    "C112_isaura",
    "C112_columns",
    "C112_beersheba_refuted",
    "C112_beersheba_bad"
   ],
   "note": "The range of events and the copy of the simulation (C73) are not part of it. The shortest paths are an oracle with the hypotheses of C69. Of the columns that the tracks do not use only the names and equality of contents are modelled."
  },
  {
   "property": "C113",
   "status": "proved",
   "theorems": [
    "C113_isidora",
    "C113_stopped",
    "C113_shapes",
    "C113_masked",
    "C113_chain"
   ],
   "note": "The range of events and the copy of the simulation (C73) are not part of it. The filter coefficients and the square root are oracles, as in C55. Deconvolved samples that do not fit in 16 bits are excluded by hypothesis: their conversion is not modelled."
  },
  {
   "property": "C114",
   "status": "proved",
   "theorems": [
    "C114_buffy",
    "C114_no_configuration",
    "C114_nothing_to_do",
    "C114_fractional_time",
    "C114_read",
    "C114_hypathia"
   ],
   "note": "The range of events and the copy of the simulation (C73) are not part of it; the format of 2020 only. The random numbers are inputs. Charges of a sensor in an event that do not fit in 16 bits are excluded by hypothesis."
  },
  {
   "property": "C115",
   "status": "proved",
   "theorems": [
    "C115_detsim",
    "C115_fractional_time",
    "C115_read",
    "C115_hypathia"
   ],
   "note": "The range of events and the copy of the simulation (C73) are not part of it. The random numbers, the light tables and the primitive of the emission times are inputs. Draws with electrons behind the anode, negative photons or counts beyond 16 bits are excluded by hypothesis. Labels as numbers, with the names of the volumes of each file."
  },
  {
   "property": "C116",
   "status": "proved",
   "theorems": [
    "C116_zemrude",
    "C116_refused",
    "C116_split",
    "C116_metadata",
    "C116_map_shape_refuted"
   ],
   "note": "The fits, standard deviations, square roots and griddata (taken to give the nearest point) are inputs; the preliminary map is given by its rows. Positions that are not numbers, and data with all rows at one time or outside the map, are not modelled."
  },
  {
   "property": "C117",
   "status": "proved",
   "theorems": [
    "C117_diomira",
    "C117_irene",
    "C117_hypathia",
    "C117_isidora",
    "C117_dorothea",
    "C117_sophronia",
    "C117_esmeralda",
    "C117_beersheba",
    "C117_isaura",
    "C117_buffy",
    "C117_detsim",
    "C117_diomira_irene",
    "C117_diomira_isidora",
    "C117_irene_dorothea",
    "C117_irene_sophronia",
    "C117_sophronia_esmeralda",
    "C117_sophronia_beersheba",
    "C117_chain",
    "C117_buffy_hypathia",
    "C117_detsim_hypathia",
    "C117_isaura_order_refuted"
   ],
   "note": "Without event_range (C73). The times of buffers are drawn and have no source in the files."
  },
  {
   "property": "C118",
   "status": "proved",
   "theorems": [
    "C118_dorothea_files",
    "C118_dorothea_range",
    "C118_dorothea_whole",
    "C118_sophronia_files",
    "C118_sophronia_range",
    "C118_sophronia_whole",
    "C118_esmeralda_files",
    "C118_esmeralda_range",
    "C118_esmeralda_whole",
    "C118_beersheba_files",
    "C118_beersheba_range",
    "C118_beersheba_whole",
    "C118_isaura_files",
    "C118_isaura_range",
    "C118_isaura_whole",
    "C118_isidora_files",
    "C118_isidora_range",
    "C118_isidora_whole",
    "C118_irene_files",
    "C118_irene_range",
    "C118_irene_whole",
    "C118_diomira_files",
    "C118_diomira_range",
    "C118_diomira_whole",
    "C118_hypathia_files",
    "C118_hypathia_range",
    "C118_hypathia_whole",
    "C118_buffy_files",
    "C118_buffy_range",
    "C118_buffy_whole",
    "C118_detsim_files",
    "C118_detsim_range",
    "C118_detsim_whole"
   ],
   "note": "In the cities that draw random numbers the second job takes the numbers that follow those of the first; the time of an event of buffy is drawn by its place among those sent on."
  },
  {
   "property": "C119",
   "status": "proved",
   "theorems": [
    "C119_interval",
    "C119_shift",
    "C119_scale",
    "C119_negative_scale",
    "C119_zero_scale",
    "C119_equal",
    "C119_items",
    "C119_relative",
    "C119_ranges",
    "C119_average",
    "C119_lengths",
    "C119_unbiased",
    "C119_position",
    "C119_rebin",
    "C119_rebin_sum",
    "C119_window",
    "C119_seed",
    "C119_line",
    "C119_line_down_refuted"
   ],
   "note": "Exact arithmetic; averages without axis."
  },
  {
   "property": "C12",
   "status": "proved",
   "theorems": [
    "C12_peak_accepted_iff_consistent",
    "C12_peak_attributes",
    "C12_width",
    "C12_empty_peak_error_refuted",
    "C12_responses",
    "C12_rms"
   ],
   "note": "the empty peak raises AttributeError instead of ValueError (refuted theorem)"
  },
  {
   "property": "C120",
   "status": "proved",
   "theorems": [
    "C120_statement",
    "C120_two_keys_refuted",
    "C120_complete",
    "C120_crash",
    "C120_ends",
    "C120_unreachable",
    "C120_kept",
    "C120_check",
    "C120_check_large_refuted"
   ],
   "note": "The parser of sqlite and the keys of its tables are parameters."
  },
  {
   "property": "C121",
   "status": "proved",
   "theorems": [
    "C121_dorothea",
    "C121_dorothea_stopped",
    "C121_sophronia",
    "C121_sophronia_stopped",
    "C121_esmeralda",
    "C121_esmeralda_stopped",
    "C121_beersheba",
    "C121_beersheba_stopped",
    "C121_isaura",
    "C121_isaura_stopped",
    "C121_irene",
    "C121_irene_stopped",
    "C121_hypathia",
    "C121_hypathia_stopped",
    "C121_diomira",
    "C121_diomira_stopped",
    "C121_isidora",
    "C121_isidora_stopped",
    "C121_buffy",
    "C121_buffy_stopped",
    "C121_detsim",
    "C121_detsim_stopped",
    "C121_irene_trigger_refuted",
    "C121_waveforms_read",
    "C121_waveforms_missing",
    "C121_pmaps_read",
    "C121_hits_read",
    "C121_deco_read"
   ],
   "note": "What PyTables keeps in memory when the process is killed is not modelled."
  },
  {
   "property": "C122",
   "status": "proved",
   "theorems": [
    "C122_by_event",
    "C122_once",
    "C122_refused",
    "C122_refused_both",
    "C122_dst",
    "C122_files",
    "C122_stops",
    "C122_selection",
    "C122_pmaps",
    "C122_voxels",
    "C122_voxels_table",
    "C122_histograms"
   ],
   "note": ""
  },
  {
   "property": "C123",
   "status": "proved",
   "theorems": [
    "C123_same",
    "C123_buffy",
    "C123_light",
    "C123_run_zero",
    "C123_no_positions",
    "C123_one_type",
    "C123_empty_event_refuted"
   ],
   "note": "C123_empty_event_refuted: an event without light inside an old file is outside the hypothesis on the extents."
  },
  {
   "property": "C124",
   "status": "proved",
   "theorems": [
    "C124_jobs",
    "C124_ranges",
    "C124_phyllis",
    "C124_trude",
    "C124_berenice",
    "C124_fails",
    "C124_stopped"
   ],
   "note": ""
  },
  {
   "property": "C125",
   "status": "proved",
   "theorems": [
    "C125_decay",
    "C125_exact",
    "C125_exact_refuted",
    "C125_through",
    "C125_fails",
    "C125_order",
    "C125_start",
    "C125_log_lin",
    "C125_curve",
    "C125_errors",
    "C125_line_down_refuted"
   ],
   "note": "depends on the axioms of the real numbers of the standard library"
  },
  {
   "property": "C126",
   "status": "proved",
   "theorems": [
    "C126_pedestal",
    "C126_sensors",
    "C126_bin",
    "C126_gain",
    "C126_edge",
    "C126_database",
    "C126_photons",
    "C126_seeds",
    "C126_dark",
    "C126_bounds_refuted"
   ],
   "note": "depends on the axioms of the real numbers of the standard library"
  },
  {
   "property": "C127",
   "status": "proved",
   "theorems": [
    "C127_eutropia_ends",
    "C127_eutropia_fails",
    "C127_eutropia_stopped",
    "C127_zemrude_map",
    "C127_zemrude_fails",
    "C127_zemrude_stopped",
    "C127_zemrude_compression",
    "C127_zemrude_compression_refuted",
    "C127_compression"
   ],
   "note": ""
  },
  {
   "property": "C128",
   "status": "proved",
   "theorems": [
    "C128_map",
    "C128_one_each",
    "C128_same_number",
    "C128_other_runs_refuted"
   ],
   "note": ""
  },
  {
   "property": "C129",
   "status": "proved",
   "theorems": [
    "C129_read",
    "C129_missing",
    "C129_depends",
    "C129_drift",
    "C129_unreadable_refuted"
   ],
   "note": ""
  },
  {
   "property": "C13",
   "status": "proved",
   "theorems": [
    "C13_round_trip",
    "C13_exact_numbers",
    "C13_lazy_reader",
    "C13_event_without_peaks"
   ],
   "note": "files with the tables of the individual PMTs and bin widths; a 32-bit column is a function on numbers"
  },
  {
   "property": "C130",
   "status": "proved",
   "theorems": [
    "C130_read",
    "C130_file",
    "C130_stored",
    "C130_energy_refuted",
    "C130_track_refuted"
   ],
   "note": ""
  },
  {
   "property": "C131",
   "status": "proved",
   "theorems": [
    "C131_version",
    "C131_reproducible",
    "C131_default",
    "C131_default_refuted",
    "C131_noise",
    "C131_simulation_refuted"
   ],
   "note": ""
  },
  {
   "property": "C132",
   "status": "proved",
   "theorems": [
    "C132_square",
    "C132_sawteeth",
    "C132_teeth",
    "C132_sawteeth_refuted"
   ],
   "note": ""
  },
  {
   "property": "C14",
   "status": "proved",
   "theorems": [
    "C14_event_numbers_unique",
    "C14_fractional_buffer_refuted"
   ],
   "note": "collision exhibited when the buffer length is not a multiple of the sampling width"
  },
  {
   "property": "C15",
   "status": "proved",
   "theorems": [
    "C15_triggers",
    "C15_groups"
   ],
   "note": ""
  },
  {
   "property": "C16",
   "status": "proved",
   "theorems": [
    "C16_buffer_is_a_window",
    "C16_event_readout",
    "C16_common_start",
    "C16_common_start_refuted",
    "C16_full_pretrigger_refuted"
   ],
   "note": "end to end from simulated hits to written rows; refuted theorems show the two guards are needed"
  },
  {
   "property": "C17",
   "status": "proved",
   "theorems": [
    "C17_slice_energy_shared"
   ],
   "note": ""
  },
  {
   "property": "C18",
   "status": "proved",
   "theorems": [
    "C18_merge_conserves_energy",
    "C18_merge_shares",
    "C18_no_receiver_refuted",
    "C18_zero_receiver_refuted"
   ],
   "note": "the refuted theorems exhibit the inputs on which the unconditional docstring claim fails"
  },
  {
   "property": "C19",
   "status": "proved",
   "theorems": [
    "C19_threshold_by_slices",
    "C19_no_threshold",
    "C19_threshold_and_merge"
   ],
   "note": ""
  },
  {
   "property": "C20",
   "status": "proved",
   "theorems": [
    "C20_voxels_hold_the_hits",
    "C20_no_hits",
    "C20_cancelling_energies_refuted"
   ],
   "note": "positive energies are needed for every hit to be kept: the refuted theorem shows two hits lost"
  },
  {
   "property": "C21",
   "status": "proved",
   "theorems": [
    "C21_tracks_partition_the_voxels",
    "C21_after_voxelize_hits"
   ],
   "note": "networkx.connected_components is replaced by an incremental union"
  },
  {
   "property": "C22",
   "status": "proved",
   "theorems": [
    "C22_extremes_are_farthest",
    "C22_single_voxel",
    "C22_no_voxels",
    "C22_zero_distances_refuted"
   ],
   "note": ""
  },
  {
   "property": "C23",
   "status": "proved",
   "theorems": [
    "C23_drop_end_point_voxels",
    "C23_no_voxels",
    "C23_after_voxelize_hits",
    "C23_mixed_voxels_refuted",
    "C23_shared_among_hits",
    "C23_shared_among_voxels"
   ],
   "note": "the shortest paths are a parameter: all voxels present, positive distances"
  },
  {
   "property": "C24",
   "status": "proved",
   "theorems": [
    "C24_blobs",
    "C24_blobs_of_voxels_without_hits",
    "C24_centre_inside_its_voxel",
    "C24_order_of_the_ends",
    "C24_nothing_close"
   ],
   "note": "the shortest paths and the diagonal are parameters"
  },
  {
   "property": "C25",
   "status": "proved",
   "theorems": [
    "C25_barycenter"
   ],
   "note": ""
  },
  {
   "property": "C26",
   "status": "proved",
   "theorems": [
    "C26_clusters",
    "C26_documented_steps",
    "C26_charge_bounded",
    "C26_terminates",
    "C26_nontermination_refuted"
   ],
   "note": "termination needs lm_radius <= new_lm_radius; the refuted theorem gives an input on which the loop never ends"
  },
  {
   "property": "C27",
   "status": "proved",
   "theorems": [
    "C27_zero_suppression",
    "C27_all_waveforms",
    "C27_symmetric_padding_refuted"
   ],
   "note": ""
  },
  {
   "property": "C28",
   "status": "proved",
   "theorems": [
    "C28_kept_iff_not_isolated",
    "C28_idempotent",
    "C28_padding",
    "C28_spatial_selection",
    "C28_median_selection",
    "C28_first",
    "C28_other_methods_refuted"
   ],
   "note": ""
  },
  {
   "property": "C29",
   "status": "proved",
   "theorems": [
    "C29_threshold_slices",
    "C29_rebin_peak_conserves",
    "C29_negative_charge_refuted"
   ],
   "note": "minimum charge per slice proved for non-negative waveforms, refuted otherwise"
  },
  {
   "property": "C30",
   "status": "proved",
   "theorems": [
    "C30_last_assignment_wins",
    "C30_reading_succeeds",
    "C30_command_line_wins",
    "C30_files_otherwise",
    "C30_history_lists_previous_values",
    "C30_deleted_value_not_in_history_refuted"
   ],
   "note": "configuration files are sequences of assignments, inclusions and deletions"
  },
  {
   "property": "C31",
   "status": "proved",
   "theorems": [
    "C31_accepted_values_conform",
    "C31_conforming_values_accepted",
    "C31_first_call_runs_only_if_good",
    "C31_good_first_call_runs",
    "C31_city_arguments",
    "C31_none_for_optional_tuple_refuted",
    "C31_tuple_length_refuted",
    "C31_second_call_unchecked_refuted",
    "C31_positional"
   ],
   "note": ""
  },
  {
   "property": "C32",
   "status": "proved",
   "theorems": [
    "C32_frames_concatenated",
    "C32_append",
    "C32_mismatch_refused",
    "C32_matching_accepted",
    "C32_event_list",
    "C32_empty_frame_refuted",
    "C32_bad_index_refuted"
   ],
   "note": "empty frames and missing index columns are refuted cases"
  },
  {
   "property": "C33",
   "status": "proved",
   "theorems": [
    "C33_merged_files",
    "C33_merged_file_second_refuted",
    "C33_filtered_events_refuted",
    "C33_file_without_events_refuted"
   ],
   "note": "without the guard of the statement the indices may collapse: refuted cases"
  },
  {
   "property": "C34",
   "status": "proved",
   "theorems": [
    "C34_rows_attributed",
    "C34_rows_without_event",
    "C34_event_without_rows_refuted"
   ],
   "note": "an event without rows after one with rows gets a copy of a row: refuted"
  },
  {
   "property": "C35",
   "status": "proved",
   "theorems": [
    "C35_rows_aligned",
    "C35_what_is_stored",
    "C35_type_zero_refuted"
   ],
   "note": "type 0 is dropped: refuted"
  },
  {
   "property": "C36",
   "status": "proved",
   "theorems": [
    "C36_selection",
    "C36_limits",
    "C36_combination",
    "C36_different_events"
   ],
   "note": ""
  },
  {
   "property": "C37",
   "status": "proved",
   "theorems": [
    "C37_counts_peaks",
    "C37_counts_channels",
    "C37_configurations",
    "C37_two_peaks_in_one_channel_refuted"
   ],
   "note": "the filter counts peaks, not channels: refuted for two peaks in one channel"
  },
  {
   "property": "C38",
   "status": "proved",
   "theorems": [
    "C38_lookup",
    "C38_nan_outside",
    "C38_normalization",
    "C38_factor",
    "C38_missing_table",
    "C38_corrected",
    "C38_lengths"
   ],
   "note": "Infinities (zeros in the maps) are not modelled; the exponential is an arbitrary function."
  },
  {
   "property": "C39",
   "status": "proved",
   "theorems": [
    "C39_product",
    "C39_stages",
    "C39_survivors",
    "C39_failure"
   ],
   "note": ""
  },
  {
   "property": "C40",
   "status": "proved",
   "theorems": [
    "C40_map",
    "C40_regularize",
    "C40_filled",
    "C40_bounds",
    "C40_density",
    "C40_total",
    "C40_fit"
   ],
   "note": "The fit of the energies of a bin is an arbitrary function (C40_map) or gaussian_fit around an arbitrary fit of a histogram (C40_fit)."
  },
  {
   "property": "C41",
   "status": "proved",
   "theorems": [
    "C41_accumulate",
    "C41_order",
    "C41_joined",
    "C41_city",
    "C41_city_total",
    "C41_files_order",
    "C41_split"
   ],
   "note": "Exact arithmetic. The rounding of the centres of the sectors is an arbitrary function. C41_shared_peak_refuted: a peak with hits in two files is normalised once per file."
  },
  {
   "property": "C42",
   "status": "proved",
   "theorems": [
    "C42_mask",
    "C42_total",
    "C42_killed"
   ],
   "note": "Images with any number of dimensions."
  },
  {
   "property": "C43",
   "status": "proved",
   "theorems": [
    "C43_conserved",
    "C43_cut",
    "C43_sensors",
    "C43_clusters",
    "C43_total",
    "C43_event_cut",
    "C43_event_sensors",
    "C43_event_clusters",
    "C43_event_total",
    "C43_event_errors",
    "C43_event_missing"
   ],
   "note": "Exact arithmetic. A passing column with sum zero is not modelled. C43_zero_hits_refuted: with nhits = 0 and labels not starting at 0 the removal of clusters fails with a KeyError."
  },
  {
   "property": "C44",
   "status": "proved",
   "theorems": [
    "C44_peaks",
    "C44_energy"
   ],
   "note": "The deconvolution of a slice and the rounding are arbitrary functions. C44_all_cut_refuted: a peak without pixels above the cut has no deconvolved hits."
  },
  {
   "property": "C45",
   "status": "proved",
   "theorems": [
    "C45_nonnegative",
    "C45_empty",
    "C45_zero",
    "C45_satellites"
   ],
   "note": "Exact arithmetic: the rounding of the convolutions through Fourier transforms is not modelled."
  },
  {
   "property": "C46",
   "status": "proved",
   "theorems": [
    "C46_bins",
    "C46_smeared",
    "C46_only",
    "C46_total"
   ],
   "note": "Exact arithmetic; the light table is an arbitrary function with one factor per part of the gap. C46_early_refuted, C46_earlier_refuted: electrons before the start of the buffer."
  },
  {
   "property": "C47",
   "status": "proved",
   "theorems": [
    "C47_bins",
    "C47_total",
    "C47_conserved",
    "C47_at_most"
   ],
   "note": "C47_start_refuted: the content of the first bins is lost."
  },
  {
   "property": "C48",
   "status": "proved",
   "theorems": [
    "C48_filter_limits",
    "C48_valid_limits",
    "C48_integrals",
    "C48_bad_limits",
    "C48_end_of_buffer_refuted",
    "C48_many_outside_refuted",
    "C48_overlapping_refuted"
   ],
   "note": "refuted without the guards"
  },
  {
   "property": "C49",
   "status": "proved",
   "theorems": [
    "C49_pmts",
    "C49_one_row_per_pmt",
    "C49_sipms",
    "C49_one_row_per_sipm",
    "C49_overlap_refuted",
    "C49_noise",
    "C49_noise_incomplete_refuted",
    "C49_cache",
    "C49_noise_size",
    "C49_pmt_label"
   ],
   "note": "overlapping intervals repeat sensors, and incomplete noise tables are misread: refuted without the guards"
  },
  {
   "property": "C50",
   "status": "proved",
   "theorems": [
    "C50_threshold",
    "C50_no_noise",
    "C50_exists",
    "C50_fraction",
    "C50_compute",
    "C50_cut_too_large",
    "C50_converted"
   ],
   "note": ""
  },
  {
   "property": "C51",
   "status": "proved",
   "theorems": [
    "C51_documented_forms",
    "C51_denoted_events",
    "C51_rejected_forms"
   ],
   "note": ""
  },
  {
   "property": "C52",
   "status": "proved",
   "theorems": [
    "C52_one_row_per_pair",
    "C52_no_s2_refuted",
    "C52_no_cluster",
    "C52_missing_value"
   ],
   "note": "an event without selected S2 raises TypeError"
  },
  {
   "property": "C53",
   "status": "proved",
   "theorems": [
    "C53_hits_by_event",
    "C53_two_times_refuted"
   ],
   "note": "an event with two times loses hits: refuted"
  },
  {
   "property": "C54",
   "status": "proved",
   "theorems": [
    "C54_mask_sensors",
    "C54_calibrate",
    "C54_wrong_number_of_gains",
    "C54_subtract_baseline",
    "C54_unknown_baseline",
    "C54_calibrate_sipms",
    "C54_calibrate_pmts",
    "C54_subtract_maw"
   ],
   "note": ""
  },
  {
   "property": "C55",
   "status": "proved",
   "theorems": [
    "C55_filter",
    "C55_recovered",
    "C55_domain",
    "C55_causal",
    "C55_reset",
    "C55_no_signal",
    "C55_stuck_refuted",
    "C55_causal_refuted"
   ],
   "note": "the noise level uses the first 400 samples, and an accumulator above its threshold is not reset: refuted without the guards"
  },
  {
   "property": "C56",
   "status": "proved",
   "theorems": [
    "C56_with_unit",
    "C56_independent",
    "C56_without_unit",
    "C56_normalization",
    "C56_normalization_total"
   ],
   "note": "griddata is an arbitrary function that takes a nearest point."
  },
  {
   "property": "C57",
   "status": "proved",
   "theorems": [
    "C57_drift",
    "C57_longer",
    "C57_event",
    "C57_succeeds",
    "C57_ionization",
    "C57_survivors"
   ],
   "note": "Random draws and the square root are arbitrary functions."
  },
  {
   "property": "C58",
   "status": "proved",
   "theorems": [
    "C58_each_file_once",
    "C58_all_events",
    "C58_inconsistent_file",
    "C58_empty_run_table_refuted",
    "C58_not_files"
   ],
   "note": "the source of waveforms is modelled; files are records of tables"
  },
  {
   "property": "C59",
   "status": "proved",
   "theorems": [
    "C59_top_n",
    "C59_zero_refuted"
   ],
   "note": ""
  },
  {
   "property": "C60",
   "status": "proved",
   "theorems": [
    "C60_charge_threshold"
   ],
   "note": ""
  },
  {
   "property": "C61",
   "status": "proved",
   "theorems": [
    "C61_flags_read_back"
   ],
   "note": ""
  },
  {
   "property": "C62",
   "status": "proved",
   "theorems": [
    "C62_time_factor",
    "C62_total",
    "C62_mean_one",
    "C62_bounds"
   ],
   "note": ""
  },
  {
   "property": "C63",
   "status": "proved",
   "theorems": [
    "C63_slices",
    "C63_times",
    "C63_region"
   ],
   "note": ""
  },
  {
   "property": "C64",
   "status": "proved",
   "theorems": [
    "C64_processed",
    "C64_normalised",
    "C64_peaks"
   ],
   "note": "A peak with total charge zero (NaN) is not modelled."
  },
  {
   "property": "C65",
   "status": "proved",
   "theorems": [
    "C65_conserved",
    "C65_at_most"
   ],
   "note": "Exact arithmetic. C65_even_refuted: a PSF of even size does not keep the sum."
  },
  {
   "property": "C66",
   "status": "proved",
   "theorems": [
    "C66_buffer",
    "C66_all_light",
    "C66_event",
    "C66_max_time"
   ],
   "note": "Exact arithmetic. C66_fraction_refuted: a crossing time that is no whole number of bins."
  },
  {
   "property": "C67",
   "status": "proved",
   "theorems": [
    "C67_delayed",
    "C67_some",
    "C67_volume"
   ],
   "note": "The parallel columns of the hits are one record; the empty event is refused with ValueError."
  },
  {
   "property": "C68",
   "status": "proved",
   "theorems": [
    "C68_tracks_of_an_event",
    "C68_too_many_hits",
    "C68_no_hits",
    "C68_no_energy"
   ],
   "note": "Exact arithmetic; shortest paths, rounding and the diagonal of the voxels are arbitrary functions with the listed properties; the columns of the radius are not modelled. C68_lost_refuted: hits out of the map are not written when no hit has energy; C68_flag_refuted; C68_overlap_refuted: repeated hits."
  },
  {
   "property": "C69",
   "status": "proved",
   "theorems": [
    "C69_event_written",
    "C69_summary",
    "C69_no_hits_left",
    "C69_event_without_hits"
   ],
   "note": "The columns of the radius are not modelled."
  },
  {
   "property": "C70",
   "status": "proved",
   "theorems": [
    "C70_hits_of_an_event",
    "C70_energy_of_a_peak",
    "C70_hits_from_clusters",
    "C70_nothing_selected",
    "C70_no_s2_selected",
    "C70_no_sipms",
    "C70_keyword_refuted"
   ],
   "note": "The signal to noise function, the number of samples of a width and the reconstruction algorithms are parameters. C70_keyword_refuted shows that the documented order of the arguments always fails."
  },
  {
   "property": "C71",
   "status": "proved",
   "theorems": [
    "C71_one_item_per_event",
    "C71_no_hit_lost",
    "C71_numbers_differ",
    "C71_one_item_per_file",
    "C71_deconvolved_hits",
    "C71_deconvolved_unlisted"
   ],
   "note": "C71_other_events_refuted: only the number of events is compared; C71_unlisted_refuted: hits of events that are not in the table are silently lost."
  },
  {
   "property": "C72",
   "status": "proved",
   "theorems": [
    "C72_simulated_hits",
    "C72_simulated_sensors",
    "C72_unknown_pmt",
    "C72_times_increase"
   ],
   "note": "Exact arithmetic; files of the 2020 format. C72_missing_refuted and C72_twice_refuted: light of sensors not listed once is lost or doubled."
  },
  {
   "property": "C73",
   "status": "proved",
   "theorems": [
    "C73_irene",
    "C73_hypathia",
    "C73_dorothea",
    "C73_sophronia",
    "C73_esmeralda",
    "C73_isaura",
    "C73_beersheba",
    "C73_diomira",
    "C73_isidora",
    "C73_buffy",
    "C73_detsim",
    "C73_phyllis",
    "C73_trude",
    "C73_berenice",
    "C73_failure",
    "run_is_loop"
   ],
   "note": "The operations and the data are arbitrary; the plain programs are in CitySpec.v. Examples: C73_failure_example, C73_range_example, C73_hypotheses."
  },
  {
   "property": "C74",
   "status": "proved",
   "theorems": [
    "C74_irene",
    "C74_hypathia",
    "C74_dorothea",
    "C74_sophronia",
    "C74_esmeralda",
    "C74_isaura",
    "C74_beersheba",
    "C74_diomira",
    "C74_buffy"
   ],
   "note": "Example: C74_example."
  },
  {
   "property": "C75",
   "status": "proved",
   "theorems": [
    "C75_s1_waveforms",
    "C75_total",
    "C75_causal",
    "C75_photoelectrons"
   ],
   "note": "Exact arithmetic; the emission-time distribution is any one that starts at zero, grows and stays below one. C75_length_refuted and C75_broadcast_refuted: a buffer that is not a whole number of bins is refused or gets extra light."
  },
  {
   "property": "C76",
   "status": "proved",
   "theorems": [
    "C76_lighttable",
    "C76_sipm",
    "C76_pmt",
    "C76_configured",
    "C76_edges",
    "C76_no_centres",
    "C76_edges_refused",
    "C76_empty_table"
   ],
   "note": "Interpolation to the nearest row is an oracle. C76_gap_refuted, C76_offset_refuted, C76_transposed_refuted, C76_repeated_refuted: tables outside the guards are read out of place or refused."
  },
  {
   "property": "C77",
   "status": "proved",
   "theorems": [
    "C77_clusters",
    "C77_neighbours",
    "C77_tagger"
   ],
   "note": "DBSCAN is modelled as the published loop of scikit-learn over the neighbours of each hit. C77_index_refuted: with interleaved events the index is that of other hits. Example: C77_example."
  },
  {
   "property": "C78",
   "status": "proved",
   "theorems": [
    "C78_pad",
    "C78_distribution",
    "C78_dark_threshold",
    "C78_dark_mean",
    "C78_signal",
    "C78_width",
    "C78_sample",
    "C78_response",
    "C78_round"
   ],
   "note": "Exact arithmetic; square root and random draws are oracles. C78_displaced_refuted and C78_lost_refuted show the guards are needed. Examples: C78_example, C78_example_response."
  },
  {
   "property": "C79",
   "status": "proved",
   "theorems": [
    "C79_pulses",
    "C79_one_pulse",
    "C79_length",
    "C79_linear",
    "C79_causal",
    "C79_low_frequency",
    "C79_shape",
    "C79_train",
    "C79_frequency_ranges",
    "C79_one_frequency",
    "C79_filter",
    "C79_waveforms",
    "C79_no_box"
   ],
   "note": "Exact arithmetic; filter coefficients, cosine and random draws are parameters. C79_short_refuted, C79_end_refuted, C79_unmapped_refuted show the guards are needed. Example: C79_example."
  },
  {
   "property": "C80",
   "status": "proved",
   "theorems": [
    "C80_corrected",
    "C80_temp",
    "C80_dropper",
    "C80_event",
    "C80_beersheba",
    "C80_empty_hits_lost"
   ],
   "note": "Exact arithmetic; which nearest bin the interpolation takes is arbitrary. C80_input_refuted: the input frame is modified; C80_twice_refuted: a second correction takes z for the drift time. Hypotheses met: C80_hypotheses; examples C80_example, C80_example_event."
  },
  {
   "property": "C81",
   "status": "proved",
   "theorems": [
    "C81_histogram",
    "C81_total",
    "C81_spectrum",
    "C81_integrals",
    "C81_edges"
   ],
   "note": "Exact arithmetic. C81_maximum_refuted: values below the maximum but above the last edge are in no bin. Examples: C81_example, C81_example_integrals."
  },
  {
   "property": "C82",
   "status": "proved",
   "theorems": [
    "C82_number",
    "C82_left_out",
    "C82_endless",
    "C82_sum",
    "C82_dark",
    "C82_pedestal",
    "C82_arguments",
    "C82_seeds",
    "C82_pedestal_seed"
   ],
   "note": "Exact arithmetic; exponential and gaussian are parameters. C82_bright_refuted, C82_displaced_refuted, C82_bounds_refuted show what does not hold. Examples: C82_example_number, C82_example_dark, C82_example_pedestal."
  },
  {
   "property": "C83",
   "status": "proved",
   "theorems": [
    "C83_binned",
    "C83_grid",
    "C83_centres",
    "C83_centres_all",
    "C83_nearest",
    "C83_precision"
   ],
   "note": "Exact arithmetic; scipy griddata is an arbitrary parameter. C83_lost_refuted: without interpolation the light of the outermost sensors of the city is in no entry; C83_border_refuted: the border points are displaced. Hypotheses met: C83_binned_case, C83_grid_case; examples C83_binned_value, C83_nearest_case."
  },
  {
   "property": "C84",
   "status": "proved",
   "theorems": [
    "C84_profile",
    "C84_default",
    "C84_lengths",
    "C84_profileY",
    "C84_profileXY"
   ],
   "note": "Exact arithmetic without NaN in the data; the square root is a parameter. C84_maximum_refuted: by default the largest coordinate is in no bin; C84_single_refuted: dropping keeps bins of one entry, without deviation. Examples: C84_example, C84_example_XY."
  },
  {
   "property": "C85",
   "status": "proved",
   "theorems": [
    "C85_works",
    "C85_read",
    "C85_subset",
    "C85_no_table",
    "C85_single",
    "C85_refused",
    "C85_store_no_table",
    "C85_shapes"
   ],
   "note": "Tables without covariance; the rounding to 32 bits is arbitrary; exit() is an exception. C85_stale_refuted: a program that goes on after a refused fit finds its values in the next row; C85_covariance_refuted: the covariance is read as two of its rows. Examples: C85_ex, C85_subset_ex, C85_single_ex."
  },
  {
   "property": "C86",
   "status": "proved",
   "theorems": [
    "C86_flat",
    "C86_last",
    "C86_city",
    "C86_chain",
    "C86_repeated",
    "C86_short"
   ],
   "note": "Ascii texts; the contents of the other tables are not needed. C86_dotted_refuted: a key with a dot hides a nested one; C86_others_refuted: only the first input file counts; C86_cut_refuted: texts of more than 300 characters are cut. Examples: C86_flat_ex, C86_chain_ex, C86_repeated_ex."
  },
  {
   "property": "C87",
   "status": "proved",
   "theorems": [
    "C87_copied",
    "C87_result",
    "C87_composes"
   ],
   "note": "Files in the format since 2020; the file numbers are those of C33. C87_no_particles_refuted: an event without particles is not found; C87_first_refuted: the first file must have an event; C87_shared_refuted: simulated events shared by files mix. Examples: C87_ex, C87_composes_ex."
  },
  {
   "property": "C88",
   "status": "proved",
   "theorems": [
    "C88_by_event",
    "C88_no_particles",
    "C88_event",
    "C88_event_missing",
    "C88_divided",
    "C88_cast",
    "C88_agrees"
   ],
   "note": "C88_divided: the hypothesis on the extents holds whenever they grow and end with the table. C88_shared_ids_refuted: hits of different particles with the same identifier are lost in the dictionary. Example: C88_ex."
  },
  {
   "property": "C89",
   "status": "proved",
   "theorems": [
    "C89_binning",
    "C89_periods",
    "C89_not_positive",
    "C89_files",
    "C89_old"
   ],
   "note": "float() and the table of units are parameters. C89_letters_refuted: names that begin or end with one of the letters b, i, n, g or _ lose them. Example: C89_ex."
  },
  {
   "property": "C90",
   "status": "proved",
   "theorems": [
    "C90_events",
    "C90_median",
    "C90_medians",
    "C90_gaussian"
   ],
   "note": "Events on the border of a bin are excluded (griddata may take the next bin)."
  },
  {
   "property": "C91",
   "status": "proved",
   "theorems": [
    "C91_weighted",
    "C91_unweighted",
    "C91_exact"
   ],
   "note": "curve_fit is a parameter. Example: C91_ex."
  },
  {
   "property": "C92",
   "status": "proved",
   "theorems": [
    "C92_accepts",
    "C92_calls",
    "C92_twice"
   ],
   "note": "Example: C92_ex."
  },
  {
   "property": "C93",
   "status": "proved",
   "theorems": [
    "C93_pmap",
    "C93_individual_thresholds_refuted",
    "C93_pyrrha_refuted"
   ],
   "note": "Exact arithmetic; filter coefficients and the square root are parameters. With individual thresholds or pyrrha the statement asks for all SiPMs to be active; the two refutations show why."
  },
  {
   "property": "C94",
   "status": "proved",
   "theorems": [
    "C94_stops",
    "C94_all"
   ],
   "note": "Exact arithmetic. Example: C94_ex."
  },
  {
   "property": "C95",
   "status": "proved",
   "theorems": [
    "C95_event",
    "C95_start_refuted"
   ],
   "note": "The energy, the draws and the light tables are arguments. Examples: C95_example, C95_hypotheses."
  },
  {
   "property": "C96",
   "status": "proved",
   "theorems": [
    "C96_old_files",
    "C96_eager_widths",
    "C96_eager_refused"
   ],
   "note": "Examples: C96_widths, C96_demo."
  },
  {
   "property": "C97",
   "status": "proved",
   "theorems": [
    "C97_pmap",
    "C97_masked_refuted"
   ],
   "note": "All PMTs in use and counts in 16 bits; the draws and the noise are arguments. Example: C97_ex."
  },
  {
   "property": "C98",
   "status": "proved",
   "theorems": [
    "C98_decision",
    "C98_channels_refuted",
    "C98_silent_refuted",
    "C98_masked_refuted",
    "C98_configuration"
   ],
   "note": "The guards are needed: the refuted theorems show what happens without them. Examples: C98_ex, C98_masked_ex."
  },
  {
   "property": "C99",
   "status": "proved",
   "theorems": [
    "C99_rows",
    "C99_uncertainties",
    "C99_edges",
    "C99_last_rate_refuted",
    "C99_s1_error_refuted"
   ],
   "note": "The fits, the standard deviation and the square root are arguments. Examples: C99_ex, C99_last_ex."
  }
 ]
}