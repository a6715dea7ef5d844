{"id": "C01", "title": "Event slicing of a pipeline equals Python slicing", "statement": "A slice(start, stop, step) stage lets through exactly the items source[start:stop:step], in order, for every accepted start, stop and step; with close_all the push stops reading the source as soon as the last slice block has been read, and never reads more than one block beyond the last item passed. Negative start or stop and non-positive step are rejected with ValueError.", "quantifier": "every source length, every start/stop/step (including None and stop<=start), close_all on and off", "why_tests_cant": "The coroutine counts items with nested loops; the off-by-one cases depend on start, stop, step and source length together and there are unboundedly many combinations.", "anchors": ["invisible_cities/dataflow/dataflow.py: slice, push"]}
{"id": "C02", "title": "A pushed pipeline computes the list function it spells", "statement": "For a pipeline built from map, filter, flatmap, spy, branch, fork, reduce and sink components, after push every sink has been called exactly on the list obtained by applying the corresponding list functions (map, filter, concat-map) to the source, in source order; a branch or fork delivers the same items to each of its targets; a reduce future holds the left fold of the items it received starting from its initial value. The pieces given to pipe act on the items from the first to the last.", "quantifier": "every pipeline tree, every component function, every finite source", "why_tests_cant": "Pipelines are user-composed trees; only induction over the tree and over the source covers all of them.", "anchors": ["invisible_cities/dataflow/dataflow.py: map, filter, flatmap, spy, branch, fork, sink, reduce, pipe, push"]}
{"id": "C03", "title": "Every future is resolved exactly once, however the push ends", "statement": "After push returns or raises, every component of the pipeline has been closed and every future attached to it (count, reduce, count_filter, spy_count) has been given a result exactly once, whether the source ended, a component raised StopPipeline, or a component raised any other exception at any point.", "quantifier": "every pipeline tree, every source, every point at which any component raises", "why_tests_cant": "Failure points are unbounded; the close/finally interleaving is only exercised on a handful of shapes by tests.", "anchors": ["invisible_cities/dataflow/dataflow.py: closing, branch, fork, count_filter, RESULT, push"]}
{"id": "C04", "title": "Counters reported by a city add up", "statement": "In a completed push, n_passed + n_failed of a count_filter equals the number of items that reached it, n_passed equals the number of items it delivered downstream, and a spy_count equals the number of items that passed through it, so events_in = events_out + rejected for the standard city shape.", "quantifier": "every predicate, every source, every downstream pipeline, including pushes stopped early by a slice", "why_tests_cant": "Counters are updated before the item is sent downstream; agreement must hold for every history including ones cut short.", "anchors": ["invisible_cities/dataflow/dataflow.py: count_filter, spy_count, count"]}
{"id": "C05", "title": "Stopping a push early loses no item upstream and delivers a prefix downstream", "statement": "When any component stops the pipeline, each sink has seen a prefix of what it would have seen without the stop, and a sink placed before the stopping component in a fork or on the side arm of a branch also sees the item that caused the stop.", "quantifier": "every pipeline tree with stop_when or slice(close_all) anywhere, every source", "why_tests_cant": "Which sinks see the stopping item depends on the position in the tree; tests cover one or two shapes.", "anchors": ["invisible_cities/dataflow/dataflow.py: stop_when, slice, fork, branch, push"]}
{"id": "C06", "title": "What parallel branches see of each other's writes", "statement": "map(args, out) writes into the event dictionary itself. Branches of a fork are therefore isolated only when no branch writes a name that a later branch reads; under that condition each branch sees exactly the data the event had when it entered the fork.", "quantifier": "every fork whose branches read and write disjoint names, every event", "why_tests_cant": "Aliasing across branches depends on the whole pipeline; tests use branches that do not interfere.", "anchors": ["invisible_cities/dataflow/dataflow.py: map, fork, branch, sink"]}
{"id": "C07", "title": "Peak splitting is the maximal-gap partition", "statement": "split_in_peaks cuts a list of sample indices into consecutive pieces whose concatenation is the input; two neighbouring indices are in the same piece exactly when their gap is at most the stride. In particular pieces are never empty for a non-empty input.", "quantifier": "every index list, every stride", "why_tests_cant": "All interleavings of gaps and all lengths.", "anchors": ["invisible_cities/reco/peak_functions.py: split_in_peaks"]}
{"id": "C08", "title": "Peaks found in an event are disjoint, time ordered and within the requested limits", "statement": "For a non-empty increasing list of sample indices, find_peaks reports peaks that cover pairwise disjoint, increasing sample ranges, each starting and ending inside the time window (closed) and with a length inside the length window (closed), and no qualifying group of samples is lost.", "quantifier": "every increasing list of samples above threshold, every time window, length window and stride", "why_tests_cant": "Unbounded number of waveforms and boundary coincidences.", "anchors": ["invisible_cities/reco/peak_functions.py: find_peaks, select_peaks, split_in_peaks, indices_and_wf_above_threshold"]}
{"id": "C09", "title": "Rebinning conserves charge and width", "statement": "rebin_times_and_waveforms with a stride returns ceil(n/stride) samples; for every sensor the total charge is unchanged, the total bin width is unchanged, and a stride below 2 changes nothing.", "quantifier": "every waveform set, every stride, every length including lengths that are not multiples of the stride", "why_tests_cant": "Must hold for every length/stride remainder and every charge value.", "anchors": ["invisible_cities/reco/peak_functions.py: rebin_times_and_waveforms"]}
{"id": "C10", "title": "Rebinned times stay inside their bins and remain ordered", "statement": "Each rebinned time lies between the smallest and the largest time of the samples merged into that bin, whatever the signs of the charges; hence times stay non-decreasing.", "quantifier": "every non-decreasing time list, all charges (positive, negative, zero), every stride; the padded variant used for S2 is included", "why_tests_cant": "A weighted average with clipped weights has corner cases (all-negative slices, zero padding) that depend on the data.", "anchors": ["invisible_cities/reco/peak_functions.py: rebin_times_and_waveforms, pick_slice_and_rebin"]}
{"id": "C11", "title": "PMT and SiPM samples of an S2 are aligned", "statement": "When an S2 is built with tracking-plane data and the rebinning factor is a multiple of the ratio between SiPM and PMT sample widths, the number of rebinned PMT samples equals the number of rebinned SiPM samples, so that the S2 object can be built, and sample k of both refers to the same absolute time interval.", "quantifier": "every sample range, every PMT/SiPM bin ratio, every rebin stride that is a multiple of the ratio", "why_tests_cant": "It is an arithmetic identity on floor/ceil that must hold for every offset of the peak with respect to the SiPM clock.", "anchors": ["invisible_cities/reco/peak_functions.py: build_peak, pick_slice_and_rebin, build_sipm_responses", "invisible_cities/evm/pmaps.py: _Peak._check_valid_input"]}
{"id": "C12", "title": "Peak objects are consistent or refused", "statement": "A peak can be constructed only if it has at least one sample, as many PMT samples as times and either no SiPM samples or as many as times; otherwise construction raises an exception and no peak object exists. Its height is the largest summed sample and is reached at time_at_max_energy, energy above a threshold decreases when the threshold increases, and width is the sum of bin widths between the first and last sample above threshold.", "quantifier": "every input, every threshold", "why_tests_cant": "Shape combinations and thresholds are unbounded.", "anchors": ["invisible_cities/evm/pmaps.py: _Peak, _SensorResponses"]}
{"id": "C13", "title": "Stored PMaps are loaded back unchanged", "statement": "Writing the PMaps of a run and reading the file back gives, for every event with at least one peak, the same S1s and S2s in the same order with the same times, widths, per-PMT and per-SiPM waveforms, each number as it is kept in its 32-bit column, as long as an event has at most 65536 peaks of each kind and the run table holds exactly the events with peaks; a file whose run table also has an event without peaks is refused. The eager and the lazy reader agree, the lazy one following the order of the run table.", "quantifier": "every list of events, every number of peaks, sensors and samples", "why_tests_cant": "Flattening to rows and regrouping must invert each other for every shape.", "anchors": ["invisible_cities/io/pmaps_io.py: store_peak, store_pmt, store_sipm, load_pmaps, s1s_from_df, s2s_from_df, build_ipmtdf_from_sumdf"]}
{"id": "C14", "title": "Event numbers produced from simulated events are unique", "statement": "When the buffer length is a whole number of PMT samples, the event numbers that buffy writes for the triggers of all simulated events are pairwise different (the number of triggers of one nexus event never exceeds the number reserved for it), and the event map sends each of them back to its nexus event.", "quantifier": "every simulated waveform, every bin width, buffer length and maximum time", "why_tests_cant": "The worst case depends on an arithmetic relation between bin width, buffer length and time window.", "anchors": ["invisible_cities/io/rwf_io.py: buffer_writer, ic_event_number_base", "invisible_cities/detsim/buffer_functions.py: find_signal_start, bin_sensors", "invisible_cities/cities/components.py: calculate_and_save_buffers"]}
{"id": "C15", "title": "Triggers are separated by more than the stand-off", "statement": "Trigger positions found in a binned waveform are samples above threshold, strictly increasing, and consecutive triggers are separated by a gap of more than the stand-off between above-threshold samples; every above-threshold sample belongs to the group opened by the last trigger at or before it.", "quantifier": "every waveform, threshold and stand-off", "why_tests_cant": "Unbounded number of above-threshold patterns.", "anchors": ["invisible_cities/detsim/buffer_functions.py: find_signal_start"]}
{"id": "C16", "title": "A buffer is the window of the zero-extended waveform around the trigger", "statement": "When the SiPM sample is a whole number of PMT samples, for each trigger the output buffer of every sensor of the database has exactly the configured number of samples and sample k is the charge simulated for that sensor in the k-th sample after (start of the SiPM sample of the trigger - pretrigger), or zero outside the simulated range or for a sensor without signal; PMT and SiPM buffers start at the same time if the pretrigger is a whole number of SiPM samples.", "quantifier": "every trigger position, pre-trigger in [0, buffer length - one SiPM sample], every waveform length", "why_tests_cant": "All offsets of the trigger with respect to both ends of the waveform and to the SiPM clock.", "anchors": ["invisible_cities/detsim/buffer_functions.py: buffer_calculator, pad_safe"]}
{"id": "C17", "title": "Sharing the slice energy among hits", "statement": "The hits built for a slice carry energies proportional to their charge whose sum equals the slice energy up to the relative factor Q/(Q+epsilon); if no SiPM passes the threshold a single NN hit carries exactly the slice energy. No SiPM below threshold produces a hit and none above is lost.", "quantifier": "every charge array, every threshold, every energy", "why_tests_cant": "Must hold for all numbers of sensors and charges.", "anchors": ["invisible_cities/reco/hits_functions.py: e_from_q, sipms_above_threshold"]}
{"id": "C18", "title": "Merging NN hits conserves the energy of the event", "statement": "If every NN hit has at least one non-NN hit to give its energy to (in the same peak when same_peak is on) and non-NN hits have positive energy, merge_NN_hits removes every NN hit, keeps every other hit with its position and charge, and the total energy (and the total corrected energy) equals that of the input; hits not closest in Z to an NN hit are unchanged and receivers share in proportion to their energy. Without those conditions energy is lost or becomes undefined.", "quantifier": "every list of hits, with same_peak on or off", "why_tests_cant": "The docstring promises conservation for every input; it depends on the existence of a non-NN neighbour and on energies summing to a non-zero value.", "anchors": ["invisible_cities/reco/hits_functions.py: merge_NN_hits"]}
{"id": "C19", "title": "Thresholding hits conserves energy per slice", "statement": "threshold_hits removes exactly the hits with charge below the threshold, slice by slice, redistributes the slice energy to the survivors in proportion to their charge, keeps the slice total up to the epsilon regulator, and leaves one NN hit with the whole slice energy when nothing survives. A threshold <= 0 changes nothing.", "quantifier": "every hit collection, every threshold", "why_tests_cant": "Unbounded number of slices and charges.", "anchors": ["invisible_cities/reco/hits_functions.py: apply_threshold, threshold_hits"]}
{"id": "C20", "title": "Voxelization loses no hit energy", "statement": "The voxels built from a set of hits have energies that sum to the hits' energy; a voxel's energy is the sum of the energies of its hits, which are exactly the hits inside it, and is not zero; no hit is in two voxels; when the hits have positive energies every hit is in one voxel. Voxels have the requested size within the margin, never smaller in strict mode.", "quantifier": "every non-empty hit set, every voxel size, strict and adaptive", "why_tests_cant": "Depends on binning every coordinate, including coincident hits and hits on edges.", "anchors": ["invisible_cities/reco/paolina_functions.py: voxelize_hits"]}
{"id": "C21", "title": "Tracks partition the voxels", "statement": "make_track_graphs returns tracks such that each voxel belongs to exactly one track, and two voxels are in the same track exactly when a chain of neighbouring voxels joins them.", "quantifier": "every voxel set and contiguity", "why_tests_cant": "Connectivity is a statement about all paths.", "anchors": ["invisible_cities/reco/paolina_functions.py: make_track_graphs, neighbours, connected_component_subgraphs"]}
{"id": "C22", "title": "Track extremes are the farthest pair", "statement": "find_extrema_and_length returns, when different voxels are at positive distances, a pair of different voxels whose path distance is the maximum over all pairs, and that distance; a track with a single voxel has equal extremes and length zero; an empty one raises NoVoxels.", "quantifier": "every distance dictionary", "why_tests_cant": "Maximum over all pairs of an unbounded set.", "anchors": ["invisible_cities/reco/paolina_functions.py: find_extrema_and_length"]}
{"id": "C23", "title": "Dropping end-point voxels conserves energy and terminates", "statement": "For voxels made of hits with positive energies (or all without hits and with positive energy), drop_end_point_voxels terminates, returns the surviving voxels and the dropped ones as a partition of the input voxels, the surviving voxels carry the total input energy, only voxels below the threshold are dropped, and at the end the extremes of every long enough track have enough energy or no neighbour. The energy of a dropped voxel goes to the hits of adjacent voxels nearest to the barycentre of its own hits, or to its nearest adjacent voxels when it has no hits, in proportion to their energies.", "quantifier": "every voxel set, threshold, minimum size and contiguity", "why_tests_cant": "Termination and conservation over an unbounded loop.", "anchors": ["invisible_cities/reco/paolina_functions.py: drop_end_point_voxels"]}
{"id": "C24", "title": "Blob energies are ordered and their hits are the ones within the radius", "statement": "The first blob has at least the energy of the second; a hit belongs to a blob exactly when it is closer than the radius to the blob centre and its voxel is closer than radius + voxel diagonal along the track.", "quantifier": "every track, radius", "why_tests_cant": "All geometries.", "anchors": ["invisible_cities/reco/paolina_functions.py: blob_energies_hits_and_centres, hits_in_blob"]}
{"id": "C25", "title": "Barycenter lies inside the sensors it averages", "statement": "barycenter returns one cluster whose charge is the sum of the charges, whose position is a convex combination of the sensor positions (so inside their bounding box) and whose variances are non-negative; it raises when there is no sensor or no charge above threshold.", "quantifier": "every positive-charge sensor set", "why_tests_cant": "All positions and charges.", "anchors": ["invisible_cities/reco/xy_algorithms.py: barycenter, threshold_check"]}
{"id": "C26", "title": "Corona finds disjoint clusters and always finishes", "statement": "With a non-negative charge threshold, the clusters returned by corona are made of pairwise disjoint sets of sensors above threshold, each of at least msipm sensors (counting inactive ones if asked), found by the documented steps, and their total charge does not exceed that of the sensors; sensors left out are below Qlm or in a group that was too small. When lm_radius <= new_lm_radius it always terminates; otherwise it may run forever.", "quantifier": "every sensor set and every accepted parameter set", "why_tests_cant": "It loops until the sensor list is empty; termination depends on the parameters.", "anchors": ["invisible_cities/reco/xy_algorithms.py: corona, discard_sipms, get_nearby_sipm_inds"]}
{"id": "C27", "title": "Zero suppression keeps every sample above threshold", "statement": "Noise suppression returns waveforms of the same length, equal to the input at every sample above threshold and in its neighbourhood (padding samples before, padding - 1 after, the last sample of the waveform excluded) and zero elsewhere. (The documentation promises padding samples before and after, which is refuted.)", "quantifier": "every waveform, threshold and padding", "why_tests_cant": "Boundary samples and overlapping paddings.", "anchors": ["invisible_cities/reco/wfm_functions.py: suppress_wf, noise_suppression"]}
{"id": "C28", "title": "Isolated sensor removal is stable", "statement": "Removing isolated SiPMs keeps a sensor exactly when another selected sensor is closer than the distance; applying it twice changes nothing; the circular padding adds exactly the sensors within the radius of a selected one; and the whole spatial selection returns those sensors, in order, with their waveforms.", "quantifier": "every set of sensors and positions", "why_tests_cant": "Quantifies over all subsets of sensors.", "anchors": ["invisible_cities/reco/wfm_functions.py: kill_isolated_sipms, apply_circular_padding, median_std_method, spatial_selection_method"]}
{"id": "C29", "title": "Threshold slices partition a peak", "statement": "get_threshold_slices returns contiguous, non-overlapping slices that cover the whole waveform, each cut as soon as the threshold charge is reached; for non-negative waveforms every slice has at least the threshold charge unless there is a single slice; rebinning a peak with them conserves its charge.", "quantifier": "every waveform, every threshold", "why_tests_cant": "All charge sequences.", "anchors": ["invisible_cities/reco/pmaps_functions.py: get_threshold_slices, rebin_peak, rebin_peak_to_slices, get_even_slices"]}
{"id": "C30", "title": "Configuration: last assignment wins and history is complete", "statement": "After any sequence of file inclusions, assignments and command line overrides a parameter has the value of its last assignment, command line values override file values, and its history lists, in order, all the previous values that were replaced by another assignment (a value that was deleted is in no history).", "quantifier": "every sequence of operations", "why_tests_cant": "Histories are unbounded.", "anchors": ["invisible_cities/core/configure.py: Configuration, make_config_file_reader, configure"]}
{"id": "C31", "title": "A city rejects a configuration exactly when an argument is missing, unknown or of the wrong type", "statement": "The first call of a checked function (a city) runs it only if every required argument is present, no unknown argument is given and every argument has the declared type (a tuple type is compared element by element up to the shorter length), and it does run then if the check can look into the values its types ask to look into; it is run with the given values and the declared defaults. (A call after a rejected first one is not checked; None for an Optional tuple is rejected.)", "quantifier": "every signature and configuration", "why_tests_cant": "All configurations; repeated calls included.", "anchors": ["invisible_cities/core/configure.py: check_annotations, type_check, compare_signature_to_values"]}
{"id": "C32", "title": "Table writing appends", "statement": "Writing a sequence of data frames to a table and reading it gives the concatenation of their rows in order, under the column names and types of the table; a non-empty frame whose columns or types do not match the table raises TableMismatch and leaves the table unchanged, and frames with the same columns and convertible types are accepted. (An empty frame is never compared with the table, and a missing index column is reported after the rows are added.)", "quantifier": "every sequence of frames", "why_tests_cant": "Histories are unbounded.", "anchors": ["invisible_cities/io/dst_io.py: df_writer, load_dst, load_dsts, _check_castability"]}
{"id": "C33", "title": "MC file indices stay distinct when files are merged", "statement": "When MC tables of several files are copied into one output, rows that referred to different original files get different file indices and rows of the same original file the same one, in both tables, provided that each file's configuration and event mapping mention the same original files in the same order, the last row of the mapping refers to the last of them, and no new index equals an old one still to be replaced.", "quantifier": "every sequence of files and index values", "why_tests_cant": "The renumbering is done by successive in-place replacements whose result depends on the values.", "anchors": ["invisible_cities/io/mcinfo_io.py: mc_writer, check_last_merge_index"]}
{"id": "C34", "title": "Old-format MC rows are attributed to their event", "statement": "Loading old-format MC hits or particles gives each row once, in order, attributed to the event whose extent contains it, when the extents are increasing (events without rows only at the beginning) and the last one ends at the last row; if no extent ends at the last row, loading fails.", "quantifier": "every extents table", "why_tests_cant": "Depends on events with no rows and on arbitrary extents.", "anchors": ["invisible_cities/io/mcinfo_io.py: load_mchits_dfold, load_mcparticles_dfold"]}
{"id": "C35", "title": "Trigger information survives a write/read cycle", "statement": "Each event's trigger type (other than 0) and trigger channels are stored in one row per event, aligned with the event table.", "quantifier": "every sequence of events", "why_tests_cant": "All histories.", "anchors": ["invisible_cities/io/trigger_io.py: trigger_writer"]}
{"id": "C36", "title": "S1/S2 selection keeps exactly the peaks within the limits", "statement": "The peak selection marks exactly the peaks whose energy and width above the threshold, height (and, for S2s, number of SiPMs) lie in the closed ranges and an event passes exactly when the numbers of valid S1s and S2s lie in the closed ranges; combining selections of one event with & and | is peak-wise conjunction and disjunction, and selections with different numbers of peaks are refused; limits that are upside down are refused.", "quantifier": "every pmap and every set of limits", "why_tests_cant": "All pmaps.", "anchors": ["invisible_cities/filters/s1s2_filter.py: S12Selector, S12SelectorOutput, pmap_filter"]}
{"id": "C37", "title": "Trigger emulation", "statement": "The trigger filter passes an event exactly when the number of peaks, over all trigger channels, above the lower and not above the upper limits of height, charge and width reaches the requested minimum, which must be at least one; so when no channel has two such peaks it passes exactly when the number of channels with such a peak reaches the minimum. Without a trigger every event passes; unknown types and limits that are upside down are refused.", "quantifier": "every set of peaks per channel", "why_tests_cant": "All peak combinations.", "anchors": ["invisible_cities/filters/trigger_filters.py: TriggerFilter", "invisible_cities/cities/diomira.py: select_trigger_filter"]}
{"id": "C38", "title": "Correction maps are looked up in the right bin and only inside the map", "statement": "For a map with one value per bin, the coefficient returned for a position is the content of the bin containing it, and NaN when the position is outside the half-open map range; no position makes the lookup fail. The normalization is the statistic asked for (of the whole map or of the bins whose centre is in the region), and the factor of a point is normalization / (energy scale x time factor) x exp(z / (lifetime x time factor)), NaN if it is outside the map; asking for the time evolution without a table is an error.", "quantifier": "every position and every map size and range", "why_tests_cant": "All positions, including edges.", "anchors": ["invisible_cities/reco/corrections.py: maps_coefficient_getter, apply_all_correction_single_maps, get_normalization_factor"]}
{"id": "C39", "title": "Selection efficiencies multiply", "statement": "The product of the stage efficiencies reported by the map production equals the total efficiency, the fraction of events surviving all stages; each stage efficiency is the fraction of the events entering the stage that are left; the rows left are exactly those that pass all cuts. If no row passes all cuts but the last, the selection fails with a division by zero and it fails in no other way.", "quantifier": "every data set and every sequence of selections", "why_tests_cant": "All data sets, including those where a stage rejects everything.", "anchors": ["invisible_cities/icaros/selection_functions.py: apply_selections"]}
{"id": "C40", "title": "The krypton map covers its grid exactly once", "statement": "The map produced has exactly one row per (z, x, y) bin, in order; each row has the fit of exactly the events in its bin and its centre as coordinates, bins without events are present and have no values. Regularization changes only missing values in the interior of a slice with at most three missing neighbours, to the mean of the neighbours, within the bounds of the values of the map.", "quantifier": "every set of fitted bins and every grid size", "why_tests_cant": "All subsets of bins.", "anchors": ["invisible_cities/icaros/krmap_functions.py: create_empty_map, merge_maps, fit_map, regularize_map"]}
{"id": "C41", "title": "The PSF does not depend on how the input is split in files", "statement": "Accumulating PSFs file by file gives, for each position of the PSF, the average of the factors weighted with the entries, and the sum of the entries, independent of the order of files. If no peak has hits in two files, the PSF of the files is equal to the PSF of one file with all the hits.", "quantifier": "every number of files, every data", "why_tests_cant": "All partitions of the data.", "anchors": ["invisible_cities/cities/eutropia.py: combine_psfs", "invisible_cities/reco/psf_functions.py: create_psf"]}
{"id": "C42", "title": "Satellite killing removes exactly the small components", "statement": "The satellite mask marks exactly the pixels not below the cut (absolute, or relative to the greatest value) that belong to a deposit of less pixels than the maximum size, a deposit being a maximal set of pixels connected by steps to touching pixels (at most one along each axis, along at most two axes), and nothing when there is a single deposit. A mask is obtained for every image, except with a relative cut of an image without pixels. Setting the marked pixels to zero leaves no satellites (positive absolute cut).", "quantifier": "every image, cut and size", "why_tests_cant": "All images.", "anchors": ["invisible_cities/reco/deconv_functions.py: generate_satellite_mask, collect_component_sizes"]}
{"id": "C43", "title": "Dropping isolated sensors redistributes their energy", "statement": "Dropping hits not above a charge cut keeps exactly those above; dropping isolated sensors keeps exactly the hits with another sensor at a positive distance up to the given one; dropping isolated clusters (of at most nhits >= 1 hits, hits with unique labels) keeps exactly the hits in larger clusters of close hits, each once, and fails if there is none. In each case the redistributed variables of the hits of a peak are scaled by a common factor that keeps their total, provided some hit is kept, and the rest of the hit is unchanged. This holds for each peak of an event by itself; with positive variables the charge cut and the removal of sensors never fail.", "quantifier": "every hit set, distance, cluster size", "why_tests_cant": "All geometries and energies.", "anchors": ["invisible_cities/reco/deconv_functions.py: cut_and_redistribute_df, drop_isolated_sensors, drop_isolated_clusters"]}
{"id": "C44", "title": "Deconvolved hits carry the peak energy", "statement": "The deconvolved hits of a peak are the pixels above the cut of the deconvolved images of its slices in z, in order; their energies are proportional to the values of the pixels and, if some pixel is above the cut, add up to the energy of the peak, up to the final rounding of each energy.", "quantifier": "every deconvolution, hit set, cut and rounding, whenever the deconvolution succeeds", "why_tests_cant": "All images.", "anchors": ["invisible_cities/cities/beersheba.py: distribute_energy, create_deconvolution_df"]}
{"id": "C45", "title": "Richardson-Lucy keeps images non-negative", "statement": "For every image and PSF without negative values, every number of iterations, tolerance and choice of satellite killing, the deconvolution gives an image of the same shape without negative values (an image without pixels is refused). A pixel that is zero after some iterations is zero after more of them, and with killing of satellites (positive absolute cut) from the first iteration the result has no satellites.", "quantifier": "every image, PSF and number of iterations", "why_tests_cant": "Unbounded number of iterations.", "anchors": ["invisible_cities/reco/deconv_functions.py: richardson_lucy"]}
{"id": "C46", "title": "Simulated S2 photons land in the time bin of their arrival", "statement": "For electrons that do not cross the EL gap before the start of the buffer, the simulated S2 waveform of a sensor has in each bin exactly the light of the parts of the gap that electrons cross in the time interval of the bin, so it has light only in bins in which an electron is in the gap, and the light after the end of the buffer is dropped, not misplaced. When a part of the gap takes more than a bin to cross, the light of each bin is shared equally by that number of bins around it. (The light of an electron that crosses the gap before the start of the buffer is misplaced to the end of the waveform, or stops the program.)", "quantifier": "every electron time, bin width, buffer", "why_tests_cant": "All times including those before the buffer start.", "anchors": ["invisible_cities/detsim/s2_waveforms_c.pyx: create_wfs"]}
{"id": "C47", "title": "Spreading a waveform in time conserves its content", "statement": "Spreading a histogram gives each bin the equal shares of the positive bins it is spread from, l bins to the left and r to the right; no bin becomes negative and no content is created; the content is conserved when no bin is negative, the first l bins are empty and no share leaves at the end. (The content of the first l bins is lost.)", "quantifier": "every histogram and smearing length", "why_tests_cant": "All histograms.", "anchors": ["invisible_cities/detsim/s2_waveforms_c.pyx: spread_histogram"]}
{"id": "C48", "title": "Integration limits are usable", "statement": "For successive windows (period at least the width), of whose limits at most half fall before and at most half after the buffer, the integral limits accepted for calibration are, in order, the pairs of limits of exactly the windows contained in the buffer, for the windows with light and for those before it. Integrating over increasing limits that are smaller than the waveform length gives the sum of each window for each sensor; other limits are refused. (A window that ends with the buffer is accepted by the first function and refused by the second.)", "quantifier": "every start, width, period, number of integrals and buffer length", "why_tests_cant": "All combinations.", "anchors": ["invisible_cities/calib/calib_functions.py: valid_integral_limits, filter_limits, spaced_integrals, integral_limits"]}
{"id": "C49", "title": "Database constants are those of the run", "statement": "The PMT and SiPM tables returned for a run (its absolute value; 3012 for run 0) contain exactly the rows made of constants whose validity interval contains the run, with a sensor inactive exactly when a mask for the run names it; they have one row per sensor, in order of sensor, when at most one constant of each kind is valid per sensor. The SiPM noise tables give each sensor its own distribution, bin by bin, when each sensor has one probability per bin. For every history of cached calls each call gives the same table as an uncached call.", "quantifier": "every run number and interval table", "why_tests_cant": "All run numbers.", "anchors": ["invisible_cities/database/load_db.py: DataPMT, DataSiPM, SiPMNoise"]}
{"id": "C50", "title": "Noise thresholds cut at the requested percentile", "statement": "The threshold computed from a noise PDF is the smallest bin at which the cumulative probability reaches the requested noise cut, so at least that fraction of noise is below or at threshold and less than it is below; it exists whenever the cut does not exceed the total probability. Masked sensors and sensors without noise get an infinite threshold.", "quantifier": "every PDF and cut", "why_tests_cant": "All PDFs.", "anchors": ["invisible_cities/core/random_sampling.py: inverse_cdf_index, inverse_cdf, general_thresholds"]}
{"id": "C51", "title": "Event range parsing", "statement": "Each documented event_range (unspecified, all, n, (n, m), (n, last)) is translated to the slice with the events it denotes: the first one, all, the first n, those from n to m-1, those from n on. A tuple is rejected with ValueError exactly when it is empty, has more than two values, is a pair with all in it or starts with last.", "quantifier": "every event_range value", "why_tests_cant": "All integer values.", "anchors": ["invisible_cities/cities/components.py: event_range"]}
{"id": "C52", "title": "Each pair of S1 and S2 of an event is stored in one row", "statement": "For each event with at least one selected S2, the pointlike event table has one row per pair of selected S1 and S2 (one per S2 with missing S1 data if there is no S1), in order, each carrying the attributes of its S1, of its S2 and the drift time and position of the pair. (An event with no selected S2 cannot be stored.)", "quantifier": "every event", "why_tests_cant": "All numbers of peaks.", "anchors": ["invisible_cities/evm/event_model.py: KrEvent.store"]}
{"id": "C53", "title": "Hits read from a table are grouped by event without loss", "statement": "Reading hits back from a table in which each event has a single time gives one collection per event containing exactly its rows in order.", "quantifier": "every table", "why_tests_cant": "All tables.", "anchors": ["invisible_cities/io/hits_io.py: hits_from_df"]}
{"id": "C54", "title": "Baseline subtraction and calibration", "statement": "Calibrated waveforms are (waveform - baseline)/gain for sensors with a positive gain and zero for the others, for every baseline method (mean, median and modes of the non-zero samples of the waveform); masking sets to zero exactly the waveforms of the inactive sensors; subtracting the moving average gives the difference with the mean of the last samples.", "quantifier": "every waveform", "why_tests_cant": "All waveforms.", "anchors": ["invisible_cities/calib/calib_sensors_functions.py: subtract_baseline, calibrate_wfs, mask_sensors, calibrate_pmts"]}
{"id": "C55", "title": "Baseline-restoration deconvolution is causal and local outside signal", "statement": "For waveforms of 400 samples or more (others are refused) each output sample of the PMT deconvolution depends only on the first 400 samples and on the samples up to it; it is the filtered sample plus its share of the accumulated charge; once the samples stay below the trigger line with the accumulator below its threshold, the accumulator is zero after a number of samples fixed by the settings, and with no signal at all the output is the filtered input with a fixed gain. (An accumulator above its threshold is never reset.)", "quantifier": "every waveform", "why_tests_cant": "All waveforms.", "anchors": ["invisible_cities/sierpe/blr.pyx: deconvolve_signal"]}
{"id": "C56", "title": "Corrected energy from the 3D map does not depend on the normalization", "statement": "The energy corrected with the 3D map, when expressed in a physical unit, is the raw energy times the Kr energy divided by the local map value and is independent of the normalization method.", "quantifier": "every map value, energy and non-zero normalization", "why_tests_cant": "All values.", "anchors": ["invisible_cities/icaros/correction_functions.py: apply_3Dmap"]}
{"id": "C57", "title": "Drift and diffusion never create electrons", "statement": "For every outcome of the random draws the number of electrons of each hit after drift is at most the number that the hit produced, and with the same draws a longer drift leaves at most as many; the electrons at the EL come in the order of their hits, as many of each hit as survive, each with a time equal to that of its hit plus its drift time and a number of photons; the electrons of hits with z <= 0 do not move. Events with hits of non-negative energy are always simulated. The number of electrons of a hit is the Poisson draw for few electrons and else the whole number nearest to the normal draw, or zero if that is negative; the number that survives the drift is the number of draws longer than the drift.", "quantifier": "every hit set and every random outcome", "why_tests_cant": "All random draws.", "anchors": ["invisible_cities/detsim/simulate_electrons.py: generate_ionization_electrons, drift_electrons, diffuse_electrons"]}
{"id": "C58", "title": "Input files are processed once", "statement": "The input files of a city are those of its patterns, each once, in order of first appearance. The waveform source gives each event of each file with all its tables once, in the order of the files and of their rows, skips the files that lack a table, and ends with an error, after the events of the previous files, at a file whose tables have different numbers of rows. (A file with an empty run table ends it with IndexError.)", "quantifier": "every list of file patterns", "why_tests_cant": "All lists.", "anchors": ["invisible_cities/cities/components.py: city, wf_from_files"]}
{"id": "C59", "title": "Selection of the n sensors with most charge", "statement": "The top-n selection with n >= 1 selects exactly min(n, number of sensors) sensors and every selected sensor has at least the charge of every unselected one, whatever order the sort gives to equal charges. (n = 0 selects every sensor.)", "quantifier": "every set of waveforms, every n, every order of ties", "why_tests_cant": "The result depends on the unspecified order of ties of numpy's argsort.", "anchors": ["invisible_cities/reco/wfm_functions.py: top_n_method"]}
{"id": "C60", "title": "SiPM selection by charge", "statement": "The threshold selection returns, in order, exactly the sensors whose samples above the per-sensor threshold add up to at least the integrated threshold, each with its waveform set to zero at the samples not above threshold.", "quantifier": "every set of waveforms and thresholds", "why_tests_cant": "All numbers of sensors and samples.", "anchors": ["invisible_cities/reco/wfm_functions.py: zero_wfs_below_threshold, charge_threshold_method", "invisible_cities/reco/peak_functions.py: select_wfs_above_time_integrated_thr"]}
{"id": "C61", "title": "Event filter flags survive a write/read cycle", "statement": "Reading the table of event filters gives one row per event that reached some filter, and says yes in a filter's column exactly where the event passed that filter, provided that no event is repeated in a filter.", "quantifier": "every sequence of filters and events", "why_tests_cant": "All histories of events and filters.", "anchors": ["invisible_cities/io/event_filter_io.py: event_filter_writer, event_filter_reader"]}
{"id": "C62", "title": "The time evolution factor interpolates the table and averages to one", "statement": "The factor applied for the time of an event is the value on the straight line between the neighbouring entries of the time evolution table (constant outside), divided by the mean of the table weighted with the inverse uncertainties; it exists for every time if the entries and uncertainties are positive, stays within the bounds of the table, and the weighted mean of the factors at the times of the table is one.", "quantifier": "every table with increasing times and every time", "why_tests_cant": "All tables and times.", "anchors": ["invisible_cities/reco/corrections.py: time_coefs_corr, get_df_to_z_converter"]}
{"id": "C63", "title": "Time slices of the map production partition the data", "statement": "The rows of the pointlike table are split into slices: each row is in exactly one slice, each slice is a time interval of the requested length counted from the first row, no slice is empty, and the times of the slices increase strictly. The rows used for the lifetime are exactly those in the square or circle asked for.", "quantifier": "every table and slice length", "why_tests_cant": "All tables, including rows on the edges of slices.", "anchors": ["invisible_cities/icaros/krmap_functions.py: get_time_evol", "invisible_cities/icaros/lifetime_vdrift_functions.py: select_lifetime_region"]}
{"id": "C64", "title": "The hits of a peak are completed with empty sensors and normalised", "statement": "Before the PSF is computed, each peak (event, time, peak number) is processed by itself: there is one row per distinct position of a hit of the peak or of a database sensor in the half-open window around the peak (sensors at the lowest z of the peak), with the charge of the first hit at the position (zero for an empty sensor) divided by the total charge; the normalised charges of a peak add up to one.", "quantifier": "every set of hits whose peaks have one peak position and a non-zero charge, every sensor database and window", "why_tests_cant": "All hit sets, including repeated positions and hits outside the window.", "anchors": ["invisible_cities/reco/psf_functions.py: add_empty_sensors_and_normalize_q, hdst_psf_processing"]}
{"id": "C65", "title": "The Richardson-Lucy deconvolution keeps the total charge", "statement": "For a PSF with an odd number of pixels along each axis and a positive central pixel, and image and PSF without negative values, the sum of the deconvolved image is the sum of the image, for every positive number of iterations and every tolerance; with killing of satellites the sum is not greater.", "quantifier": "every image, PSF of odd size and number of iterations, in any number of dimensions", "why_tests_cant": "Unbounded number of iterations and sizes.", "anchors": ["invisible_cities/reco/deconv_functions.py: richardson_lucy"]}
{"id": "C66", "title": "The buffer of a simulated event keeps all its light", "statement": "The buffer of a simulated event starts at a multiple of the wider bin less than a bin before the first hit and, unless cut at the maximum length, ends after the last electron has crossed the EL gap. If it is not cut, no electron arrives before the first hit, and the time to cross a part of the gap is at most a bin or a whole number of bins, the sum of the simulated S2 waveform of each sensor is all the light it sees. (With other crossing times light at the start of the buffer is lost.)", "quantifier": "every set of hits and electrons, every light table, bin widths, drift velocity and maximum length", "why_tests_cant": "All times and geometries.", "anchors": ["invisible_cities/cities/detsim.py: buffer_times_and_length_getter, s2_waveform_creator", "invisible_cities/detsim/s2_waveforms_c.pyx: create_wfs"]}
{"id": "C67", "title": "The simulated hits are those of the active volume in time", "statement": "The hits simulated are exactly those less than the maximum time after the first hit of the event, and of these the ones labelled active (or active and buffer for S1), in the order of the file; with a positive maximum time at least one hit is kept.", "quantifier": "every list of hits, label table and maximum time", "why_tests_cant": "All lists of hits.", "anchors": ["invisible_cities/cities/detsim.py: filter_hits_after_max_time, hits_selector"]}
{"id": "C68", "title": "The table of tracks of an event describes its hits", "statement": "When at least one hit is inside the correction map, the hits inside it have positive energy and there are not too many hits, the reconstruction of tracks succeeds. Every hit is written exactly once, at its rounded position; it has no energy exactly when it belongs to no track (out of the map, or in a dropped voxel). Tracks are numbered from 0 by decreasing energy, their energies add up to the energy of the hits inside the map, and hits of remaining voxels share a number exactly when their voxels are connected. The number of hits, energy, box and barycentre in the row of a track are those of the hits that carry its number; the blobs satisfy 0 <= E2 <= E1 <= E and, for hits at different positions, the overlap is between 0 and E2. The flag tells whether a hit is out of the map. With too many hits, or no energy, there are no tracks.", "quantifier": "every set of hits, all parameters of the reconstruction, every numbering of shortest paths", "why_tests_cant": "The hits, their grouping into voxels, and the energy moved by the dropped voxels vary without bound.", "anchors": ["invisible_cities/cities/components.py: track_blob_info_creator_extractor", "invisible_cities/reco/paolina_functions.py: get_track_energy"]}
{"id": "C69", "title": "The summary, hits and tracks written for an event agree", "statement": "For such an event exactly one summary row is written: its number of tracks is the number of rows of the table of tracks, its number of hits the number of input hits, its energy the energy of the hits inside the map, its box that of the hits written and its mean position their energy-weighted mean, or not a number when a hit is out of the map. The hits are written in the order of Z, X, Y. An event without hits leaves only its flag.", "quantifier": "every event and choice of energy column", "why_tests_cant": "All events.", "anchors": ["invisible_cities/cities/components.py: compute_and_write_tracks_info, make_event_summary, sort_hits, Efield_copier"]}
{"id": "C70", "title": "Every sample of every selected S2 becomes hits with its energy", "statement": "For an event in which some S2 is selected, with all SiPMs in the database and a positive charge threshold, sipms_as_hits returns one group of hits for each selected S2, in order, with the position of the S2 among all the S2s of the event (up to 65536) as peak number, the event number, the time in seconds and the position of the first cluster of the global reconstruction (or the empty value if it fails). For each sample of the rebinned S2 there is one hit for each SiPM whose charge reaches the threshold, at the position of the SiPM in the database, with its charge, and the energy of the PMTs in that sample shared in proportion to the charges; if no SiPM reaches it there is exactly one hit without position that carries the whole energy. Z is the drift velocity times the time since the first selected S1 (its maximum), or since the start of the first selected S2 when no S1 is selected. The hits of an S2 without negative samples together have its energy, up to the relative precision 2^-52/(threshold + 2^-52) of the formula. hit_builder does the same with clusters. With no selected S2 (or an S2 without SiPMs) an exception is raised, and so it is when the rebinning arguments are given in the order in which they are documented.", "quantifier": "every PMap, selection, run, threshold, rebinning, charge definition, noise function and reconstruction algorithm", "why_tests_cant": "The tests run one file and check totals at the end of the city; samples without SiPMs over threshold, several S1s, unselected peaks in between and every kind of rebinning cannot be enumerated.", "anchors": ["invisible_cities/cities/components.py::sipms_as_hits", "invisible_cities/cities/components.py::hit_builder", "invisible_cities/cities/components.py::get_s1_time", "invisible_cities/evm/pmaps.py::S2.sipm_charge_array"]}
{"id": "C71", "title": "Reading hits files gives one item per event with exactly its own rows", "statement": "For any list of files, each with all its tables and as many events in its event table as distinct events in its pointlike table, or lacking some table, reading hits gives, file after file, one item for each row of the event table, in order, with its number and time, the run of the file and exactly the hits and pointlike rows with that event number, in the order of the file; a file that lacks some table or whose run table is empty gives nothing and does not stop the reading. If the event numbers of the table are distinct and contain those of the hits, no hit is lost or repeated. A file where the numbers of events differ stops the reading with an error after all the items of the files before. The reader of whole tables gives one item per complete file. The reader of deconvolved hits gives one item per event with hits, in order of first appearance, with the time of that event and with the charge replaced by the energy, and stops with an IndexError when a hit belongs to an event that is not in the table.", "quantifier": "every list of files, each with any tables or without them", "why_tests_cant": "Each test reads one well-formed file; which hits reach which item, for any order of rows, events without hits, and missing tables in some file, cannot be enumerated.", "anchors": ["invisible_cities/cities/components.py::hits_and_kdst_from_files", "invisible_cities/cities/components.py::dst_from_files", "invisible_cities/cities/components.py::dhits_from_files"]}
{"id": "C72", "title": "Reading simulation files gives one item per event with its own hits, light and a time that increases with the event number", "statement": "Reading simulated hits gives, file after file, one item per event that has hits, in increasing order of event, with exactly its hits in the order of the file, no hit lost or repeated; files without hits are skipped. Reading simulated sensors gives one item for each event of the file, also those without light, with the light in the PMTs of the database apart from that in the other sensors, each row with its charge and with the time at which its bin begins, as long as every sensor with light is listed once and its type has a bin width; a PMT that is not in the database is refused before any item. The timestamp of an event lies in the period of the source that has its number, whatever is drawn, for the absolute value of the rate or half a hertz if it is zero: events with larger numbers are always later.", "quantifier": "every list of files, every rate, every sequence of random draws, every event number", "why_tests_cant": "Timestamps are random and the tests draw a few; the assignment of rows to events for arbitrary orders of rows and any table of sensors cannot be enumerated.", "anchors": ["invisible_cities/cities/components.py::MC_hits_from_files", "invisible_cities/cities/components.py::mcsensors_from_file", "invisible_cities/cities/components.py::create_timestamp", "invisible_cities/io/mcinfo_io.py::convert_timebin_to_time"]}
{"id": "C73", "title": "Each city is a plain loop over the events of its range", "statement": "Running a city (irene, hypathia, dorothea, sophronia, esmeralda, isaura, beersheba, diomira, isidora, buffy, detsim, phyllis, trude, berenice) on a list of events has exactly the effects of a plain program that takes the events selected by event_range one after the other and, for each, applies the operations of the city in the documented order to the documented data: the rows written in every table, in order, the counters, the numbers of accepted and rejected events of every filter, the list of event numbers and the accumulated histograms are those of the program. If an operation or a writer raises an exception at some event, everything has been done for the events before it, only the steps before the failing one for that event, nothing for the events after it, and the exception reaches the caller; a negative limit of the range is refused.", "quantifier": "all lists of events, event ranges, data, operations (any functions, failing or not, that return the right number of values) and writers that may fail", "why_tests_cant": "the networks of coroutines, forks and branches share mutable items, so a test only shows that one combination of data, filters and failures behaves; that no branch overwrites what another one reads, and what is in the files after a failure, must hold for all", "anchors": ["invisible_cities/cities/irene.py::irene", "invisible_cities/cities/hypathia.py::hypathia", "invisible_cities/cities/dorothea.py::dorothea", "invisible_cities/cities/sophronia.py::sophronia", "invisible_cities/cities/esmeralda.py::esmeralda", "invisible_cities/cities/isaura.py::isaura", "invisible_cities/cities/beersheba.py::beersheba", "invisible_cities/cities/diomira.py::diomira", "invisible_cities/cities/isidora.py::isidora", "invisible_cities/cities/buffy.py::buffy", "invisible_cities/cities/detsim.py::detsim", "invisible_cities/cities/phyllis.py::phyllis", "invisible_cities/cities/trude.py::trude", "invisible_cities/cities/berenice.py::berenice", "invisible_cities/cities/components.py::compute_and_write_pmaps", "invisible_cities/cities/components.py::compute_and_write_tracks_info", "invisible_cities/cities/components.py::calculate_and_save_buffers", "invisible_cities/dataflow/dataflow.py::push"]}
{"id": "C74", "title": "The tables and counters of a city speak of the same events", "statement": "When a city processes its range without failures, its output is consistent: events_in is the number of events in the range; each filter has one row per event that reaches it, in order, with the decision taken, and its accepted and rejected counts are the numbers of those decisions; the data tables (PMaps, trigger, kdst, hits, waveforms, buffers, deconvolved hits, tracks, summary), the Run/events table, the list of event numbers and events_out contain exactly the accepted events, once each and in order (in esmeralda and isaura all the events, with tracks only for those with tracks).", "quantifier": "all event ranges, lists of events, data and operations of irene, hypathia, dorothea, sophronia, esmeralda, isaura, beersheba, diomira and buffy", "why_tests_cant": "the agreement between tables written by different branches of the network must hold for every pattern of accepted and rejected events", "anchors": ["invisible_cities/cities/irene.py::irene", "invisible_cities/cities/hypathia.py::hypathia", "invisible_cities/cities/dorothea.py::dorothea", "invisible_cities/cities/sophronia.py::sophronia", "invisible_cities/cities/esmeralda.py::esmeralda", "invisible_cities/cities/isaura.py::isaura", "invisible_cities/cities/beersheba.py::beersheba", "invisible_cities/cities/diomira.py::diomira", "invisible_cities/cities/buffy.py::buffy", "invisible_cities/cities/components.py::collect", "invisible_cities/dataflow/dataflow.py::count_filter"]}
{"id": "C75", "title": "The S1 waveforms hold the light of the hits, delayed by the emission", "statement": "For a buffer of a whole number of time bins and non-negative photoelectrons, the simulated S1 waveforms have one row per PMT and one value per bin; the value of bin j is the sum, over the bins i up to j, of the photoelectrons of the hits in bin i times the fraction of the light emitted j - i bins after, none after two microseconds. Hence no value is negative, each hit contributes in total the fraction emitted before the end of the buffer and never more than its own light, hits outside the buffer contribute nothing, and the light in a bin depends only on the hits before its end. The photoelectrons of a hit in a PMT are its photons times the value of the light table.", "quantifier": "every list of hits, every number of PMTs, start time, bin width and buffer length, every emission-time distribution", "why_tests_cant": "The tests check shapes and one total; which bin receives which light, for any time of the hits and any width, cannot be enumerated.", "anchors": ["invisible_cities/detsim/detsim_waveforms.py::generate_s1_waveform", "invisible_cities/detsim/simulate_s1.py::compute_s1_pes_at_pmts"]}
{"id": "C76", "title": "The light tables give the value of the nearest position, and none outside", "statement": "The function made from a table of scintillation light gives, for every position in the active volume and between the first and last z of the table, the row with the nearest x, the nearest y and the nearest z (the lower of two at the same distance), zeros if the table has no such row, and zeros outside the volume. For a SiPM table with distances 0, b, 2b, ... the values are those of the row k with k b <= distance < (k+1) b, divided by the number of partitions of the gap, and zero beyond the last distance, outside the active radius and for unknown sensors; the index is never out of range. For a PMT table with the same range in x and y the value is that of a row nearest to a point of the grid that is at most half a bin from the electron along each axis, never out of range. The edges made from the centres of bins are their midpoints, closed by the ends of the range given or by the first and last centre; centres that do not increase or that are out of the range are refused.", "quantifier": "every table, position, active radius, sensor, number of partitions", "why_tests_cant": "The tests compare a few positions at the centres of a table; positions at the edges of bins, between them or outside, for any table, cannot be enumerated.", "anchors": ["invisible_cities/detsim/light_tables.py::create_lighttable_function", "invisible_cities/core/core_functions.py::binedges_from_bincenters", "invisible_cities/detsim/light_tables_c.pyx::LT_SiPM", "invisible_cities/detsim/light_tables_c.pyx::LT_PMT"]}
{"id": "C77", "title": "Hits are tagged with the density clusters of their event", "statement": "Within each event, hits get the cluster numbers of density-based clustering on positions divided by the given scales: hits with enough hits within one cell (diagonals included) around them are dense, two dense hits have the same number exactly when a chain of close dense hits joins them, other hits take the first cluster with a dense hit close to them or -1, and numbers run from zero without gaps. Every hit comes out once with all its other values unchanged; when the hits of the table are in order of event the rows also keep their order and index. (When events are interleaved the index of the output belongs to other hits: shown as a counterexample.)", "quantifier": "Every table of hits of any number of events, every scale and every minimum number of hits.", "why_tests_cant": "Clusters depend on every chain of hits in an event; tests check a few arrangements.", "anchors": ["invisible_cities/reco/hits_functions.py::cluster_tagger", "invisible_cities/cities/components.py::hits_clusterizer"]}
{"id": "C78", "title": "The noise of several samples is that of sums of single samples", "statement": "The distribution of the noise of a SiPM over n samples gives, at each charge, the probability that n independent single samples add up to that charge, when zero is at a bin of the noise table and n samples cannot exceed the padded range; its total is one and its mean n times that of one sample, and outside those guards it never exceeds that probability. The dark-noise level of a sensor is the 99% threshold (or the mean) of its own distribution and zero for masked sensors; the signal to noise of a sensor is its signal over the root of signal plus its own dark level; a sample width below one is refused. Simulated noise is exactly zero for masked sensors and otherwise within one bin of a charge with non-zero probability; fluctuating a charge never makes it negative, keeps zero at zero, and changes nothing for a null width. (With zero off the bins the noise is displaced, and sums beyond the range are lost: shown as counterexamples.)", "quantifier": "Every noise table, number of samples, sensor, charge and draw of the random generator.", "why_tests_cant": "The distribution is a discretised characteristic of any number of samples of any table; tests compare a few widths of one table.", "anchors": ["invisible_cities/core/random_sampling.py::pad_pdfs", "invisible_cities/core/random_sampling.py::NoiseSampler", "invisible_cities/detsim/sensor_functions.py::charge_fluctuation", "invisible_cities/detsim/sensor_functions.py::simulate_sipm_response"]}
{"id": "C79", "title": "PMT waveforms add up the response to each photoelectron", "statement": "Each photoelectron adds one pulse of the single-photoelectron shape to the current, starting at its sample, except in the last samples of the buffer shorter than a pulse, so the total charge is that of the photoelectrons; the waveform has one sample per decimation step when the buffer is a whole number of steps and is refused otherwise; the response to a combination of signals is the combination of the responses, with the noise added once; light never changes samples earlier than itself by more than half of the length of the decimation filter; and the low-frequency noise of a PMT is the sum over frequencies of the terms of its own electronics box. (Short buffers, light at the end, and PMTs without box: shown as counterexamples.) The single-photoelectron shape rises linearly, is flat and falls linearly.", "quantifier": "Every sequence of photoelectrons, filter coefficients, noise draw and mapping of PMTs.", "why_tests_cant": "Linearity and causality relate the responses to all signals of all lengths; tests look at a few pulses.", "anchors": ["invisible_cities/sierpe/fee.py::spe_pulse_from_vector", "invisible_cities/sierpe/fee.py::signal_v_fee", "invisible_cities/sierpe/fee.py::daq_decimator", "invisible_cities/sierpe/low_frequency_noise.py::low_frequency_noise", "invisible_cities/detsim/sensor_functions.py::simulate_pmt_response"]}
{"id": "C80", "title": "Corrected hits keep every hit and lose only the light outside the circle", "statement": "Without time corrections and with a usable map (values, none of them zero, and a number other than zero as normalization), correcting an event gives every hit, in the same order, the corrected energy of its own energy times 41.55 keV over the value of a bin of the map nearest to its drift time and position; z is multiplied by a median of the drift velocities when asked; nothing else changes. With time corrections there is never a result. Esmeralda then keeps exactly the hits strictly inside the circle whose charge reaches the threshold, each once; the energy and the corrected energy of the event before tracking are those of the corrected hits inside the circle, up to the small regulator, when energies and map are positive and each hit inside has another one to give its energy to; the same holds in Beersheba without the circle. Hits that stand for missing light are outside every circle, so Esmeralda loses their energy. (That the frame passed in is not modified, as documented, and that correcting twice is harmless, are shown false.)", "quantifier": "Every list of hits, map, set of drift velocities, radius, thresholds and choice of nearest bins.", "why_tests_cant": "Per-hit identity and conservation must hold for all events, maps and ties; tests compare a few files.", "anchors": ["invisible_cities/cities/components.py::hits_corrector", "invisible_cities/cities/components.py::hits_thresholder", "invisible_cities/icaros/correction_functions.py::apply_correctionmap_inplace_hits", "invisible_cities/cities/esmeralda.py::hit_dropper", "invisible_cities/cities/esmeralda.py::esmeralda", "invisible_cities/cities/beersheba.py::beersheba"]}
{"id": "C81", "title": "Calibration spectra count every sample once", "statement": "Entry k of a histogram is the number of samples from edge k up to, not including, edge k+1, the last bin including its upper edge; decreasing edges are refused; the entries add up to the number of samples between the first and the last edge. The accumulated spectrum of each sensor counts all its samples, or all its integrals over the windows, in all the events. The edges are the minimum plus multiples of the width while below the maximum, so values between the last edge and the maximum are in no bin (counterexample).", "quantifier": "Every sequence of events, every set of waveforms, edges, windows and bin settings.", "why_tests_cant": "Counting must be exact for all samples, ties with edges and numbers of events; tests use a few random arrays.", "anchors": ["invisible_cities/calib/calib_functions.py::bin_waveforms", "invisible_cities/cities/components.py::waveform_binner", "invisible_cities/cities/components.py::waveform_integrator", "invisible_cities/cities/berenice.py::berenice", "invisible_cities/cities/trude.py::trude", "invisible_cities/cities/phyllis.py::phyllis"]}
{"id": "C82", "title": "The light response fitted to calibrate sensors", "statement": "With a positive minimum the search for the number of photoelectron peaks always ends, with the peaks before the first one whose expected area is not above the minimum; with a negative minimum it never ends; if the search went beyond the mean, every peak left out is below the minimum. The sum of gaussians at each charge is one gaussian per number of photoelectrons in Poisson proportions, negative charges only from the pedestal, and exactly one of number and minimum must be given. The convolution with the dark spectrum gives, at every bin, the dark spectrum in the proportion of no photons plus, for each number of photoelectrons, the weight of all the ways in which a dark charge and as many single charges add up to the charge of the bin, when the charges of the bins are multiples of their width. The seeds of fits with a dark spectrum are within their bounds. (Shown false: that peaks above the minimum are never left out, the same with zero between bins, and seeds within bounds for gaussian pedestals, whose bounds are mixed up.)", "quantifier": "Every number of peaks, spectrum, binning and set of parameters.", "why_tests_cant": "Termination and the exactness of truncated convolutions hold for all parameters and bins; tests try a few.", "anchors": ["invisible_cities/calib/spe_response.py::number_of_gaussians", "invisible_cities/calib/spe_response.py::poisson_scaled_gaussians", "invisible_cities/calib/spe_response.py::scaled_dark_pedestal", "invisible_cities/calib/spe_response.py::dark_convolution", "invisible_cities/core/stat_functions.py::poisson_factor", "invisible_cities/calib/calib_functions.py::seeds_and_bounds", "invisible_cities/calib/calib_functions.py::pedestal_values"]}
{"id": "C83", "title": "The image given to the deconvolution holds the light of the hits", "statement": "With interpolation, the hits are first counted in bins of the width of the samples: the value of each bin is the light of the hits in it, every hit is in exactly one bin and the total is the light of all the hits; the image has one non-negative value for exactly the points of the detector's grid up to one sample and a half away from the hits in every dimension. Without interpolation, the image has one value per point of the grid close to the hits, the light of the hits nearest to it, and its total is the light of the hits between the first and the last of those points in every dimension; with evenly spaced points its position is that of the point, displaced by a quarter of the spacing inwards at the borders. The nearest element of an array is the first one at the least distance, and an empty array is refused.", "quantifier": "Every set of hits in any number of dimensions, sample width, detector grid and interpolation function.", "why_tests_cant": "Conservation and uniqueness range over all hits, including those on the edges of bins; tests compare totals of a few events.", "anchors": ["invisible_cities/reco/deconv_functions.py::deconvolution_input", "invisible_cities/reco/deconv_functions.py::interpolate_signal", "invisible_cities/reco/deconv_functions.py::find_nearest", "invisible_cities/cities/beersheba.py::deconvolve_signal", "invisible_cities/core/core_functions.py::shift_to_bin_centers", "invisible_cities/core/core_functions.py::binedges_from_bincenters"]}
{"id": "C84", "title": "Binned averages average exactly the values of each bin", "statement": "A profile over a range has one centre per bin; the average of a bin is the mean of the values of the rows whose coordinate is in the bin, lower edge included and upper edge excluded, and whose value is in the other range, and it is missing exactly when there is none; the deviation is that of the sample, or that of its mean, and is missing for fewer than two values. Dropping the empty bins keeps exactly the others, in order. The profile along y exchanges the coordinates. The two-dimensional profile does the same in each cell, with zero for no values, and is refused when no row is in the ranges. Without a range that of the data is used; no data or different lengths are refused.", "quantifier": "Every data set, number of bins, pair of ranges and option.", "why_tests_cant": "Which values enter each bin depends on every edge and value; tests compare gaussian samples.", "anchors": ["invisible_cities/core/fit_functions.py::profileX", "invisible_cities/core/fit_functions.py::profileY", "invisible_cities/core/fit_functions.py::profileXY"]}
{"id": "C85", "title": "Fits stored in tables of calibration parameters are read back as they were stored", "statement": "In a file of calibration parameters, a history of new tables and stored fits, in any order, works exactly when each table is created once and each fit is stored in a table that exists and for parameters of that table. Afterwards the reader of a table gives the fits stored in that table, in order, each with its sensor and the rounded value and error of every parameter of the table, zeros for those not given. The reader of some parameters gives those only and refuses unknown names; the reader of one sensor gives its fit when there is exactly one; otherwise, and when there is no table, the program ends. A refused fit adds no row.", "quantifier": "Every history of tables and fits, with any names, sensors, values and rounding.", "why_tests_cant": "The rows of several tables of one file are written in any interleaving; tests write one table.", "anchors": ["invisible_cities/io/channel_param_io.py::channel_param_writer", "invisible_cities/io/channel_param_io.py::store_fit_values", "invisible_cities/io/channel_param_io.py::generator_param_reader", "invisible_cities/io/channel_param_io.py::subset_param_reader", "invisible_cities/io/channel_param_io.py::single_channel_value_reader", "invisible_cities/io/channel_param_io.py::parameters_and_errors"]}
{"id": "C86", "title": "The output of a chain of cities carries the configuration of each of them", "statement": "When a city has finished, its output file holds a table with its arguments: one row per value, nested dictionaries being flattened to dotted paths, texts cut at 300 characters; when two paths coincide the last value is kept. The file also holds the configurations found in its first input file, and every table has exactly the indices it asks for. Hence after a chain of different cities, each reading the output of the one before it, the last file has the configuration of every one of them and those the first file had. A city that is already in the history of its first input file fails at the end and indexes no table.", "quantifier": "Every nested configuration, every chain of cities and every set of tables and input files.", "why_tests_cant": "The history of a file is as long as the chain of cities; tests run one city.", "anchors": ["invisible_cities/cities/components.py::city", "invisible_cities/cities/components.py::dict_to_string", "invisible_cities/cities/components.py::write_city_configuration", "invisible_cities/cities/components.py::copy_cities_configuration", "invisible_cities/cities/components.py::index_tables"]}
{"id": "C87", "title": "The simulation tables of the output hold exactly the events asked for", "statement": "Copying the simulation tables of the input files to the output of a city gives, table by table, exactly the rows of the simulated events whose number was asked for, file after file and in order, with their event numbers, and the tables without events entirely; it works exactly when every event asked for is in one of the files, if the files are readable and the first one with simulation has one of the events. Copying in two steps, as two cities do, gives what copying once gives, if the files have their own event numbers and share no simulated event.", "quantifier": "Every list of input files and tables and every list of event numbers.", "why_tests_cant": "The rows of all files meet in one table with overlapping event numbers; tests copy one or two files.", "anchors": ["invisible_cities/cities/components.py::copy_mc_info", "invisible_cities/io/mcinfo_io.py::safe_copy_nexus_eventmap", "invisible_cities/io/mcinfo_io.py::read_mc_tables", "invisible_cities/io/mcinfo_io.py::copy_mc_info", "invisible_cities/io/mcinfo_io.py::get_event_numbers_in_file"]}
{"id": "C88", "title": "The hits of a simulated event are the same however they are read", "statement": "In a simulation file before 2020 whose extents grow and end with the tables, reading event by event gives the hits, the particles and the generator of every event: the lists of hits, one after the other, are the table of hits, and each ends at the row given by its extent; a range of events gives those of the range; an event that is not there is an error, and so is a file without particles. The conversion of a table of hits to a dictionary gives every event of the table with its hits in the order of their identifiers, if these are different. Both ways give the same hits to every event with hits, if the identifiers grow inside each event.", "quantifier": "Every file, with any number of events, hits and particles, and every range of events.", "why_tests_cant": "The two readers find the events in different ways (running index and backward fill); tests compare them on one file.", "anchors": ["invisible_cities/io/mcinfo_io.py::read_mcinfo_evt", "invisible_cities/io/mcinfo_io.py::_read_mchit_info", "invisible_cities/io/mcinfo_io.py::get_mc_info", "invisible_cities/io/mcinfo_io.py::load_mchits_dfold", "invisible_cities/io/mcinfo_io.py::cast_mchits_to_dict"]}
{"id": "C89", "title": "The sampling periods come from the configuration of the simulation", "statement": "The table of sampling periods of a simulation file has every sensor declared as <name>_binning in its configuration, once, with the value times the unit of its first declaration, except the geometries, for names that neither begin nor end with a letter of _binning; in files before 2020 the photomultipliers are called PmtR11410 and the SiPMs SiPM, each with the first declaration of its kind. The periods used by the simulation of the electronics are those of the first photomultiplier and of the first SiPM declared; there are none if one of the periods is not positive; among several files the first one with periods is used.", "quantifier": "Every configuration table, every list of files and every table of units.", "why_tests_cant": "Names and values are strings of any form; tests use the names of one detector.", "anchors": ["invisible_cities/io/mcinfo_io.py::load_mcconfiguration", "invisible_cities/io/mcinfo_io.py::get_sensor_binning", "invisible_cities/detsim/sensor_utils.py::pmt_and_sipm_bin_width", "invisible_cities/cities/buffy.py::pmt_and_sipm_bin_width_safe_"]}
{"id": "C90", "title": "A krypton map flattens the data it is made from", "statement": "When zemrude makes a krypton map from the selected events and applies it to them, every event that lies inside a bin with a value (not on the border of the bin) gets its S2 energy times 41.55 keV over the value of that bin, whatever the normalization asked for. With the fit by medians, the median of the corrected energies of the events of a bin (those in the energy range of the map) is therefore exactly 41.55 keV in every bin with at least five events and none on its border; with the fit of gaussians it is more than two thirds and at most twice that, in every bin that has a fit. This needs an energy range that is positive and a bin with a value among those the normalization uses.", "quantifier": "all sets of events, ranges, numbers of bins, fit results, normalizations and ways of choosing the nearest point of the map that take a nearest one", "why_tests_cant": "The nearest-point interpolation, the regularization, the normalization and the fit interact; a test compares a column on one file", "anchors": ["invisible_cities/cities/zemrude.py::create_selfmap", "invisible_cities/cities/zemrude.py::apply_selfmap", "invisible_cities/icaros/krmap_functions.py::compute_3D_map", "invisible_cities/icaros/correction_functions.py::apply_correctionmap_inplace_kdst"]}
{"id": "C91", "title": "A fit uses the points in its range and its chi2 is that of the function it returns", "statement": "fit(func, x, y, seed, fit_range, sigma) gives scipy exactly the points whose x is in the range (lower end included, upper end excluded), with their errors, and says the errors are absolute only if they were given. Errors of those points that are not positive are refused with ValueError; those of points out of range do not matter. An error of scipy is passed on. Otherwise the result has the fitted values, the function with those values, and a reduced chi2 which times (points in range minus parameters) is the sum of the squares of the distances over the errors (errors of one, if none were given). The chi2 is zero exactly when the function goes through all the points.", "quantifier": "all functions, points, errors, ranges and results of scipy's curve_fit", "why_tests_cant": "Tests fit a few curves and compare the parameters; they do not cover all combinations of range and errors", "anchors": ["invisible_cities/core/fit_functions.py::fit", "invisible_cities/core/fit_functions.py::get_chi2_and_pvalue"]}
{"id": "C92", "title": "A function with fixed parameters is the original one at those values, whatever the calls before", "statement": "fixed_parameters(fn, **values) is accepted exactly when every name is a parameter of fn other than the first, with a value that is not nan, and at least one parameter is fixed and one is free; otherwise it raises ValueError. Each call of the new function has the value of fn at the fixed arguments and the given ones, in the order of the signature, for every history of calls of the new function (it keeps its arguments in an array), also after calls that raised. The wrong number of arguments raises ValueError, except a single one, which is given to all free parameters. Fixing some parameters and then others gives the same function, with the same signature, as fixing all of them at once.", "quantifier": "all functions, names, values and sequences of calls", "why_tests_cant": "The new function mutates an array shared by all calls; tests call it once", "anchors": ["invisible_cities/core/fit_functions.py::fixed_parameters"]}
{"id": "C93", "title": "The PMap of an irene event follows from its raw waveforms", "statement": "For an event whose raw waveforms have one row per sensor of the database, irene's chain (mask the sensors, deconvolve, calibrate, sum, suppress zeros, build the PMap) succeeds. The PMT rows it uses are exactly those of the PMTs in use, each one the deconvolution of that PMT's own raw waveform, from which the mean of the samples other than zero among the first n_baseline is taken away, divided by that PMT's own gain. The S1 and S2 sample indices are those where the calibrated sums exceed the thresholds. The S1s and S2s are the groups of indices with a qualifying stride, time and length, in time order. The SiPM rows of an S2 carry the label of a SiPM and hold the bins of that SiPM's own calibrated waveform, for exactly the SiPMs kept by the selection. With individual SiPM thresholds or the pyrrha selection this holds when all SiPMs are active: with a SiPM inactive the S2 building raises ValueError.", "quantifier": "All databases, active-sensor masks, raw waveforms, gains, thresholds and peak parameters meeting the shape guards", "why_tests_cant": "The composition of eight pipes over every mask and waveform; a test fixes one run, where a row shift between masked and unmasked tables can go unnoticed.", "anchors": ["invisible_cities/cities/irene.py::irene", "invisible_cities/cities/components.py::sensor_masker", "invisible_cities/cities/components.py::deconv_pmt", "invisible_cities/cities/components.py::calibrate_pmts", "invisible_cities/cities/components.py::calibrate_sipms", "invisible_cities/cities/components.py::zero_suppress_wfs", "invisible_cities/cities/components.py::build_pmap", "invisible_cities/cities/components.py::compute_and_write_pmaps", "invisible_cities/cities/components.py::select_cutting_algorithm", "invisible_cities/cities/components.py::threshold_sipm_selection", "invisible_cities/cities/components.py::pyrrha_sipm_selection", "invisible_cities/cities/components.py::no_cut_sipm_selection", "invisible_cities/cities/components.py::get_actual_sipm_thr", "invisible_cities/cities/components.py::check_nonempty_indices", "invisible_cities/cities/components.py::check_empty_pmap", "invisible_cities/reco/peak_functions.py::get_pmap", "invisible_cities/reco/wfm_functions.py::spatial_selection_method"]}
{"id": "C94", "title": "The deconvolution stops at the first iteration that has settled", "statement": "For an image and a PSF of odd size, the result of the Richardson-Lucy deconvolution is the estimate after k iterations starting from 1/2 in every pixel, where each iteration multiplies each pixel by the PSF-weighted sum of the ratios of the image to the image expected from the estimate and, from the iteration at which the killing of satellites starts, sets to zero exactly the satellites. k is the first iteration whose relative change is below the threshold, or all of the requested iterations; the change is measured with respect to the previous estimate (to the image for the first one), both divided by their greatest pixel. With a threshold of zero or less and no negative values all iterations are done.", "quantifier": "every image, odd PSF, number of iterations, threshold and choice of satellite killing", "why_tests_cant": "The iteration at which a deconvolution stops depends on all its pixels; tests look at one image and tolerance.", "anchors": ["invisible_cities/reco/deconv_functions.py: richardson_lucy"]}
{"id": "C95", "title": "An event of detsim gives the buffers of the light of its hits", "statement": "For a sensible readout (a buffer of a whole number of samples, a maximum time that is a whole number of PMT samples), usable light tables and positive constants of the detector, and hits in front of the end of the drift: an event without energy in the active volume is marked as such, an event without photons is marked as dark, and otherwise the rows written are one per trigger. The sums of the waveforms are made of one draw of the S1 light plus one of the S2 light per sample of a PMT, and one draw of the S2 light per sample of a SiPM, where the means of the draws are the light that the electrons of the hits of the active and buffer volumes make in the time of the sample. The triggers are exactly the samples above threshold that follow enough samples below it, each row is the window around its trigger, filled with zeros out of the waveforms, and its event number is the number of the event times the maximum number of triggers plus the position of the trigger.", "quantifier": "every event, list of hits, configuration, light tables and draws", "why_tests_cant": "The window and the contents of a buffer depend on all hits, draws and triggers of the event; tests look at a few events with one configuration.", "anchors": ["invisible_cities/cities/detsim.py: detsim, s2_waveform_creator, bin_edges_getter, filter_hits_after_max_time", "invisible_cities/detsim/detsim_waveforms.py: s1_waveforms_creator", "invisible_cities/cities/components.py: calculate_and_save_buffers"]}
{"id": "C96", "title": "PMap files of older versions are read with the same light", "statement": "A file of PMaps without the tables of the individual PMTs of S1, of S2, or without the widths of the bins (any combination) is read by the lazy reader into one PMap per requested event: each peak has the times and the SiPMs that were written; it has the PMTs that were written, or else a single PMT with number -1 that holds the sum; it has the widths that were written, or else widths guessed from the times: 1000 for a single sample, the common spacing of the times, or the greatest spacing rounded to a multiple of 1000. The reader that is not lazy does so for files without widths, but it raises IndexError for every non-empty file without the tables of individual PMTs.", "quantifier": "every list of PMaps, presence of tables and columns, skip and number of events", "why_tests_cant": "Files of older versions are few in the tests, the combinations of missing tables and columns many.", "anchors": ["invisible_cities/io/pmaps_io.py: load_pmaps_lazy, load_pmaps_eager, build_pmt_responses, _build_ipmtdf_from_sumdf, build_sipm_responses"]}
{"id": "C97", "title": "An event of hypathia gives the PMap of its simulated light", "statement": "For a database with all PMTs in use, rectangular arrays of simulated light with one row per sensor, ADC counts that fit in 16 bits and a rebinning of S2 of a whole number of SiPM samples: the waveform of a PMT is its light summed in groups of pmt_wfs_rebin samples, fluctuated sample by sample with the width of its single photoelectron and never negative. The digitised waveform of a SiPM is its fluctuated light in ADC counts plus the noise, rounded to the nearest integer around the samples above the noise cut and zero elsewhere, calibrated afterwards. The S1s and S2s of the PMap are the groups of samples of the sum of the PMTs above each threshold that have the length and time of the configuration, with the charges of each sensor in each time bin. No PMap is written exactly when no sample is above the threshold of S1 or of S2 or no group qualifies.", "quantifier": "every simulated event, configuration and result of the draws", "why_tests_cant": "Each step depends on the draws and on the whole waveform; tests compare one file.", "anchors": ["invisible_cities/cities/hypathia.py: hypathia, rebin_pmts, pmts_sum", "invisible_cities/cities/components.py: simulate_sipm_response, sensor_masker, compute_and_write_pmaps", "invisible_cities/detsim/sensor_functions.py: charge_fluctuation, simulate_sipm_response"]}
{"id": "C98", "title": "The trigger emulated by diomira", "statement": "Without a trigger every event passes, a trigger of another type and a channel that is not the one of a PMT in use are refused by the configuration. With the S2 trigger, an event passes exactly when at least min_number_channels (and that is at least 1) of the S2 candidates of the PMTs of the selected channels are within the limits of width, charge and height, scaled with data_mc_ratio: the candidates are the groups of consecutive samples of the deconvolved waveform above the minimum height that have the length and time of the configuration. This holds if all PMTs are in use, the selected channels are those of the first PMTs of the database in the same order, and each of these has a sample above the minimum height; it is false otherwise.", "quantifier": "every event, database and configuration of the trigger", "why_tests_cant": "The decision depends on all waveforms of the event and on the order of the database; tests select the first PMTs of one database.", "anchors": ["invisible_cities/cities/diomira.py: select_trigger_filter, emulate_trigger, diomira", "invisible_cities/cities/components.py: deconv_pmt", "invisible_cities/detsim/sensor_functions.py: convert_channel_id_to_IC_id", "invisible_cities/filters/trigger_filters.py: TriggerFilter", "invisible_cities/reco/peak_functions.py: find_peaks"]}
{"id": "C99", "title": "The time evolution table of zemrude", "statement": "The table has one row per non-empty interval of slice_hours hours counted from the first time of the data, in order, and each event is in exactly one of them. The row has the number of distinct event numbers, the first time, the rate (events over the time from the first to the last one), the means of the variables without the missing values (that of S1e over the rows in s1_DTrange), minus the mean of the exponential fitted to the rows of the region as lifetime, and as energies the centre of the gaussian fitted to the histogram, the median when the fit does not move from its seed and there are at least five rows, and a missing value otherwise. The drift velocity is the drift length over the edge of the sigmoid fitted to the drift times of the region, and each value has its uncertainty; when the edges of a histogram do not increase the run fails. The rate of the last row is not a number when the data spans a whole number of intervals, and the uncertainty of S1e is divided by the square root of all the rows of the interval.", "quantifier": "every list of krypton events, configuration and result of the fits", "why_tests_cant": "The rows depend on how all the times fall in the intervals and on which fits fail; tests look at one simulated run.", "anchors": ["invisible_cities/icaros/krmap_functions.py: get_time_evol, get_time_evol_single_slice, quick_gauss_fit, gauss_seed", "invisible_cities/icaros/lifetime_vdrift_functions.py: compute_drift_v", "invisible_cities/cities/zemrude.py: time_evol"]}
{"id": "C100", "title": "An event of Beersheba keeps the energy of its peaks", "statement": "For each peak of the event, the deconvolved hits written by Beersheba are the pixels above the energy cut of the deconvolved images of the slices of its hits, those that are left by the threshold, the charge cut and the removal of isolated sensors or clusters in this order. They share, in proportion to the values of the pixels and up to the rounding to six decimals, all the energy the hits of the peak had after the threshold. The time of the rows is the timestamp in milliseconds; an event without any hit left is marked in the filter table and has no rows. If no peak is lost, the energy of the event is that of the corrected hits up to the rounding and the regulator of the threshold. With two distances, positive energies and non-negative images every event gives a result. A peak whose hits are all dropped is lost with its energy.", "quantifier": "every event, map, configuration and result of the deconvolution", "why_tests_cant": "It is about the composition of six steps, for every event and configuration; tests compare the output of a few events with a file.", "anchors": ["invisible_cities/cities/beersheba.py: beersheba, deconvolve_signal, create_deconvolution_df, distribute_energy, cut_over_Q, drop_isolated, event_info_adder, check_nonempty_dataframe", "invisible_cities/cities/components.py: hits_corrector, hits_thresholder"]}
{"id": "C101", "title": "The spectra of the calibration cities", "statement": "Phyllis and trude write two spectra per sensor, with and without light, and berenice three. Whatever the number of events, the spectrum of a sensor has in each bin the number of values in it among all the events: in phyllis and trude the values are the sums of the processed waveform of this sensor in the integration windows of the configuration that are inside the waveform, and the windows without light have the same width and end 2 mus before those with light begin; in berenice the samples of the waveform, in adc counts or in pes. The processed waveform is the one deconvolved for the sensor, with or without the subtraction of the moving average, or the one without its mode or median, as the mode of processing says. A mode that is not known is refused before any event. The modes of trude that calibrate are accepted by the configuration and fail with the first event, and in phyllis the mode without deconvolution needs all PMTs in use.", "quantifier": "every sequence of events, database of sensors, binning and integration windows", "why_tests_cant": "The spectra accumulate over all the events and sensors; tests compare the output of one file.", "anchors": ["invisible_cities/cities/phyllis.py: phyllis, proc, mode_subtractor", "invisible_cities/cities/trude.py: trude", "invisible_cities/cities/berenice.py: berenice", "invisible_cities/calib/calib_functions.py: valid_integral_limits, filter_limits, spaced_integrals", "invisible_cities/cities/components.py: waveform_binner, waveform_integrator, deconv_pmt", "invisible_cities/calib/calib_sensors_functions.py: sipm_processing", "invisible_cities/io/histogram_io.py: hist_writer"]}
{"id": "C102", "title": "An event and a run of diomira", "statement": "For a simulated event that the electronics can represent, diomira makes for each PMT the raw and the BLR waveforms that the simulation of the electronics gives to its light, as 16-bit counts; and, if the event passes the trigger, the counts of each SiPM: the whole part of the simulated charge in the samples that the zero suppression keeps and zero in the others. Events whose number of PMT samples is not a multiple of the 25 of the rebinning are refused with ValueError. In a run there is a row of the trigger table per event, in order; waveforms and run information are written for exactly the events that pass the trigger, in order; and the counts are those of events in and out. The fraction of the SiPM charge is dropped, not rounded as in hypathia.", "quantifier": "every event (light of the sensors, noise and random draws as arguments) and every sequence of events", "why_tests_cant": "Tests simulate a handful of events with one random seed and compare with the same output.", "anchors": ["invisible_cities/cities/diomira.py: diomira, emulate_trigger", "invisible_cities/detsim/sensor_functions.py: simulate_pmt_response, simulate_sipm_response", "invisible_cities/cities/components.py: simulate_sipm_response, compute_pe_resolution", "invisible_cities/io/rwf_io.py: rwf_writer", "invisible_cities/io/run_and_event_io.py: run_and_event_writer"]}
{"id": "C103", "title": "The hits Sophronia writes of an event", "statement": "For an event that passes the selection of peaks and has an S2 within the limits, Sophronia makes the hits of each sample of each selected S2. If no SiPM is over threshold in any sample the event has no valid hit and nothing is written of it. Otherwise it writes exactly the hits with a position, in the order in which they were made and with their peak number, position and charge; and if every sample has light in the PMTs (and, when the energy is only given to hits of the same peak, every selected S2 has a SiPM over threshold) their energies are numbers and add up to the light of the PMTs in the selected S2s, within the tiny amount added to avoid a division by zero. With a map, the corrected energy of each hit is the one of the nearest bin. Events that do not pass are not written; those that pass without any S2 within the limits end the city with an exception.", "quantifier": "every PMap, limits, rebinning, threshold, table of SiPM positions and map of corrections", "why_tests_cant": "The energy goes through rebinning, sharing, merging and correction; tests compare the output of a file.", "anchors": ["invisible_cities/cities/sophronia.py: sophronia, count_valid_hits", "invisible_cities/cities/components.py: sipms_as_hits, hits_merger, hits_corrector", "invisible_cities/reco/hits_functions.py: merge_NN_hits", "invisible_cities/filters/s1s2_filter.py: S12Selector, pmap_filter"]}
{"id": "C104", "title": "What is read from the PMap file of irene", "statement": "After a run of irene over events with different numbers, reading its file gives one PMap for each event in which samples above threshold and peaks were found, and no other, under the number of that event; Run/events lists the same events in the order of the input with their timestamps. Each PMap is, up to the rounding to 32 bits, the one its raw waveforms determine: every PMT and SiPM with its own waveform bin by bin, no sensor twice, no peak more or less.", "quantifier": "every database of sensors, configuration and sequence of events with distinct numbers (at most 65536 samples in a waveform and PMTs with distinct identifiers)", "why_tests_cant": "Tests compare the output of a reference file; the composition of the peak search, the writer and the reader for every event cannot be enumerated.", "anchors": ["invisible_cities/cities/irene.py: irene", "invisible_cities/cities/components.py: compute_and_write_pmaps", "invisible_cities/io/pmaps_io.py: store_pmap, load_pmaps", "invisible_cities/io/run_and_event_io.py: run_and_event_writer"]}
{"id": "C105", "title": "Reading PMap files event by event", "statement": "The source of PMaps of dorothea, sophronia and the other cities gives, file after file, each event written in them exactly once, in order, with its number, its timestamp, the run number of the file and its own PMap; files without events are skipped. A file whose event table lists other events than its PMaps is refused with InvalidInputFileStructure. The file of a run of irene gives the PMaps of its events.", "quantifier": "every sequence of PMap files (events with distinct numbers and storable PMaps)", "why_tests_cant": "Tests read a file or two; the agreement of three tables of a file read in step, for every file, cannot be enumerated.", "anchors": ["invisible_cities/cities/components.py: pmap_from_files", "invisible_cities/io/pmaps_io.py: load_pmaps", "invisible_cities/cities/components.py: get_run_number, get_event_info"]}
{"id": "C106", "title": "The table of a run of dorothea", "statement": "A run of dorothea writes, for each event of its files accepted by the selection of peaks, one row for each pair of a selected S1 and a selected S2, with the properties of those two peaks and the charge-weighted position of the SiPMs of the S2 with enough charge, and no other rows; the filter table has one row for each event, with whether it was accepted; the event table, the list of event numbers and the counters agree with it. This holds if the selection asks for at least one S2 with at least one SiPM. From raw waveforms: the rows of irene followed by dorothea are those of the PMaps that the raw waveforms determine.", "quantifier": "every sequence of PMap files, database, selection and drift velocity; for the second part every run of irene", "why_tests_cant": "Tests compare with a reference file for one configuration; the composition of reader, selection, position and table for every input cannot be enumerated.", "anchors": ["invisible_cities/cities/dorothea.py: dorothea", "invisible_cities/cities/components.py: build_pointlike_event, peak_classifier, compute_xy_position", "invisible_cities/reco/xy_algorithms.py: barycenter", "invisible_cities/io/kdst_io.py: kr_writer"]}
{"id": "C107", "title": "The tables of a run of sophronia", "statement": "A run of sophronia writes, for each event of its files accepted by the selection of peaks, its rows in the table of pointlike events and the hits that its selected S2s determine (position of each SiPM over threshold, Z from the drift time, energy shared according to charge, corrected if asked for), and no other rows; an accepted event without a SiPM over threshold has no hits and is marked so in the table of valid hits. The tables of the filters, the event table, the list of event numbers and the counters agree with them. This holds if the selection asks for at least one S2 with at least one SiPM. From raw waveforms: the tables of irene followed by sophronia are those of the PMaps that the raw waveforms determine.", "quantifier": "every sequence of PMap files, database, selection, drift velocity, rebinning, threshold and map of corrections; for the second part every run of irene", "why_tests_cant": "Tests compare with a reference file for one configuration; the composition of reader, selection, hits, corrections and tables for every input cannot be enumerated.", "anchors": ["invisible_cities/cities/sophronia.py: sophronia, count_valid_hits", "invisible_cities/cities/components.py: sipms_as_hits, build_pointlike_event, hits_merger, hits_corrector, peak_classifier", "invisible_cities/io/hits_io.py: hits_writer"]}
{"id": "C108", "title": "The tables of a run of esmeralda", "statement": "A run of esmeralda writes, for each event of its files, the hits that are left (those that, with corrected energies, are inside the active circle and have enough charge, with the energy of the others shared among them), one row of summary, and the tracks these hits determine if there are not too many of them; an event with no hits left has none of these rows and is marked so in the table of selected events. The rows of the pointlike events are copied as they are, and the event table, the list of event numbers and the counters have every event. A file with different numbers of events in its tables ends the run. The hits and rows that sophronia writes of each accepted event are those that esmeralda reads of it, if some event of the file has hits; from raw waveforms, irene, sophronia and esmeralda compose.", "quantifier": "every sequence of hit files with non-negative energies, map of corrections with positive values, drift velocities, radius, positive threshold of charge and voxel, blob and scan sizes; for the last part every run of irene and sophronia with non-negative S2 samples", "why_tests_cant": "Tests compare with a reference file for one configuration; the composition of reader, corrections, threshold, tracks and tables for every input cannot be enumerated.", "anchors": ["invisible_cities/cities/esmeralda.py: esmeralda", "invisible_cities/cities/components.py: hits_and_kdst_from_files, hits_corrector, hits_thresholder, Efield_copier, compute_and_write_tracks_info, track_blob_info_creator_extractor", "invisible_cities/io/dst_io.py: df_writer"]}
{"id": "C109", "title": "The tables of a run of beersheba", "statement": "A run of beersheba writes, for each event of its files, the corrected hits over the threshold of charge and whether some hit is left after the cut in charge and the removal of isolated sensors; for exactly the events with hits left it writes the deconvolved hits, peak by peak the pixels above the cut of the deconvolved images sharing the energy of the hits over threshold, and the rows of the pointlike events and of the event table; the list of event numbers and the counters agree with them. A configuration whose parameters have another number of dimensions than declared, more than two dimensions, or distances that are neither two nor three with a cluster size, is refused before any file is read. With two distances, positive energies and non-negative images, every run over well-formed files ends well; a file with different numbers of events in its tables ends it. The hits that sophronia writes of each event are those that beersheba deconvolves.", "quantifier": "every sequence of hit files with non-negative energies, map of corrections with positive values, drift velocities, threshold, cuts and distances, and every deconvolution of an image", "why_tests_cant": "Tests compare with a reference file for one configuration; the composition of reader, corrections, cuts, deconvolution and tables for every input cannot be enumerated.", "anchors": ["invisible_cities/cities/beersheba.py: beersheba, deconvolve_signal, cut_over_Q, drop_isolated, check_nonempty_dataframe, event_info_adder", "invisible_cities/cities/components.py: hits_and_kdst_from_files, hits_corrector, hits_thresholder"]}
{"id": "C110", "title": "The tables of runs of diomira and irene, and the one over the file of the other", "statement": "A run of diomira over files of simulated light writes a row of the trigger for every event and, for exactly the events that pass, in order, their number, time, run and the waveforms simulated from their own light. A run of irene over files of waveforms writes, for every event, whether its sums have samples over both thresholds; for those that have, whether there is a peak; and for exactly those with peaks, in order, the PMap, the number, time and run, the trigger type if it is given and not zero, and the trigger channels. Its file, read back, gives these PMaps with the run number of the first event. A file with tables of different lengths ends the run. Given the file of diomira, irene works on exactly the events that passed the trigger, with the waveforms simulated for them; if none passed it fails with IndexError.", "quantifier": "every list of files, of events of the right shapes with distinct numbers, random numbers, trigger that does not fail, database and configuration of both cities", "why_tests_cant": "Tests run each city on a few events of one file and compare with a reference; the agreement of all the tables and the passage from one city to the next for every input cannot be enumerated.", "anchors": ["invisible_cities/cities/diomira.py: diomira", "invisible_cities/cities/irene.py: irene", "invisible_cities/cities/components.py: wf_from_files, get_run_number, get_trigger_info, check_nonempty_indices, check_empty_pmap, compute_and_write_pmaps", "invisible_cities/io/trigger_io.py: store_trigger", "invisible_cities/io/run_and_event_io.py: write_run_and_event"]}
{"id": "C111", "title": "The tables of a run of hypathia", "statement": "A run of hypathia over files of simulated light, with all the PMTs in use, writes for every event whether the sum of its simulated PMTs has samples over both thresholds; for those that have, whether there is a peak; and for exactly those with peaks, in order, the PMap made of their own light, the number, time and run, and the trigger. Its file, read back, gives these PMaps in single precision with the run number of the first event. A file that cannot be read ends the run. With a PMT that is not in use no run in which some event has a peak is completed.", "quantifier": "every list of files, of events of the right shapes with distinct numbers, random numbers per event, database and configuration", "why_tests_cant": "Tests run the city on a few events of one file with the seeds fixed; the tables of every run cannot be enumerated, and the database of the tests has all PMTs active.", "anchors": ["invisible_cities/cities/hypathia.py: hypathia, rebin_pmts, pmts_sum", "invisible_cities/cities/components.py: wf_from_files, compute_and_write_pmaps, check_nonempty_indices, check_empty_pmap, simulate_sipm_response"]}
{"id": "C112", "title": "The tables of a run of isaura", "statement": "A run of isaura over files of deconvolved hits that have the columns it needs, positive energies and the events of all their hits in the table of events, is completed: every event with hits, in order of appearance, passes the filter on hits, and its summary, tracks, hits (each with its own row of the input, its energy shared by the tracks, its track), rows of the kdst, run, number and time are written, as in C69 with the energy column E. Files without deconvolved hits or without a run are skipped. A file with hits and without the columns ends the run with an error; and the file that beersheba writes is such a file as soon as it has one deconvolved hit.", "quantifier": "every list of files, of hits, event numbers, columns and parameters of the tracks; every completed run of beersheba for the last part", "why_tests_cant": "The test of isaura reads stored files with columns that beersheba no longer writes; no test runs isaura over a file that beersheba has just written, and the tables of every run cannot be enumerated.", "anchors": ["invisible_cities/cities/isaura.py: isaura", "invisible_cities/cities/components.py: dhits_from_files, compute_and_write_tracks_info, Efield_copier", "invisible_cities/cities/beersheba.py: deconvolve_signal, create_deconvolution_df, event_info_adder, beersheba"]}
{"id": "C113", "title": "The tables of a run of isidora", "statement": "A run of isidora over files with one raw waveform per PMT in use writes every event, in order: for each of these PMTs its waveform, deconvolved with its own constants, without the fractions; the waveforms of the SiPMs as they are; the run, number and time. Over the file of diomira, with all PMTs in use, these are the events that passed the trigger. A file that cannot be read ends the run; and an event with a waveform for each PMT of the database, one of which is not in use, ends it with an error, although irene accepts it.", "quantifier": "every list of files and events, database, configuration and (for the chain) random numbers", "why_tests_cant": "Tests run the city on one file with all PMTs active and compare the shapes; the tables of every run and database cannot be enumerated.", "anchors": ["invisible_cities/cities/isidora.py: isidora", "invisible_cities/cities/components.py: wf_from_files, deconv_pmt", "invisible_cities/io/rwf_io.py: rwf_writer", "invisible_cities/sierpe/blr.pyx: deconvolve_signal"]}
{"id": "C114", "title": "The tables of a run of buffy", "statement": "A run of buffy over simulation files with known sensors writes, for each event with light in both planes, one row per trigger, in order of time: the number of the simulated event times the largest number of buffers plus the position of the trigger; the whole part of the time of the event, drawn in the period of its number, plus that of the trigger; and the waveforms of all PMTs and SiPMs of the database around the trigger, with the charge of the simulation in each sample, without fractions. The filters have one row for each event, respectively each event with light in both planes; the simulation is copied for the events with a trigger; events with different numbers never give the same number, and the event number divided by the largest number of buffers gives the simulated event back. A maximum time that is not a whole number of microseconds ends the run; with no configuration in any file the run writes nothing; a file without it, when another one has it, ends the run. Hypathia over the file of buffy builds a PMap for each row; a file without rows cannot be read by it.", "quantifier": "every list of files, events, sensors, light, configuration, random numbers and (for the chain) database and configuration of hypathia", "why_tests_cant": "Tests run the city on two or three files and compare with stored buffers; the tables of every simulation and configuration cannot be enumerated.", "anchors": ["invisible_cities/cities/buffy.py: buffy", "invisible_cities/cities/components.py: mcsensors_from_file, signal_finder, build_buffers, check_max_time, wf_from_files", "invisible_cities/io/rwf_io.py: buffer_writer", "invisible_cities/io/mcinfo_io.py: get_sensor_binning", "invisible_cities/cities/hypathia.py: hypathia"]}
{"id": "C115", "title": "The tables of a run of detsim", "statement": "A run of detsim over simulation files takes the events of each file in increasing order of their numbers, each with its hits in the order of the file and a time drawn in the period of its number; files without hits are skipped. An event gives rows if there is energy in the active volume within the longest time after its first hit and its electrons give some photon: one row per trigger, in order of time, with the number of the simulated event times the largest number of buffers plus the position of the trigger, the whole part of the time of the event plus that of the trigger, and the counts of all the PMTs (drawn with the mean light of the S1 of the hits in the active and buffer volumes plus that of the S2 of the electrons) and SiPMs (S2 only) around the trigger, unchanged by the writing. The filters have one row for each event, each with energy, and each with light; the simulation is copied for the events with a trigger; events with different numbers never give the same number twice, and the number of the simulated event is recovered by division. The file can be read again, and hypathia run over it with the same database gives a PMap for each row.", "quantifier": "every list of files, hits, names of volumes, light tables, configuration, random numbers and (for the chain) database and configuration of hypathia", "why_tests_cant": "Tests run the city on one file and compare with stored buffers; the tables of every simulation, light table and draw cannot be enumerated.", "anchors": ["invisible_cities/cities/detsim.py: detsim, filter_hits_after_max_time, hits_selector", "invisible_cities/cities/components.py: MC_hits_from_files, calculate_and_save_buffers, check_max_time, wf_from_files", "invisible_cities/io/rwf_io.py: buffer_writer", "invisible_cities/cities/hypathia.py: hypathia"]}
{"id": "C116", "title": "The tables of a run of zemrude", "statement": "A run of zemrude that finishes takes the rows of all its files, in order; how they are split in files does not matter, and the run number is that of the first file. Each row gets its energy over that of the nearest bin with a mean of the preliminary map, times 41.55 keV. The rows selected are those that pass the cuts on the band, the energy, the times of the S2, the radius, the drift time and the number of SiPMs, and are the only ones of their event to pass the first three: so no event is selected twice. The tables written agree on them: the total efficiency is their number over that of the events read; the numbers of events of the time evolution add up to their number; the numbers of events of the bins of the map add up to the number of those in the ranges of the map. The second correction is the one of the map just made; the rows of the time evolution are those of consecutive intervals of the configured length, with the counts, averages, lifetime and energies of C99, all with the run number. The metadata have the bins of the map and the sizes that divide the ranges, and the largest radius and z of the selected rows.", "quantifier": "every list of files and rows, preliminary map, configuration, and results of the fits", "why_tests_cant": "Tests run the city on one file and look at the tables; that the four tables agree with each other for every data set, map and cuts cannot be enumerated.", "anchors": ["invisible_cities/cities/zemrude.py: zemrude, concatenated_dsts_from_files, apply_map, apply_selfmap", "invisible_cities/icaros/selection_functions.py: apply_selections", "invisible_cities/icaros/krmap_functions.py: compute_metadata, compute_3D_map", "invisible_cities/icaros/correction_functions.py: apply_correctionmap_inplace_kdst"]}
{"id": "C117", "title": "Event identities are carried through the cities", "statement": "No city invents, renumbers, retimes or reorders events. In any run that finishes, whatever the files and the configuration, the rows of Run/events written by diomira, irene, hypathia, isidora, dorothea, sophronia, esmeralda and beersheba are some of the rows of Run/events of the input files, in the same order and with the same numbers and times; the list of numbers used to copy the simulation is that of those rows, and every row of every other table (PMaps, pointlike events, hits, tracks, summaries, deconvolved hits) is of one of them. The rows of the filters have the numbers of the events listed. So through a chain of cities the events of the last file are some of those listed by the first files, in order. isaura writes only events listed, with their times, in the order of the hits, that need not be that of the list. The buffers of buffy and detsim have as number that of their simulated event times the number of buffers per event, plus a position, and the simulated events whose simulation is copied are exactly those that have buffers.", "quantifier": "every set of input files, well formed or not, every configuration, every random number and every chain of runs that finish", "why_tests_cant": "Tests compare the event numbers of a couple of files; a renumbering or a row of a different event could depend on which events fail a filter, on empty files or on repeated numbers, and none of it can be enumerated.", "anchors": ["invisible_cities/cities/components.py: wf_from_files, pmap_from_files, hits_and_kdst_from_files, dhits_from_files, mcsensors_from_file, MC_hits_from_files, calculate_and_save_buffers", "invisible_cities/cities/diomira.py: diomira", "invisible_cities/cities/irene.py: irene", "invisible_cities/cities/hypathia.py: hypathia", "invisible_cities/cities/isidora.py: isidora", "invisible_cities/cities/dorothea.py: dorothea", "invisible_cities/cities/sophronia.py: sophronia", "invisible_cities/cities/esmeralda.py: esmeralda", "invisible_cities/cities/beersheba.py: beersheba", "invisible_cities/cities/isaura.py: isaura", "invisible_cities/cities/buffy.py: buffy", "invisible_cities/cities/detsim.py: detsim", "invisible_cities/io/run_and_event_io.py: run_and_event_writer"]}
{"id": "C118", "title": "Splitting the input of a run over several jobs", "statement": "The input of a city can be split over several jobs without changing the result. A run over the files of one list followed by those of another writes, in every table, the rows of the run over the first list followed by those of the run over the second, and its counts of events are the sums of both. A run over the events from a to c, with a <= b < c, or from a to the end, does the same with the runs over the events from a to b and from b to c. If one of the two jobs fails, the whole run fails with the error of the first that fails, and only then. A run over the events from 0 to the end is the run without range. It holds for irene, dorothea, sophronia, esmeralda, beersheba, isaura and isidora, and for diomira, hypathia, buffy and detsim when the second job draws the numbers that the whole run would draw after those of the first; the lists of files of buffy must have the same sampling periods.", "quantifier": "every pair of lists of files, with any content, every range of events and every place to cut it, every configuration and every random number", "why_tests_cant": "Tests run a city over one or two short files; that no event depends on those before it, nor an error on where the input was cut, is a statement about every history of a run.", "anchors": ["invisible_cities/dataflow/dataflow.py: slice, push, StopPipeline", "invisible_cities/cities/dorothea.py: dorothea", "invisible_cities/cities/sophronia.py: sophronia", "invisible_cities/cities/esmeralda.py: esmeralda", "invisible_cities/cities/beersheba.py: beersheba", "invisible_cities/cities/isaura.py: isaura", "invisible_cities/cities/isidora.py: isidora", "invisible_cities/cities/irene.py: irene", "invisible_cities/cities/diomira.py: diomira", "invisible_cities/cities/hypathia.py: hypathia", "invisible_cities/cities/buffy.py: buffy", "invisible_cities/cities/detsim.py: detsim", "invisible_cities/cities/components.py: wf_from_files, pmap_from_files, hits_and_kdst_from_files, dhits_from_files, mcsensors_from_file, MC_hits_from_files"]}
{"id": "C119", "title": "Intervals, averages, ranges, windows and rebinning", "statement": "The arithmetic used all over the code does what its names say. An interval (minmax) with its ends in the wrong order is refused; otherwise it contains its centre, moving it moves what it contains and can be undone, and so does scaling it by a positive number, while a negative factor is refused unless the interval is a point, a division by zero always, and the product with zero contains only zero. Two intervals are equal if and only if they contain the same, and unpacking one gives its two ends and nothing else. Relative differences times their denominator are the difference, and change sign when the arguments are swapped. Cutting a range in two with in_range puts every value of the range in exactly one part. The weighted average balances the data, lies among them when no weight is negative, and is the point with the least weighted squares, that add up to the variance times the weights; the unbiased variances divide by the weights minus one, or by what the weights that give reliability require. loc_elem_1d gives the first position of the element. A rebinned array has the sum, or the mean, of each block, and with the remainder keeps the total. A window is the part of the waveform within a distance of a sample that is farthest from the mean. What is drawn inside fix_random_seed does not depend on the state of the generator, that is restored even if the block fails. The seed of a linear fit of points on a line that does not go down is that line.", "quantifier": "every interval, every factor, all data and weights, every range and every place to cut it, every array and stride, every waveform and every body of a block", "why_tests_cant": "Tests check these functions on random arrays of a few shapes; the identities hold for all lengths and values and are used in every city.", "anchors": ["invisible_cities/types/ic_types.py: minmax", "invisible_cities/core/core_functions.py: relative_difference, in_range, weighted_mean_and_var, loc_elem_1d, define_window, fix_random_seed", "invisible_cities/core/core_functions_c.pyx: rebin_array", "invisible_cities/reco/krmap_functions.py: lin_seed"]}
{"id": "C120", "title": "The local copy of the conditions database", "statement": "Copying the conditions database from the server gives, when it ends, exactly the tables asked for, in order, each with the rows that the server has; and it does end when the tables are sound: an ordinary CREATE statement (columns with or without comments, perhaps a primary key and one more index), rows with a value for each column, unique where the keys ask for it. The statement given to sqlite is that of the server without comments, engine and index. At whatever point the copy is stopped, the file has the first tables complete and perhaps the next one created but empty: no table ever has part of its rows. If the old file cannot be removed and has the first table, it stays as it is. The check of an updated copy passes when and only when both databases have the same ranges of runs for the photomultipliers (or the SiPMs), for run numbers below ten millions, and gives the latest first run.", "quantifier": "every content of the server, every list of tables, every point at which the copy stops, every statement of the shape of show create table, every pair of tables of ranges", "why_tests_cant": "The copy needs a server, so no unit test runs it; what an interrupted copy leaves depends on where it stops, and the three regular expressions on every statement.", "anchors": ["invisible_cities/database/download.py: create_table_sqlite, copy_all_rows, loadDB", "invisible_cities/database/check_gain_update.py: check_minrun_maxrun"]}
{"id": "C121", "title": "What an interrupted run leaves in its file", "statement": "When a run of a city (dorothea, sophronia, esmeralda, beersheba, isaura, diomira, irene, hypathia, isidora, buffy or detsim) raises an exception, its file has what a run over the events before the one that raised it would have written (or, if the input raised it, over all the events that came from the input), and besides only rows of that event, in tables other than those of Run; the event is not listed, except that irene and hypathia list it before they write its trigger, and that buffy and detsim may have written the triggers of that event up to one, complete and with consecutive numbers, and of the next one its row of Run/events, then that of Run/eventMap, then the waveforms of its PMTs. When a run is stopped from outside between two writes the same holds of the event it was doing, or the file is that of a run that also did this event, except that the trigger (irene, hypathia) or the rows of DST/Events (isaura) may be missing. The next city reads such a file as that of the shorter run or refuses it; only the reader of deconvolved hits gives the events of the shorter run first and then fails. A run that does not fail leaves what the models of the runs say.", "quantifier": "every configuration, every list of files and events, every event at which the run fails, every write after which it is stopped", "why_tests_cant": "The state of a file after a failure depends on the event and on the writer that fails, and after a stop on the write; tests look at the file of a run that ends.", "anchors": ["invisible_cities/cities/dorothea.py: dorothea", "invisible_cities/cities/sophronia.py: sophronia", "invisible_cities/cities/esmeralda.py: esmeralda", "invisible_cities/cities/beersheba.py: beersheba", "invisible_cities/cities/isaura.py: isaura", "invisible_cities/cities/diomira.py: diomira", "invisible_cities/cities/irene.py: irene", "invisible_cities/cities/hypathia.py: hypathia", "invisible_cities/cities/isidora.py: isidora", "invisible_cities/cities/buffy.py: buffy", "invisible_cities/cities/detsim.py: detsim", "invisible_cities/io/rwf_io.py: buffer_writer", "invisible_cities/io/pmaps_io.py: store_pmap", "invisible_cities/io/trigger_io.py: store_trigger", "invisible_cities/cities/components.py: wf_from_files, pmap_from_files, hits_and_kdst_from_files, dhits_from_files", "invisible_cities/dataflow/dataflow.py: push"]}
{"id": "C122", "title": "What is read by parts and what is read whole", "statement": "Reading the tables of PMaps event by event gives, for the events of the requested window of Run/events, the rows of each event in each table that the whole reading gives, in their order; with distinct event numbers no row of S1 or S2 is lost or repeated. Both readers refuse the same files with the same exception, except for a file that lacks only the table of SiPMs. Reading one or several tables with a list of events gives exactly the rows that selecting those events in the whole tables gives; reading several files gives the rows of one after the other; with errors ignored, those of the files that can be read, and it is an error that there is none. Without it, the first file that cannot be read stops the reading with its exception. A table without event numbers is refused when events are asked for, and is left unfiltered by the selection. Selecting in a dictionary of PMaps keeps exactly those events. Voxels are read back event by event as they were written, and histograms bin by bin; a histogram of another size is refused and those before it stay.", "quantifier": "every file (with any tables missing), window, list of files, list of events, sequence of voxels or histograms", "why_tests_cant": "Tests compare the two ways on one file each; which rows reach which part for any order of rows, events and missing tables cannot be enumerated.", "anchors": ["invisible_cities/io/pmaps_io.py: load_pmaps_as_df, load_pmaps_as_df_eager, load_pmaps_as_df_lazy", "invisible_cities/io/dst_io.py: load_dst, load_dsts", "invisible_cities/reco/dst_functions.py: dst_event_id_selection", "invisible_cities/reco/pmaps_functions.py: pmap_event_id_selection", "invisible_cities/io/voxels_io.py: true_voxels_writer, load_voxels", "invisible_cities/io/histogram_io.py: hist_writer"]}
{"id": "C123", "title": "The light of simulation files before 2020", "statement": "A simulation file of the format before 2020, whose extents are in order and end where the light ends, is read as the file of the format of 2020 with the same simulation: the same events, and for each the same rows of light of its PMTs and of its other sensors, with the same times; buffy writes the same tables for any mixture of files of both formats as for their versions of 2020. The table of the light has one row for each row of the file whose sensor has a position, in the order of the file, with the event that owns it, the type of the sensor (that of the PMTs when the database has it among them), the charge, and the time at which its sample begins with the sampling period of the type. An old file cannot be read with the run number 0 or without a database; without positions its events come without light; with the sampling period of only one type of sensors it is refused.", "quantifier": "every old file, database of sensors, run number, configuration of the simulation, and list of files of both formats", "why_tests_cant": "The two formats attribute rows to events and sampling periods to sensors in different ways; that they agree for any file cannot be enumerated.", "anchors": ["invisible_cities/io/mcinfo_io.py: load_mcsensor_response_df, load_mcsensors_dfold, load_mcsensor_positions, convert_timebin_to_time, get_event_numbers_in_file", "invisible_cities/cities/components.py: mcsensors_from_file", "invisible_cities/cities/buffy.py: buffy"]}
{"id": "C124", "title": "The files of the calibration cities", "statement": "A run of phyllis, trude or berenice that ends leaves in Run the events of its input, one row each and in order, in HIST one table for each of its spectra, with one row, the spectra of C101 over those events, and the sensors of its first file. Sharing the input out between two runs, by files or by ranges of events, changes nothing else: the run over all ends if and only if both end, and then each bin of each spectrum of each sensor is the sum of those of the two files. A run that fails at an event, or because of its input, leaves no spectrum and no sensors, but the rows in Run of the events before; it fails at the first event that raises, and with that exception. It may fail after all the events only because a spectrum has not one histogram for each sensor; then the spectra before it are written. A run that is stopped at any time leaves a beginning of what it would have left, and if there is a spectrum in the file then all the events of the input are in Run and in the spectrum: there are no partial spectra.", "quantifier": "every configuration of the three cities, list of files, range of events, waveforms, point of failure and point of interruption", "why_tests_cant": "It ranges over every way to share out the input and every point at which a run may be interrupted; the histograms are accumulated in memory with broadcasting, and sums of partial results hide mistakes that a test on one file does not see.", "anchors": ["invisible_cities/cities/phyllis.py: phyllis", "invisible_cities/cities/trude.py: trude", "invisible_cities/cities/berenice.py: berenice", "invisible_cities/io/histogram_io.py: hist_writer", "invisible_cities/io/run_and_event_io.py: run_and_event_writer", "invisible_cities/calib/calib_functions.py: copy_sensor_table", "invisible_cities/dataflow/dataflow.py: push, slice, reduce"]}
{"id": "C125", "title": "The seeds and the parameters of lifetime fits", "statement": "The exponential seed of any data, in any order, starts from the energy at the earliest time and, unless the latest time is zero, passes through the energy at the latest; without a finite lifetime only if both energies are the same; it is refused exactly without data or if one of those energies is not positive. If the energies decay exactly from an energy and with a lifetime, and the earliest time is zero, the seed is that energy and lifetime, and the function to fit with the seed gives each energy; in general the lifetime is too long by the ratio of the latest time to the span of times. With logarithms the linear seed is the line of the decay for any times, and the change of parameters gives its energy and lifetime. After the change of parameters the curve is the same, the errors are those of the fit multiplied by the derivatives, and the covariance by their product. (Shown false: that the lifetime of the seed is that of the decay for any first time; that the linear seed of a falling line is the line.)", "quantifier": "every list of drift times and energies, real parameters, errors and covariance", "why_tests_cant": "The seeds and the change of parameters are real functions with logarithms: tests compare a few generated samples that start at zero, where the mistake in the seed does not appear.", "anchors": ["invisible_cities/reco/krmap_functions.py: lin_seed, expo_seed, select_fit_variables, get_function_and_seed_lt, transform_parameters", "invisible_cities/core/fit_functions.py: polynom, expo"]}
{"id": "C126", "title": "The seeds of the calibration fits", "statement": "For photomultipliers the single photoelectron is looked for in the counts without a gaussian pedestal of the mean and sigma given, scaled so that the counts left below zero charge add up to nothing; for silicon photomultipliers in the counts. It is fitted around the highest of the peaks found with charge strictly inside the limits, the first of equals; without any, around the bin in the middle of the limits, or the last bin if there is none; and if no peak at all is found the seeds fail. The gain is the mean of the fit above that of the pedestal and its sigma is what has to be added in squares to that of the pedestal, or one half if the fit is not wider. If the chosen bin is closer to the first than half a width and the bins are enough, nothing is fitted and it fails. The seeds of the database are those of the row of the channel in the table of the type of sensor. The number of photons is fitted to the bins with charges below zero, or within five for silicon photomultipliers (and then with the square root of the counts as their errors, one for none), from the ratio of the counts to the pedestal there, and its seed is never negative. A dark spectrum scaled for no photons is itself, scales multiply, and more photons leave fewer counts. (Shown false: that the seeds are within their lower bounds.)", "quantifier": "every type of sensor, binning, spectrum, pedestal, database row, result of the search for peaks and result of the fits", "why_tests_cant": "The choice of the seed depends on the spectrum through a search for peaks; tests use a few spectra of a real run, in which a peak is found far from the first bin.", "anchors": ["invisible_cities/calib/calib_functions.py: dark_scaler, seeds_db, poisson_mu_seed, sensor_values, compute_seeds_from_spectrum, seeds_and_bounds", "invisible_cities/core/stat_functions.py: poisson_sigma", "invisible_cities/core/fit_functions.py: gauss"]}
{"id": "C127", "title": "What eutropia and zemrude leave in their files", "statement": "A run of eutropia ends without an exception if and only if the name of the compression exists (NOCOMPR; ZLIB with level 1, 4, 5 or 9; BLOSC5; BLZ4HC5), none of its input files fails to open and there is some PSF; its file has then the compression asked for, the events of all the input files that have the tables needed, in order and each with its run number, and the table of PSFs of C41. A run that fails leaves no table of PSFs: its file has the events of the input files up to the one whose PSFs raise, that one included, or of those before the one that cannot be opened, or all of them with an AttributeError when there is no PSF. Wherever it is stopped, the table of PSFs is absent, without rows or complete. A run of zemrude that makes the map of C116 leaves in its file exactly its four tables, whatever the file had before, and also when the plots fail afterwards; when the preliminary map cannot be read, or the fit or the compression does not exist, the old file is untouched; when the map cannot be made, the old file is lost and the new one is empty; wherever it is stopped, each of the tables is absent, without rows or complete, in the order metadata, efficiencies, map, evolution. The compression asked of zemrude has no effect on its file.", "quantifier": "every configuration of the two cities, list of input files, old output file, result of the plots, point of failure and point of interruption", "why_tests_cant": "It ranges over every point at which a run may fail or be interrupted; tests run the cities to the end on good files, and look at the tables but not at the compression or at what was in the file before.", "anchors": ["invisible_cities/cities/eutropia.py: eutropia, combine_psfs", "invisible_cities/cities/zemrude.py: zemrude, save_krmap, create_selfmap, apply_map", "invisible_cities/icaros/krmap_functions.py: save_map", "invisible_cities/cities/components.py: dst_from_files", "invisible_cities/io/dst_io.py: df_writer", "invisible_cities/io/run_and_event_io.py: run_and_event_writer", "invisible_cities/core/tbl_functions.py: filters", "invisible_cities/dataflow/dataflow.py: branch, fork, reduce"]}
{"id": "C128", "title": "From PMaps to the krypton map", "statement": "When zemrude makes a map from files that runs of dorothea made from files of PMaps, every event counted in the time evolution, and every event counted in the bins of the map, is the row of one good S1 and one good S2 of an event that the peak selection accepted: with the energies, widths and heights of the two peaks, the time between them as drift time and the barycenter of the SiPMs of that S2 as position. An S2 without position is never used, whatever the cuts, and no event number is used twice; the run number of the time evolution is that of the first accepted event of the first file. If the selection asks for one S1 and one S2, there is one row for each accepted event, and if their numbers are different the events used are exactly those that pass the cuts: nothing is lost for not being alone. Two rows with the same event number that pass the first cuts are both left out, also if they come from different runs. (Shown false: that whether an event is used does not depend on the numbers of the events of other runs.)", "quantifier": "every list of runs of dorothea, files of PMaps, limits of the selection, reconstruction parameters, configuration of zemrude, preliminary map and result of the fits", "why_tests_cant": "It joins two programs through the rows of a file; the tests of each use a fixed file, and none runs zemrude on the output of several runs of dorothea.", "anchors": ["invisible_cities/cities/dorothea.py: dorothea", "invisible_cities/cities/zemrude.py: zemrude, concatenated_dsts_from_files, apply_selections", "invisible_cities/cities/components.py: build_pointlike_event, peak_classifier, get_run_number", "invisible_cities/evm/nh5.py: KrTable", "invisible_cities/io/kdst_io.py: kr_writer", "invisible_cities/io/dst_io.py: load_dsts", "invisible_cities/icaros/selection_functions.py: apply_selections, select_1S1_1S2"]}
{"id": "C129", "title": "Correction maps in files", "statement": "The maps of a file are read if and only if the tables chi2, e0, e0u, lt, ltu and mapinfo can all be read, and are then those of the file; otherwise the exception is that of the first that fails, in that order. The time evolution is there if and only if the run number is positive and its table can be read, and never makes the reading fail. With the maps of a file, a correction that asks for the time evolution, or a conversion of drift times into z, fails with TimeEvolutionTableMissing if and only if the file has none that is used: always for simulation, even if the table is there. The correction depends only on the maps e0 and lt and the geometry, and on the time evolution if it is asked for. A drift time is multiplied by the mean of the drift velocities that are numbers, so that z is between what the least and the greatest of them give. (Shown false: that a time evolution that cannot be read is reported when the maps of a data run are read.)", "quantifier": "every file of maps, with any of its tables missing or unreadable, run number, strategy of normalization, list of points and drift time", "why_tests_cant": "It ranges over every file and every way in which its tables may fail; tests read one file of data and one of simulation that have all their tables.", "anchors": ["invisible_cities/reco/corrections.py: ASectorMap, read_maps, get_df_to_z_converter, apply_all_correction, apply_all_correction_single_maps"]}
{"id": "C130", "title": "Collections of hits and their tables", "statement": "Reading the hits of a table gives a collection for each event that has a hit that is not left out, and no other, with one hit for each of its rows, in the order of the table, when the rows of an event have the same time. A hit has the position, peak, charge and energies of its row; a column that is missing has a default value, and the charge of a table without charges is the energy. A table that cannot be read raises the exception of load_dst, and an empty one has no events. load_hits_skipping_NN gives no hit without charge, and the same as load_hits if there is none. Collections of different events that are stored in a table of hits and read are those that are not empty, with the same hits, the number of the peak clipped at 65535. (Shown false: that a hit read has the energy of its row, as an energy NN is replaced with the charge; and that a hit stored and read keeps the number of its track.)", "quantifier": "every table of hits, with any of the optional columns missing, and every list of collections of different events", "why_tests_cant": "It ranges over every table, order of rows and set of columns; the tests of load_hits read files with all the columns, and look at the year and at a ratio of energies that is not asserted.", "anchors": ["invisible_cities/io/hits_io.py: hits_from_df, load_hits, load_hits_skipping_NN", "invisible_cities/evm/event_model.py: Cluster, Hit, HitCollection.store", "invisible_cities/evm/nh5.py: HitsTable"]}
{"id": "C131", "title": "Activities, efficiencies and low frequency noise of the database", "statement": "For a version, RadioactivityData gives one activity, and one efficiency, for each volume and isotope that has some version not above it, and no other, and it is that of the newest of these; what is added later with newer versions does not change it. Without a version it gives what the greatest version of the activities gives: the activities are the newest of all, and there is an error if and only if there are no activities. PMTLowFrequencyNoise gives the boxes, in order of sensor, and the frequencies in force in the run, whose sign does not count. (Shown false: that without a version the efficiencies are the newest; and that for a simulation, run 0, the boxes are those of the run whose sensors are used.)", "quantifier": "all contents of the tables of the database, all versions and all run numbers", "why_tests_cant": "It ranges over every content of the database and every later addition to it; tests look only at the contents that the local database has today.", "anchors": ["invisible_cities/database/load_db.py: RadioactivityData, PMTLowFrequencyNoise"]}
{"id": "C132", "title": "The waveforms of the generator", "statement": "With a rise of at least one sample, a square waveform is refused with AssertionError if and only if the pulse does not end before the waveform. Otherwise it has the samples asked for, each with the value of the pulse (rise, flat, fall, zero outside) plus the noise drawn for it, one draw for each sample and another for that in which the pulse ends, no draw being used twice. A sawteeth waveform raises ValueError if and only if the samples asked for are less than those before the teeth plus three times the rise and twice the flat part; otherwise it is zero but for three equal teeth one next to the other, and has three times the difference of rise and flat part more samples than asked for. (Shown false: that a sawteeth waveform has the samples asked for.)", "quantifier": "all parameters of the waveforms, with integer times not below zero, and all draws of the noise", "why_tests_cant": "It ranges over all shapes and all random draws; the tests use few shapes, and for teeth whose rise is as long as their flat part the length is right.", "anchors": ["invisible_cities/sierpe/waveform_generator.py: square_waveform, sawteeth_waveform"]}
