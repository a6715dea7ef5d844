# Formal model of next-exp/IC (invisible_cities): design

## 1. What is modelled and how

The model is a set of shallow Gallina functions over `list`, `nat`, `Z`, `Q` and
`option`/`result` values.  Each definition carries a comment that cites the file
and lines of `/repo` it mirrors, and says where it simplifies.  Python exceptions
are values (`Err kind`).  Loops are folds, structural recursion or explicit fuel
with an error value on exhaustion.  Random draws, interpolators, fits, database
contents and clustering libraries are arguments of the model (Section variables,
universally quantified in the theorems).

Layout of `rocq/theories`:

* `Base.v`, `Arrays.v`, `Graph.v`: shared vocabulary and lemmas
* `XxxModel.v`: the model of one area of the code, without proofs
* `XxxSpec.v`: the small specification the theorems are stated with
* `XxxProofs.v` and other names: lemmas
* `XxxProps.v`: the property theorems, each with an `Example` that meets its
  hypotheses and a `Print Assumptions`

Numbers: charges, energies, times and positions are exact rationals (`Q`,
compared with `==`).  Floating-point rounding is not modelled unless a comment
says so: a theorem on conservation is about the exact arithmetic of the
algorithm.  `nan` is `None` where the code can produce or consume it, and the
error value `NotModelled` where the model stops at it.

Where a property is false of the code as it is written, the theorem has the guard
that makes it true, the statement in `properties.jsonl` names the guard, and a
theorem with the suffix `_refuted` exhibits an input outside the guard.

## 2. Plan per property

| id | modelled | proof method | file of the theorems |
|----|----------|--------------|----------------------|
| C01 | the `slice` coroutine as a state machine driven by `push` | induction over the source; refinement to Python slicing | `DataflowProps.v` |
| C02 | pipeline trees and the interpreter of `send`/`close` | induction over tree and source; refinement to list functions | `DataflowProps.v` |
| C03 | the same interpreter, with raising components and futures | invariant over every send and close; exactly-once by induction | `DataflowProps.v` |
| C04 | the same, with the counting components | counting invariant | `DataflowProps.v` |
| C05 | the same, `stop_when` and `slice(close_all)` | prefix invariant | `DataflowProps.v` |
| C06 | the same, items being mutable dictionaries | frame argument on the names written | `DataflowProps.v` |
| C07 | `split_in_peaks` | induction over the indices, uniqueness of the partition | `PeaksProps.v` |
| C08 | `find_peaks` and the selections before it | induction, filter lemmas | `PeaksProps.v` |
| C09 | `rebin_times_and_waveforms` | induction over the chunks | `PeaksProps.v` |
| C10 | the same | convexity of weighted means | `PeaksProps.v` |
| C11 | `build_peak`, `pick_slice_and_rebin` | integer arithmetic on indices | `PeaksProps.v` |
| C12 | the constructor and methods of `_Peak` | case analysis, induction | `Details.v`, `PeaksProps.v`, `Refusals.v` |
| C13 | row writers and group-by readers of PMaps | round trip by induction over peaks and sensors | `PmapioProps.v` |
| C14 | `bin_sensors`, `find_signal_start`, `buffer_writer` | arithmetic, induction over events; refuted without divisibility | `BuffersProps.v` |
| C15 | `find_signal_start` | loop invariant, groups | `BuffersProps.v` |
| C16 | `buffer_calculator`, `pad_safe` | window algebra of lists, end to end from the hits | `BuffersProps.v` |
| C17 | `e_from_q`, `sipms_above_threshold` | sums over Q | `HitsProps.v` |
| C18 | `merge_NN_hits` | fold invariant, sums over Q | `HitsProps.v` |
| C19 | `threshold_hits`, `apply_threshold` | partition by slice, sums | `HitsProps.v` |
| C20 | `voxelize_hits` with `histogramdd` | bins as a partition, sums | `PaolinaProps.v` |
| C21 | `make_track_graphs` | reachability; components as classes of an equivalence | `PaolinaProps.v` |
| C22 | `find_extrema_and_length` with breadth-first search | invariants of shortest paths | `PaolinaProps.v` |
| C23 | `drop_end_point_voxels` | termination measure, conservation as loop invariant | `PaolinaProps.v`, `PaolinaShare.v` |
| C24 | `blob_energies_hits_and_centres` | filters and sums | `PaolinaProps.v`, `Refusals.v` |
| C25 | `barycenter` | convexity | `XyProps.v` |
| C26 | `corona` | fuelled loop, measure for termination, refuted without the guard | `XyProps.v` |
| C27 | `suppress_wf`, `noise_suppression` | index sets | `WfmProps.v` |
| C28 | `kill_isolated_sipms` and the spatial selections | nearest neighbours as sets; idempotence | `Details2.v`, `WfmProps.v` |
| C29 | `get_threshold_slices`, `rebin_peak` | loop invariant | `PeaksProps.v` |
| C30 | `Configuration`, `configure` | induction over the trace of assignments and includes | `ConfigProps.v` |
| C31 | `check_annotations`, `type_check` | structural induction over annotations | `ConfigProps.v`, `Details.v` |
| C32 | `df_writer`, `load_dst` | table algebra, induction over writes | `TablesProps.v` |
| C33 | `mc_writer` | induction over files | `McProps.v` |
| C34 | `load_mchits_dfold`, `load_mcparticles_dfold` | interval algebra | `McProps.v` |
| C35 | `trigger_writer` | round trip | `TablesProps.v` |
| C36 | `S12Selector`, `pmap_filter` | decision procedure | `FiltersProps.v` |
| C37 | `TriggerFilter` | decision procedure | `FiltersProps.v` |
| C38 | `maps_coefficient_getter`, `apply_all_correction_single_maps` | index arithmetic of regular bins | `CorrMore.v`, `CorrProps.v`, `Refusals.v` |
| C39 | `apply_selections` | telescoping product | `CorrMore.v` |
| C40 | `create_empty_map`, `merge_maps`, `regularize_map` | bijection between rows and bins | `KmapGrid.v`, `KmapProps.v` |
| C41 | `create_psf`, `combine_psfs` | commutative fold, induction over files | `PsfCity.v`, `PsfProps.v`, `PsfSplit.v` |
| C42 | `generate_satellite_mask` | connected components of the image | `RlProps.v`, `RlSum.v` |
| C43 | `cut_and_redistribute_df`, `drop_isolated_clusters` | components, sums | `DeconvClusters.v`, `DeconvProps.v` |
| C44 | `distribute_energy`, `create_deconvolution_df` | sums by peak | `DeconvPeak.v` |
| C45 | `richardson_lucy` | positivity invariant | `RlIter.v`, `RlSum.v` |
| C46 | `create_wfs` | index arithmetic; the draws are arguments | `DetsimWave.v` |
| C47 | `spread_histogram` | sums of the parts | `DetsimProps.v` |
| C48 | `valid_integral_limits` and its callers | arithmetic on sorted lists | `CalibLimits.v` |
| C49 | `DataPMT`, `DataSiPM`, `SiPMNoise` as queries on tables | relational algebra | `DbProps.v`, `Details.v`, `Refusals.v` |
| C50 | `inverse_cdf`, `general_thresholds` | monotonicity of cumulated sums | `DbThr.v`, `Details.v` |
| C51 | `event_range` | case analysis of the arguments | `ConfigProps.v` |
| C52 | `KrEvent.store` | induction over pairs | `Details.v`, `KrProps.v`, `Refusals.v` |
| C53 | `hits_from_df` | group-by as partition | `TablesHits.v` |
| C54 | `subtract_baseline`, `calibrate_wfs` | pointwise | `CalibProps.v` |
| C55 | `deconvolve_signal` | invariant of the accumulator | `CalibBlr.v` |
| C56 | `apply_3Dmap` | algebra of the factors | `CorrMore.v` |
| C57 | `simulate_electrons` | counting; the draws are arguments | `DetsimElectrons.v`, `DetsimNumbers.v` |
| C58 | `city`, `wf_from_files` | sets of files | `ConfigProps.v`, `Refusals.v` |
| C59 | `top_n_method` | order statistics | `WfmProps.v` |
| C60 | charge thresholds | pointwise | `WfmProps.v` |
| C61 | `event_filter_writer`, `event_filter_reader` | round trip | `TablesProps.v` |
| C62 | `time_coefs_corr` | interpolation, convexity | `CorrMore.v` |
| C63 | `get_time_evol`, `select_lifetime_region` | partition by edges | `KmapTime.v` |
| C64 | `add_empty_sensors_and_normalize_q` | sums by peak | `PsfPeak.v` |
| C65 | `richardson_lucy` with `fftconvolve` as the exact convolution | double sums over images of any size | `RlSum.v` |
| C66 | `buffer_times_and_length_getter` with `create_wfs` | bounds on every arrival bin | `DetsimKeep.v`, `Refusals.v` |
| C67 | `filter_hits_after_max_time`, `hits_selector` | filters | `DetsimElectrons.v` |
| C68 | `track_blob_info_creator_extractor` | composition of C20 to C24 | `TopoProps.v` |
| C69 | `compute_and_write_tracks_info` | composition of C68 and the writers | `TopoSummary.v` |
| C70 | `sipms_as_hits`, `hit_builder` | induction over peaks and samples | `SophClusters.v`, `SophEnergy.v`, `SophProps.v` |
| C71 | readers of hits files | induction over files and events | `ReadProps.v` |
| C72 | readers of simulation files | induction over files and events | `ReadMc.v` |
| C73 | the pipelines of the cities, built with the constructors of C02 | refinement of the interpreter to a loop | `CityProps.v`, `CityTables.v`, `LoopProofs.v` |
| C74 | the same pipelines | trace equality between branches | `CityTables.v` |
| C75 | `generate_s1_waveform` | sums over bins | `S1Props.v` |
| C76 | light tables | index arithmetic, nearest position | `LtEdges.v`, `LtProps.v`, `LtSensors.v`, `Refusals.v` |
| C77 | `cluster_tagger` with a transcription of DBSCAN | reachability; invariants of the labelling | `TagProps.v` |
| C78 | `NoiseSampler`, `pad_pdfs`, SiPM response | convolutions of distributions by induction | `NoiseProps.v` |
| C79 | front-end electronics of the PMTs | linearity of convolution and filter | `FeeFilter.v`, `FeeProps.v`, `FeeShape.v`, `Refusals.v` |
| C80 | `hits_corrector`, `hits_thresholder`, `hit_dropper` | composition with C18, C19, C38 | `EsmProps.v` |
| C81 | `bin_waveforms` and the calibration cities | histograms as partitions | `HistProps.v` |
| C82 | `spe_response`, `seeds_and_bounds` | induction over the components | `Details2.v`, `SpeProps.v` |
| C83 | `deconvolution_input`, `interpolate_signal`, `find_nearest` | histograms and products of grids | `Details.v`, `Details2.v`, `DinProps.v` |
| C84 | `profileX`, `profileY`, `profileXY` | bins as partitions, group-by | `ProfProps.v` |
| C85 | tables of calibration parameters | induction over the history of a file | `ChanProps.v`, `Details.v`, `Refusals.v` |
| C86 | what the decorator `city` adds to the output file | induction over nested dictionaries and over the chain of cities | `ProvProps.v` |
| C87 | the copy of the simulation tables | induction over files; composition of filters | `McopyProps.v` |
| C88 | the reading of simulated hits event by event, the table of hits and its conversion to a dictionary | induction over the extents; the blocks of the table are the parts; uniqueness of the sorted list | `MhitProps.v` |
| C89 | the configuration of simulation files and the sampling periods, on strings | induction over the rows; lemmas on substrings, stripping and words | `SbinProps.v` |
| C90 | ZemModel.v composes compute_3D_map (KmapModel.v) with apply_3Dmap (CorrModel.v): create_selfmap, apply_selfmap. griddata with method nearest is an oracle that returns a nearest point; standard deviations and gaussian fits are oracles. | C90_events: by C40_map and C40_bounds all values are positive and the row of a bin keeps its value; a point inside a cell of a regular grid is strictly closer to its centre than to any other (closer_centre). C90_median and C90_gaussian follow because the median commutes with a positive factor (median_scaled). | `Details2.v`, `ZemProps.v` |
| C91 | FitModel.v: fit and the chi2, over rationals. curve_fit and the function to fit are oracles; the p-value is not modelled; chi2 without degrees of freedom is None. | C91_weighted, C91_unweighted: masking the columns is filtering the points. C91_exact: a sum of squares is zero exactly when every term is. | `FitProps.v` |
| C92 | FitModel.v: fixed_parameters, fixed_fn with its array as state, and the signature of the new function. Names are those of the signature without the first; values that are not numbers are not modelled. | C92_accepts: counting (NoDup_length_incl). C92_calls: invariant of the array over the list of calls (kept). C92_twice: both sides have the arguments that the relation supplied determines. | `FitProps.v` |
| C93 | one event of irene from the raw waveforms to the PMap (IreneModel.v); the filter coefficients of scipy.signal.butter and the square root are parameters | IreneProofs.v and IreneSteps.v compose the theorems of the stages; IreneProps.v states the end-to-end theorem against IreneSpec.v and two refutations for inactive SiPMs | `IreneProps.v` |
| C94 | richardson_lucy (RlModel.v) with its loop, relative difference and stop. | C94_stops, C94_all: induction over the iterations, with the steps stated per pixel by sums over the PSF and the stop by the relative change (RlStop.v). | `RlStop.v` |
| C95 | The body of detsim for one event (DsimModel.v), from the hits to the rows of buffers, on top of the models of its parts (DetsimModel.v, S1Model.v, BuffersModel.v); random draws and light tables are arguments. | C95_event: composition of the theorems about the parts, with the guards of each shown to follow from the configuration. C95_start_refuted: two events whose hits differ by a shift of 100 units give the same rows. | `DsimProps.v` |
| C96 | The readers of PMaps with their branches for files without individual PMTs and without bin widths (OldPmModel.v). | C96_old_files, C96_eager_widths: written tables are read event by event and peak by peak (PmapioProofs.v) with the substitutes for what is missing. C96_eager_refused: the labels of the columns are strings, so that the selection by position fails. | `OldPmProps.v` |
| C97 | The body of hypathia for one event (HypaModel.v), on top of the models of irene's steps (IreneModel.v); draws and noise are arguments. | C97_pmap: step by step characterisation of the waveforms, then the theorems about peaks as in C93. C97_masked_refuted: with a PMT out of use the construction of the first peak raises ValueError. | `HypaProps.v` |
| C98 | The trigger of diomira (TrigModel.v), with the deconvolution and the peaks as in C93 and the filter as in C37. | C98_decision under the guards; C98_channels_refuted (any two selections of as many channels give the same decision), C98_silent_refuted (IndexError), C98_masked_refuted (AssertionError); C98_configuration. | `TrigProps.v` |
| C99 | get_time_evol and what it calls (TevModel.v); the square root, the standard deviation and the three fits are arguments. | C99_rows: the rows are the partition of the times in intervals, with each column characterised by TevSpec.v. C99_last_rate_refuted and C99_s1_error_refuted show the two defects. | `TevMore.v`, `TevProps.v` |
| C100 | The body of Beersheba for one event (BeerModel.v) on top of the models of its steps (EsmModel.v, HitsModel.v, DeconvModel.v); the deconvolution of a slice, griddata and the rounding are arguments. | C100_peaks and C100_energy: the theorems about the cuts (C43) and the deconvolved hits (C44) composed peak by peak. C100_event: sum over the peaks, with C80 for the threshold. C100_total: the energies stay positive through the steps. C100_lost_refuted: an event in which the energy of a peak is lost. | `BeerProps.v`, `BeerTotal.v` |
| C101 | The three cities from the raw waveforms of the events in range to the tables (CalcModel.v), on top of the models of the integrals and of the histograms; the coefficients of the filter and the square root are arguments. | C101_phyllis, C101_trude and C101_berenice: induction over the events, with the accumulators of each branch of the fork as an invariant. C101_unknown_mode; C101_trude_calibrated_refuted, C101_nodeconv_refuted and C101_nodeconv_one_refuted show the modes that fail. | `CalcProps.v` |
| C102 | The pipe of diomira from the light of the sensors to the tables (DioModel.v), on top of the models of the electronics (C79), of the SiPMs (C97) and of the trigger (C98). Random numbers, the filter and the square root are arguments. Values outside 16 bits are not modelled. | C102_event: the response of each sensor is put together from C79 and C97, and the decision from C98. C102_length: the rebinning fails. C102_run: induction over the events. C102_rounding_refuted: the stored counts are not the nearest ones. | `DioProps.v` |
| C103 | The branch of the hits of Sophronia from the PMap to the table that is written (SoeModel.v), on top of the models of C36, C70, C18 and C80. | C103_event puts the theorems of the steps together: the hits of C70 meet the hypotheses of C18 when the samples have light. C103_not_passing and C103_no_s2 are the other events. C103_lost_refuted: with same_peak the energy of an S2 whose SiPMs stay below threshold is lost. | `SoeProps.v` |
| C104 | The events of a run one after the other: the PMap of each (IreneModel.v), the tables it is stored in (PmapioModel.v) and the event table (IrunModel.v). | C104_file puts C93 (now with the bins of the PMTs and SiPMs in order) and C13 together: the peaks irene builds are peaks the writer keeps. C104_repeated_refuted: with a repeated event number the waveforms are read back under another PMT. | `IrunProps.v` |
| C105 | pmap_from_files over the tables of each file (PreadModel.v), with the lazy reader of PMaps (PmapioModel.v): the events before an exception and the exception. | C105_events from C13_lazy_reader, by induction on the files; C105_other_events for the check of the event numbers; C105_irene from C104. C105_no_pmaps_refuted: a file with events and without PMaps is not skipped. | `PreadProps.v` |
| C106 | A run over the files of C105 (DorModel.v): selection (FiltersModel.v), pointlike event (KrModel.v) with the barycenter (XyModel.v), tables and counters. | C106_run by induction on the events from C36, C52 and the cases of the barycenter; C106_bad_file: an exception of the reader ends the run with that exception; C106_irene puts C104, C105 and C106 together. C106_no_s2_refuted and C106_no_sipms_refuted: with a lower limit of zero S2s or zero SiPMs an accepted event stops the run. | `Details3.v`, `DorProps.v` |
| C107 | A run over the files of C105 (SrunModel.v): selection (FiltersModel.v), pointlike event (DorModel.v), hits of an event (SoeModel.v), tables and counters. | C107_run by induction on the events from C103 and the lemmas of C106; C107_bad_file: an exception of the reader ends the run with that exception; C107_irene puts C104, C105 and C107 together. | `SrunProps.v` |
| C108 | A run over the files of C71 (ErunModel.v): corrections, circle and threshold of the hits (EsmModel.v), tracks and summary (TopoModel.v), tables and counters. | C108_run by induction on the events from C80, C68 and C69, once every corrected energy left is shown positive; C108_bad_file and C108_temp: runs that do not end well; C108_sophronia: the rows of each event in the tables of C107 are found again by number; C108_no_hits: a file without hits is skipped whole; C108_irene puts C104, C105, C107 and C108 together. | `ErunChain.v`, `ErunProps.v` |
| C109 | A run over the files of C71 (BrunModel.v): the check of the configuration, the event of C100 (BeerModel.v), tables and counters. | C109_tables by induction on the events from C80, C100 and the lemmas of C108; C109_run: with two distances every event gives a result (C100_total); C109_configuration says exactly what is refused and with which exception; C109_sophronia: the file of C107 is read back event by event. | `BrunChain.v`, `BrunProps.v` |
| C110 | Both runs as recursions over the events that wf_from_files (ConfigModel.v, C58) gives, with the events of C102 and C93 and all their tables (FrunModel.v); irene_step of IreneModel.v keeps the decision of the first filter. | C110_irene: the closed form of the run by induction on the events, then the reader of C105 on its file; C110_diomira in the same way from the lemmas of C102; C110_chain: the tables of diomira zipped back give the events of irene, which meet the hypotheses of C93. | `FrunChain.v`, `FrunProps.v` |
| C111 | The run over the events that wf_from_files gives (ConfigModel.v), with the step of HypaModel.v and the writers of FrunModel.v, shared with irene as in the code (HrunModel.v). | C111_hypathia: the closed form of the tables (FrunProps.tables_done) with the step of C97; C111_masked_refuted: a completed run has built something for every event, and C97_masked_refuted says that it cannot be for one with a peak. | `HrunProps.v` |
| C112 | The reader with the names of the columns of the table (IsaModel.v, over ReadModel.v), the loop over the events with the tracks of TopoModel.v, and the file of a run of beersheba (BrunModel.v) as this reader sees it. | C112_isaura: with good columns the reader is that of C71; the tracks of an event depend only on the copied energies, so ErunProps.event_tracks_written applies; then an invariant of the run. C112_beersheba_refuted: the events of the deconvolved hits are in the table of events by C109, so the selection of columns is reached. | `IsaProps.v` |
| C113 | The run over the events of wf_from_files (ConfigModel.v) with the deconvolution of IreneModel.v and the conversion to int16 of DioModel.v (IsiModel.v). | C113_isidora: induction over the events; each event by C55_domain, the baseline lemma of C93 and the storing lemma of C102. C113_chain: with C110_diomira. C113_masked: the assertion of deconv_pmt. C113_shapes (Details3.v): the number of samples. | `Details3.v`, `IsiProps.v` |
| C114 | The run over all the events of the files with the reader of ReadModel.v, the widths of SbinModel.v, the buffers of BuffersModel.v and the conversions of the writer (BfyModel.v). | C114_buffy: induction over the events; each event by C15, C16 and C72, the widths by C89. C114_no_configuration, C114_nothing_to_do, C114_fractional_time: the ways to end. C114_read and C114_hypathia: with C58 and C111. | `BfyChain.v`, `BfyProps.v` |
| C115 | The run over all the events of the files: the reader, the simulation of an event of DsimModel.v, the filters and the conversions of the writer (DetModel.v). | C115_detsim: induction over the events; each event by C95, the counts stay whole and fit the table. C115_fractional_time: the way to end. C115_read and C115_hypathia: with C114_read and C111. | `DetChain.v`, `DetProps.v` |
| C116 | The whole run from the tables of the files to the four tables written (ZrunModel.v); the selections keep whole rows and are related to those of CorrModel.v. Plots, and the reading of the preliminary map by pandas, are left out. | C116_zemrude: the selection through C39_product and a description of the positions selected; the map by C40 and a sum over its keys; the time evolution by C99_rows and a sum over its slices. C116_split: the reader. C116_metadata: the bins of the grid in order. C116_map_shape_refuted: a run. | `Details3.v`, `ZrunMeta.v`, `ZrunProps.v` |
| C117 | The models of the runs of all these cities (FrunModel.v, HrunModel.v, IsiModel.v, DorModel.v, SrunModel.v, ErunModel.v, BrunModel.v, IsaModel.v, BfyModel.v, DetModel.v), with no hypothesis on the files nor on the algorithms. | C117_diomira, C117_irene, C117_hypathia, C117_isidora, C117_dorothea, C117_sophronia, C117_esmeralda, C117_beersheba, C117_isaura, C117_buffy, C117_detsim: induction on the files and on the events of a run, for any run that finishes. The chains (C117_chain and those of two cities) compose them. C117_isaura_order_refuted: a run of isaura. | `IdChain.v`, `IdEx.v`, `IdReco.v`, `IdSim.v`, `IdWf.v` |
| C118 | JobModel.v and JobSimModel.v: the runs of the models of the cities with the slice at the start of the pipe and the loop that stops with StopPipeline, over a source that may raise an exception. | C118_<city>_files, C118_<city>_range and C118_<city>_whole for the eleven cities: a run from a state with tables is the run from nothing with those tables in front, by induction on the events; the readers and the range are split by cases. | `JobProps.v`, `JobSim.v` |
| C119 | UtilModel.v: these functions over exact rationals; averages of lists (axis None); a division by 0 that numpy turns into inf or nan is an error NotModelled. | C119_interval, C119_shift, C119_scale, C119_negative_scale, C119_zero_scale, C119_equal, C119_items, C119_relative, C119_ranges, C119_average, C119_unbiased, C119_position, C119_rebin, C119_rebin_sum, C119_window, C119_seed, C119_line: algebra, and induction on the lists and on the blocks of an array. C119_line_down_refuted: a witness. | `Details3.v`, `UtilProps.v` |
| C120 | CloneModel.v: the three substitutions on the lines of a statement, the transactions of a sqlite connection with the file and what the connection sees, the steps of loadDB, and the comparison of ranges with the tolerance of numpy. What sqlite makes of a text and which rows the keys allow are parameters. | C120_statement: the substitutions on each line, induction on the items. C120_complete, C120_crash: an invariant of the steps (induction on the rows and on the tables). C120_ends, C120_unreachable, C120_kept. C120_check: strictly sorted lists with the same elements are equal. C120_two_keys_refuted, C120_check_large_refuted: witnesses. | `CloneProps.v` |
| C121 | HaltBase.v, HaltModel.v, HaltWfModel.v, HaltSimModel.v: each city as the sequence of its writes, writer by writer and row by row, with exceptions that leave the tables as they are; the state when it fails (leave) and the states at which it may be stopped (stopped). The two rows of Run are one write. An append is taken to be whole: what PyTables keeps in memory when the process is killed is not modelled. | C121_dorothea ... C121_detsim: the sequence of writes gives the result of the models of the runs (a refinement, by the composition of appends), and a failing event has only added rows of its own; induction on the events. C121_*_stopped: the same for every state visited. C121_waveforms_read, C121_waveforms_missing, C121_pmaps_read, C121_hits_read, C121_deco_read: the readers. C121_irene_trigger_refuted: a witness. | `HaltEx.v`, `HaltRead.v`, `HaltReco.v`, `HaltSim.v`, `HaltStop.v`, `HaltStop2.v`, `HaltStopWf.v`, `HaltWf.v` |
| C122 | LoadModel.v: the five tables of PMaps with missing nodes; load_dst and load_dsts with missing and corrupted files; the selections; the voxels and histograms written and read. pandas.concat of tables with different columns, and negative skip and n, are not modelled. | C122_by_event, C122_once, C122_refused, C122_refused_both: the two readers of PMap tables (filters and permutations, induction on the events). C122_dst, C122_selection, C122_files, C122_stops: tables; the selection commutes with the concatenation. C122_pmaps; C122_voxels, C122_voxels_table; C122_histograms. | `LoadProps.v` |
| C123 | OldLightModel.v: the light, the positions with their types and the items of an old file; OldBfyModel.v: buffy over files of both formats. The tables extents, waveforms and sensor_positions are there; an old file without any sampling period is not modelled. | C123_same, C123_buffy: equality of the two readers (C34 for the events; the event that owns a row is unique) and of the runs. C123_light: induction on the rows. C123_run_zero, C123_no_positions, C123_one_type: the files refused or read without light. C123_empty_event_refuted: a witness. | `OldLight.v` |
| C124 | CalfModel.v: the three cities as programs that write (HaltBase.v), over the readers of ConfigModel.v and the processing of CalcModel.v; what is decided before the file is created (setup), the loop over the events with the accumulators in memory, the tables of spectra (created empty, then filled) and the copy of the sensors. The bins written beside each spectrum are left out. The shapes of the waveforms are those of the first file of each run, and are the same for the runs that are compared. | C124_jobs, C124_ranges: the histograms of an event are the same whatever has been accumulated, also with broadcasting; induction on the events, and the sums are associative. C124_phyllis, C124_trude, C124_berenice: the file of a run that ends, with the spectra of C101. C124_fails, C124_stopped: induction on the events and on the tables that are written. | `CalfProps.v` |
| C125 | LifeModel.v: the five functions over the real numbers of the standard library, with sorted as an insertion sort of pairs, and division by zero as in numpy. Rounding is not modelled; logarithms of energies that are not positive and a null slope are not modelled. | The sorted list is a permutation in order, so its ends are the earliest and the latest; algebra of exp and ln; derivatives of the standard library. These theorems depend on the axioms of the standard library's real numbers. | `LifeProps.v` |
| C126 | SeedModel.v: the six functions over the real numbers of the standard library. scipy's find_peaks_cwt (which returns an empty array of floats if it finds nothing), the fits and the tables of the database are arguments. Rounding is not modelled, nor a pedestal whose sum is null. | Induction on the bins for the sums and on the peaks for the highest; algebra of sqrt and exp. These theorems depend on the axioms of the standard library's real numbers, except C126_database. | `SeedProps.v` |
| C127 | MapfModel.v: the two cities as programs that write (HaltBase.v), on a disk with an old file or none: the filters, the source of eutropia with the files that it leaves out and those that end it, the branch that writes the events before the PSFs of the file are computed, df_writer in its steps (group, table, rows), pandas' to_hdf with mode 'w', save_map, and the plots as calls that may fail. The PSFs are those of PsfModel.v and the map that of ZrunModel.v. | C127_eutropia_ends, C127_eutropia_fails, C127_eutropia_stopped: induction on the input files; C127_zemrude_map, C127_zemrude_fails, C127_zemrude_stopped, C127_zemrude_compression: by the steps of the program, for every result of the computation; C127_compression: by cases on the names. C127_zemrude_compression_refuted: the file has not the compression that the comment in the code says. | `MapfProps.v` |
| C128 | ZkrModel.v: the rows and the run number of the file of dorothea (DorModel.v) as zemrude (ZrunModel.v) reads them. A row without S1 has nan as its energy, for which the model of zemrude has no value: such files are not modelled. | C128_map, C128_one_each, C128_same_number: from C106_run for each run of dorothea and C116_zemrude, by induction on the files and the picked rows; C128_other_runs_refuted: two pairs of runs that differ in one event number. | `ZkrProps.v` |
| C129 | MfileModel.v: a file as the outcome of pandas.read_hdf for each of its tables; read_maps table by table; the conversion with the mean that leaves nan out. The correction is that of CorrModel.v. | C129_read, C129_missing, C129_depends, C129_drift: by cases on the outcomes of the tables, and induction on the points and the velocities; C129_unreadable_refuted: a file whose time evolution raises. | `MfileProps.v` |
| C130 | HitcModel.v: clusters, hits and collections; rows with the optional columns; the hit of a row with the default values; store with the columns of HitsTable. The grouping by event and time is that of TablesModel.v. | C130_read: from C53_hits_by_event; C130_file: invariant of the dictionary along the groups; C130_stored: from C130_read and the rows of each event; C130_energy_refuted, C130_track_refuted: witnesses. | `HitcProps.v` |
| C131 | RadioModel.v: the tables as lists of rows; the query with MAX and GROUP BY as documented by sqlite (the other columns are those of a row with the maximum); the maximum of the versions; the rows in force as in DbModel.v. The order of the groups, the columns of the boxes and NULL versions are not modelled. | C131_version, C131_default: invariant of the groups along the rows; C131_reproducible: the newer rows are filtered out; C131_noise: from the sort of DbProps.v; C131_default_refuted, C131_simulation_refuted: witnesses. | `RadioProps.v` |
| C132 | WgenModel.v: waveforms as lists of rationals, the assignments to slices one by one, the draws as a function of the call and the position; linspace and zeros. Floating point is not modelled. | C132_square: each sample by cases on the part of the pulse it is in, the line by field; C132_sawteeth: lengths; C132_teeth: the positions in the concatenation, linspace by field; C132_sawteeth_refuted: witness. | `WgenProps.v` |

## 3. Trusted base

* The kernel of Coq 8.16.1.
* What `Print Assumptions` lists: it follows every theorem of the `Props` files and
  prints `Closed under the global context` for all of them (section 5).
* The reading of `/repo` as text: the model is written by hand and never compared
  by execution, since the code cannot be run here.
* The meaning given to the libraries, each in the comment of the definition that
  transcribes it: numpy (`histogram`, `histogramdd`, `digitize`, `searchsorted`,
  `argsort`, `unique`, `arange`, `linspace`, `convolve`, `split`, `repeat`, fancy
  indexing, casts), pandas (`groupby`, `merge`, `loc`, `cut`, `fillna`, `concat`),
  PyTables (append, read, row records), networkx (components, paths),
  scipy.ndimage.label, scipy.signal (`fftconvolve` is the exact convolution,
  `lfilter`), sklearn's DBSCAN (transcribed), Python's coroutines and dictionaries.

### Arguments of the model (arbitrary in the theorems, unless a hypothesis is stated)

exponential and gaussian functions; square roots (compared through squares where
possible); cosines and filter coefficients; the fits; `griddata` (nearest: with the
hypothesis that it takes a nearest point; otherwise arbitrary); rounding to 32 bits
and to a number of decimals where it does not matter; the random draws; values of
light tables; the integral of the emission-time distribution; shortest paths where
only their length matters; the reconstruction algorithm in the hits of an S2; the
signal-to-noise function; names of PMTs; the operations and writers inside the
pipelines of C73 and C74.

### Not modelled

Plots (`control_plots_functions`), the download of the database, string
representations, progress messages, random-number generators, wall-clock times,
the numerical minimisers, HDF5 files below the level of tables, floating-point
rounding, memory sharing between cached data frames, the scripts of `bin`, the
test files, and `museum` (old code that no city uses).

## 4. Findings

Behaviours of the code that a user would not expect, met while modelling it.
Theorems in brackets exhibit them in the model; the others are recorded only.
Paths are relative to `invisible_cities`.

### Peaks, waveforms and sensors
* C119: ic_types_test.py says that minmax is semi-open, but `contains` includes both limits (C119_interval). The tests of its sum, product, division and difference call np.isclose without assert, so that they cannot fail on a wrong limit.
* C119: `reco/krmap_functions.lin_seed` pairs the least x with the least y, so that for points on a line that goes down the slope of the seed has the wrong sign (C119_line_down_refuted).
* C104: events with the same number (files of different runs or simulations given together) are read back as one event whose waveforms are mixed: the second half of the waveform of a PMT is that of another PMT, without an error (C104_repeated_refuted).
* C97: hypathia masks the raw waveforms of the PMTs but sums and searches the unmasked ones, and gives build_pmap the identifiers of the PMTs in use only: with any PMT out of use its light is in the sums and the first peak raises ValueError (C97_masked_refuted).
* irene removes the rows of inactive SiPMs (sensor_masker), but individual thresholds (NoiseSampler.compute_thresholds) and the positions used by the pyrrha selection cover all SiPMs of the database: with any SiPM inactive the first S2 raises ValueError (the test with individual thresholds is skipped). An event with no sample above the S1 threshold is dropped even if it has an S2 signal. irene's zero_suppress declares a third output, s2_energies, that zero_suppress_wfs never returns. (C93)
* `reco/peak_functions.py`: no index above threshold raises IndexError (C08_empty_index_refuted). Padded zeros enter the average time, so a rebinned time may be outside its bin (C10_padded_time_refuted). The rebinning of an S2 must be a multiple of the ratio of sampling widths (C11_misaligned_stride_refuted).
* `evm/pmaps.py`: an empty peak raises AttributeError (`self.__class__.__name` is mangled) instead of ValueError (C12_empty_peak_error_refuted).
* `reco/pmaps_functions.py`: with negative samples the last slice may stay below the threshold (C29_negative_charge_refuted).
* `reco/wfm_functions.py`: `suppress_wf` pads one side more than the other (C27_symmetric_padding_refuted). `top_n_method` with n = 0 selects all the sensors (C59_zero_refuted). Selections other than the median raise AttributeError (C28_other_methods_refuted).
* `reco/xy_algorithms.py`: `corona` never ends for some inputs with lm_radius > new_lm_radius (C26_nontermination_refuted).
* `sierpe/blr.pyx`: needs 400 samples, and an accumulator above its threshold never discharges (C55_stuck_refuted).
* `calib`: `filter_limits` breaks pairs of limits; a limit equal to the buffer length is admitted and then refused; gains that are not positive give zero waveforms.
* `core/system_of_units.py`: `gigahertz` is 1e6 hertz.

### Buffers and simulation
* C132: `sierpe/waveform_generator.py`: sawteeth_waveform pads with t_tot - t_pre - 3 (rise + 2 flat) samples although its three teeth have 3 (2 rise + flat) (line 106), so that the length is not t_tot unless rise and flat part are equal (C132_sawteeth_refuted). square_waveform adds the noise twice at the sample where the pulse ends (79, 84).
* C123: load_mcsensor_response_df asserts that the run number is true, so that an old file cannot be read with the run number 0 (C123_run_zero); an old file without positions gives events without light and no warning (C123_no_positions); an event without light that is not the first of an old file gets a copy of the last row of the event before it, and may be taken for an event with light (C123_empty_event_refuted).
* C102: diomira gives floats to an EArray of 16-bit integers, so the SiPM counts lose their fraction and are biased by half a count, while hypathia rounds the same charges (C102_rounding_refuted). emulate_trigger takes n_baseline out of the configuration it is given.
* C98: emulate_trigger gives the list of PMT positions to deconv_pmt as its argument `mask`. So the waveforms are those of the first PMTs of the database whatever the channels selected (C98_channels_refuted), and a PMT out of use in the database makes every event fail with AssertionError (C98_masked_refuted). A selected PMT with no sample above the minimum height raises IndexError in find_peaks and stops the city, instead of being one that does not fire (C98_silent_refuted).
* C95: the bins of detsim start at 0, so the times of its buffers count from the start of the buffer and not from the time of the event: hits 100 units later give the same rows (C95_start_refuted). A maximum time that is not a whole number of PMT samples may be refused (C75_length_refuted).
* `detsim/buffer_functions.py`: event numbers collide when the buffer length is no multiple of the bin width (C14_fractional_buffer_refuted); a pre-trigger as long as the buffer gives a buffer of the wrong length (C16_full_pretrigger_refuted); PMTs and SiPMs start at different times when the pre-trigger is no multiple of the SiPM width (C16_common_start_refuted).
* `detsim/s2_waveforms_c.pyx`: light before the buffer wraps around or raises IndexError (C46_early_refuted, C46_earlier_refuted); the start of a spread waveform is lost (C47_start_refuted).
* `cities/detsim.py`: a crossing time that is no multiple of the width loses light at the start of the buffer (C66_fraction_refuted).
* `detsim/detsim_waveforms.py`: a buffer length that is no multiple of the bin width raises ValueError or invents light (C75_length_refuted, C75_broadcast_refuted).
* `detsim/light_tables*.py*`: other gaps, other first distances, other axes and repeated positions are read out of place or refused (C76_gap_refuted, C76_offset_refuted, C76_transposed_refuted, C76_repeated_refuted). A user value of zero is taken as none (C76_configured).
* `core/random_sampling.py`: `C78_displaced_refuted`, `C78_lost_refuted`; `inverse_cdf_index` raises IndexError above the total.
* `sierpe/fee.py`, `detsim/sensor_functions.py`: light of the last samples is lost, short buffers give empty waveforms, PMTs without channel raise IndexError (C79_end_refuted, C79_short_refuted, C79_unmapped_refuted); there is no saturation of the digitised waveforms.

### Hits and tracks
* C103: with same_peak the energy of a selected S2 without a SiPM over threshold disappears from the event when another S2 has one (C103_lost_refuted). An event that passes the selection without a good S2 (limits that allow zero S2s) ends the city (C103_no_s2).
* C100: Beersheba loses the energy of a peak whose hits are all cut or isolated, without a trace other than the hits after the threshold (C100_lost_refuted).
* `reco/hits_functions.py`: hits of empty slices without a receiver are dropped (C18_no_receiver_refuted), receivers of no energy give nan (C18_zero_receiver_refuted), interleaved events mix the index of the tagged hits (C77_index_refuted).
* `reco/paolina_functions.py`: voxels of zero energy are dropped with their hits (C20_cancelling_energies_refuted); a track whose distances are all zero has no extremes; voxels with and without hits cannot be mixed (see C22, C23).
* `cities/components.py`: tracks of events without energy in the map lose hits (C68_lost_refuted); too many hits are reported as out of the map (C68_flag_refuted); duplicated rows multiply (C68_overlap_refuted); the documented order of arguments of `hit_builder` raises TypeError (C70_keyword_refuted); an S2 without SiPMs raises IndexError (C70_no_sipms); other events with the same count are not noticed (C71_other_events_refuted); hits of unlisted events are lost (C71_unlisted_refuted); `hits_corrector` changes its input (C80_input_refuted), corrects twice differently (C80_twice_refuted) and its temporal correction raises AttributeError (C80_temp).
* `cities/esmeralda.py`: hits of empty slices outside the circle are dropped before they are merged (C80_empty_hits_lost).
* `cities/hypathia.py`: the city does not return its result.

### Deconvolution and PSF
* C94: a first estimate that is compared to an image of zeros counts as settled for every positive threshold (0/0 is skipped as NaN by nansum), and a pixel that is zero in the previous estimate and positive in the next makes the change infinite.
* `reco/deconv_functions.py`: the outermost light is lost without interpolation and the positions of the border are displaced (C83_lost_refuted, C83_border_refuted); a PSF of even size does not keep the charge (C65_even_refuted); `drop_isolated_clusters` without a passing cluster raises TypeError, and with nhits = 0 KeyError (C43_zero_hits_refuted).
* `cities/beersheba.py`: peaks whose deconvolved hits are all cut lose their energy (C44_all_cut_refuted).
* `cities/eutropia.py`: ignores the event range; a peak over two files is normalised in each (C41_shared_peak_refuted).

### Files
* C131: `database/load_db.py`, RadioactivityData: the default version is the greatest of the table Activity, also for the efficiencies (153-161), so that an efficiency with a newer version than all activities is not used (C131_default_refuted), although the test says that by default the data have the maximum version. PMTLowFrequencyNoise, as SiPMNoise, does not replace run 0 with the run for simulations as DataPMT does (C131_simulation_refuted).
* C130: Cluster takes an energy equal to NN for one not given (event_model.py 115-118), so that load_hits gives a hit whose energy in the table is NN its charge as energy (C130_energy_refuted). HitCollection.store does not set the column track_id, that is then 0 for all hits, while -1 stands for no track elsewhere (C130_track_refuted).
* C122: dst_event_id_selection on a table without the column event prints a message and returns all its rows, while load_dst with a list of events raises KeyError for it, even with ignore_errors (C122_dst). load_pmaps_as_df gives no table of SiPMs for a file without it when it is lazy, and raises NoSuchNodeError when it is not (C122_refused).
* C121: irene and hypathia write Run/events before Trigger, and isaura before DST/Events, so that a run interrupted there lists an event that is not complete (C121_irene_trigger_refuted); all other cities of the reconstruction list an event last. buffy and detsim list each trigger of an event before its waveforms, so that a stop between two triggers leaves a file, without any sign of it, with only the first triggers of the event (C121_sim_ex). The filters are written first: Filters tables may list an event that the run has not done. The reader of deconvolved hits fails on a file with rows of an event that is not listed only after it has given the events before it (C121_deco_read), unlike those of PMaps, waveforms and hits.
* C120: `loadDB` removes the local copy before it connects to the server: when the server cannot be reached nothing is left (C120_unreachable). The expression that removes indices eats the comma after the first one, so that the second index of a table is left in the statement, which sqlite refuses (C120_two_keys_refuted). `check_minrun_maxrun` compares run numbers with a relative tolerance: above ten millions a difference of one run passes (C120_check_large_refuted). `connect_mysql` returns itself in place of the connection.
* C105: pmap_from_files is written to skip a file without PMaps (except NoSuchNodeError, components.py 594-597), but load_pmaps(lazy=True) is a generator that opens the file only when it is read: the exception appears later, outside the try, and stops the city (C105_no_pmaps_refuted).
* C96: load_pmaps_eager (load_pmaps with lazy=False) fails with IndexError on every non-empty file without the tables of individual PMTs (C96_eager_refused); only the lazy reader supports them.
* `io/mcinfo_io.py`, get_sensor_binning: `str.strip('_binning')` takes away letters, not a suffix: a sensor called PmtIn becomes PmtI and the times of its charges are NaN (C89_letters_refuted).
* `io/mcinfo_io.py`, cast_mchits_to_dict: the hits of an event are grouped by identifier only, so of two hits of different particles with the same identifier one is lost (C88_shared_ids_refuted).
* `io/mcinfo_io.py`: events without particles are not found in files without event numbers (C87_no_particles_refuted); when no event of the first file is kept the next one cannot be copied (C87_first_refuted); simulated events with the same number in two files are mixed by the second city (C87_shared_refuted).
* `io/trigger_io.py` drops triggers of type 0; `io/dst_io.py` checks no empty frame; `io/pmaps_io.py` refuses files with an event without peaks and clips peak numbers; `io/hits_io.py` overwrites events of several times; `io/event_filter_io.py` refuses repeated events.
* `io/mcinfo_io.py`: refuted cases of C33 and C34; sensors without position lose their light and sensors listed twice double it (C72_missing_refuted, C72_twice_refuted).
* `io/channel_param_io.py`: readers end the program instead of raising; values of a refused fit appear in the next row (C85_stale_refuted); the covariance is read as two of its rows (C85_covariance_refuted).
* `database/load_db.py`: overlapping validity intervals repeat sensors (C49_overlap_refuted); an incomplete noise table is silently misaligned (C49_noise_incomplete_refuted).
* `evm/event_model.py`: storing a point-like event without a selected S2 raises TypeError.

### Configuration and cities
* C117: isaura writes the events of a file in the order in which their hits appear, not in that of Run/events (C117_isaura_order_refuted).
* buffy: the search for the widths of the samples skips files without configuration (cities/buffy.py, pmt_and_sipm_bin_width_safe_), but the reader of the sensors then ends the run at that same file (C114_no_configuration), so the search never helps unless all files lack it, in which case the city returns zero events without an output file (C114_nothing_to_do). Times, that are fractions of a nanosecond, are written to a column of unsigned integers (io/rwf_io.py 139-167, evm/nh5.py 13). A run without triggers leaves a file that no city can read (C114_read).
* isidora does not mask the sensors before the deconvolution (cities/isidora.py 54; compare sensor_masker in cities/irene.py): with a PMT that is not active and a file with the waveforms of all PMTs, which is what irene needs and diomira writes, the assertion of deconv_pmt (cities/components.py 439) ends the run (C113_masked). The deconvolved waveforms are written to an array of int16, so their fractions are dropped (cities/isidora.py 58, io/rwf_io.py 52).
* isaura cannot read what beersheba writes. The table DECO/Events of beersheba has the columns event, npeak, X, Y, Z, E, Xpeak, Ypeak and time (cities/beersheba.py 228, 261-275, 96-97). dhits_from_files (cities/components.py 742-746), its documented reader, finds Xpeak and selects also Ec, track_id and Ep, which are missing: KeyError with the first deconvolved hit (C112_beersheba_refuted). Only old files without Xpeak, or the output of isaura itself, can be read.
* hypathia collects its counts and, unlike all the other cities that do, does not return them (cities/hypathia.py 149-173 end after copy_mc_info): the numbers of events in and out that the other cities return, and that @city is written to pass on, are lost and the caller gets None.
* A file of diomira in which no event passes the trigger has an empty table of runs, and irene stops on it with IndexError, also when other files follow: wf_from_files reads the run number before looking at the events, and unlike pmap_from_files it does not skip such a file (C110_chain).
* esmeralda: after the threshold no hit has a NaN corrected energy (the energies of the column are added with nansum), so out_of_map in the summary is true only for events with too many hits (C108_run, tracks_written). A file of sophronia none of whose accepted events has hits has no RECO/Events table, and esmeralda skips it whole: its events are missing from the event table and the counters, and its pointlike rows are not copied (C108_no_hits).
* C106: with s2_nmin = 0 an event without S2s is accepted and the run stops with TypeError; with s2_nsipmmin = 0 an S2 without SiPMs stops it with IndexError (C106_no_s2_refuted, C106_no_sipms_refuted).
* `core/configure.py`: refuted cases of C30 and C31: a deleted value is in no history, tuples of other lengths pass, a failing first call is not checked again, `Optional[Tuple]` raises TypeError on None, `Sequence[T]` accepts any iterable.
* `cities/components.py`: `wf_from_files` fails on an empty run table; `print_every` of a number that is not positive fails when the pipe is built.

* `cities/components.py`: a city run on the output of itself fails at the end with NodeError, after all the work, and its tables get no index (C86_repeated); the configurations of input files other than the first are lost (C86_others_refuted); long values are cut (C86_cut_refuted).

### Maps and calibration
* C129: read_maps has a bare `except` around the time evolution (corrections.py 63-66), so that a table that is there but cannot be read is taken for one that is not there; the user learns of it only if the correction asks for it, as TimeEvolutionTableMissing (C129_unreadable_refuted).
* C128: zemrude joins the rows of all its files before it asks for events with a single row, and it counts rows by event number only. Events of two runs that have the same number are taken for two rows of one event, and both are left out (C128_same_number, C128_other_runs_refuted); if all of them are repeated the run ends with a ZeroDivisionError.
* C127: zemrude creates its output with the compression of the configuration (zemrude.py 267-270, "The output file is created with the compression settings"), but save_map then writes the metadata with `to_hdf(..., mode='w')`, which creates the file anew without compression, so the argument has no effect (C127_zemrude_compression_refuted). When eutropia finds no PSF at all it fails with an AttributeError in df_writer, after writing all the events and an empty group PSF (C127_eutropia_fails).
* C126: in `compute_seeds_from_spectrum` (calib/calib_functions.py 240-262) a bin closer to the first than half a width gives a negative start of the slice, which Python counts from the end: nothing is fitted (C126_edge). If scipy finds no peak, the empty array of floats it returns cannot index the bins and the IndexError is outside the `try` meant for it (C126_bin). The gain seed may be below its bound 0, which scipy refuses (C126_bounds_refuted).
* C125: `expo_seed` (reco/krmap_functions.py 60) divides by the logarithm of the ratio of the last energy to the first the last time, and not the last time minus the first: the lifetime of the seed is too long by last / (last - first) unless the first time is zero (C125_decay, C125_exact_refuted). `lin_seed` never has a negative slope (C125_line_down_refuted), although energies fall with drift time in linear fits.
* C116: zemrude does not use event_range, run_number nor detector_db of the configuration (all rows are processed; the run number is read from the first file). The metadata map_shape and map_extent are the numbers of selected rows, not of bins of the map (C116_map_shape_refuted). save_map opens the file with mode 'w', so what was written with the compression of the configuration is discarded.
* C101: the modes of trude that calibrate (subtract_mode_calibrate and the like) are accepted and raise TypeError with the first event, because the constants are not given (C101_trude_calibrated_refuted). In phyllis the mode gain_nodeconv with a PMT out of use raises ValueError when the histograms are added, unless only one is in use (C101_nodeconv_refuted), and then the histogram of this PMT is added to those of all (C101_nodeconv_one_refuted). Besides, pmt_calibration's calibrate_with_maw calls subtract_baseline_maw_and_calibrate, which does not exist.
* C99: if the data spans a whole number of intervals the events with the last time are alone in a last row, whose rate is a division by zero (C99_last_rate_refuted). The uncertainty of the mean of S1e is divided by the square root of the number of all rows, though only those in s1_DTrange are averaged, so that rows out of range reduce it (C99_s1_error_refuted).
* (C92) A function with fixed parameters called with one argument gives it to all its free parameters (numpy broadcasts it) instead of raising. A parameter cannot be fixed to nan.
* (C91) get_chi2_and_pvalue has a default error (poisson_sigma) that fit never uses: without sigma the chi2 of a fit is computed with errors of one, so it is not a test of goodness of the fit.
* (C90) Events on the border of a bin are as close to the next bin, and griddata may take that one. A file written by zemrude cannot be given to zemrude as pre_map: apply_map reads it with pd.read_hdf without a key, which finds the metadata (the only frame stored by pandas) and not the table krmap/krmap. The metadata entries map_shape and map_extent describe the table of events, not the map. get_time_evol_single_slice divides the spread of S1e in the drift-time range by the root of the number of all rows of the slice, not of those in the range.
* `filters/trigger_filters.py`: counts peaks, not channels (C37).
* `icaros`: an empty selection stage raises ZeroDivisionError (C39_failure).
* `reco/corrections.py`: a region without columns gives nan instead of ValueError (C38_empty_region_refuted).
* `core/fit_functions.py`: the largest coordinate is in no bin by default (C84_maximum_refuted); dropping keeps bins of one entry without deviation (C84_single_refuted).
* `calib`: values between the last edge and the maximum are not counted (C81_maximum_refuted); the series of gaussians of bright spectra is empty (C82_bright_refuted) or endless (C82_endless); spectra whose zero is no centre are displaced (C82_displaced_refuted); the bounds of the pedestal are mixed up (C82_bounds_refuted).

## 5. Print Assumptions

`Print Assumptions` follows each of the 718 theorems of `MANIFEST.json` and the 128
theorems `_refuted` in their file.  It answers `Closed under the global context` for
all of them but those of C125 and C126 (`LifeProps.v`, `SeedProps.v`), whose model is
over the real numbers of the standard library.  For these it lists axioms of the
standard library only:

- `ClassicalDedekindReals.sig_not_dec : forall P : Prop, {~ ~ P} + {~ P}`
- `ClassicalDedekindReals.sig_forall_dec : forall P : nat -> Prop, (forall n, {P n} + {~ P n}) -> {n | ~ P n} + {forall n, P n}`
- `FunctionalExtensionality.functional_extensionality_dep : forall A B (f g : forall x : A, B x), (forall x, f x = g x) -> f = g`
- `Classical_Prop.classic : forall P : Prop, P \/ ~ P`

`C125_decay`, `C125_exact`, `C125_exact_refuted`, `C125_through`, `C125_fails`,
`C125_order`, `C125_start`, `C125_log_lin`, `C125_curve` and `C126_dark` list the four;
`C125_errors`, `C126_pedestal`, `C126_sensors`, `C126_gain`, `C126_edge`,
`C126_photons`, `C126_seeds` and `C126_bounds_refuted` the first three;
`C125_line_down_refuted` and `C126_bin` the second and the third;
`C126_database` is closed.
`coqchk` lists, besides, the axioms `Coq.ssr.ssrunder.*`, which belong to a module
the library loads and on which no theorem depends.

## 6. Tests against wrong programs

`seeded/LOG.jsonl` records 517 edits of the model, one per line: the definition, the
edit, the claim it breaks, the theorems and lemmas that no longer compile, and the
theorems that were tightened because the edit had survived.
