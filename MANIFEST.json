{
 "claims": [
  {
   "property": "C01",
   "status": "proved",
   "theorems": [
    "C01_fft_convolve_linear",
    "C01_fft_convolve_rejects"
   ],
   "note": "Exact arithmetic; FFT modelled as the DFT and its inverse with the power-of-two length of the code."
  },
  {
   "property": "C02",
   "status": "proved",
   "theorems": [
    "C02_static_superposition"
   ],
   "note": "Exact arithmetic."
  },
  {
   "property": "C03",
   "status": "proved",
   "theorems": [
    "C03_static_shapes"
   ],
   "note": "Accepted shapes characterised; zero-length signals and RIRs excluded."
  },
  {
   "property": "C04",
   "status": "proved",
   "theorems": [
    "C04_trajectory_time_varying",
    "C04_convolver",
    "C04_segment_exists",
    "C04_trajectory_default",
    "C04_dynamic_shapes_rejected"
   ],
   "note": "Exact arithmetic for samples; the segment starts are the rounded ones computed by the code."
  },
  {
   "property": "C05",
   "status": "proved",
   "theorems": [
    "C05_default_segments_partition",
    "C05_default_segments_exact"
   ],
   "note": "Binary64 (cpu, cuda) and binary32 (mps) rounding modelled; T bounded by 2^(p-2)."
  },
  {
   "property": "C06",
   "status": "proved",
   "theorems": [
    "C06_hop_coverage",
    "C06_convolver",
    "C06_hop_required",
    "C06_hop_zero",
    "C06_negative_hop_silent"
   ],
   "note": "Exact closed form of the hop output; a negative hop returns silence, zero raises ZeroDivisionError."
  },
  {
   "property": "C07",
   "status": "proved",
   "theorems": [
    "C07_batched_equals_cpu"
   ],
   "note": "Equality over the reals for every chunk size."
  },
  {
   "property": "C08",
   "status": "proved",
   "theorems": [
    "C08_constant_trajectory_is_static",
    "C08_constant_hop_is_static"
   ],
   "note": "Static RIR repeated at every step."
  },
  {
   "property": "C09",
   "status": "proved",
   "theorems": [
    "C09_trajectory_linear",
    "C09_hop_linear",
    "C09_trajectory_stems",
    "C09_hop_stems"
   ],
   "note": "Linearity and per-source stems, both modes."
  },
  {
   "property": "C10",
   "status": "proved",
   "theorems": [
    "C10_trajectory_local",
    "C10_hop_local",
    "C10_static_local"
   ],
   "note": "Output sample j depends only on input samples j-L+1..j."
  },
  {
   "property": "C11",
   "status": "partial",
   "theorems": [
    "C11_timestamps_rejected",
    "C11_timestamps_accepted",
    "C11_aligned_timestamp_refuted",
    "C11_aligned_timestamp_partial",
    "C11_unknown_mode_rejected"
   ],
   "note": "Validation proved; the expectation that a sample-aligned timestamp k/fs starts its segment at sample k is refuted (k=1001, fs=16000 starts at 1000); the start is k or k-1."
  },
  {
   "property": "C12",
   "status": "proved",
   "theorems": [
    "C12_order_enumeration",
    "C12_box_enumeration",
    "C12_wrong_length_rejected",
    "C12_negative_count_raises",
    "C12_count_2d",
    "C12_count_3d"
   ],
   "note": "Complete and duplicate free for every order and every box; exact counts in 2-D and 3-D; wrong length and negative counts raise."
  },
  {
   "property": "C13",
   "status": "proved",
   "theorems": [
    "C13_iterated_reflection",
    "C13_mirror_cell"
   ],
   "note": "Every coordinate, every integer index, all source positions and lengths."
  },
  {
   "property": "C14",
   "status": "proved",
   "theorems": [
    "C14_path_product",
    "C14_walls_crossed",
    "C14_range",
    "C14_monotone",
    "C14_direct",
    "C14_absorbed",
    "C14_all_absorbing"
   ],
   "note": "Product over the wall copies separating image and receiver; range, monotonicity, direct path, absorption."
  },
  {
   "property": "C15",
   "status": "proved",
   "theorems": [
    "C15_coverage",
    "C15_counts_positive",
    "C15_rir_complete"
   ],
   "note": "Every image outside the box from tmax is at distance >= tmax*c from every mic inside the room, and enlarging the box leaves every RIR sample before tmax*fs unchanged."
  },
  {
   "property": "C16",
   "status": "proved",
   "theorems": [
    "C16_reciprocity_filtered",
    "C16_reciprocity"
   ],
   "note": "Whole simulate_rir call, omnidirectional, high-pass off, exact arithmetic."
  },
  {
   "property": "C17",
   "status": "proved",
   "theorems": [
    "C17_mirror_filtered",
    "C17_mirror"
   ],
   "note": "Whole simulate_rir call, any axis, omnidirectional, high-pass on or off."
  },
  {
   "property": "C18",
   "status": "proved",
   "theorems": [
    "C18_static_chunks",
    "C18_dynamic_chunks",
    "C18_plain_sum"
   ],
   "note": "Static and dynamic; the high-pass filter may be on (any filter oracle); closed form of the RIR as a plain sum."
  },
  {
   "property": "C19",
   "status": "proved",
   "theorems": [
    "C19_pair_is_single",
    "C19_scatter_in_row"
   ],
   "note": "Any directivity, orientation and config; high-pass filter an oracle that keeps row length."
  },
  {
   "property": "C20",
   "status": "proved",
   "theorems": [
    "C20_table_positions",
    "C20_accumulate_never_raises",
    "C20_binary64",
    "C20_binary32"
   ],
   "note": "Any rounding that keeps the relevant integers exact; instantiated to binary64 and binary32."
  },
  {
   "property": "C21",
   "status": "proved",
   "theorems": [
    "C21_direct_tap",
    "C21_table_tap",
    "C21_exact_on_grid",
    "C21_error_bound"
   ],
   "note": "Explicit uniform bound pi^2/(24 g^2)."
  },
  {
   "property": "C22",
   "status": "proved",
   "theorems": [
    "C22_touched_samples",
    "C22_delay",
    "C22_integer_delay",
    "C22_silent_before_direct"
   ],
   "note": "RIRs carry a constant latency of (L-1)/2 samples: integer delay k peaks at k+(L-1)/2."
  },
  {
   "property": "C23",
   "status": "proved",
   "theorems": [
    "C23_prefix"
   ],
   "note": "High-pass off; any directivity."
  },
  {
   "property": "C24",
   "status": "proved",
   "theorems": [
    "C24_next_order",
    "C24_absorbing_room"
   ],
   "note": "Omnidirectional, high-pass off."
  },
  {
   "property": "C25",
   "status": "proved",
   "theorems": [
    "C25_dynamic_is_static",
    "C25_static_gives_dynamic",
    "C25_constant_trajectory"
   ],
   "note": "Both directions: each step of the dynamic result is the static result, and the dynamic call succeeds whenever every static step does."
  },
  {
   "property": "C26",
   "status": "proved",
   "theorems": [
    "C26_history_irrelevant",
    "C26_served_tables",
    "C26_is_plain"
   ],
   "note": "Any sequence of earlier cache requests; the served table equals the freshly computed one and the plain (uncached) result."
  },
  {
   "property": "C27",
   "status": "proved",
   "theorems": [
    "C27_first_order",
    "C27_half_space",
    "C27_rejects_others",
    "C27_accepted_iff",
    "C27_bounded",
    "C27_on_axis",
    "C27_rear"
   ],
   "note": "Gain per pattern, accepted names exactly, bounds, on-axis and rear values."
  },
  {
   "property": "C28",
   "status": "partial",
   "theorems": [
    "C28_departure_is_physical",
    "C28_source_cosine_exact",
    "C28_source_directivity_refuted",
    "C28_even_images_partial",
    "C28_aligned_orientation_partial",
    "C28_mic_cosine",
    "C28_mic_arrival_is_physical"
   ],
   "note": "The cosine used at the source is exact for the unmirrored source; the expectation that odd images mirror the pattern is refuted, with the even-image and axis-aligned cases proved."
  },
  {
   "property": "C29",
   "status": "proved",
   "theorems": [
    "C29_is_the_cosine",
    "C29_bounded",
    "C29_undefined_iff",
    "C29_scaling"
   ],
   "note": "Cosine of a non-zero vector and an orientation of norm >= 1e-8; bounded; NaN iff source image and mic coincide; scale invariant. For an orientation shorter than 1e-8 the code's clamp applies."
  },
  {
   "property": "C30",
   "status": "partial",
   "theorems": [
    "C30_alias_without_orientation_refuted",
    "C30_alias_refuted",
    "C30_alias_result_partial",
    "C30_alias_result_dynamic_partial",
    "C30_alias_with_orientation_partial"
   ],
   "note": "Refuted: without orientations every spelling other than the exact string omni raises ValueError. Proved: when the call succeeds the result is that of omni, and with orientation vectors on both sides the two calls are equal."
  },
  {
   "property": "C31",
   "status": "partial",
   "theorems": [
    "C31_inactive",
    "C31_tail_partial",
    "C31_early_unchanged_partial",
    "C31_decay_bounded",
    "C31_default_seed",
    "C31_early_unchanged_refuted"
   ],
   "note": "Exact closed form of the tail, inactivity, seed default and decay bounds proved. Refuted: with an explicit nsample <= floor(tdiff*fs) the last sample is replaced although it precedes floor(tdiff*fs)."
  },
  {
   "property": "C32",
   "status": "proved",
   "theorems": [
    "C32_disabled",
    "C32_cutoff_rejected",
    "C32_cutoff_accepted",
    "C32_rows_filtered",
    "C32_simulation"
   ],
   "note": "Filter design and row filter are oracles; row filter keeps the row length."
  },
  {
   "property": "C33",
   "status": "proved",
   "theorems": [
    "C33_accepted_scene",
    "C33_config_valid_iff",
    "C33_invalid_rejected",
    "C33_default_valid",
    "C33_replace",
    "C33_default_used",
    "C33_missing_order",
    "C33_missing_length",
    "C33_bad_values",
    "C33_arguments_override",
    "C33_unused_options",
    "C33_static_shape",
    "C33_dynamic_shape"
   ],
   "note": "tmax*fs is the binary64 product; config fs and mixed_precision shown to have no effect."
  },
  {
   "property": "C34",
   "status": "proved",
   "theorems": [
    "C34_uniform_beta",
    "C34_round_trip",
    "C34_saturated",
    "C34_increasing",
    "C34_nonpositive_rejected",
    "C34_walls",
    "C34_wrong_count_rejected",
    "C34_attenuation",
    "C34_attenuation_rejected",
    "C34_extend"
   ],
   "note": "Exact arithmetic; rooms of two and three dimensions, absorption per wall, attenuation times."
  },
  {
   "property": "C35",
   "status": "partial",
   "theorems": [
    "C35_reachable_partial",
    "C35_finite_partial",
    "C35_accepted_iff",
    "C35_finite_refuted"
   ],
   "note": "Full invariant for every room reachable by constructor/shoebox/replace except that NaN and +inf pass the fs, c, t60 checks (refuted with a witness); exact acceptance condition proved for float sizes."
  },
  {
   "property": "C36",
   "status": "partial",
   "theorems": [
    "C36_float_partial",
    "C36_int_partial",
    "C36_int_values_rejected_partial",
    "C36_refuted",
    "C36_replace_refuted"
   ],
   "note": "Proved for floating-point sizes; refuted for integer sizes (shoebox([6,4,3], beta=[0.9]*6) stores zeros; replace(size=int tensor) truncates stored coefficients)."
  },
  {
   "property": "C37",
   "status": "proved",
   "theorems": [
    "C37_constructed",
    "C37_from_positions",
    "C37_replaced",
    "C37_accepted",
    "C37_replace_nothing"
   ],
   "note": "Constructor, from_positions and replace; orientations are shown convertible by orientation_to_unit to one direction or one per entity."
  },
  {
   "property": "C38",
   "status": "proved",
   "theorems": [
    "C38_unit_norm",
    "C38_short_vectors",
    "C38_orientation_rows",
    "C38_angles",
    "C38_select",
    "C38_select_shared"
   ],
   "note": "Unit norm above the clamp, exact value below it, angle conventions."
  },
  {
   "property": "C39",
   "status": "partial",
   "theorems": [
    "C39_static_partial",
    "C39_dynamic_partial",
    "C39_validate_stable",
    "C39_old_scene",
    "C39_empty_refuted",
    "C39_integer_refuted"
   ],
   "note": "Documented shapes for static and dynamic scenes with at least one source/microphone/step, finite room scalars and float working dtype; deprecated Scene conversion; refuted for empty position tensors and integer positions."
  },
  {
   "property": "C40",
   "status": "partial",
   "theorems": [
    "C40_conflict_rejected",
    "C40_own_parameters",
    "C40_static_orientation",
    "C40_length",
    "C40_dynamic_orientation_refuted"
   ],
   "note": "Conflicts rejected, results independent of the configuration's order/tmax/directivity, stored static orientations used; refuted for the orientation of dynamic scenes."
  },
  {
   "property": "C41",
   "status": "partial",
   "theorems": [
    "C41_linear",
    "C41_accepted",
    "C41_zero_direction_refuted",
    "C41_binaural_partial",
    "C41_binaural_refuted"
   ],
   "note": "Exact geometry for every returned linear array and an exact acceptance condition; binaural arrays proved for floating-point centers. Missing: integer centers, where offsets below 1 m are truncated (refuted); a zero direction silently gives NaN (exact condition proved)."
  },
  {
   "property": "C42",
   "status": "partial",
   "theorems": [
    "C42_ring_partial",
    "C42_first",
    "C42_defined_partial",
    "C42_rejected",
    "C42_backward_normal_refuted",
    "C42_integer_refuted"
   ],
   "note": "Ring, angle spacing, plane and centroid for every returned array with a floating-point center. Missing: normals that are non-positive multiples of the x axis give NaN, integer centers truncate the angles (both refuted with witnesses)."
  },
  {
   "property": "C43",
   "status": "proved",
   "theorems": [
    "C43_polyhedra",
    "C43_rejected",
    "C43_eigenmike",
    "C43_em32_opposite",
    "C43_eigenmike_rejected"
   ],
   "note": "Counts, distinctness, distance, centroid and minimal angle of the five solids; 32/64 distinct Eigenmike points on the sphere."
  },
  {
   "property": "C44",
   "status": "partial",
   "theorems": [
    "C44_positions_partial",
    "C44_z_range_partial",
    "C44_reaches_partial",
    "C44_reaches_z_partial",
    "C44_corners_partial",
    "C44_margin_refuted",
    "C44_min_distance_partial",
    "C44_exactly_num",
    "C44_empty_refuted"
   ],
   "note": "Bounds proved for all streams with Python-float and float32 rounding modelled. Missing: the margin itself can be violated by float32 rounding (refuted); num=0 with a height range raises IndexError."
  },
  {
   "property": "C45",
   "status": "partial",
   "theorems": [
    "C45_inside_partial",
    "C45_unchanged_partial",
    "C45_idempotent",
    "C45_overlap_partial",
    "C45_nearest_partial",
    "C45_integer_refuted"
   ],
   "note": "All clauses for floating-point room sizes; idempotence for all dtypes. Missing: integer room sizes truncate the lower margin (refuted)."
  },
  {
   "property": "C46",
   "status": "proved",
   "theorems": [
    "C46_segment",
    "C46_short"
   ],
   "note": "All clauses for every step count >= 2; shorter requests characterised (RuntimeError / NaN)."
  },
  {
   "property": "C47",
   "status": "proved",
   "theorems": [
    "C47_peak",
    "C47_peak_float32",
    "C47_multiple",
    "C47_order_preserved",
    "C47_silence",
    "C47_rejects",
    "C47_unnormalised",
    "C47_nan",
    "C47_cases"
   ],
   "note": "Any rounding that is monotone, odd, idempotent and exact on 1 (float32 and exact arithmetic are instances). Infinite samples are not modelled."
  },
  {
   "property": "C48",
   "status": "partial",
   "theorems": [
    "C48_layout_partial",
    "C48_many_channels_refuted",
    "C48_mono",
    "C48_round_trip",
    "C48_round_trip_mono"
   ],
   "note": "Holds up to 8 channels; refuted above (the tensor is not transposed), and loading keeps channel 0 only."
  },
  {
   "property": "C49",
   "status": "partial",
   "theorems": [
    "C49_default_registered",
    "C49_select",
    "C49_files_keep_registry",
    "C49_operation",
    "C49_one_target",
    "C49_always_target",
    "C49_scene_audio_refuted",
    "C49_direct_calls"
   ],
   "note": "All action histories. Refuted for save_scene_audio and torchrir.io.audio, which call the sound file library directly. There is no registration function: adding is an assignment to the module dictionary."
  },
  {
   "property": "C50",
   "status": "proved",
   "theorems": [
    "C50_accepts",
    "C50_rejects",
    "C50_direct",
    "C50_explicit"
   ],
   "note": "All ASCII file names and format strings; an explicit '.wav' is rejected."
  },
  {
   "property": "C51",
   "status": "partial",
   "theorems": [
    "C51_json_partial",
    "C51_unchanged",
    "C51_idempotent",
    "C51_tensor_entries",
    "C51_members",
    "C51_other_objects_refuted",
    "C51_metadata_json"
   ],
   "note": "Exact characterisation; refuted for objects of other classes and non-string keys, which pass unchanged."
  },
  {
   "property": "C52",
   "status": "proved",
   "theorems": [
    "C52_accepts",
    "C52_doa",
    "C52_trajectories",
    "C52_dynamic_flag",
    "C52_time_axis",
    "C52_timestamps",
    "C52_timestamps_given",
    "C52_timestamps_absent",
    "C52_timestamp_segment"
   ],
   "note": "Exact arithmetic for angles and timestamps; segments use the rounded starts of the convolver with T^2 <= 2^prec/8. The metadata has no distance field."
  },
  {
   "property": "C53",
   "status": "partial",
   "theorems": [
    "C53_all_or_nothing",
    "C53_outside_untouched",
    "C53_no_new_links",
    "C53_confined_partial",
    "C53_check_exact",
    "C53_complete",
    "C53_conflict",
    "C53_confined_refuted",
    "C53_up_and_down"
   ],
   "note": "Model: safe_extractall on a file system with links, standard library behaviour (resolve, exists, makedirs, tarfile without filter) written out. Proved for all archives: one bad member means nothing changes; existing files outside the destination keep their content and no file or link appears there; with names free of '..' every change is inside. Refuted in general: a name like ../new/../data/s/x passes the check and creates the directory `new` outside. C53_complete: archives with ordinary names are unpacked completely; C53_conflict: directories and files in each other's place are refused."
  },
  {
   "property": "C54",
   "status": "proved",
   "theorems": [
    "C54_atomic",
    "C54_announced_size",
    "C54_download",
    "C54_one_at_a_time"
   ],
   "note": "Model: download and constructor as traces of file-system steps with arbitrary responses, any number of runs, crash anywhere. Archive path always holds nothing or one whole response body of the announced length; at most two attempts; failure leaves no archive."
  },
  {
   "property": "C55",
   "status": "partial",
   "theorems": [
    "C55_uninterrupted",
    "C55_partial",
    "C55_unsafe_archive",
    "C55_damaged_archive",
    "C55_crash_refuted",
    "C55_failed_extraction_refuted"
   ],
   "note": "An uninterrupted run started without dataset directory is complete or raises; histories with crashes outside extraction are safe. Refuted: a crash, or two failing extractions, in the middle of extraction leave a directory that the next construction accepts."
  },
  {
   "property": "C56",
   "status": "proved",
   "theorems": [
    "C56_fixed",
    "C56_fixed_terminates",
    "C56_fixed_rates_unchecked",
    "C56_sources",
    "C56_exact_length",
    "C56_too_many",
    "C56_positive_target",
    "C56_terminates",
    "C56_diverges"
   ],
   "note": "load_dataset_sources with arbitrary corpus, shuffles and samples; fuel for the while loop with proof of termination and of divergence on empty audio. Rows have the target length when the target is not negative; several speakers with a target <= 0 raise. (The fixed-length loader of the dynamic builder is in the builder model.) C56_fixed*: the builder's own loader, which ignores sample rates."
  },
  {
   "property": "C57",
   "status": "proved",
   "theorems": [
    "C57_accepts",
    "C57_rejects",
    "C57_lossless",
    "C57_mixed_dtypes"
   ],
   "note": "collate_dataset_items on mono audio of one dtype; with mixed dtypes the first item's dtype is used (shown by C57_mixed_dtypes)."
  },
  {
   "property": "C58",
   "status": "proved",
   "theorems": [
    "C58_cmu_line",
    "C58_cmu_file",
    "C58_cmu_available",
    "C58_libri_file",
    "C58_cmu_malformed"
   ],
   "note": "Both line parsers and whole files, on code points with Python's full white-space list; universal newlines restricted to LF and CRLF; text may contain quotation marks."
  },
  {
   "property": "C59",
   "status": "proved",
   "theorems": [
    "C59_stable",
    "C59_len_item_stable",
    "C59_read_once"
   ],
   "note": "BaseDataset over arbitrary call histories on any number of objects with an arbitrary disk state at each call."
  },
  {
   "property": "C60",
   "status": "proved",
   "theorems": [
    "C60_sources",
    "C60_microphones",
    "C60_feasible",
    "C60_trials",
    "C60_fixed_center_unchecked"
   ],
   "note": "Exact real arithmetic; uniform draws in [0,1). Positions of all sources at all steps, microphones for a randomised centre, and the exact feasibility condition. A fixed centre is not checked at all (C60_fixed_center_unchecked)."
  },
  {
   "property": "C61",
   "status": "proved",
   "theorems": [
    "C61_profile",
    "C61_shape",
    "C61_spacing"
   ],
   "note": "Exact real arithmetic. Static and moving sources at every step; the arc is given as a rotation about the array centre by speed times elapsed seconds over radius; equally spaced start azimuths."
  },
  {
   "property": "C62",
   "status": "partial",
   "theorems": [
    "C62_partial",
    "C62_total",
    "C62_refuted"
   ],
   "note": "Common factor, no source file clips, mixture is the exact sum of the written sources (before quantisation by the file format). False: the mixture itself may clip, because the factor only looks at the peaks of the sources."
  },
  {
   "property": "C63",
   "status": "partial",
   "theorems": [
    "C63_partial",
    "C63_one_rate",
    "C63_no_overwrite",
    "C63_late",
    "C63_refuted",
    "C63_corpus_refuted"
   ],
   "note": "Arguments rejected by the first block of checks, and existing directories without overwrite, leave the file system unchanged. False for everything checked later (motion ratios, speeds, number of sources above six, room, array, corpus): with overwrite the old dataset is already deleted; a corpus inside the output directory is deleted too."
  },
  {
   "property": "C64",
   "status": "partial",
   "theorems": [
    "C64_partial",
    "C64_auto",
    "C64_case_partial",
    "C64_case_refuted",
    "C64_refuted",
    "C64_index",
    "C64_spec",
    "C64_as_tensor"
   ],
   "note": "Proved for auto, cpu, mps and cuda requests, for the preference order, and for DeviceSpec and as_tensor. False: with CUDA present, upper case spellings raise; mps with an index, xpu and other backends are returned without looking at availability."
  },
  {
   "property": "C65",
   "status": "partial",
   "theorems": [
    "C65_partial",
    "C65_history",
    "C65_existing_handlers",
    "C65_children",
    "C65_unconfigured",
    "C65_root",
    "C65_refuted",
    "C65_notset_refuted",
    "C65_propagate_refuted"
   ],
   "note": "One handler and exact emission condition proved. False: the handler keeps the level of the first call, so a later more verbose level has no effect; NOTSET means the level of the root logger; propagation duplicates messages when the root logger has handlers."
  },
  {
   "property": "C66",
   "status": "partial",
   "theorems": [
    "C66_partial",
    "C66_total",
    "C66_labels",
    "C66_refuted",
    "C66_lengths_refuted",
    "C66_step_unchecked",
    "C66_refused"
   ],
   "note": "Frames are valid, ordered, start at 0 and have the given spacing; at least one frame, rate at least 1. False: the last step is shown only if step divides T - 1; trajectories of different lengths are accepted and fail while saving."
  },
  {
   "property": "C67",
   "status": "proved",
   "theorems": [
    "C67_video",
    "C67_return",
    "C67_exception",
    "C67_leftover_unchecked",
    "C67_mixture_unchecked"
   ],
   "note": "For every behaviour of the sound file library and of ffmpeg and every interruption; assumes that exit status 0 of ffmpeg means complete output and that rename is atomic. After exceptions temporary files may remain; a mixture named like the temporary file is lost."
  },
  {
   "property": "C68",
   "status": "proved",
   "theorems": [
    "C68_array",
    "C68_integer_positions"
   ],
   "note": "Exact arithmetic."
  },
  {
   "property": "C69",
   "status": "partial",
   "theorems": [
    "C69_partial",
    "C69_refuted"
   ],
   "note": "Proved when the number of samples is neither one nor the number of microphones; in those two cases the inference picks the wrong axes."
  },
  {
   "property": "C70",
   "status": "partial",
   "theorems": [
    "C70_duration",
    "C70_partial",
    "C70_exact",
    "C70_overflow_unchecked",
    "C70_refuted"
   ],
   "note": "Error bound for rates above one half, exact for whole rates. False for slow trajectories: the rate is at least 1, so the video is too short and the muxer cuts the sound."
  },
  {
   "property": "C71",
   "status": "proved",
   "theorems": [
    "C71_channels"
   ],
   "note": "All channel counts and indices."
  },
  {
   "property": "C72",
   "status": "proved",
   "theorems": [
    "C72_length_units",
    "C72_time_units"
   ],
   "note": "Whole simulate_rir call, every directivity; the high-pass filter must be homogeneous (true of linear filters) or off."
  },
  {
   "property": "C73",
   "status": "proved",
   "theorems": [
    "C73_axes_filtered",
    "C73_axes"
   ],
   "note": "Whole simulate_rir call, omnidirectional, with the high-pass filter on or off."
  },
  {
   "property": "C74",
   "status": "partial",
   "theorems": [
    "C74_libri_partial",
    "C74_libri_path",
    "C74_libri_few_dashes",
    "C74_libri_refuted",
    "C74_cmu_partial",
    "C74_cmu_refuted"
   ],
   "note": "False as stated: transcripts are not tied to their directory (LibriSpeech) and the file .wav is listed (CMU). Proved for corpora whose identifiers start with speaker and chapter directory, and for every CMU prompt other than .wav."
  },
  {
   "property": "C75",
   "status": "proved",
   "theorems": [
    "C75_notice",
    "C75_lossless",
    "C75_missing",
    "C75_no_mapping",
    "C75_datasets",
    "C75_unsupported",
    "C75_kind",
    "C75_kind_said",
    "C75_default",
    "C75_destination",
    "C75_dots",
    "C75_newline_unchecked"
   ],
   "note": "Values and notes without line breaks; line breaks are not refused (C75_newline_unchecked). The directory is created before the check."
  },
  {
   "property": "C76",
   "status": "proved",
   "theorems": [
    "C76_room",
    "C76_static",
    "C76_dynamic",
    "C76_first_positions",
    "C76_colours",
    "C76_every_step",
    "C76_last_step",
    "C76_bad_step",
    "C76_not_a_trajectory",
    "C76_stride_unchecked",
    "C76_mismatch_unchecked"
   ],
   "note": "matplotlib is the list of calls it receives; titles, styles and annotation lines are left out. Not checked by the code: a step that skips the end of the path, positions that do not belong to the trajectory."
  },
  {
   "property": "C77",
   "status": "proved",
   "theorems": [
    "C77_report",
    "C77_plots",
    "C77_names_distinct",
    "C77_space_independent",
    "C77_layout_report",
    "C77_layout",
    "C77_gifs",
    "C77_videos"
   ],
   "note": "Pictures written before a failure in save_scene_plots stay on disk and are not logged (C77_report, second case)."
  },
  {
   "property": "C78",
   "status": "proved",
   "theorems": [
    "C78_given",
    "C78_reverberation_time",
    "C78_nothing_given"
   ],
   "note": "The room sizes are those that Room accepts (C35); exact arithmetic."
  },
  {
   "property": "C79",
   "status": "proved",
   "theorems": [
    "C79_static",
    "C79_accepted",
    "C79_dynamic"
   ],
   "note": "Exact arithmetic; filter off (C32 says what the filter does to them); rays of length zero (source on microphone) excluded."
  },
  {
   "property": "C80",
   "status": "proved",
   "theorems": [
    "C80_names",
    "C80_distinct",
    "C80_layout",
    "C80_marker",
    "C80_once",
    "C80_extends"
   ],
   "note": "Creating a directory succeeds; every write may fail. Pictures and videos are logged as effects of the scene but are not part of the file list."
  },
  {
   "property": "C81",
   "status": "proved",
   "theorems": [
    "C81_scene",
    "C81_complete"
   ],
   "note": "Responses are those of simulate_rir for the positions of each step (C25), whose samples are characterised by C20-C24. Contents handed to the writer; quantisation of the file format is not modelled."
  },
  {
   "property": "C82",
   "status": "proved",
   "theorems": [
    "C82_calls",
    "C82_scene"
   ],
   "note": "The statement repeats what the scene is made of so that the JSON files are tied to the same speakers, signals and geometry as the audio files."
  },
  {
   "property": "C83",
   "status": "proved",
   "theorems": [
    "C83_bound",
    "C83_completes",
    "C83_silent_unchecked",
    "C83_corpus"
   ],
   "note": "Hypotheses: writing files succeeds, the corpus read after the output directory was prepared is readable, the filter runs on rows of the response length. The number of trajectory steps is bounded by 2^51 (exactness of the step boundaries)."
  },
  {
   "property": "C84",
   "status": "partial",
   "theorems": [
    "C84_bounded",
    "C84_change_partial",
    "C84_continuous_partial",
    "C84_jump",
    "C84_continuous_refuted"
   ],
   "note": "Continuity fails at arrivals that fall exactly on a sample (refuted for every valid configuration without filter); elsewhere it is proved with an explicit bound. Filter off, exact arithmetic."
  },
  {
   "property": "C85",
   "status": "proved",
   "theorems": [
    "C85_when",
    "C85_order",
    "C85_pictures",
    "C85_films",
    "C85_data"
   ],
   "note": "The text annotations inside the pictures and the content of film frames are not modelled."
  },
  {
   "property": "C86",
   "status": "proved",
   "theorems": [
    "C86_accepts",
    "C86_values",
    "C86_exits",
    "C86_help",
    "C86_vague",
    "C86_table",
    "C86_main",
    "C86_raises",
    "C86_runs",
    "C86_next",
    "C86_signed",
    "C86_defaults"
   ],
   "note": "Models argparse of Python 3.11 for parsers with options only (compared with the standard library on 1065 random command lines). Words are ASCII; number texts other than plain decimals are read by an oracle; messages are not modelled; [main] with infinite or NaN numbers calls the builder with an unspecified outcome."
  },
  {
   "property": "C87",
   "status": "proved",
   "theorems": [
    "C87_table",
    "C87_starts",
    "C87_determined",
    "C87_ends",
    "C87_errors",
    "C87_runs",
    "C87_roundtrip",
    "C87_sticky",
    "C87_download",
    "C87_mode_unchecked",
    "C87_output",
    "C87_room_text"
   ],
   "note": "File values are null, booleans, integers, floats, texts and lists with text keys (no nested mappings); the YAML and JSON readers, the writer, seeding and str of paths are oracles. The conversion of text defaults was compared with argparse of the standard library. The three scenarios behind the start are not part of this claim."
  },
  {
   "property": "C88",
   "status": "proved",
   "theorems": [
    "C88_static",
    "C88_moving_sources",
    "C88_moving_mics",
    "C88_trajectories",
    "C88_dataset",
    "C88_inside_sources",
    "C88_inside_mics",
    "C88_inside_dataset",
    "C88_rejected",
    "C88_no_microphone",
    "C88_no_source",
    "C88_too_small",
    "C88_whole_row",
    "C88_squeezed_row",
    "C88_two_steps_unchecked"
   ],
   "note": "The functions start after the dry sources are loaded, with whatever the generator gives from there on. Clamping and paths are exact; sampling rounds as in GeoModel.v. Simulation, convolution and saving of the scenes are other claims (C16 to C20, C02, C47)."
  },
  {
   "property": "C89",
   "status": "partial",
   "theorems": [
    "C89_static",
    "C89_dynamic",
    "C89_too_many",
    "C89_names",
    "C89_sum_partial",
    "C89_levels",
    "C89_single",
    "C89_many_mics_unchecked",
    "C89_entries",
    "C89_sum_refuted"
   ],
   "note": "Exact arithmetic and finite samples. The claim that references add up to the mixture is false for the files (C89_sum_refuted); the sum with the weights that were divided out is proved (C89_sum_partial)."
  },
  {
   "property": "C90",
   "status": "partial",
   "theorems": [
    "C90_setup",
    "C90_film",
    "C90_toward_partial",
    "C90_toward_refuted"
   ],
   "note": "Every operation of the program rounds; cosine, sine, linspace and norm are oracles with stated errors. That the second source moves toward the first one all the time is refuted (C90_toward_refuted)."
  },
  {
   "property": "C91",
   "status": "proved",
   "theorems": [
    "C91_delay",
    "C91_index",
    "C91_fraction",
    "C91_gain",
    "C91_reflection",
    "C91_response"
   ],
   "note": "Norm and power of torch are oracles with a relative error of 3e-7. Overflow is not modelled; filter taps, their products with the gains and the sums are exact; in C91_response the reflection coefficients are exact (C91_reflection bounds their error). Division of a tensor by the Python number c is one rounded division (CPU)."
  },
  {
   "property": "C92",
   "status": "partial",
   "theorems": [
    "C92_unknown",
    "C92_local",
    "C92_present",
    "C92_requests",
    "C92_factory",
    "C92_refetched_refuted",
    "C92_wrong_speaker",
    "C92_fetched_partial"
   ],
   "note": "False part: directories without their archive (deleted after unpacking, or copied from elsewhere) make download=True fetch the whole archive again, and fail offline although the data is complete; the factory of the example does so when only a speaker is missing. Download and extraction are those of C54/C55. Names of speakers are single directory names."
  },
  {
   "property": "C93",
   "status": "proved",
   "theorems": [
    "C93_layout",
    "C93_distinct",
    "C93_marker",
    "C93_more_scenes",
    "C93_directory",
    "C93_stale_unchecked",
    "C93_scene",
    "C93_completes",
    "C93_rate_unchecked",
    "C93_speech_unchecked",
    "C93_reproducible",
    "C93_described",
    "C93_license",
    "C93_notice",
    "C93_negative_seed_unchecked"
   ],
   "note": "Contents (C93_scene, C93_completes) for rooms from one metre to a thousand kilometres, at least three steps (with two, C88), exact tensor arithmetic after the samplers; --plot off. Side findings: the audio has the rate of the recordings but the description always says 16000 and takes its times from it (C93_rate_unchecked); runs with consecutive seeds share the speech of all scenes but one (C93_speech_unchecked); with a negative seed two scenes of one run may hold the same audio (C93_negative_seed_unchecked, from random.Random(-z) = random.Random(z)); scenes of an earlier longer run stay (C93_stale_unchecked)."
  },
  {
   "property": "C94",
   "status": "proved",
   "theorems": [
    "C94_fft",
    "C94_fft_both_empty_unchecked",
    "C94_static",
    "C94_static_silent",
    "C94_trajectory",
    "C94_no_timestamps_unchecked",
    "C94_devices_agree",
    "C94_hop",
    "C94_past_end",
    "C94_unsorted_unchecked"
   ],
   "note": "Exact arithmetic, as C01-C06. Side findings: fft_convolve of two empty vectors returns three zeros (C94_fft_both_empty_unchecked); no steps with an empty vector of timestamps is an IndexError instead of the documented ValueError (C94_no_timestamps_unchecked); timestamps are never checked for order, and times that go back make samples count twice (C94_unsorted_unchecked)."
  },
  {
   "property": "C95",
   "status": "proved",
   "theorems": [
    "C95_commutes",
    "C95_associates",
    "C95_delay",
    "C95_linear_responses",
    "C95_linear_trajectory",
    "C95_linear_hop",
    "C95_peak",
    "C95_peak_reached",
    "C95_energy",
    "C95_peak_trajectory",
    "C95_peak_hop",
    "C95_steps_amplify_unchecked"
   ],
   "note": "Exact arithmetic, as C01-C06. Side finding: responses none of which amplifies can together amplify where two steps meet, since the tails overlap (C95_steps_amplify_unchecked)."
  },
  {
   "property": "C96",
   "status": "proved",
   "theorems": [
    "C96_number",
    "C96_lines",
    "C96_read",
    "C96_scene",
    "C96_axes",
    "C96_axes_scene",
    "C96_slow_unchecked"
   ],
   "note": "Numbers are real: infinities, NaN and the sign of a negative zero are not modelled; trimming is that of ASCII text. Side finding: a source slower than 5 mm/s is listed with the speed 0.00 (C96_slow_unchecked)."
  },
  {
   "property": "C97",
   "status": "proved",
   "theorems": [
    "C97_lipschitz",
    "C97_absorbing",
    "C97_anechoic",
    "C97_truncation",
    "C97_scaled"
   ],
   "note": "Exact arithmetic; omnidirectional, no high-pass filter, no separate order per axis, no diffuse tail."
  },
  {
   "property": "C98",
   "status": "proved",
   "theorems": [
    "C98_settled",
    "C98_second_gpu_unchecked",
    "C98_report",
    "C98_completes",
    "C98_zero",
    "C98_negative_unchecked",
    "C98_no_gpu",
    "C98_scene",
    "C98_command"
   ],
   "note": "Exact arithmetic; readings of the clock, the random signal and devices other than processor, CUDA and MPS are oracles. That simulation and convolution succeed is proved, for filters that work and keep numbers and signals of the asked length."
  },
  {
   "property": "C99",
   "status": "proved",
   "theorems": [
    "C99_images",
    "C99_silence",
    "C99_free_field",
    "C99_walls",
    "C99_truncation",
    "C99_exchange"
   ],
   "note": "Exact arithmetic. Fixed order and length of the response, omnidirectional pattern, high-pass filter off; the convolution is the static one."
  },
  {
   "property": "C100",
   "status": "proved",
   "theorems": [
    "C100_images",
    "C100_default",
    "C100_silence",
    "C100_free_field",
    "C100_gap",
    "C100_still"
   ],
   "note": "Exact arithmetic. Fixed order and length of the responses, omnidirectional pattern, high-pass filter off (only that it keeps lengths is used); trajectory mode, timestamps whose starts partition the signal (C05: those made by default do)."
  },
  {
   "property": "C101",
   "status": "proved",
   "theorems": [
    "C101_reflections",
    "C101_echo",
    "C101_response",
    "C101_recording",
    "C101_t60_unchecked"
   ],
   "note": "Exact arithmetic. Fixed order and length of the responses, omnidirectional pattern, high-pass filter off, sources and microphones inside the room, longest side at least 1 micrometre (the clamp of distances). The walls are the limit of the bounds: no claim on the t60 of a response."
  },
  {
   "property": "C102",
   "status": "proved",
   "theorems": [
    "C102_regrouped",
    "C102_microphones",
    "C102_order",
    "C102_alone"
   ],
   "note": "Exact arithmetic (in floating point sums over sources depend on their order in the last bits). Fixed order and length of the responses, omnidirectional pattern, high-pass filter off."
  }
 ]
}