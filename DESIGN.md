# Formal model of torchrir: design

## 1. Approach

The Python source under `/repo/src/torchrir` is modelled function by function as
total Gallina functions.  Exceptions are values (`result A := Ok a | Err exn`),
branches appear in the order of the source, and every model definition cites the
file and lines it mirrors.  Properties (`/verif/properties.jsonl`) are stated
against small separate specifications (`*Spec.v` files or spec sections) that do
not mention the model's helpers.

Layers (all in `rocq/theories`):

* `*Model.v`  : the model, no proofs.
* `*Spec.v`   : independent specification vocabulary.
* `*Proofs.v` : lemmas.
* `*Props.v`  : only the property theorems (`Theorem C.._name : ... . Proof. exact lemma. Qed.`),
  the concrete examples showing their hypotheses are met, and `Print Assumptions`.

### Numbers

* Tensor arithmetic is modelled in the real numbers `R` of Coq's standard library
  ("exact arithmetic").  Where rounding decides an *index* (segment boundaries,
  frame counts, sample counts, LUT positions, `ceil(tmax*fs)`) rounding is modelled
  explicitly with Flocq's `round` (binary64 / binary32 with nearest-even), or for an
  arbitrary monotone rounding.
* Validation code that can see NaN/inf uses an extended scalar type
  `num := Fin r | PInf | NInf | NaN` with IEEE comparison semantics.
* Tensors: shape (`list nat`) + row-major data.  Devices, autograd and strides are
  not modelled except where a branch depends on them (device type, dtype cast).

### External code (oracles)

`torch.fft.rfft/irfft` are modelled by their mathematical definition (DFT over the
complex numbers with conjugate-symmetric completion), `torch.sinc`, `hann_window`,
`linspace`, `meshgrid`, `scatter_add_`, `take` by their documented meaning.
Random generators, scipy filters, the file system, tar/HTTP behaviour and ffmpeg are
universally quantified parameters (functions or step relations), so theorems hold for
every behaviour of them.

## 2. Plan per property

| id | model | proof |
|----|-------|-------|
| C01 | DFT/inverse DFT on lists of reals, zero padding, half spectrum, power-of-two length | convolution theorem (orthogonality of roots of unity), no-wrap lemma |
| C02, C03 | shapes + nested loops of `convolve_rir` | loop invariant: accumulated sum; case analysis on rank |
| C04 | segment loop (cut, convolve, overlap-add) | invariant over steps, partition of the sum over tau |
| C05 | Flocq rounding of `n/T`, `t*step`, truncation | monotonicity of rounding + relative error bound |
| C06 | hop loop | as C04, exact frame count with rounded division |
| C07 | batched loop with chunks, shared fft length | both equal the spec of C04 |
| C08, C09, C10 | consequences on the model functions | from C02/C04/C06 |
| C11 | timestamp branch | case analysis; refutation witness computed with binary64 |
| C12 | meshgrid + filter | list membership, NoDup, counting by induction |
| C13, C14 | image position / reflection count formulas | induction on number of reflections |
| C15 | ceil(tmax*c/L) | cell bound from C13 |
| C16, C17 | image table of a pair | bijection on indices, permutation invariance of the sum |
| C18, C19, C22, C23, C24, C25 | `simulate_rir` core: chunks, flat scatter | invariant "buffer = sum of processed images" |
| C20 | LUT index computation with abstract rounding | interval reasoning |
| C21 | LUT table + interpolation | exact grid; Lipschitz/second-derivative bound |
| C26 | cache as association list, state machine | invariant over histories |
| C27-C30 | directivity strings and cosines | case analysis, Cauchy-Schwarz; refutations |
| C31, C32 | tail splice, filter gate with oracles | list slicing lemmas |
| C33, C40 | config records | case analysis |
| C34 | Sabine formulas in R | field arithmetic |
| C35, C36, C37, C39 | validation over `num` tensors and dtypes | invariant over constructor/replace; refutations for NaN and integer dtype |
| C38, C41-C46 | vector geometry in R | trigonometry, convexity, loop induction over an arbitrary random stream |
| C47, C48 | normalisation and layout | max lemma; refutation for >8 channels |
| C49, C59, C65 | state machines | invariants over histories |
| C50, C58 | strings | induction over strings |
| C51 | nested value type | structural induction |
| C52 | DOA/time axis | trigonometry (atan2), arithmetic |
| C53-C55 | path normalisation, file system with crash points | prefix lemma; reachability invariants; refutation for partial extraction |
| C56 | loading loop with arbitrary shuffles | fuel-free relation + termination measure |
| C57 | padding | list lemmas |
| C60, C61 | placement and arc trajectory in R | trigonometric bounds |
| C62, C63 | stem scaling, builder's check/effect order | arithmetic; trace semantics |
| C64 | device strings | case analysis |
| C66, C67 | frame indices; mux steps with faults | arithmetic; reachability |
| C68 | array description in the metadata | list minimum and mean lemmas |
| C69 | axis inference of the builder | case analysis on shapes; refutation for square data |
| C70 | frame rate of animations | rounding error bound; refutation for slow trajectories |
| C71 | channel selection of the muxer | case analysis |
| C72 | the simulation of C18-C25 in other units | homogeneity of delay and gain; chunk loop commutes with scaling |
| C73 | image tables under a permutation of the axes | permutation of the image list, invariance of sum and product |
| C74 | transcript listing, `split("-", 2)`, pathlib joins | characters of paths; partial: refuted in general |
| C75 | attribution mapping, text of the notice | lines of the text determine the facts |
| C76 | drawing calls of `viz/scene.py` as data | reading functions (legend, paths, markers, outline) over the calls |
| C77 | traces of `viz/io.py` with a disk that may fail | invariants over the trace monad |
| C78 | `_resolve_beta` inside both simulations | equality of whole simulations |
| C79 | orientations and patterns through `simulate_rir` and `simulate_dynamic_rir` | closed form of the simulation, gains as functions of the ray |
| C80 | the loop of `build_dynamic_cmu_arctic_dataset` with everything it writes | trace of effects, invariant over the scenes, injectivity of the decimal names |
| C81 | audio files of every scene of a run | origin of a written file, dynamic simulation = static per step, time-varying convolution, normalisation |
| C82 | `metadata.json` and `source_info.json` of every scene of a run | same witnesses as C81, fields of `build_metadata` |
| C83 | when a run of the builder completes | monotonicity in the bound on the rounds, composition of runs that end, inversion of a successful run |
| C84 | change of a response with the positions | Lipschitz bound of the sinc kernel and window on cells between samples, reflection is an isometry |
| C85 | pictures and films of a run of the builder | decomposition of the run into the events of its scenes; two runs in lock step |
| C86 | command line of the builder | a grammar of things said, proved equal to the loop of argparse in both directions |
| C87 | configuration of the example program | lookup in the parsed namespace against three layers; saved entries followed through a second start |
| C88 | geometry of the example scenes | bounds of rounded draws carried through paths, tables and clamping; diagonal of the inner box |
| C89 | references and mixture of an example scene | convolution of a slice against the view of the whole tensor; scaling of each file by its own peak |
| C90 | the scene of the documentation | interval bounds through every rounding; signs of differences of squared distances |
| C91 | accuracy of delays and gains in single precision | calculus of relative errors against a common bound; triangle inequality; Lipschitz bound of the pulse (C84) |
| C92 | data sets are fetched only when they are missing | the run of C54 per archive; case analysis on what is on disk; counting requests |
| C93 | runs of the example data set builder | traces of written files under a run monad; prefixes of one list of names; composition of C52, C56, C88, C89 per scene |
| C94 | convolution at the edges | the lemmas of C01-C06 with the weakest length hypotheses; evaluation of concrete unordered times on the three devices |
| C95 | algebra and loudness of convolution | exchange of finite sums; triangle inequality; weighted Cauchy-Schwarz; the sign signal of a response |
| C96 | notes on the layouts | rounding to the nearest hundredth against uniqueness of the nearest text; cutting texts at separators |
| C97 | dependence on the walls | the gain of an image as the product of the list of walls it meets; Lipschitz bound and scaling of products; splitting sums over images by order |
| C98 | the benchmark | closed form of the list of events; an invariant that all queued work is waited for |
| C99 | recordings in rooms | linear convolution distributed over the sum over images; the bounds of C97 carried through convolution |
| C100 | recordings of moving scenes | every step as a simulation of its own (C25) and time-varying convolution (C04) |
| C101 | decay of echoes, responses and recordings | bounds between the order of an image and its distance, carried through the sum over images and convolution |
| C102 | listing of sources and microphones | a response is a function of the two places; linear convolution regrouped over the places |

Where the full claim is false of the code, the model proves a theorem with suffix
`_refuted` with a concrete witness, plus the strongest true part (`_partial` or an exact
condition); the finding is recorded in section 4.

## 3. Trusted base

### 3.1 Kernel and axioms

Trusted: Coq 8.16.1's kernel and its standard library; Flocq and Coquelicot are used as
libraries of proved lemmas (they add no axioms of their own to the lists below).  The
development declares no axiom, parameter, functor or module type, has no admitted proof
and changes no kernel flag.

`Print Assumptions` lists, over all theorems and examples of the `*Props.v` files, only
these four statements of the standard library:

* **F** `ClassicalDedekindReals.sig_forall_dec` (construction of `R`);
* **N** `ClassicalDedekindReals.sig_not_dec` (construction of `R`);
* **E** `FunctionalExtensionality.functional_extensionality_dep`;
* **C** `Classical_Prop.classic` (used by Flocq, Coquelicot and the analysis library).

Per theorem (the `Print Assumptions` commands at the end of each `*Props.v` show the same):

* **nothing ("Closed under the global context")** (224): `C53_all_or_nothing`, `C53_outside_untouched`, `C53_no_new_links`, `C53_confined_partial`, `C53_check_exact`, `C53_complete`, `C53_conflict`, `fs0_tree`, `C53_confined_refuted`, `C53_up_and_down`, `C53_ex_again`, `C53_ex_ok`, `C53_ex_bad`, `C53_ex_sibling`, `known_device`, `pair_forall`, `met_all`, `lower_images`, `below_iff`, `triplet_iff`, `triplet_err`, `C56_fixed`, `C56_fixed_terminates`, `serve_spec`, `eq_nss_ok`, `eq_ns_ok`, `eq_nnss_ok`, `eq_fn_ok`, `mapM_ext_seq`, `foldM_ext`, `C82_calls_example`, `table_forms`, `documented_fun`, `C87_table`, `spoken_fun`, `C87_room_text`, `C87_room_text_example`, `C86_table`, `name_not_value`, `comma_not_number`, `C74_libri_partial`, `C74_libri_path`, `C74_libri_few_dashes`, `C74_libri_ex`, `C74_libri_refuted`, `C74_cmu_partial`, `C74_cmu_ex`, `C74_cmu_refuted`, `coerce_ok`, `C75_notice`, `C75_lossless`, `C75_missing`, `C75_no_mapping`, `C75_datasets`, `C75_unsupported`, `C75_kind`, `C75_kind_said`, `C75_default`, `C75_destination`, `C75_dots`, `C75_dots_example`, `C75_destination_example`, `C75_example`, `C75_default_ex`, `C75_newline_unchecked`, `C92_unknown`, `C92_local`, `C92_present`, `C92_requests`, `C92_factory`, `C92_refetched_refuted`, `C92_wrong_speaker`, `C92_fetched_partial`, `C92_ex_local`, `C92_ex_refetched`, `C92_ex_four`, `C54_atomic`, `C54_announced_size`, `C54_download`, `C54_one_at_a_time`, `C55_uninterrupted`, `C55_partial`, `C55_unsafe_archive`, `C55_damaged_archive`, `C55_crash_refuted`, `C55_failed_extraction_refuted`, `C54_ex`, `C54_ex_fail`, `C54_ex_unannounced`, `C54_ex_steps`, `C55_ex`, `C55_ex_unsafe`, `C55_ex_damaged`, `C58_cmu_line`, `C58_cmu_file`, `C58_cmu_available`, `C58_libri_file`, `C58_cmu_malformed`, `C59_stable`, `C59_len_item_stable`, `C59_read_once`, `g0_fair`, `C58_ex`, `C93_distinct`, `prefix_cut`, `afterwards_app`, `numbers_inj`, `args_rooted`, `text_u`, `x_scene`, `Some_inj`, `antipodal_tables_ok`, `C12_order_enumeration`, `C12_box_enumeration`, `C12_wrong_length_rejected`, `C12_negative_count_raises`, `C12_count_2d`, `C12_count_3d`, `C12_example`, `C12_example_box`, `C47_unnormalised`, `C49_default_registered`, `C49_select`, `C49_files_keep_registry`, `C49_operation`, `C49_one_target`, `C49_always_target`, `C49_scene_audio_refuted`, `C49_direct_calls`, `C49_example`, `C50_accepts`, `C50_rejects`, `C50_direct`, `C50_explicit`, `C50_example`, `C80_names`, `C80_distinct`, `in_scene`, `in_scenes`, `last_not_before`, `nodup_pairs`, `nodup_firstn`, `C80_example_names`, `C80_example_files`, `keyed_unique`, `source_not_json`, `written_files_in`, `files_in_written`, `written_unique`, `triplet_iff`, `silent_loop`, `open_first_rates`, `C51_json_partial`, `C51_unchanged`, `C51_idempotent`, `C51_tensor_entries`, `C51_members`, `C51_other_objects_refuted`, `C51_example`, `C96_axes`, `ends_app`, `ends_unique`, `trims_self`, `writes_ends`, `concat_ends`, `in_pictures`, `in_films`, `pictures_app`, `films_app`, `pictures_written`, `in_files`, `in_here`, `in_written`, `split_after`, `split_before`, `seen_cut`, `cut_holds_points`, `cut_holds_paths`, `data_app`, `alike_refl`, `alike_bind`, `C89_entries_example`, `C76_colours_ex`, `C76_last_step`, `view_names`, `append_inj`, `C77_names_distinct`, `try_renders_honest`, `C77_videos`, `C77_gifs_ex`, `C03_example_reject`, `C04_segment_exists`, `opt_test_given`, `C64_partial`, `C64_partial_ex`, `C64_auto`, `C64_auto_ex`, `C64_case_partial`, `C64_case_ex`, `C64_case_refuted`, `C64_refuted`, `C64_refuted_ex`, `C64_index`, `C64_index_ex`, `C64_spec`, `C64_spec_ex`, `C64_as_tensor`, `C64_as_tensor_ex`, `C65_partial`, `C65_partial_ex`, `C65_history`, `C65_history_ex`, `C65_existing_handlers`, `C65_existing_handlers_ex`, `C65_children`, `C65_children_ex`, `C65_unconfigured`, `C65_unconfigured_ex`, `C65_root`, `C65_root_ex`, `C65_refuted`, `C65_notset_refuted`, `C65_propagate_refuted`, `C66_total_ex`
* **F** (36): `vec_ext`, `zext_end`, `C56_fixed_rates_unchecked`, `C69_partial`, `C69_ex`, `C56_fixed_ex`, `block_row`, `C59_ex`, `length_disp`, `nth_disp`, `doubling_length`, `C82_example`, `x_fair`, `mv_plays`, `table_holds`, `track_holds`, `pos_ok_table`, `group_ok_track`, `ex_plays`, `two_input`, `C89_dynamic_example`, `ft_wf`, `C76_static_ex`, `C77_videos_ex`, `ex_traj_ok`, `ex_hop_ok`, `C09_example`, `C34_extend_example`, `C71_channels`, `C71_channels_ex`, `C67_video`, `C67_return`, `C67_exception`, `C67_ex`, `C67_leftover_unchecked`, `C67_mixture_unchecked`
* **E, F** (141): `lin_conv_end`, `average_zero`, `C98_scene`, `C62_partial`, `C62_total`, `C62_refuted`, `early_iff`, `C69_refuted`, `ex_fair`, `C62_ex`, `table_positive`, `rsum_perm`, `C27_first_order`, `C27_half_space`, `C27_rejects_others`, `C27_accepted_iff`, `C27_bounded`, `C27_on_axis`, `C27_rear`, `C27_example`, `C28_departure_is_physical`, `C28_mic_arrival_is_physical`, `C28_example`, `C57_accepts`, `C57_rejects`, `C57_lossless`, `C57_mixed_dtypes`, `C57_ex`, `x_usual_args`, `dot_le`, `corners_draw`, `plane_ok`, `plane_usual`, `plane_clamp`, `plane_path`, `C88_whole_row_example`, `trunc_small`, `C41_binaural_refuted`, `C41_example_binaural`, `C45_inside_partial`, `C45_unchanged_partial`, `C45_idempotent`, `C45_overlap_partial`, `C45_nearest_partial`, `C45_integer_refuted`, `C45_example`, `C46_segment`, `C46_short`, `C46_example`, `near3`, `step_range`, `C90_draws_example`, `C13_iterated_reflection`, `C13_mirror_cell`, `C13_example`, `C14_path_product`, `C14_walls_crossed`, `C14_range`, `C14_monotone`, `C14_direct`, `C14_absorbed`, `C14_all_absorbing`, `C14_example`, `C15_counts_positive`, `C15_example`, `C47_peak`, `C47_multiple`, `C47_order_preserved`, `C47_silence`, `C47_rejects`, `C47_nan`, `C47_cases`, `C47_example`, `C48_layout_partial`, `C48_many_channels_refuted`, `C48_mono`, `C48_round_trip`, `C48_round_trip_mono`, `C48_example`, `ex_cfg_valid`, `C81_example`, `x_draws`, `C96_number`, `C96_lines`, `C96_read`, `item_ends`, `C96_axes_scene`, `C96_slow_unchecked`, `C96_example`, `sum_nonneg`, `C89_names`, `C89_sum_partial`, `C89_levels`, `C89_single`, `C89_many_mics_unchecked`, `C89_entries`, `C89_loudness_example`, `lin_conv_sum`, `regroup`, `C35_reachable_partial`, `C35_finite_partial`, `C35_accepted_iff`, `C35_finite_refuted`, `C35_example`, `C36_float_partial`, `C36_int_partial`, `trunc_small`, `C36_int_values_rejected_partial`, `C36_int_values_rejected_example`, `C36_refuted`, `C36_replace_refuted`, `C36_example`, `C37_accepted`, `C37_accepted_example`, `C37_replace_nothing`, `C39_validate_stable`, `e_room_built`, `C76_every_step`, `ex_moves`, `ex_rests`, `ex_groups`, `C77_gifs`, `ex_valid3`, `C10_example`, `C32_disabled`, `cutoff_band`, `C32_cutoff_rejected`, `C32_cutoff_accepted`, `C32_rows_filtered`, `C32_example`, `Rleb_false`, `C33_config_valid_iff`, `cfg_validate_cases`, `C33_default_valid`, `C33_replace`, `C34_walls`, `C34_walls_example`, `C34_wrong_count_rejected`, `C34_attenuation_rejected`, `C34_extend`, `to_num_fin`
* **E, F, N** (164): `C95_commutes`, `C95_associates`, `C95_associates_example`, `C95_delay`, `C95_linear_responses`, `C95_peak`, `C95_peak_reached`, `C95_energy`, `C95_peak_example`, `images_length`, `half_scene`, `C60_sources`, `C60_microphones`, `C60_feasible`, `C60_trials`, `C60_fixed_center_unchecked`, `rotate_circle`, `C61_profile`, `C61_shape`, `C61_spacing`, `C60_ex`, `C60_mics_ex`, `C61_ex`, `faithful_init`, `get_grid_ok`, `get_offsets_ok`, `get_window_ok`, `get_lut_ok`, `get_fn_ok`, `cached_step`, `after_faithful`, `C26_history_irrelevant`, `C26_served_tables`, `tap_from_exact`, `window_length`, `C26_is_plain`, `C26_example`, `scene_length`, `C84_jump`, `wit_scene`, `wit_ray`, `wit_moved`, `C101_reflections`, `C101_echo`, `late_images`, `C101_t60_unchecked`, `C101_example`, `C28_source_cosine_exact`, `C28_source_directivity_refuted`, `C28_even_images_partial`, `C28_aligned_orientation_partial`, `C28_mic_cosine`, `C29_is_the_cosine`, `C29_bounded`, `C29_undefined_iff`, `C29_scaling`, `C29_example`, `C38_unit_norm`, `C38_short_vectors`, `C38_orientation_rows`, `C38_angles`, `C38_example`, `C38_select`, `C38_select_shared`, `C38_select_example`, `C94_fft`, `C94_fft_both_empty_unchecked`, `C94_fft_example`, `C94_static`, `C94_static_silent`, `C94_static_example`, `C94_devices_agree`, `plane_mics`, `ex_scene100`, `C41_linear`, `C41_accepted`, `C41_zero_direction_refuted`, `C41_binaural_partial`, `C41_example`, `C42_ring_partial`, `C42_first`, `C42_first_example`, `C42_defined_partial`, `C42_rejected`, `C42_backward_normal_refuted`, `C42_example`, `C43_polyhedra`, `C43_rejected`, `C43_eigenmike`, `C43_em32_opposite`, `C43_eigenmike_rejected`, `C43_example`, `dist3`, `sqrt_ge`, `sqrt_le_of`, `norm2`, `radius_ok`, `norm_film`, `C90_maths_example`, `C15_coverage`, `ex_scene`, `ex_ray`, `C19_scatter_in_row`, `C19_example`, `C20_table_positions`, `C20_accumulate_never_raises`, `C21_direct_tap`, `C21_table_tap`, `C21_exact_on_grid`, `C21_example`, `C22_touched_samples`, `C22_delay`, `C22_integer_delay`, `C68_example`, `mv_ray4`, `mv_moving`, `C96_scene`, `pictures_extras`, `recording_unique`, `C89_static`, `C89_sum_refuted`, `C37_constructed`, `C37_from_positions`, `C37_replaced`, `C37_example`, `C76_room`, `C76_static`, `C76_dynamic`, `C76_first_positions`, `C76_colours`, `C76_bad_step`, `C76_dynamic_ex`, `C76_box_ex`, `C76_not_a_trajectory`, `C76_bad_step_ex`, `C76_stride_unchecked`, `C76_mismatch_unchecked`, `C77_report`, `C77_plots`, `render_view_again`, `C77_space_independent`, `C77_layout_report`, `C77_layout`, `C77_plots_ex`, `C77_report_ex`, `C77_layout_ex`, `C01_fft_convolve_linear`, `C01_fft_convolve_rejects`, `C01_example`, `C02_static_superposition`, `C03_static_shapes`, `C02_C03_example`, `C07_batched_equals_cpu`, `C07_example`, `C10_static_local`, `norm_exact_sound`, `C91_delay_example`, `C34_uniform_beta`, `C34_round_trip`, `C34_saturated`, `C34_increasing`, `C34_nonpositive_rejected`, `C34_example`, `ex_far`
* **C, E, F, N** (421): `C95_linear_trajectory`, `C95_linear_hop`, `C95_peak_trajectory`, `C95_peak_hop`, `C95_steps_amplify_unchecked`, `C79_static`, `C79_accepted`, `C79_dynamic`, `C79_example`, `C79_dynamic_example`, `C33_accepted_scene`, `C33_accepted_scene_example`, `C98_settled`, `C98_second_gpu_unchecked`, `C98_report`, `C98_completes`, `C98_zero`, `C98_negative_unchecked`, `C98_no_gpu`, `C98_command`, `C98_example_command`, `C98_example`, `C97_lipschitz`, `C97_absorbing`, `C97_anechoic`, `C97_truncation`, `C97_scaled`, `simulated`, `C97_example`, `C97_anechoic_example`, `C63_partial`, `C63_one_rate`, `C63_no_overwrite`, `C63_late`, `C63_refuted`, `C63_corpus_refuted`, `C63_ex`, `C82_calls`, `C87_starts`, `number_fun`, `default_fun`, `C87_determined`, `C87_ends`, `C87_errors`, `C87_runs`, `C87_roundtrip`, `C87_sticky`, `C87_download`, `C87_mode_unchecked`, `C87_output`, `C87_example`, `C87_example_ends`, `C87_example_mode`, `C87_example_roundtrip`, `C87_example_null`, `C86_accepts`, `C86_values`, `C86_exits`, `C86_help`, `C86_vague`, `C86_main`, `level_text`, `triple_text`, `no_triplet`, `fails_call`, `C86_raises`, `C86_runs`, `value_after`, `C86_next`, `C86_signed`, `dec_text`, `whole`, `C86_defaults`, `C86_example`, `C86_example_exits`, `C86_example_help`, `C86_example_triples`, `C86_example_main`, `read_value`, `C84_bounded`, `C84_change_partial`, `C84_continuous_partial`, `C84_continuous_refuted`, `C84_example`, `C84_example_change`, `value_late`, `C101_response`, `C101_recording`, `C101_late_example`, `C30_alias_without_orientation_refuted`, `C30_alias_refuted`, `C30_alias_result_partial`, `C30_alias_result_dynamic_partial`, `C30_alias_with_orientation_partial`, `C30_example`, `C56_sources`, `C56_exact_length`, `C56_too_many`, `C56_positive_target`, `C56_terminates`, `C56_diverges`, `target0`, `C56_ex`, `C94_trajectory`, `C94_no_timestamps_unchecked`, `C94_trajectory_example`, `C94_hop`, `C94_hop_example`, `C94_past_end`, `C94_unsorted_unchecked`, `C94_past_end_example`, `C93_layout`, `C93_marker`, `C93_more_scenes`, `C93_directory`, `C93_stale_unchecked`, `loop_rate`, `speakers_rate`, `load_rate`, `C93_scene`, `C93_completes`, `C93_rate_unchecked`, `written_note`, `C93_speech_unchecked`, `build_rooted`, `C93_reproducible`, `C93_described`, `prepared_source`, `C93_license`, `C93_notice`, `sound_at`, `C93_negative_seed_unchecked`, `x_usual`, `x_prepared`, `x_ready`, `x_finished`, `x_names`, `C93_layout_example`, `x_in`, `made_names`, `x_contents`, `x_description`, `x_mixture`, `C93_scene_example`, `C93_directory_example`, `C93_speech_example`, `C93_more_scenes_example`, `C93_reproducible_example`, `C93_described_example`, `C93_negative_seed_example`, `C93_marker_example`, `C93_license_example`, `C88_static`, `C88_moving_sources`, `C88_moving_mics`, `C88_trajectories`, `row_fun`, `C88_dataset`, `row_inside`, `C88_inside_sources`, `C88_inside_mics`, `C88_inside_dataset`, `C88_rejected`, `C88_no_microphone`, `C88_no_source`, `way_bound`, `C88_too_small`, `C88_whole_row`, `C88_squeezed_row`, `quarter`, `quarter64`, `quarter32`, `plane_room`, `plane_draw`, `plane_center`, `plane_attempt`, `attempts_done`, `C88_static_example`, `plane_far`, `plane_one`, `plane_end`, `C88_moving_sources_example`, `C88_moving_mics_example`, `C88_two_steps_unchecked`, `C88_trajectories_example`, `C88_too_small_example`, `C88_squeezed_row_example`, `without_filter`, `same_filtered`, `C16_reciprocity_filtered`, `C17_mirror_filtered`, `C73_axes_filtered`, `ex_filtered`, `C16_filtered_example`, `C73_filtered_example`, `C17_filtered_example`, `trunc_2pi`, `C42_integer_refuted`, `C44_positions_partial`, `C44_z_range_partial`, `C44_reaches_partial`, `C44_reaches_z_partial`, `C44_reaches_example`, `single_double`, `C44_corners_partial`, `C44_margin_refuted`, `C44_min_distance_partial`, `C44_exactly_num`, `C44_empty_refuted`, `C44_example`, `setup_numbers`, `C90_setup`, `setup_sources`, `film_rows`, `C90_film`, `C90_toward_partial`, `C90_toward_refuted`, `C47_peak_float32`, `C15_rir_complete`, `C15_rir_example`, `C16_reciprocity`, `C16_example`, `C17_mirror`, `C17_example`, `C18_static_chunks`, `C18_dynamic_chunks`, `C18_plain_sum`, `C18_example`, `C19_pair_is_single`, `C20_binary64`, `C20_binary32`, `C20_example`, `C21_error_bound`, `C22_silent_before_direct`, `C22_example`, `C23_prefix`, `C23_example`, `C24_next_order`, `C24_absorbing_room`, `C24_example`, `C25_dynamic_is_static`, `C25_static_gives_dynamic`, `C25_constant_trajectory`, `C25_example`, `C80_layout`, `C80_marker`, `C80_once`, `C80_extends`, `scene_facts`, `C81_scene`, `C81_complete`, `C82_scene`, `C83_bound`, `C83_completes`, `C83_silent_unchecked`, `C83_corpus`, `x_fit`, `C83_example`, `C83_silent_example`, `C51_metadata_json`, `built`, `C52_accepts`, `C52_doa`, `C52_trajectories`, `C52_dynamic_flag`, `C52_time_axis`, `C52_timestamps`, `C52_timestamps_given`, `C52_timestamps_absent`, `C52_timestamp_segment`, `C52_timestamps_as_starts`, `C52_example`, `C68_array`, `C68_integer_positions`, `C100_images`, `C100_default`, `C100_silence`, `C100_free_field`, `C100_gap`, `C100_still`, `mv_schedule`, `mv_run`, `mv_example`, `C100_gap_example`, `C100_overlap_example`, `run_cases`, `scene_pictures`, `C85_when`, `C85_order`, `C85_pictures`, `C85_films`, `C85_data`, `C85_example`, `C99_images`, `C99_silence`, `C99_free_field`, `C99_walls`, `C99_truncation`, `C99_exchange`, `C99_example`, `C99_silence_example`, `C99_bound_example`, `C89_dynamic`, `C89_too_many`, `C102_regrouped`, `C102_microphones`, `C102_order`, `C102_alone`, `C102_example`, `C102_alone_example`, `C39_static_partial`, `C39_dynamic_partial`, `C39_old_scene`, `no_rows`, `C39_empty_refuted`, `C39_integer_refuted`, `C39_example`, `C40_conflict_rejected`, `C40_own_parameters`, `C40_static_orientation`, `C40_length`, `C40_dynamic_orientation_refuted`, `C40_example`, `C04_trajectory_time_varying`, `C04_convolver`, `C04_trajectory_default`, `C04_dynamic_shapes_rejected`, `C04_example`, `C04_convolver_example`, `C05_default_segments_partition`, `C05_default_segments_exact`, `C05_example`, `C06_hop_coverage`, `C06_convolver`, `C06_hop_required`, `C06_hop_zero`, `C06_negative_hop_silent`, `C06_convolver_example`, `C06_example`, `C08_constant_trajectory_is_static`, `C08_constant_hop_is_static`, `C08_example`, `C09_trajectory_linear`, `C09_hop_linear`, `C09_trajectory_stems`, `C09_hop_stems`, `C10_trajectory_local`, `C10_hop_local`, `C11_timestamps_rejected`, `C11_timestamps_accepted`, `C11_aligned_timestamp_refuted`, `C11_aligned_timestamp_partial`, `C11_unknown_mode_rejected`, `C11_example`, `C91_delay`, `C91_index`, `C91_fraction`, `C91_gain`, `C91_reflection`, `C91_response`, `rnd32_val`, `rnd64_val`, `far_ray`, `C91_other_index`, `C91_fraction_example`, `C91_gain_example`, `C91_response_example`, `C91_reflection_example`, `C31_inactive`, `C31_tail_partial`, `C31_early_unchanged_partial`, `C31_decay_bounded`, `C31_default_seed`, `tmax_unused`, `C31_early_unchanged_refuted`, `C31_example`, `hpf_last`, `C32_simulation`, `C33_invalid_rejected`, `C33_default_used`, `C33_missing_order`, `C33_missing_length`, `C33_bad_values`, `C33_arguments_override`, `C33_unused_options`, `validate_args_length`, `C33_static_shape`, `C33_dynamic_shape`, `C33_example`, `C34_attenuation`, `C34_attenuation_example`, `C72_length_units`, `C72_example`, `C72_time_units`, `C72_time_example`, `C73_axes`, `C73_example`, `C66_partial`, `C66_partial_ex`, `C66_total`, `C66_labels`, `C66_labels_ex`, `C66_refuted`, `C66_lengths_refuted`, `C66_step_unchecked`, `C66_refused`, `C66_refused_ex`, `C70_duration`, `C70_duration_ex`, `C70_partial`, `C70_exact`, `C70_exact_ex`, `C70_overflow_unchecked`, `C70_overflow_ex`, `C70_refuted`, `same_walls`, `C78_given`, `C78_reverberation_time`, `C78_nothing_given`, `C78_ex`, `C78_ex_given`

### 3.2 What is modelled

| source file | model | not modelled |
|---|---|---|
| `signal/static.py`, `signal/internal.py`, `signal/dynamic.py` | `SignalModel.v` | dtype promotion, autograd, floating-point error of the FFT |
| `config.py` | `IsmModel.v` (record, validation, `replace`) | - |
| `sim/ism/images.py` | `ImageModel.v` | - |
| `sim/ism/accumulate.py` | `AccumModel.v`, `CacheModel.v` (caches as state) | `torch.compile` is taken to preserve meaning; order of `scatter_add_` is irrelevant over the reals |
| `sim/ism/{api,contributions,prepare,validate,helpers,diffuse,hpf}.py` | `IsmModel.v` | integer working dtypes (only their RuntimeError), scipy filter (oracle), torch generator (oracle) |
| `sim/directivity.py`, `util/orientation.py` | `DirModel.v` | non-ASCII pattern names |
| `sim/simulators.py`, `models/room.py`, `models/scene.py`, `models/results.py` | `RoomModel.v` | rooms with non-finite scalars are accepted by the constructor model but their simulation is outside the model |
| `util/acoustics.py` | `AcousticModel.v` | - |
| `util/device.py`, `util/tensor.py`, `logging.py` | `UtlModel.v` | log formatting and streams |
| `geometry/*.py` | `GeoModel.v` | device arguments, vectors with non-finite entries |
| `io/__init__.py`, `io/audio.py`, `io/outputs.py` | `IoModel.v` | file encoding, warnings, infinite samples |
| `io/metadata.py` | `MetaModel.v` | the JSON writer itself |
| `datasets/_archive.py` | `ArcModel.v` | permissions, owners, hard disk errors |
| `datasets/cmu_arctic.py`, `datasets/librispeech.py` | `DlModel.v` (download, extraction), `DfModel.v` (constructors with their arguments), `DsModel.v` (transcripts), `CorpModel.v` (listing and loading) | - |
| `datasets/attribution.py`, `io/outputs.py: save_attribution_file` | `CorpModel.v` | text encoding |
| `datasets/{utils,base,collate}.py` | `DsModel.v` | stereo audio |
| `datasets/dynamic_cmu_arctic.py` | `BldModel.v` (parts), `LoopModel.v` (the whole builder as a run with a trace of effects), `CliModel.v` (command line, with argparse of Python 3.11 for parsers that have options only), `NoteModel.v` (notes on the layouts) | help and error messages, other text in the figures, log output; responses that are not numbers (left open by an oracle) |
| `viz/animation.py`, `viz/utils.py` | `VizModel.v` (frames, rate, muxing), `NoteModel.v` (annotation text) | drawing of frames |
| `viz/scene.py`, `viz/io.py` | `ScnModel.v` (drawing calls, files, log) | titles, line styles, `show` |

Of the `examples` directory, the start of `examples/cli.py` (parser, configuration files, choice
of the mode) and `util/cli.py` are modelled in `CfgModel.v`; the geometry of its three modes, of
`static.py`, `dynamic_src.py`, `dynamic_mic.py` and `build_dynamic_dataset.py` in `ExModel.v`,
their audio files in `RefModel.v`, the data set factory of `build_dynamic_dataset.py` in
`DfModel.v`, whole runs of that program in `EdsModel.v`, the geometry of
`getting_started.py` in `GsModel.v`, and `benchmark_device.py` in `BenchModel.v`.
`SpModel.v` repeats image positions, delays, gains and reflection coefficients with every
operation rounded to binary32.

Not modelled: `experimental/*` (templates that raise `NotImplementedError`), the `__init__.py`
re-exports, log and figures of the other programs in `examples`.

### 3.3 Faithfulness assumptions

* Tensor arithmetic is over the reals unless a theorem says otherwise.  Rounding is
  modelled where it decides an index or a check: segment starts and frame counts (C04-C06,
  C11), sample counts (C33), LUT positions (C20), sampling margins (C44), peak
  normalisation (C47), metadata segments (C52), frame rate (C66, C70).  Overflow is not
  modelled.
* torch, numpy, scipy, tarfile, pathlib, logging and ffmpeg are described by their
  documented behaviour as quoted in the comments of the model.  Where a result depends on
  data that they produce (random draws, filters, network, disk contents, decoder,
  exit codes), the theorem quantifies over that data.
* Strings are ASCII except in the transcript parsers, which use code points.
* Exceptions are modelled by class; messages are not.
* The link between the Python text and the Gallina text is by reading: every definition of
  the model cites the lines it mirrors.

## 4. Findings

Behaviours of the code that contradict a natural reading of its documentation.  Each has a
theorem with the suffix `_refuted` (the property as stated fails) or `_unchecked` (a side
condition that the code does not check), or is part of an exact characterisation.

**Convolution**

* C06: a negative `hop` is accepted and the result is silence; `hop = 0` raises ZeroDivisionError.
* C11: the timestamp `1001/16000` at `fs = 16000` starts its segment at sample 1000, because
  the product is truncated and not rounded.

**Simulation**

* C22: RIRs carry a constant latency of `(L-1)/2` samples.
* C28: the directivity of a source is not mirrored for images of odd order.
* C29: the cosine is NaN when an image coincides with a microphone; `homni` then gives gain 0.
* C30: every spelling of "omni" other than the exact lower-case string requires an orientation.
* C31: with an explicit `nsample <= floor(tdiff*fs)` the tail code replaces the last sample.
* C32: the default high-pass filter fails on RIRs of 9 samples or fewer.
* C33: `SimulationConfig.fs` and `mixed_precision` have no effect; a tiny `tmax*fs` gives
  `nsample = 0` and an error.
* C39: empty position tensors are accepted by the entity classes but cannot be simulated;
  integer positions make the simulation raise RuntimeError.
* C40: the directivity of a configuration is overridden by the simulator's default "omni";
  the orientation stored in a `DynamicScene` is ignored.
* C84: the Hann window is not shifted with the fractional delay, so a response jumps by
  `sin²(π/(L-1))` of an arrival (0.15 % for 81 taps) when its delay passes an integer.
* A raw `orientation` with more rows than one microphone silently uses the first row.
* A 2-D per-entity angle table of two columns is read as angles while a vector of length 2 is a direction.

**Rooms and geometry**

* C35: NaN and infinite `fs`, `c`, `t60` pass validation.
* C36: an integer `size` truncates `beta`, also through `replace`.
* C41: integer centers truncate the offsets of binaural arrays.  A zero direction gives NaN.
* C42: integer centers truncate angles; a normal equal to `-e_x`, or zero, gives NaN.
* C44: float32 rounding of a sampled coordinate may violate the margin; `num = 0` with a z
  range raises IndexError.
* C45: an integer room size ignores the fractional part of the margin.
* C46: one step gives NaN positions.

**Audio and metadata**

* C47: audio that contains NaN is not normalised.
* C48: more than 8 channels are not transposed before writing; loading keeps channel 0.
* C49: `save_scene_audio` and `torchrir.io.audio` bypass the selected backend; there is no
  public function to register a backend.
* C50: an explicit format `.wav` is rejected; the file name `.wav` has no suffix.
* `torchrir.io.__all__` is assigned twice; the second assignment drops `AudioInfo` and
  `save_attribution_file`.
* C51: objects of unknown classes and keys that are not strings pass the sanitiser unchanged.
* C52: trajectories are not compared with the number of entities; timestamps of the
  metadata used as segment starts leave a last segment of one sample.
* C68: integer microphone positions make `build_metadata` raise.

**Datasets**

* C53: a member such as `../new/../data/s/x` creates a directory outside the root.
* C54: without an announced length a truncated download is accepted as the archive.
* C55: an incomplete extraction (crash, or two failing extractions) is accepted by the next run.
* C56: negative durations and `num_sources = 0` give obscure errors; a corpus of empty
  utterances makes the loader loop for ever; the builder's loader does not compare sample
  rates within a speaker.
* C83: over a corpus of empty utterances the whole builder makes the first scene directory
  and then never ends; the reflection order, the filter's range (`fs > 20`) and one sample of
  signal are checked only inside the first scene, after directories were made.
* C86: `--mic-center -1,2,3` and the like are refused (argparse takes the word for an option);
  `8,,6,3` is read as three numbers; `--log-level basic_format` and `_styles` stop the program
  with an exception of the logging module while every other unknown level silently means INFO.
* C88 (examples): two microphones stand 16 cm apart, longer rows 8 cm (`MIC_SPACING` is the
  offset from the center for two); rows longer than the room are squeezed together at the
  walls; in `build_dynamic_dataset.py --steps 2` a zigzag source ends at NaN; rooms with an
  inner diagonal below 1.5 m never get a source.
* C89 (examples): every reference and the mixture are normalised on their own, so the saved
  references do not add up to the saved mixture and the levels of the sources are lost; with
  more than eight microphones the files have one channel per sample.
* C92: `download=True` asks for the archive whenever the archive file is missing, also when the
  data set is already unpacked; without a network a complete local data set then raises.  The
  factory of `build_dynamic_dataset.py` fetches a whole LibriSpeech archive when only the speaker
  is missing, and raises afterwards.
* C93: `build_dynamic_dataset.py` writes the audio with the rate of the recordings, but simulates
  and describes every scene with 16000 Hz: with other recordings time axis and timestamps are
  wrong.  Speech depends on seed plus scene number only, so runs with the seeds 0 and 1 share all
  but one scene's speakers and utterances; with `--seed -1 --num-scenes 3` the first and the third
  scene hold the same audio.  A shorter second run into one directory leaves scenes of the first.
* C94: `fft_convolve` of two empty vectors returns three zeros (the slice `[:-1]` of a transform
  of length four).  `DynamicConvolver` does not check the order of timestamps: with the samples
  0, 2, 1 of a signal of three samples the middle sample is counted twice, on every device.  No
  steps at all is a ZeroDivisionError (or IndexError with an empty vector of timestamps).
* C95: with moving sources the output can be louder than every single step allows: steps switch
  without a cross-fade and the tail of the old response adds to the new one (one sample of delay,
  then none: a constant 1 becomes 2).
* C96: a moving source slower than 5 mm/s is listed on the layout with the speed 0.00 m/s.
* C98: `benchmark_device.py --gpu cuda:1` calls `torch.cuda.synchronize()` without a device, which waits
  for the current device 0; work queued on device 1 may not be done when the clock is read.
* C98: `--repeats 0` ends with ZeroDivisionError after one run; negative numbers are taken and give
  averages that are not positive.
* C100: steps of a trajectory are not blended when a signal is convolved. Where a source moves away by D
  samples from one step to the next, D samples of silence are recorded; where it comes nearer, D samples
  add up (`C100_gap`, `C100_overlap_example`).
* C101: walls estimated from a t60 do not keep single echoes below -60 dB after that time. In a cube with
  coefficients 0.9 (Sabine's for its t60) the echo of order 49 along one axis arrives later than t60 and
  has a gain above 0.005 (`C101_t60_unchecked`).
* C91 (single precision): an image that arrives at a whole number of samples can start one
  sample early: 28 m at 44.1 kHz and 343 m/s is sample 3640 with the offset of 40, single
  precision gives 3640 - 1/4096, so the pulse starts at 3639.
* C90 (examples): in `getting_started.py` source 2 does not move toward source 1 all the time:
  from step 116 of 128 it moves away.
* C87 (examples): plot, show, gif and deterministic set by a configuration file cannot be
  switched off on the command line; a misspelt key is ignored; a wrong mode is reported only
  after `--config-out` was written; `null` for a directory comes back as the directory `None`;
  `--config-in missing.json --bogus` reports the missing file, not the bogus option; a JSON
  `"room": "643"` becomes the number 643 and fails only when it is used or saved.
* C57: items of mixed dtypes are cast to the first item's dtype.
* C58: one CMU prompt line without id makes the whole file fail with IndexError.
* C60: a fixed microphone center is not checked, so microphones may lie outside the room;
  negative margins are accepted; an impossible z margin is retried 100 times and reported
  with a misleading message.
* C61: the step times of the builder are `i/(n-1)`, the segments of the convolver `i/n`.
* C62: the mixture may clip, since only the peaks of the stems are used.
* C63: checks made after `rmtree` destroy the data set; a corpus inside the output
  directory is deleted.
* C69: stems are written with swapped axes when the number of samples is one or equals the
  number of microphones.

* C74: LibriSpeech lists an utterance if its file is beside the transcript, but loads it from
  the directory spelled in the identifier; a transcript with another identifier is listed and
  then raises ValueError or FileNotFoundError.  The file `.wav` counts as a CMU utterance.
* C75: values with line breaks are written as they are, so a notice can be forged; the output
  directory is created before the mapping is checked.

**Utilities and visualisation**

* C64: with CUDA, "CUDA" raises; "mps:0" and "xpu" are passed on unchecked; "cudaXYZ" falls
  back silently to the CPU; `as_tensor(..., device="auto")` moves an existing tensor, `DeviceSpec` does not.
* C65: the handler keeps the level of the first call; NOTSET means the root's level;
  propagation duplicates records; a name such as "torchrirfoo" is outside the package tree.
* C66: the last step is shown only if `step` divides `T-1`; `step = 0` raises, a negative
  step gives one frame; lengths of source and microphone trajectories are not compared;
  NaN or infinite `fps` raises.
* C67: a mixture named `<stem>_tmp_audio.wav` is overwritten and deleted; temporary files
  remain after exceptions.
* C70: slow trajectories are played too fast, and `-shortest` cuts the sound.
* C76: a step larger than the movement hides it; `step <= 0` is noticed only if something
  moves; positions whose number differs from the trajectory's are silently replaced for the
  markers but not for the source numbers.
* C77: when `save_scene_plots` fails midway, the pictures already written stay and are not
  reported.

## 5. Mutation testing

`seeded/LOG.jsonl` holds one line per wrong program tried: the definition edited in a
scratch copy of the model, the edit, the claim it breaks, the theorems that no longer
compile and the theorems tightened as a consequence.
