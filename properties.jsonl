{"id": "C01", "title": "FFT convolution is exact linear convolution", "statement": "For every pair of non-empty 1-D tensors x (length n) and h (length m), fft_convolve(x, h) returns a 1-D tensor of length n+m-1 whose j-th entry is sum_i x[i]*h[j-i]; no circular wrap-around ever reaches the output. Inputs that are not 1-D are rejected with ValueError.", "quantifier": "all real sequences of all positive lengths", "why_tests_cant": "Wrap-around depends on how the power-of-two padding relates to n+m-1 for every length pair and value; tests only sample lengths and tolerances.", "anchors": ["src/torchrir/signal/static.py: fft_convolve"]}
{"id": "C02", "title": "Static convolution is the superposition over sources", "statement": "convolve_rir(signal, rirs)[m][j] = sum over sources s of the linear convolution of signal[s] with rirs[s, m], for every microphone m and sample j; the output has n_mic rows (squeezed to 1-D when n_mic = 1) of n_samples + rir_len - 1 samples.", "quantifier": "all signals and RIR tensors with every source/mic/sample count", "why_tests_cant": "Holds for all shapes and values; a test fixes a few shapes.", "anchors": ["src/torchrir/signal/static.py: convolve_rir", "src/torchrir/signal/internal.py: _ensure_signal, _ensure_static_rirs"]}
{"id": "C03", "title": "Static convolution accepts exactly the documented shapes", "statement": "convolve_rir succeeds (non-empty axes) exactly when the signal is 1-D or 2-D, the RIRs are 1-D, 2-D or 3-D and the signal has one row or as many rows as the RIRs have sources; a one-row signal is used for every source; every other input is rejected with ValueError and no result.", "quantifier": "all tensor shapes", "why_tests_cant": "Tests try a handful of bad shapes; the claim is an iff over all ranks and extents.", "anchors": ["src/torchrir/signal/static.py: convolve_rir", "src/torchrir/signal/internal.py"]}
{"id": "C04", "title": "Trajectory-mode convolution filters each sample with the RIR active at its time", "statement": "For non-decreasing segment starts 0 = w0 <= ... <= n_samples, DynamicConvolver(mode='trajectory') returns y[m][j] = sum_s sum_tau x_s[tau] * h_{k(tau), s, m}[j - tau] where k(tau) is the step whose segment [w_k, w_{k+1}) contains tau; every input sample is used exactly once and the length is n_samples + rir_len - 1.", "quantifier": "all signals, RIR sequences, step counts and non-decreasing segmentations (also more steps than samples)", "why_tests_cant": "Quantifies over all segmentations, including empty segments; tests use a few step counts.", "anchors": ["src/torchrir/signal/dynamic.py: _convolve_dynamic_rir_trajectory"]}
{"id": "C05", "title": "Default segmentation is a partition even in floating point", "statement": "Without timestamps the segment starts computed in binary floating point (double on CPU/CUDA, single on MPS) start at 0, never decrease and never exceed n_samples, so the segments partition the signal; holds whenever T is small against the precision.", "quantifier": "all n_samples and T within the stated precision bound, every rounding step modelled", "why_tests_cant": "Rounding of n/T and t*(n/T) must be controlled for all (n,T) pairs; exhaustive testing is impossible.", "anchors": ["src/torchrir/signal/dynamic.py: _convolve_dynamic_rir_trajectory (lines 124-133)"]}
{"id": "C06", "title": "Hop-mode convolution and its coverage", "statement": "DynamicConvolver(mode='hop', hop=H) with H >= 1 filters sample tau of each source with RIR number tau // H, for exactly the samples tau < T*H; samples at or beyond T*H (when T < ceil(n/H)) contribute nothing. Output length is H*min(ceil(n/H), T) + rir_len - 1.", "quantifier": "all signals, RIRs, hop sizes and step counts", "why_tests_cant": "The dropped-tail behaviour and frame boundary handling must be right for all (n, H, T).", "anchors": ["src/torchrir/signal/dynamic.py: _convolve_dynamic_rir_hop"]}
{"id": "C07", "title": "Batched (GPU) trajectory convolution equals the CPU path", "statement": "The batched implementation used on CUDA/MPS returns exactly (in real arithmetic) the output of the CPU implementation, for every chunk size >= 1.", "quantifier": "all signals, RIRs, non-decreasing segmentations and chunk sizes", "why_tests_cant": "GPU path is skipped in most test runs; equality is over all inputs and chunkings.", "anchors": ["src/torchrir/signal/dynamic.py: _convolve_dynamic_rir_trajectory_batched"]}
{"id": "C08", "title": "A static scene convolved dynamically equals static convolution", "statement": "If the RIR is the same at all T time steps, trajectory-mode convolution equals convolve_rir with that RIR; hop mode equals it too on the first n_samples + rir_len - 1 samples (zero after) whenever T*H >= n_samples.", "quantifier": "all signals, RIRs, T, H", "why_tests_cant": "Consistency of overlap-add over all segmentations.", "anchors": ["src/torchrir/signal/dynamic.py", "src/torchrir/signal/static.py"]}
{"id": "C09", "title": "Dynamic convolution is linear, so stems add up to the mixture", "statement": "For both modes the convolver output is linear in the signal, and the multi-source output equals the sum of the outputs obtained by convolving each source alone with its own RIR slice.", "quantifier": "all signals, scalars and RIR sequences", "why_tests_cant": "Universal algebraic law.", "anchors": ["src/torchrir/signal/dynamic.py", "src/torchrir/datasets/dynamic_cmu_arctic.py: lines 651-660"]}
{"id": "C10", "title": "Dynamic convolution is causal and local", "statement": "Output sample j depends only on signal samples tau with j - rir_len < tau <= j: two signals agreeing there give the same output sample j; the same for static convolution.", "quantifier": "all signal pairs, RIRs and sample indices", "why_tests_cant": "Relational (two-run) property over all inputs; FFT wrap-around bugs violate it only for special lengths.", "anchors": ["src/torchrir/signal/static.py", "src/torchrir/signal/dynamic.py"]}
{"id": "C11", "title": "Timestamp handling", "statement": "With timestamps the convolver rejects (ValueError) a missing fs, a non-1-D or wrong-length vector, or a first timestamp other than 0, before producing output; a sample-aligned timestamp k/fs is assigned the segment start k.", "quantifier": "all timestamp vectors, sample rates and sample indices k", "why_tests_cant": "Binary rounding of k/fs*fs decides the segment start; only some (k, fs) fail.", "anchors": ["src/torchrir/signal/dynamic.py: lines 110-133"]}
{"id": "C12", "title": "Image enumeration is complete and duplicate free", "statement": "With max_order=N the simulator uses exactly the integer index vectors of L1 norm <= N, each once (2N^2+2N+1 of them in 2-D, (2N+1)(2N^2+2N+3)/3 in 3-D); with nb_img it uses exactly the vectors with |n_i| <= nb_i, each once; a wrong-length nb_img is rejected.", "quantifier": "all orders N >= 0, all nb_img, both dimensions", "why_tests_cant": "Completeness for all orders; tests count for small N.", "anchors": ["src/torchrir/sim/ism/images.py: _image_source_indices"]}
{"id": "C13", "title": "Image positions are the iterated wall reflections", "statement": "The position used for index n along an axis of length L is what one gets by mirroring the source successively in the planes L, 2L, ..., nL (n>0) or 0, -L, ..., (n+1)L (n<0), which are the mirror copies of alternately the high and the low wall, and it lies in the n-th mirror cell [nL,(n+1)L] when the source is inside the room.", "quantifier": "all source positions, room lengths and integer indices", "why_tests_cant": "Induction over the number of reflections.", "anchors": ["src/torchrir/sim/ism/images.py: _image_positions, _image_positions_batch"]}
{"id": "C14", "title": "Reflection gain is the product over the walls hit", "statement": "The gain of an image is the product of the reflection coefficients of the walls met along its reflection path, counted with multiplicity; with beta in [0,1] it lies in [0,1], it is monotone in every beta, equals 1 for the direct path, and is 0 for every reflected image whose path meets a wall with beta=0.", "quantifier": "all betas in [0,1], all image indices", "why_tests_cant": "Counting of low/high wall hits for negative and positive, odd and even indices of any size.", "anchors": ["src/torchrir/sim/ism/images.py: _reflection_coefficients"]}
{"id": "C15", "title": "Image counts from tmax cover every arrival before tmax", "statement": "If nb_img = estimate_image_counts_from_tmax(tmax, size, c), every image source outside the enumerated box is at distance >= tmax*c from every microphone inside the room, so no arrival earlier than tmax is missed.", "quantifier": "all room sizes, source and mic positions inside the room, all tmax, c > 0", "why_tests_cant": "Geometric bound over infinitely many images and positions.", "anchors": ["src/torchrir/util/acoustics.py: estimate_image_counts_from_tmax", "src/torchrir/sim/ism/images.py"]}
{"id": "C16", "title": "Reciprocity", "statement": "Exchanging a source and a microphone leaves the (omnidirectional, unfiltered) RIR unchanged.", "quantifier": "all rooms, betas, positions, orders, lengths", "why_tests_cant": "Symmetry over the whole image lattice.", "anchors": ["src/torchrir/sim/ism/api.py: simulate_rir", "src/torchrir/sim/ism/images.py", "src/torchrir/sim/ism/contributions.py"]}
{"id": "C17", "title": "Mirror symmetry of the room", "statement": "Reflecting the whole set-up along an axis (x -> L - x for source and mic, swapping the two wall coefficients of that axis) leaves the RIR unchanged.", "quantifier": "all rooms, betas, positions, orders, axes", "why_tests_cant": "Symmetry over the whole image lattice; catches lo/hi swaps.", "anchors": ["src/torchrir/sim/ism/images.py", "src/torchrir/sim/ism/contributions.py"]}
{"id": "C18", "title": "Chunking does not change the RIR", "statement": "The simulated RIR does not depend on image_chunk_size or accumulate_chunk_size (any positive values), and equals the plain sum over all images of gain/distance times the fractional-delay kernel.", "quantifier": "all chunk sizes, rooms, positions, configurations (exact arithmetic)", "why_tests_cant": "All chunk sizes including non-divisors and larger than the image count.", "anchors": ["src/torchrir/sim/ism/api.py: lines 111-128", "src/torchrir/sim/ism/accumulate.py: _accumulate_rir_batch_impl"]}
{"id": "C19", "title": "No cross-talk between source/microphone pairs", "statement": "Entry [s, m] of the simulated RIR depends only on source s and microphone m: it equals the RIR of the simulation run with that source and that microphone alone; the scatter into the flat buffer never leaves the row of its pair.", "quantifier": "all source/mic sets and delays (also delays beyond the buffer)", "why_tests_cant": "Out-of-row writes happen only for late or early arrivals in particular positions.", "anchors": ["src/torchrir/sim/ism/accumulate.py: lines 57-94"]}
{"id": "C20", "title": "The sinc look-up never goes out of range under any rounding", "statement": "For every delay and every monotone rounding that keeps small integers exact (hence IEEE single and double), all look-up positions used in the LUT path lie inside the table, and all scatter indices lie inside the RIR buffer.", "quantifier": "all delays, all odd filter lengths, all granularities, all such roundings", "why_tests_cant": "An index error would need a delay whose fraction rounds to 1; tests cannot enumerate them.", "anchors": ["src/torchrir/sim/ism/accumulate.py: lines 69-94, 155-168"]}
{"id": "C21", "title": "LUT interpolation agrees with the direct kernel", "statement": "The LUT path evaluates at exactly the same kernel arguments as the direct path: it returns the linear interpolation between the two neighbouring grid values, equals the direct kernel when the fraction is on the grid, and differs by at most an explicit bound that goes to 0 with the granularity.", "quantifier": "all fractions, odd lengths, granularities", "why_tests_cant": "Uniform error bound over a continuum.", "anchors": ["src/torchrir/sim/ism/accumulate.py"]}
{"id": "C22", "title": "Arrival alignment and causality of the RIR", "statement": "An image at distance d touches only RIR samples floor(d*fs/c) .. floor(d*fs/c)+L-1 (L the fractional delay length): nothing is written before the geometric arrival, no tap is lost at the left border, and for integer delay k the contribution is the single value gain/d at sample k+(L-1)/2.", "quantifier": "all distances, speeds, sample rates, odd filter lengths", "why_tests_cant": "Continuum of delays, including integer ones.", "anchors": ["src/torchrir/sim/ism/accumulate.py", "src/torchrir/sim/ism/contributions.py"]}
{"id": "C23", "title": "Longer simulations extend shorter ones", "statement": "The unfiltered RIR computed with nsample=k is the length-k prefix of the one computed with any larger nsample.", "quantifier": "all k <= K, rooms, positions", "why_tests_cant": "Relational property over two runs; truncation bugs show for particular late arrivals only.", "anchors": ["src/torchrir/sim/ism/api.py", "src/torchrir/sim/ism/accumulate.py"]}
{"id": "C24", "title": "Raising the reflection order only adds the new images", "statement": "RIR(max_order=N+1) - RIR(max_order=N) is exactly the contribution of the images of L1 order N+1; with all betas 0 the RIR is the direct path for every order.", "quantifier": "all N, rooms, positions, betas", "why_tests_cant": "All orders.", "anchors": ["src/torchrir/sim/ism/images.py", "src/torchrir/sim/ism/api.py"]}
{"id": "C25", "title": "Dynamic simulation is the static simulation at each step", "statement": "For every time step t, simulate_dynamic_rir(...)[t] equals simulate_rir at positions src_traj[t], mic_traj[t] (same configuration), hence a constant trajectory gives the same RIR at all steps.", "quantifier": "all trajectories, step counts, rooms, directivities and orientations", "why_tests_cant": "Two separately written code paths must agree on all inputs.", "anchors": ["src/torchrir/sim/ism/api.py: simulate_rir, simulate_dynamic_rir", "src/torchrir/sim/ism/contributions.py"]}
{"id": "C26", "title": "Caches never change results", "statement": "After any history of simulations with any configurations, devices and dtypes, the table, window, grid and offset values served from the module caches equal the freshly computed ones, so a simulation's result does not depend on what ran before.", "quantifier": "all histories of cache lookups", "why_tests_cant": "Quantifies over unbounded call histories; a wrong cache key only fails after specific histories.", "anchors": ["src/torchrir/sim/ism/accumulate.py: _get_fdl_grid, _get_fdl_offsets, _get_fdl_window, _get_sinc_lut, _get_accumulate_fn"]}
{"id": "C27", "title": "Directivity gains", "statement": "For every supported pattern and cos(theta) in [-1,1] the gain is at most 1 in absolute value, is 1 on axis, has the documented value at the rear, aliases and letter case do not matter, and every other pattern name raises ValueError.", "quantifier": "all pattern strings and cosines", "why_tests_cant": "All strings; continuum of cosines.", "anchors": ["src/torchrir/sim/directivity.py"]}
{"id": "C28", "title": "Directivity of image sources follows the physical ray", "statement": "The source directivity applied to an image equals the gain in the direction in which the physical ray leaves the real source.", "quantifier": "all image indices, source orientations, positions", "why_tests_cant": "Needs the unfolded path of every image.", "anchors": ["src/torchrir/sim/ism/contributions.py: lines 79-84", "src/torchrir/sim/ism/helpers.py: _cos_between"]}
{"id": "C29", "title": "Cosine of directivity is well defined and bounded", "statement": "For a non-zero source-mic vector and a non-zero orientation, the cosine used is in [-1,1] and invariant under positive scaling of the orientation; it is undefined (NaN) when source image and mic coincide.", "quantifier": "all vectors", "why_tests_cant": "Continuum (Cauchy-Schwarz).", "anchors": ["src/torchrir/sim/ism/helpers.py: _cos_between", "src/torchrir/util/orientation.py"]}
{"id": "C30", "title": "Omnidirectional aliases behave like omni", "statement": "Any accepted spelling of the omnidirectional pattern gives the same simulation result as 'omni', with or without orientations.", "quantifier": "all spellings, scenes", "why_tests_cant": "All spellings; equality of complete runs.", "anchors": ["src/torchrir/sim/ism/api.py: lines 85-109", "src/torchrir/sim/directivity.py"]}
{"id": "C31", "title": "Diffuse tail leaves the early response untouched", "statement": "With tdiff < tmax, samples before floor(tdiff*fs) are unchanged, the tail is noise times a decay not exceeding the last early sample's magnitude (plus 1e-8), the result is a function of the seed (None and 0 coincide), and when tdiff >= tmax or tmax is unknown nothing changes.", "quantifier": "all RIRs, tdiff, tmax, seeds, noise sequences", "why_tests_cant": "All split points including borders.", "anchors": ["src/torchrir/sim/ism/diffuse.py", "src/torchrir/sim/ism/api.py: lines 130-131"]}
{"id": "C32", "title": "High-pass filter gating", "statement": "With the filter disabled the RIR is returned unchanged; enabled, a cutoff is accepted iff 0 < fc < fs/2, and each (source, mic, step) row is filtered independently with the shape preserved.", "quantifier": "all RIRs, fs, fc, filter kwargs, any row filter", "why_tests_cant": "All inputs; scipy treated as an arbitrary row function.", "anchors": ["src/torchrir/sim/ism/hpf.py"]}
{"id": "C33", "title": "Configuration resolution and output length", "statement": "Explicit arguments override the config, the config overrides defaults; a missing max_order or missing nsample and tmax is rejected; nsample wins over tmax; otherwise nsample = ceil(tmax*fs); the static output has shape (n_src, n_mic, nsample) and the dynamic one (T, n_src, n_mic, nsample). An invalid config never reaches simulation. What is simulated is a well-formed scene: a room with two or three dimensions, at least one source and one microphone with as many coordinates, one coefficient per wall.", "quantifier": "all configs and arguments", "why_tests_cant": "Combinatorial over optional fields.", "anchors": ["src/torchrir/sim/ism/validate.py", "src/torchrir/config.py", "src/torchrir/sim/ism/api.py"]}
{"id": "C34", "title": "Sabine round trip", "statement": "estimate_t60_from_beta(estimate_beta_from_t60(t60)) = t60 whenever the implied absorption is at most 0.999 (otherwise the reported T60 is longer than requested), the estimated beta is uniform over walls, in (0,1), and strictly increasing in t60 in that range.", "quantifier": "all 2-D and 3-D room sizes and t60 > 0", "why_tests_cant": "Continuum of sizes and times.", "anchors": ["src/torchrir/util/acoustics.py"]}
{"id": "C35", "title": "Room invariants", "statement": "Every Room that exists (constructed, shoebox or replace, in any order) has a 1-D size of 2 or 3 finite positive entries, finite positive fs and c, not both beta and t60, beta of 4 or 6 entries in [0,1], positive t60.", "quantifier": "all constructor arguments including NaN and infinities, all replace histories", "why_tests_cant": "IEEE special values and unbounded replace chains.", "anchors": ["src/torchrir/models/room.py: Room"]}
{"id": "C36", "title": "Wall coefficients given by the user are the ones used", "statement": "The beta stored by Room is the beta passed in (flattened).", "quantifier": "all sizes, betas and dtypes", "why_tests_cant": "Depends on dtype of the size tensor.", "anchors": ["src/torchrir/models/room.py: lines 46-57, 81-86"]}
{"id": "C37", "title": "Entity invariants", "statement": "Every Source/MicrophoneArray has 2-D finite positions with 2 or 3 columns (1-D input becomes one row with the same numbers) and an orientation whose shape is usable: converting it to unit vectors succeeds and gives one direction or one per entity. All such inputs are accepted.", "quantifier": "all position/orientation tensors", "why_tests_cant": "All ranks and extents, special values.", "anchors": ["src/torchrir/models/room.py", "src/torchrir/util/orientation.py"]}
{"id": "C38", "title": "Orientation vectors are unit and preserve direction", "statement": "orientation_to_unit returns vectors of norm 1 (for inputs of norm >= 1e-8, and for every angle or (azimuth, elevation)), parallel to the input vector.", "quantifier": "all orientations", "why_tests_cant": "Continuum.", "anchors": ["src/torchrir/util/orientation.py"]}
{"id": "C39", "title": "Accepted scenes are simulatable", "statement": "Every accepted StaticScene/DynamicScene passes all shape checks of the corresponding simulator entry point (omni), so ISMSimulator never fails on shapes and returns the documented shape; converting the deprecated Scene gives the same scene data; validate() is stable.", "quantifier": "all scenes accepted by the constructors", "why_tests_cant": "Two independent validators must agree on all shapes.", "anchors": ["src/torchrir/models/scene.py", "src/torchrir/sim/ism/validate.py", "src/torchrir/sim/simulators.py"]}
{"id": "C40", "title": "Simulator parameters are honoured or rejected", "statement": "ISMSimulator.simulate either raises ValueError on a conflict or runs with its own max_order, tmax/nsample and directivity, never silently with other ones; orientation stored in the scene is used.", "quantifier": "all simulator/config/scene combinations", "why_tests_cant": "Combinatorial.", "anchors": ["src/torchrir/sim/simulators.py"]}
{"id": "C41", "title": "Linear and binaural array geometry", "statement": "linear_array returns num points, consecutive ones exactly spacing apart along the unit direction, centred at center; binaural_array returns two points 2*offset apart along x centred at center; invalid num, spacing, axis are rejected.", "quantifier": "all centers, counts, spacings, directions", "why_tests_cant": "Continuum, all counts.", "anchors": ["src/torchrir/geometry/arrays.py: binaural_array, linear_array"]}
{"id": "C42", "title": "Circular array geometry", "statement": "circular_array returns num points at distance radius from center, equally spaced in angle, in the plane orthogonal to the normal (or the named plane), with centroid at the center for num >= 2. With a normal, the ring starts at right angles with the x axis (the y axis for normals along x).", "quantifier": "all counts, radii, centers, normals", "why_tests_cant": "All counts and normals, including axis-aligned ones.", "anchors": ["src/torchrir/geometry/arrays.py: circular_array, _basis_from_normal"]}
{"id": "C43", "title": "Polyhedral and spherical arrays", "statement": "Every polyhedron array has the right number of distinct vertices (4, 8, 6, 20, 12), all at distance radius from the center, with centroid at the center; Eigenmike arrays have 32/64 points at distance radius for every azimuth offset; unknown kinds are rejected. The points of the 32 channel array come in opposite pairs.", "quantifier": "all centers, radii, kinds, offsets", "why_tests_cant": "Continuum.", "anchors": ["src/torchrir/geometry/arrays.py"]}
{"id": "C44", "title": "Sampled positions respect the margins", "statement": "When every axis satisfies 2*margin <= size, all sampled positions lie at least margin inside the walls (z inside the requested range when feasible); the min-distance sampler returns exactly num points each at least min_distance from the center or raises RuntimeError, after at most max_attempts draws.", "quantifier": "all rooms, margins, random streams", "why_tests_cant": "All random streams.", "anchors": ["src/torchrir/geometry/sampling.py"]}
{"id": "C45", "title": "Clamping keeps positions inside the room", "statement": "clamp_positions returns points inside [margin, size-margin] on every axis, leaves inside points unchanged and is idempotent; when 2*margin > size it returns the margin value.", "quantifier": "all positions, rooms, margins", "why_tests_cant": "Continuum.", "anchors": ["src/torchrir/geometry/sampling.py: clamp_positions"]}
{"id": "C46", "title": "Linear trajectories stay on the segment", "statement": "linear_trajectory(start, end, steps) with steps >= 2 starts at start, ends at end, moves by equal increments and stays in every box containing both endpoints.", "quantifier": "all endpoints and step counts", "why_tests_cant": "Continuum, all step counts.", "anchors": ["src/torchrir/geometry/trajectories.py"]}
{"id": "C47", "title": "Peak normalisation on save", "statement": "Saving with normalize=True writes samples whose maximum magnitude is exactly the requested peak (default 1; rounded to float32 in float32 arithmetic) and which are a positive multiple of the input, keeping order and signs; silence is written unchanged, as is any waveform containing a NaN; non-positive peaks are rejected; normalize=False writes the samples unchanged.", "quantifier": "all waveforms and peaks", "why_tests_cant": "Continuum.", "anchors": ["src/torchrir/io/audio.py: _save_audio"]}
{"id": "C48", "title": "Channel layout on save", "statement": "A (channels, time) tensor is written with its channels as channels.", "quantifier": "all channel counts and lengths", "why_tests_cant": "Heuristic depends on extents.", "anchors": ["src/torchrir/io/audio.py: _save_audio, _load_audio_data"]}
{"id": "C49", "title": "Audio backend registry", "statement": "After any sequence of registrations, selections and failures the current backend is registered; failed selections change nothing; every file operation without an explicit backend goes to the last successfully selected one.", "quantifier": "all operation histories", "why_tests_cant": "Unbounded histories.", "anchors": ["src/torchrir/io/__init__.py", "src/torchrir/io/audio.py"]}
{"id": "C50", "title": "WAV-only entry points accept exactly WAV", "statement": "load_wav/save_wav/info_wav proceed iff the effective format (explicit, else file suffix) normalises to WAV, independent of case, and otherwise raise ValueError without touching the file.", "quantifier": "all paths and format strings", "why_tests_cant": "All strings.", "anchors": ["src/torchrir/io/audio.py", "src/torchrir/io/__init__.py"]}
{"id": "C51", "title": "Scene metadata is JSON-serialisable and faithful", "statement": "build_metadata's sanitising returns only JSON values (None, bool, numbers, strings, lists, string-keyed objects) for every nested input, leaves JSON values unchanged and is idempotent.", "quantifier": "all nested values", "why_tests_cant": "Structural induction over arbitrary nesting.", "anchors": ["src/torchrir/io/metadata.py: _to_serializable"]}
{"id": "C52", "title": "Scene metadata geometry and time axis", "statement": "DOA azimuth/elevation in the metadata, with the distance between the stored positions, reconstruct the source position relative to each microphone (elevation 0 in 2-D); timestamps start at 0, end at (signal_len-1)/fs, are equally spaced and each lies in the segment in which the trajectory convolver applies that step's RIR (at least two samples per step); static positions are repeated along a moving counterpart; mismatching lengths are rejected; the dynamic flag holds iff T > 1.", "quantifier": "all trajectories, signal lengths", "why_tests_cant": "Continuum; relation between two modules.", "anchors": ["src/torchrir/io/metadata.py", "src/torchrir/signal/dynamic.py"]}
{"id": "C53", "title": "Archive extraction is confined and all-or-nothing", "statement": "No archive, whatever its member names and types, makes safe extraction write outside the target directory; if any member is unsafe (escapes, link) nothing is extracted at all. An archive with ordinary names and nothing in its way on disk is unpacked completely, also over an earlier extraction, and nothing else changes.", "quantifier": "all archives (member names with .., absolute paths, links)", "why_tests_cant": "Adversarial inputs.", "anchors": ["src/torchrir/datasets/_archive.py"]}
{"id": "C54", "title": "Downloads are atomic", "statement": "At every crash point and for every sequence of network faults, the final archive path holds either nothing or (when the server announced a length) a file of exactly the announced length; a failed download leaves no final file; at most two attempts are made; between two successive crash points lies at most one operation on the temporary file, the archive or the data set.", "quantifier": "all fault sequences and crash points", "why_tests_cant": "Crash points between any two file-system steps.", "anchors": ["src/torchrir/datasets/cmu_arctic.py", "src/torchrir/datasets/librispeech.py"]}
{"id": "C55", "title": "Interrupted dataset preparation is detected", "statement": "After a crash or failure at any point of download and extraction, constructing the dataset again either fails or yields the complete dataset.", "quantifier": "all crash points, all later runs", "why_tests_cant": "Crash in the middle of extraction.", "anchors": ["src/torchrir/datasets/cmu_arctic.py", "src/torchrir/datasets/librispeech.py"]}
{"id": "C56", "title": "Dataset sources have exactly the requested length", "statement": "load_dataset_sources returns, when it returns (and the target is not negative), one row per distinct chosen speaker, each of exactly the target number of samples (the whole samples in the duration) and each a prefix of a concatenation of that speaker's utterances in which every utterance is used before any is repeated; it rejects too many speakers and mixed sample rates; it terminates whenever every speaker has a non-empty utterance (and not if all are empty).", "quantifier": "all datasets, random orders, durations", "why_tests_cant": "All random orders; termination.", "anchors": ["src/torchrir/datasets/utils.py", "src/torchrir/datasets/dynamic_cmu_arctic.py: _load_fixed_length_signal"]}
{"id": "C57", "title": "Batch collation is lossless", "statement": "collate_dataset_items, for items of one dtype, keeps the order, pads with pad_value only beyond each item's length, records the exact lengths, and the original audio is recovered by cutting each row at its length; exactly the empty batches and those with mixed rates are rejected.", "quantifier": "all batches", "why_tests_cant": "All batches.", "anchors": ["src/torchrir/datasets/collate.py"]}
{"id": "C58", "title": "Transcript parsing", "statement": "CMU ARCTIC prompt lines and LibriSpeech transcript lines written in their documented format are parsed back to exactly the id and text; blank lines are skipped.", "quantifier": "all ids and texts of the documented form", "why_tests_cant": "All strings.", "anchors": ["src/torchrir/datasets/cmu_arctic.py", "src/torchrir/datasets/librispeech.py"]}
{"id": "C59", "title": "Dataset indexing is stable", "statement": "For every history of len/getitem calls and arbitrary changes on disk in between, the sentence list is read once: len and item order never change after the first access.", "quantifier": "all access histories and file-system changes", "why_tests_cant": "Unbounded histories.", "anchors": ["src/torchrir/datasets/base.py"]}
{"id": "C60", "title": "Generated scenes keep sources and microphones inside the room", "statement": "In every generated dynamic scene (margin boxes up to 9e8 m wide), all microphones are inside the room when the centre is randomised, every source stays inside the margin box and at least 1.8 m horizontally from the array centre at all trajectory steps; and a scene is generated for every random stream exactly when the arguments are sensible and the room is large enough.", "quantifier": "all random streams, room sizes, margins, step counts", "why_tests_cant": "All random streams; continuum of arcs.", "anchors": ["src/torchrir/datasets/dynamic_cmu_arctic.py: _sample_random_mic_center, _max_radius_for_azimuth, _sample_position_on_azimuth, _build_constrained_source_positions, _build_source_trajectory"]}
{"id": "C61", "title": "Motion profile of generated scenes", "statement": "Every source is at its start position until move_start_ratio, at its end position after move_end_ratio, in between it moves monotonically on a circular arc at the recorded speed; non-moving sources never move; start azimuths are equally spaced.", "quantifier": "all scenes", "why_tests_cant": "Continuum of times.", "anchors": ["src/torchrir/datasets/dynamic_cmu_arctic.py: _build_source_trajectory"]}
{"id": "C62", "title": "Mixture equals the sum of the written stems", "statement": "The mixture is the sample-wise sum of the written source files, scaled by a common factor so that no file clips. The factor is the greatest up to 1 that keeps the sources within 0.99.", "quantifier": "all stems", "why_tests_cant": "Depends on peaks of all stems.", "anchors": ["src/torchrir/datasets/dynamic_cmu_arctic.py: _normalize_sources, lines 651-665"]}
{"id": "C63", "title": "Invalid builder arguments never destroy an existing dataset", "statement": "If the builder rejects its arguments, an existing dataset directory is left as it was; without overwrite an existing directory is never modified.", "quantifier": "all argument combinations and file-system states", "why_tests_cant": "Order of checks and side effects over all argument combinations.", "anchors": ["src/torchrir/datasets/dynamic_cmu_arctic.py: lines 475-548"]}
{"id": "C64", "title": "Device resolution", "statement": "resolve_device never returns an unavailable accelerator for a string request, falls back to CPU with a warning, prefers in the given order for 'auto', and letter case does not matter; explicit device/dtype override tensors, the first tensor wins otherwise.", "quantifier": "all strings, availability combinations, tensor lists", "why_tests_cant": "Combinatorial.", "anchors": ["src/torchrir/util/device.py", "src/torchrir/util/tensor.py"]}
{"id": "C65", "title": "Logging set-up", "statement": "After any sequence of setup_logging/get_logger calls the package root logger has exactly one handler added by the package, and messages at or above the most recently requested level are emitted once.", "quantifier": "all call histories", "why_tests_cant": "Unbounded histories.", "anchors": ["src/torchrir/logging.py"]}
{"id": "C66", "title": "Animations cover the trajectory", "statement": "Every frame index of an animation is a valid trajectory step, frames are in increasing time order, start at step 0 and end at the last step; at least one frame and a frame rate of at least 1 are used.", "quantifier": "all step counts, steps per frame, durations", "why_tests_cant": "All combinations.", "anchors": ["src/torchrir/viz/animation.py"]}
{"id": "C67", "title": "Audio muxing never damages the video", "statement": "Whatever the outcome of the external muxer, the final video path holds either the original video or the completely muxed one, and no temporary file remains after a normal return.", "quantifier": "all tool outcomes and crash points", "why_tests_cant": "Crash points and failure modes.", "anchors": ["src/torchrir/viz/animation.py"]}
{"id": "C68", "title": "Array description in the metadata", "statement": "The array section of the metadata names the geometry by the number of microphones, gives the mean position as centre, the microphone positions, and as spacing the smallest positive distance between two microphones (none when all coincide); integer positions make building the metadata raise.", "quantifier": "all microphone arrays", "why_tests_cant": "Continuum; minimum over all pairs.", "anchors": ["src/torchrir/io/metadata.py: _array_attributes"]}
{"id": "C69", "title": "Stems are written time-major", "statement": "Each convolved multichannel stem is written with one row per sample and one column per microphone, so that sample j of microphone i of the convolution result is entry (j, i) of the file.", "quantifier": "all signal lengths and microphone counts", "why_tests_cant": "Axis inference from shapes fails only at coincidences of lengths that tests do not try.", "anchors": ["src/torchrir/datasets/dynamic_cmu_arctic.py: _to_time_channel_audio"]}
{"id": "C70", "title": "Playing time of animations", "statement": "An animation made without an explicit frame rate plays as long as the signal it belongs to, so that a muxed sound track stays in step with the picture. A given duration wins over the length of the signal.", "quantifier": "all frame counts and durations", "why_tests_cant": "Rounding of the frame rate depends on every combination of both.", "anchors": ["src/torchrir/viz/animation.py"]}
{"id": "C71", "title": "Stereo track of videos", "statement": "The muxed track has two channels in every frame: a mono mixture twice, the requested channels in the requested order if both exist, the first two channels otherwise.", "quantifier": "all mixtures and channel pairs", "why_tests_cant": "All channel counts and indices, negative ones included.", "anchors": ["src/torchrir/viz/animation.py"]}
{"id": "C72", "title": "Change of units", "statement": "Expressing all lengths and the speed of sound in a unit k times smaller divides the response by k and changes nothing else, as long as no image comes closer than one micrometre (in either unit) to a microphone. Sampling rate and speed of sound enter the unfiltered response only through their ratio.", "quantifier": "all rooms, source and microphone sets, directivities, orientations, image sets, configurations and positive factors k", "why_tests_cant": "A hidden dimensional constant shows only for particular scales, tests run at one scale.", "anchors": ["src/torchrir/sim/ism/api.py: simulate_rir", "src/torchrir/sim/ism/contributions.py"]}
{"id": "C73", "title": "Axes are interchangeable", "statement": "Renaming the coordinate axes of the room, its walls, the positions and the image counts per axis leaves every response unchanged, with or without the high-pass filter.", "quantifier": "all permutations of the axes, rooms of any dimension, all omnidirectional scenes and configurations", "why_tests_cant": "An axis-dependent slip cancels in rooms with equal walls or symmetric positions.", "anchors": ["src/torchrir/sim/ism/images.py", "src/torchrir/sim/ism/contributions.py", "src/torchrir/sim/ism/api.py"]}
{"id": "C74", "title": "Listed utterances can be loaded", "statement": "Every utterance that a data set object lists can be loaded: LibriSpeech identifiers resolve to the file that the listing found, CMU ARCTIC identifiers to the listed wav file. Identifiers without two dashes are refused by the LibriSpeech loader.", "quantifier": "all directory contents, transcripts, subsets and identifiers", "why_tests_cant": "Tests use one tidy miniature corpus; listing and loading compute the path in two different ways that agree there.", "anchors": ["src/torchrir/datasets/librispeech.py: available_sentences, load_audio", "src/torchrir/datasets/cmu_arctic.py: available_sentences, audio_path"]}
{"id": "C75", "title": "Attribution notice", "statement": "The attribution file written beside derived audio states data set, source, licence, licence URL, required credit, subset and every modification note, so that these can be read back without loss; a mapping without one of the mandatory entries is refused and no file is written. A relative file name stays below the directory; the default notes say truly whether the responses are static or dynamic.", "quantifier": "all attributions given as object or mapping, all single-line values and notes, all directories and file names", "why_tests_cant": "Whether a notice is complete for every value needs reasoning about the text format, not samples of it.", "anchors": ["src/torchrir/io/outputs.py: save_attribution_file", "src/torchrir/datasets/attribution.py"]}
{"id": "C76", "title": "Scene plots", "statement": "A scene plot shows the room (rectangle or all twelve edges once, axes from zero to each side), a marker at every position and at no other place, one legend entry per group, source numbers on request, and for a moving scene the path of every member of a group in which some member leaves its position by more than one micrometre, through every step-th position; resting groups have no path. A step that is not positive raises an error if and only if something moves. Every source has its own colour (those of the style in turn) for path and marker, all microphones share one.", "quantifier": "all rooms of two or three dimensions, numbers of entities, positions, trajectories, steps, palettes", "why_tests_cant": "Plot tests only check that no exception is raised; what is drawn is never compared with the scene.", "anchors": ["src/torchrir/viz/scene.py"]}
{"id": "C77", "title": "Picture files", "statement": "For a valid scene the save functions write exactly the requested pictures under distinct names, each showing the scene projected to its view; the space view does not depend on whether the plane view was drawn first; whatever happens no exception leaves them, a log line names a file only if it was written, and a failure is reported by one warning. Animations of the space are made only for rooms of three dimensions and after the animation of the plane succeeded.", "quantifier": "all scenes, view selections, prefixes, disks that fail at any file, animation functions that fail at any call", "why_tests_cant": "Failures of the disk or of the encoder at each single file are not exercised, and the loop reuses overwritten variables.", "anchors": ["src/torchrir/viz/io.py", "src/torchrir/viz/utils.py: _save_axes, _trajectory_to_cpu"]}
{"id": "C78", "title": "Walls used by a simulation", "statement": "Static and dynamic simulations use the wall coefficients of the room if it has them (even if a reverberation time is also named); otherwise, if it names a reverberation time, equal walls whose absorption is that of Sabine's formula (at most 0.999); otherwise rigid walls. Nothing else about a room's walls can change any response.", "quantifier": "all rooms and all arguments of simulate_rir and simulate_dynamic_rir", "why_tests_cant": "The rule is about every possible simulation with two descriptions of the same walls.", "anchors": ["src/torchrir/sim/ism/helpers.py: _resolve_beta", "src/torchrir/util/acoustics.py: estimate_beta_from_t60"]}
{"id": "C79", "title": "Directional responses", "statement": "Every sample of a directional simulation (static, or at every step of a dynamic one) is the sum over the images of the reflections, divided by the distance, times the gain of the source's pattern at the angle between its orientation and the ray, times the gain of the microphone's pattern at the angle between its orientation and the direction from which the ray comes. Orientations of the call win over those of the objects; a single pattern or orientation serves both sides; angles, azimuth and elevation, vectors and tables of these are read as such. Known patterns with an orientation for every entity are always simulated.", "quantifier": "all rooms, positions, orders, lengths, patterns and orientations (of norm at least 1e-8), rays of non-zero length, filter off", "why_tests_cant": "Sum over an unbounded number of images for continuous positions and orientations.", "anchors": ["src/torchrir/sim/ism/contributions.py", "src/torchrir/sim/directivity.py", "src/torchrir/util/orientation.py", "src/torchrir/sim/ism/prepare.py"]}
{"id": "C80", "title": "Layout of a built data set", "statement": "The builder writes, for every scene in order, one file per source, the mixture, the metadata and the source information into the directory of that scene and nowhere else; the names are the scene and source numbers with at least four and two digits, so that no two scenes share a directory and no file is written twice. Whatever the outcome, what is on disk is a number of complete scenes followed by the first files of one more; source_info.json comes last and marks a complete scene. Asking for more scenes only appends to what is built for fewer.", "quantifier": "all builder arguments and options, corpora, random draws, failures of writing, numbers of scenes and sources", "why_tests_cant": "Unbounded number of scenes and sources, arbitrary failures at any point of the loop.", "anchors": ["src/torchrir/datasets/dynamic_cmu_arctic.py"]}
{"id": "C81", "title": "What is heard in a built data set", "statement": "Every scene of which anything is written is made from distinct speakers of the list and their utterances (each used once before any is used again), with the geometry for the scene's own random draws. Every source file holds the signal of its speaker heard at the six microphones through the simulated responses of that source, each sample through the response of the trajectory step in whose share of the signal it lies; all sources of a scene share one gain, the greatest up to 1 that keeps every sample within 0.99; the mixture is the sum of the source files. Files have the corpus rate and signal plus response minus one samples. After a success every scene has exactly one file of every name.", "quantifier": "all builder arguments and options, corpora, random draws, failures of writing; up to 2^51 trajectory steps; more than 6 samples in a file; the external filter keeps lengths and gives numbers for numbers", "why_tests_cant": "End-to-end relation between all random draws, continuous geometry and every sample of every file, for any number of scenes and sources and also for runs that fail half-way.", "anchors": ["src/torchrir/datasets/dynamic_cmu_arctic.py", "src/torchrir/signal/dynamic.py", "src/torchrir/sim/ism/api.py"]}
{"id": "C82", "title": "The JSON files describe the scene that is heard", "statement": "source_info.json lists the sources in the order of the source files, each with the speaker and the utterances heard in its file, whether it moves (exactly the drawn moving sources), its speed, angular velocity, turn direction and the times of its motion. metadata.json holds the same list, the room, rate and speed of sound used in the simulation, the start positions, microphones, trajectories, directions of arrival (which point from each microphone to each source at each step), timestamps from 0 to the last sample, the shape of the responses and the settings and draws of the scene. Both are JSON values. The speakers and utterances of all scenes come from consecutive calls of one random generator: scene 0 starts with the first call, each scene samples its speakers with one call and shuffles once per round of loading, and the next scene goes on with the call after that, so nothing is drawn twice.", "quantifier": "all builder arguments and options, corpora, random draws, failures of writing", "why_tests_cant": "Agreement of the annotations with the audio for all draws and continuous geometry, for every scene of a run of any length.", "anchors": ["src/torchrir/datasets/dynamic_cmu_arctic.py", "src/torchrir/io/metadata.py"]}
{"id": "C83", "title": "When a build completes", "statement": "With working files, a usable high-pass filter and a readable corpus (every speaker has utterances, all can be read, one is not empty, and the first ones of all speakers share one rate), a run of the data set builder completes if and only if the arguments fit: positive numbers of scenes, steps and response samples, no more sources than microphones (6) and speakers, a sensible motion, room for the array 1.8 m inside the margins, positive room, reverberation time and speed of sound, a rate above 20 Hz (twice the filter's cut-off), at least one sample of signal, a non-negative reflection order, and a free or overwritable output directory. This does not depend on the seed: any draws, choice of speakers and order of utterances complete. Giving the loading loops more rounds never changes the files or the outcome of a run that ends. Over empty recordings the builder makes the first scene directory and then runs for ever. Conversely, no scene directory or file is made unless every speaker has a first utterance that can be read, all at one rate.", "quantifier": "all builder arguments and options, corpora, fair random draws, filters; up to 2^51 trajectory steps", "why_tests_cant": "Termination and success for every seed and every corpus, and an exact characterisation of the accepted arguments; a test runs one seed, and a run without end cannot be observed.", "anchors": ["src/torchrir/datasets/dynamic_cmu_arctic.py", "src/torchrir/sim/ism/api.py", "src/torchrir/sim/ism/hpf.py"]}
{"id": "C84", "title": "Responses vary continuously with the positions", "statement": "A small move of a source or microphone changes a response a little. Without filter, every sample of the omnidirectional response is bounded by the sum of |gain|/distance over all images up to the reflection order, and between two placements it changes by at most the sum over these images of |gain|/distance times (distance moved times (1/new distance + pi/2 fs/c), plus a jump if the arrival passes the sample in the middle of its pulse), whether or not the kernel table is used. So it is continuous wherever no arrival falls on an exact sample delay at the middle of its pulse. At such a delay it is not continuous: the Hann window is not shifted with the fraction, and the sample jumps by sin^2(pi/(taps-1)) of the arrival, 0.15 percent for 81 taps.", "quantifier": "all rooms, walls, sources, microphones, moves, orders, lengths, valid configurations without filter", "why_tests_cant": "A bound over all pairs of placements and the limit of infinitely small moves; tests evaluate finitely many placements and tolerate an absolute error that hides the jump.", "anchors": ["src/torchrir/sim/ism/accumulate.py", "src/torchrir/sim/ism/contributions.py", "src/torchrir/sim/ism/api.py"]}
{"id": "C85", "title": "Pictures and films of a built data set", "statement": "The builder draws layout pictures and films of a scene only if asked, at most once per scene, and exactly once per scene in a run that completes. They come after all sound files of the scene and before its JSON files. The saved pictures are the one in the plane and, if asked, the one in space. If no picture fails there is no warning, and each shows the room of the arguments, the start positions of the sources, the six microphones and the whole paths of exactly that scene's geometry, annotated as asked. Films are requested in the plane and, if asked and the first one worked, in space, with the frame rate asked for and with the mixture as sound if asked; the log reports a film if and only if it was made. Neither the picture options nor the colours nor any failure of drawing or filming changes the directories, the sound files, the JSON files or the outcome.", "quantifier": "all builder arguments and options, corpora, fair random draws, failures of picture and film writing", "why_tests_cant": "Non-interference of optional output with the data for every option set and every failure pattern, and an exact correspondence of drawn and simulated positions; a test checks that a picture file exists.", "anchors": ["src/torchrir/datasets/dynamic_cmu_arctic.py", "src/torchrir/viz/io.py", "src/torchrir/viz/scene.py"]}
{"id": "C86", "title": "The command line of the dataset builder", "statement": "A command line of torchrir-build-dynamic-cmu-arctic is accepted if and only if it can be split into options, each written by its name or by a beginning that no other option shares, with values of the right form in the same word after '=' or in the next words, and --cmu-root among them; the order does not matter and the value said last counts. Every other command line ends with exit code 2, or 0 if help is asked for. For an accepted line the builder is called with exactly the values said and the documented defaults for the rest; with nothing but --cmu-root these are the defaults of the Python function. Before that, only two things can fail: the log levels BASIC_FORMAT and _STYLES, and a --room-size, --mic-center or --source-margin that has not exactly three numbers between its commas (blank parts are skipped). Any other unknown log level means INFO. A triple that starts with a minus sign is never accepted as a word of its own, only after '='. Help after things said properly ends with code 0 whatever follows, unless a word is the beginning of two options (vague): that ends with code 2 before anything else.", "quantifier": "all lists of words, all meanings of unusual number texts, all worlds of the builder", "why_tests_cant": "Exact characterisation of an infinite language of command lines with abbreviations, joined values, negative numbers and repeated options, and of the map to some thirty arguments; tests try a few lines.", "anchors": ["src/torchrir/datasets/dynamic_cmu_arctic.py", "pyproject.toml"]}
{"id": "C87", "title": "Configuration of the example program", "statement": "For every accepted command line of examples/cli.py and every readable configuration file, the value of each of the 19 attributes in force is the one said last on the command line, else that of the file (texts read like command line values, the room as numbers, the two directories as paths), else the documented default. Keys that are no attribute are ignored. An unreadable file or one that holds no mapping raises, an empty YAML file is an empty configuration, a text that an option cannot read ends the program with code 2, and none of these writes anything. Log level, seed, saving of the configuration and mode are then handled in this order. A saved configuration that is read again gives the same 18 attributes and the same mode, with the directories as their texts. A file can switch plot, show, gif and deterministic on for good: no option switches them off. A mode in a file is not checked by the parser: the error comes after --config-out was written. The shared helper add_output_args offers exactly the options asked for, --no-plot only if plotting is the default.", "quantifier": "all lists of words, configuration files, meanings of unusual number texts, behaviours of the file system, of torch seeding and of path texts", "why_tests_cant": "Precedence and round trip over all combinations of command lines and files with arbitrary values and types; a test writes one file and reads it back.", "anchors": ["examples/cli.py", "src/torchrir/util/cli.py"]}
{"id": "C88", "title": "Geometry of the example scenes", "statement": "For every plane or solid room with sides from one metre to a thousand kilometres and every stream of random numbers, examples/cli.py, static.py, dynamic_src.py, dynamic_mic.py and build_dynamic_dataset.py either run out of attempts (RuntimeError) or give a scene of the announced kind: the asked number of sources, each half a metre or more away from every wall, at the height of a mouth (1.5 m to 1.8 m) in solid rooms higher than two metres, and a metre and a half away from the center of the array (but for rounding of the norm); a row of microphones along x around that center, 8 cm apart, or 16 cm if there are two, cut ten centimetres before the walls; at least two steps; moving sources and array centers on straight ways at constant speed to another place of that kind (at constant height in the scripts), the others at rest; in the data set at rest, straight, or with one turn at step max(2, T/2) - 1, with the sources named as moving exactly the picked ones, in increasing order. Recorded positions are those of the first step and the array is the same in all scenes of a run. Nothing leaves the room at any step. Up to eleven microphones the row is whole and centred; a row longer than the room between the margins always has neighbours too close. A room whose diagonal between the margins is shorter than a metre and a half never gets a source; rooms that are not sound and an array without microphones raise. A zigzag of two steps ends at a position that is not a number.", "quantifier": "all rooms, sample rates, counts, steps, streams of random numbers, picks and choices of motion, and every norm with a bounded relative error", "why_tests_cant": "Tests see a few seeds; the bounds hold for every draw, every room size and every number of steps, including the rounding of the sampled coordinates.", "anchors": ["examples/cli.py", "examples/static.py", "examples/dynamic_src.py", "examples/dynamic_mic.py", "examples/build_dynamic_dataset.py", "src/torchrir/geometry/sampling.py"]}
{"id": "C89", "title": "References and mixture of an example scene add up", "statement": "The example scripts write one reference file per source and a mixture file, so that users can add up the references to the mixture. For every number of sources, microphones, samples and steps: reference s (named with s + 1, two digits or more; all names different; listed in the metadata in order with the speaker and utterances of source s) is source s convolved alone with its own responses, static or step by step, the mixture is the sum of these recordings, and references and mixture change steps at the same samples. But every file is divided by its own loudest sample (one if it is silent): the sum of the references is in general not the mixture (refuted with two equal sources). What holds is the sum weighted by the loudnesses; every reference that is not silent has peak exactly one, so the relative levels of the sources are lost; with one source reference and mixture are equal. With more than eight microphones the files have microphones as frames and samples as channels.", "quantifier": "all signals, responses, counts, prefixes and devices", "why_tests_cant": "Tests check that files exist; the relation between the files of a scene is for all signals and responses.", "anchors": ["examples/static.py", "examples/dynamic_src.py", "examples/dynamic_mic.py", "examples/build_dynamic_dataset.py", "src/torchrir/io/outputs.py", "src/torchrir/io/audio.py"]}
{"id": "C90", "title": "The scene of the documentation", "statement": "For every stream of random numbers and for elementary functions with small errors, the getting-started program passes its own assertions and its scene is the announced one: the array within 3 cm (1 cm in height) of the middle of the room of 8 m, 6 m and 3 m, microphones 20 cm apart around it, sources on a circle of 2.2 m at 30 and 150 degrees, 2 m or more away and 30 degrees or more apart as seen from the array; 128 steps with microphones and first source at rest and the second source straight at constant speed; nobody comes closer than 1.4 m to a wall. The comment 'source 2 moves toward source 1' holds for the first 116 steps; in the last eleven it moves away again (it passes within 10 cm and stops 36 cm behind source 1).", "quantifier": "all streams of random numbers, all elementary functions within the stated errors, all steps", "why_tests_cant": "The program asserts one seed at run time; the claim is for every seed and every rounding.", "anchors": ["examples/getting_started.py"]}
{"id": "C91", "title": "Accuracy of delays and gains in single precision", "statement": "With float32 tensors (positions, sizes, speed of sound and sampling rate rounded to binary32 and every operation rounded), the position of the pulse of every image differs from the exact one by at most a millionth of (reach * fs / c + fdl2), where the reach is the diagonal of |n_i| + 3 rooms in every direction; hence the starting sample is the exact one or, at whole numbers of samples, its neighbour (which happens), and is exact when the exact position is farther than that from a whole number. The remaining fraction is computed without error and lies in [0, 1). Reflection coefficients are right to three millionths, gains to a millionth of reach / distance, and every sample of the response differs from the exact response by at most the sum over the images of strength times these errors, plus one window step for an image whose rounded position is on the other side of that sample.", "quantifier": "all rooms of at least a millimetre and 1 to any number of dimensions, all positions inside, all images, all c in [0.001, 10^6], fs in [1, 10^9], all norms and powers within 3e-7 relative error, all tables, chunks and lengths", "why_tests_cant": "Tests compare float32 with float64 on a few rooms with a tolerance; rounding errors depend on every bit of every input and the worst case is never sampled.", "anchors": ["src/torchrir/sim/ism/contributions.py", "src/torchrir/sim/ism/images.py", "src/torchrir/sim/ism/accumulate.py"]}
{"id": "C92", "title": "Data sets are fetched only when they are missing", "statement": "For every state of the disk and every behaviour of the server: unknown speakers and subsets are refused before anything happens; with download=False the disk is unchanged and the server is never asked, and construction succeeds exactly when the needed directories exist (FileNotFoundError otherwise); with download=True a data set whose directories exist is used without asking the server; at most four requests are made; only files of the requested archive change; the factory of build_dynamic_dataset.py without --download behaves like download=False when the data is there and like download=True when it is not.", "quantifier": "all requests, disk states, server and I/O behaviours", "why_tests_cant": "Every combination of files on disk and answers of the server; tests use one of each.", "anchors": ["src/torchrir/datasets/cmu_arctic.py", "src/torchrir/datasets/librispeech.py", "examples/build_dynamic_dataset.py", "docs/datasets.md"]}
{"id": "C93", "title": "Runs of the example data set builder", "statement": "For every corpus, seed, generator and set of arguments, build_dynamic_dataset.py writes its files in one fixed order of distinct names (notice, then for each scene references, mixture, description): a run that stops early has written the first of them, and a description on disk means that its scene and all scenes before are complete. All scenes share one row of microphones; each written file of a scene is the peak-normalised time-varying convolution of the speech named in its description with the responses of the tracks in its description. The arguments in a description determine the run; more scenes leave the earlier ones as they are; with enough speakers, readable recordings and places for the sources the run ends without an exception. Files of other names in the directory stay.", "quantifier": "all arguments, corpora, random streams, failures of writing, old contents of the directory", "why_tests_cant": "Whole runs over any corpus and seed with failures at any file; tests never run the example.", "anchors": ["examples/build_dynamic_dataset.py", "src/torchrir/io/outputs.py"]}
{"id": "C94", "title": "Convolution at the edges: empty axes, times beyond the end, times out of order", "statement": "The convolution equations hold for every length of signal and responses including zero, as long as one of the two is nonempty: an empty signal or response gives silence of n + L - 1 samples. With both empty the static, trajectory and hop convolvers raise RuntimeError; without steps trajectory mode raises ZeroDivisionError. The loop of the CPU and the batched path of the other devices agree on all of these. Timestamps in order are accepted exactly when the last one starts no later than the end of the signal, otherwise RuntimeError on every device.", "quantifier": "all lengths (zero included), ranks, devices, chunk sizes, ordered timestamps", "why_tests_cant": "Degenerate sizes are corner cases of each of three loops and two device paths; a test fixes one.", "anchors": ["src/torchrir/signal/static.py:11-67", "src/torchrir/signal/dynamic.py:58-222"]}
{"id": "C95", "title": "Algebra and loudness of convolution", "statement": "fft_convolve is commutative and associative (two filters in sequence are one filter). A signal that starts D samples later gives the same output D samples later. Static, trajectory and hop convolution are linear in the responses as well. No output sample exceeds the sum over the sources of the peak of the source times the absolute sum of its response, and for one source some signal of size 1 reaches this value; the energy of the output is at most that of the signal times the square of the absolute sum. With moving sources the same bound holds with the largest absolute value of every tap over the steps.", "quantifier": "all signals, responses, lengths, ranks, delays, coefficients, devices, hops", "why_tests_cant": "Headroom and algebraic laws range over all signals and responses; the worst signal of a response is not in any test.", "anchors": ["src/torchrir/signal/static.py:11-67", "src/torchrir/signal/dynamic.py:58-222"]}
{"id": "C96", "title": "The notes on the layouts of built scenes", "statement": "The annotation of a scene has three lines: the scene, the times between which sources move, and the speeds. Numbers are shown by the nearest text of two decimals (half to even). The speed line lists exactly the sources with a positive speed, in order, or says none; from the line one can read back which sources move and their speeds to a hundredth. In a built scene these are exactly the sources chosen to move, with speeds in the given range. On the axes appear the trimmed lines that are not blank, one below the other; those of a scene appear unchanged.", "quantifier": "all scene names, times, lists of speeds, lists of lines, draws of the builder", "why_tests_cant": "That the text determines the moving sources is an injectivity over all lists of speeds; rounding to two decimals has to be right for every number.", "anchors": ["src/torchrir/datasets/dynamic_cmu_arctic.py:355-372", "src/torchrir/datasets/dynamic_cmu_arctic.py:668-673", "src/torchrir/viz/utils.py:87-116"]}
{"id": "C97", "title": "How a response depends on the walls", "statement": "With omnidirectional sources and microphones and without the high-pass filter: if every reflection coefficient (of magnitude at most 1) changes by at most d, no sample of the response changes by more than d times the sum over the images of their number of reflections over their distance. Only images with no absorbing wall on their way count; in a room whose walls all absorb, responses of all orders are the same. If no wall reflects more than the part B, then all orders between N and N' change a sample by at most B^(N+1) times the sum of their inverse distances. If all coefficients are multiplied by t, the direct sound stays as it is and the part of the response of order N is multiplied by t^N.", "quantifier": "all rooms of two and three dimensions, positions, orders, coefficients, lengths and configurations", "why_tests_cant": "The bounds hold over all orders and all coefficients at once; a test fixes both.", "anchors": ["src/torchrir/sim/ism/images.py:13-66", "src/torchrir/sim/ism/contributions.py:55-97", "src/torchrir/sim/ism/accumulate.py:20-94"]}
{"id": "C98", "title": "The benchmark measures what it reports", "statement": "In a run of benchmark_device.py the clock is read only when all work queued before on a GPU has been waited for, however the run ends, provided a CUDA device is the first one (another CUDA device is never waited for). With a positive number of repeats, the reported averages times this number are the differences of two readings in milliseconds, between which lie exactly that many runs on the reported device, after one run to warm up; the speed-up times the time of the GPU is the time of the processor, and it exceeds 1 exactly if the GPU took less time. The run comes to its end exactly if the level is known, the number of repeats is not zero and the GPU is the processor or its time is not zero; with zero repeats it ends with ZeroDivisionError after one run and tells nothing; a negative number is taken, nothing but warm-up runs are made and no average is positive. Without a GPU the usual requests end well. The number of repeats, the GPU, the kind of scene and the level asked for on the command line are those of the run: five repeats, the first GPU at hand, the static scene and INFO if nothing is asked for. The microphones are distinct, all positions lie inside the room, and the moving microphone goes in equal steps at least 1 m from the source.", "quantifier": "all machines, clocks, requests, repeats, levels, random signals, static and dynamic", "why_tests_cant": "The clock and the devices are outside of the program; a test sees one machine and cannot tell whether queued work was waited for.", "anchors": ["examples/benchmark_device.py:33-62", "examples/benchmark_device.py:65-114", "examples/benchmark_device.py:117-163"]}
{"id": "C99", "title": "Recordings are sums of delayed copies of the dry signals", "statement": "When dry signals are convolved with the responses of a simulated room (omnidirectional, no high-pass filter), each microphone records from each source one copy of its signal per image: delayed by the way from the image in samples, through the interpolation filter, and multiplied by the product of the walls met over the distance. So nothing is heard before the first sound that some source plays has come the straight way; in a room without reflections, with ways of a whole number of samples, the recording is the sum of the dry signals, each delayed by its way and half the filter and divided by its distance, and nothing else; walls that differ by at most del change no recorded sample by more than the level of the sources times the length of the response times del times the sum of reflections over distance; leaving out the orders above N costs at most level times length times B^(N+1) times the sum of the inverse distances when no wall reflects more than B; and a loudspeaker and a microphone that change places give the same recording.", "quantifier": "all rooms of any dimension, positions, walls, orders, lengths, configurations, signals (one for all sources or one for each)", "why_tests_cant": "The claims relate two stages, simulation and convolution, for all signals and all rooms, and bound differences between two simulations.", "anchors": ["src/torchrir/sim/ism/api.py:33-133", "src/torchrir/sim/ism/contributions.py:55-97", "src/torchrir/sim/ism/accumulate.py:28-94", "src/torchrir/signal/static.py:11-67"]}
{"id": "C100", "title": "Recordings of moving sources and microphones", "statement": "When dry signals are convolved in trajectory mode with the responses along trajectories (omnidirectional, no high-pass filter), every dry sample goes through the room as it is at the step at which the sample is played: one pulse per image of the source, with the walls and the distance of this step. So nothing is heard at a sample if no sound can have come so far from where it was played; in a room without reflections, with ways of a whole number of samples, every dry sample arrives exactly once, delayed by and divided by the distance at its step; trajectories that do not move give, for every schedule of the steps, exactly the recording of the scene that stands still. Steps are not blended: where a source moves away the recording has a gap of zeros as long as the growth of the delay, and where it comes nearer samples of two steps add up.", "quantifier": "all rooms, trajectories, walls, orders, lengths, configurations, signals, timestamps that partition the signal", "why_tests_cant": "The claims relate simulation, segmentation and convolution for all trajectories and signals.", "anchors": ["src/torchrir/sim/ism/api.py:136-238", "src/torchrir/sim/ism/contributions.py:100-145", "src/torchrir/signal/dynamic.py:64-73", "src/torchrir/signal/dynamic.py:99-222"]}
{"id": "C101", "title": "Echoes, responses and recordings die away", "statement": "The number of walls an echo has met is tied to the way it has come: with all sides of the room between lo and hi, a way of length d to an image of a given order is at most (order + dim) * hi, and order * lo is at most sqrt(dim) * d plus the sum of the sides. So with reflection coefficients at most B <= 1 in magnitude an echo that has come more than (K + dim) * hi has a gain of at most B^K, and with coefficients at least b an echo with sqrt(dim) * d plus the sum of the sides at most K * lo has a gain of at least b^K. Every sample of a response (omnidirectional, no high-pass filter) later than the time sound needs for (K + dim) longest sides is at most B^K times the sum of the inverse distances of the images of order at least K; and a recording dies away in the same way after the last sound of its sources. This holds for the walls that are set, not for a t60 they were estimated from: with the coefficients estimated for a t60 single echoes may be above -60 dB after that time.", "quantifier": "all rooms, positions inside them, walls, orders, lengths, configurations, signals, sample positions", "why_tests_cant": "The claims are bounds over all images, rooms and arbitrarily long responses and recordings.", "anchors": ["src/torchrir/sim/ism/images.py:35-70", "src/torchrir/sim/ism/contributions.py:55-97", "src/torchrir/util/acoustics.py:16-55", "src/torchrir/signal/static.py:38-67"]}
{"id": "C102", "title": "Recordings do not depend on how sources and microphones are listed", "statement": "In simulated recordings (omnidirectional, no high-pass filter, same room, order, length and configuration) only what is played at which place counts. If the microphones of a second scene stand at places of microphones of a first one, its sources stand at places of sources of the first one or play nothing, and at every such place the same sound is played altogether, then every microphone records exactly what the one at its place does in the first scene. So microphones may be left out, repeated and reordered; sources may be reordered with their signals, without any change of the recording; sources at one place may be merged to one that plays their sum, and silent sources may be added. The recording of all sources is the sum of the recordings made with each source alone in the room.", "quantifier": "all rooms, scenes, walls, orders, lengths, configurations, signals, selections of microphones and groupings of sources", "why_tests_cant": "The claim is an equality over all scenes, groupings and signals, through broadcasting, batching over pairs and convolution.", "anchors": ["src/torchrir/sim/ism/api.py:33-133", "src/torchrir/sim/ism/contributions.py:55-97", "src/torchrir/signal/static.py:38-67"]}
