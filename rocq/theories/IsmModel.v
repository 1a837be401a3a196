(** Model of the image source simulation:
    /repo/src/torchrir/sim/ism/{api,contributions,prepare,validate,helpers,diffuse,hpf}.py
    and /repo/src/torchrir/config.py.

    Simplifications: tensors are floating point and exact; the resolved device type is an
    argument (resolution itself is modelled in UtlModel.v); [Room] values are the
    already validated ones (validation is modelled in RoomModel.v). *)
From Coq Require Import String List ZArith Reals Bool.
From Verif Require Import Prelude SignalModel FloatModel DirModel ImageModel AcousticModel AccumModel.
Import ListNotations.
Local Open Scope R_scope.

(** ** Data *)

(** [Room] fields, models/room.py:24-28. *)
Record room := mkRoom {
  r_size : tensor; r_fs : R; r_c : R; r_beta : option (list R); r_t60 : option R }.

(** [SimulationConfig] fields, config.py:22-39.  Of [rir_hpf_kwargs] only the entry "n"
    is inspected by the modelled code; the others are opaque to the filter design. *)
Record config := mkConfig {
  cfg_fs : option R; cfg_max_order : option Z; cfg_tmax : option R;
  cfg_directivity : option dirspec; cfg_device : option string; cfg_seed : option Z;
  cfg_use_lut : bool; cfg_mixed_precision : bool;
  cfg_fdl : Z; cfg_gran : Z; cfg_img_chunk : Z; cfg_acc_chunk : Z;
  cfg_use_compile : bool; cfg_hpf_enable : bool; cfg_hpf_fc : R; cfg_hpf_n : option Z }.

(** Default field values, config.py:22-39. *)
Definition default_config_value : config :=
  mkConfig None None None None None None true false 81 20 2048 4096 false true 10 (Some 2%Z).

(** [x is not None and p x], config.py:41-62. *)
Definition opt_test {A} (o : option A) (p : A -> bool) : bool :=
  match o with Some a => p a | None => false end.

(** [SimulationConfig.validate], config.py:41-62. *)
Definition cfg_validate (c : config) : result unit :=
  if opt_test (cfg_fs c) (fun x => Rleb x 0) then Err ValueError
  else if opt_test (cfg_max_order c) (fun n => n <? 0)%Z then Err ValueError
  else if opt_test (cfg_tmax c) (fun x => Rleb x 0) then Err ValueError
  else if opt_test (cfg_seed c) (fun n => n <? 0)%Z then Err ValueError
  else if ((cfg_fdl c <=? 0) || (cfg_fdl c mod 2 =? 0))%Z then Err ValueError
  else if (cfg_gran c <=? 0)%Z then Err ValueError
  else if (cfg_img_chunk c <=? 0)%Z then Err ValueError
  else if (cfg_acc_chunk c <=? 0)%Z then Err ValueError
  else if Rleb (cfg_hpf_fc c) 0 then Err ValueError
  else if opt_test (cfg_hpf_n c) (fun n => n <=? 0)%Z then Err ValueError
  else Ok tt.

(** [SimulationConfig.replace], config.py:64-68: the new values are validated.  The
    updated record is the argument. *)
Definition cfg_replace (c' : config) : result config := do _ <- cfg_validate c'; Ok c'.

(** [default_config], config.py:71-81. *)
Definition default_config : result config :=
  do _ <- cfg_validate default_config_value; Ok default_config_value.

(** Orientation argument: absent, one tensor, or a list/tuple, sim/ism/prepare.py:113-122, sim/ism/helpers.py:31-37. *)
Inductive ori_arg := ONone | OTensor (t : tensor) | OTuple (l : list (option tensor)).

(** Source or microphone argument: an entity with orientation or a bare tensor, sim/ism/helpers.py:25-30. *)
Inductive entity := EObj (pos : tensor) (ori : option tensor) | ETensor (pos : tensor).

(** ** sim/ism/validate.py *)

(** [_resolve_config], validate.py:15-46 (the device part is in UtlModel.v). *)
Definition resolve_config (cfg : option config) (max_order : option Z) (tmax : option R)
    (dir : option dirspec) : result (config * Z * option R * dirspec) :=
  do cfg <- (match cfg with Some c => Ok c | None => default_config end);
  do _ <- cfg_validate cfg;
  do mo <- (match max_order with
            | Some n => Ok n
            | None => match cfg_max_order cfg with Some n => Ok n | None => Err ValueError end
            end);
  let tm := match tmax with Some t => Some t | None => cfg_tmax cfg end in
  let d := match dir with
           | Some d => d
           | None => match cfg_directivity cfg with
                     | Some (DName "") => DName "omni"     (* falsy values: "" and () *)
                     | Some (DTuple []) => DName "omni"
                     | Some d => d
                     | None => DName "omni"
                     end
           end in
  Ok (cfg, mo, tm, d).

(** [_validate_static_args] and [_validate_dynamic_args], validate.py:49-86 (same code);
    [tmax * room.fs] is a binary64 product. *)
Definition validate_args (fs : R) (nsample : option Z) (tmax : option R) (max_order : Z)
  : result Z :=
  do n <- (match nsample with
           | Some n => Ok n
           | None => match tmax with
                     | None => Err ValueError
                     | Some t => Ok (ceilZ (rnd64 (t * fs)))
                     end
           end);
  if (n <=? 0)%Z then Err ValueError
  else if (max_order <? 0)%Z then Err ValueError
  else Ok n.

(** [_validate_pos_shapes], validate.py:89-93. *)
Definition validate_pos_shapes (src mic : tensor) (dim : nat) : result unit :=
  if negb ((ndim src =? 2) && (nth 1 (shape src) 0 =? dim))%nat then Err ValueError
  else if negb ((ndim mic =? 2) && (nth 1 (shape mic) 0 =? dim))%nat then Err ValueError
  else Ok tt.

(** [_validate_traj_shapes], validate.py:96-106. *)
Definition validate_traj_shapes (src mic : tensor) (dim : nat) : result unit :=
  if negb (ndim src =? 3)%nat then Err ValueError
  else if negb (ndim mic =? 3)%nat then Err ValueError
  else if negb (nth 0 (shape src) 0 =? nth 0 (shape mic) 0)%nat then Err ValueError
  else if negb (nth 2 (shape src) 0 =? dim)%nat then Err ValueError
  else if negb (nth 2 (shape mic) 0 =? dim)%nat then Err ValueError
  else Ok tt.

(** ** sim/ism/helpers.py *)

(** [_prepare_entities], helpers.py:16-41; [is_source] is [which == "source"]. *)
Definition prepare_entities (e : entity) (o : ori_arg) (is_source : bool)
  : result (tensor * option tensor) :=
  let '(pos, ori) := match e with EObj p q => (p, q) | ETensor p => (p, None) end in
  match o with
  | ONone => Ok (pos, ori)
  | OTuple [a; b] => Ok (pos, if is_source then a else b)
  | OTuple _ => Err ValueError
  | OTensor t => Ok (pos, Some t)
  end.

(** [_resolve_beta], helpers.py:44-54. *)
Definition resolve_beta (r : room) : result (list R) :=
  match r_beta r with
  | Some b => Ok b
  | None => match r_t60 r with
            | Some t => estimate_beta_from_t60 (r_size r) t
            | None => Ok (repeat 1 (if (numel (r_size r) =? 2)%nat then 4 else 6)%nat)
            end
  end.

(** [_validate_beta], helpers.py:57-62. *)
Definition validate_beta (beta : list R) (dim : nat) : result (list R) :=
  if negb (List.length beta =? if (dim =? 2)%nat then 4 else 6)%nat then Err ValueError
  else Ok beta.

(** ** sim/ism/prepare.py *)

(** [unsqueeze(0)] of 1-D positions, prepare.py:58-61. *)
Definition unsqueeze1 (t : tensor) : tensor :=
  if (ndim t =? 1)%nat then mkT (1%nat :: shape t) (data t) else t.

(** [_prepare_static_tensors], prepare.py:16-63. *)
Definition prepare_static (r : room) (srcs mics : entity) (o : ori_arg)
  : result (tensor * tensor * option tensor * option tensor * list R * nat) :=
  do (src, so) <- prepare_entities srcs o true;
  do (mic, mo) <- prepare_entities mics o false;
  do size <- ensure_dim (r_size r);
  Ok (unsqueeze1 src, unsqueeze1 mic, so, mo, data size, numel size).

(** [unsqueeze(1)] of 2-D trajectories, prepare.py:95-98. *)
Definition unsqueeze_traj (t : tensor) : tensor :=
  match shape t with [a; b] => mkT [a; 1%nat; b] (data t) | _ => t end.

(** [_split_orientation], prepare.py:113-122. *)
Definition split_orientation (o : ori_arg) : result (option tensor * option tensor) :=
  match o with
  | ONone => Ok (None, None)
  | OTuple [a; b] => Ok (a, b)
  | OTuple _ => Err ValueError
  | OTensor t => Ok (Some t, Some t)
  end.

(** [_prepare_dynamic_tensors], prepare.py:66-110. *)
Definition prepare_dynamic (r : room) (src mic : tensor) (o : ori_arg)
  : result (tensor * tensor * option tensor * option tensor * list R * nat) :=
  do (so, mo) <- split_orientation o;
  do size <- ensure_dim (r_size r);
  Ok (unsqueeze_traj src, unsqueeze_traj mic, so, mo, data size, numel size).

(** ** sim/ism/contributions.py *)

(** Delay in samples and clamped distance of one image, contributions.py:31-37, 70-76,
    118-124. *)
Definition image_vec (src mic size : list R) (n : list Z) : list R :=
  vsub mic (image_position src size n).
(** sim/ism/contributions.py:33-34, 70-76, 118-124. *)
Definition clamped_dist (vec : list R) : R := Rmax (vnorm vec) (/ 10 ^ 6).
(** sim/ism/contributions.py:35-37, 70-76, 118-124. *)
Definition image_sample (fs c : R) (fdl2 : nat) (vec : list R) : R :=
  (clamped_dist vec / c + INR fdl2 / fs) * fs.

(** Gain of one side when its pattern is not "omni": the gain function with the
    directions to use (contributions.py:40-49, 79-94, 127-142). *)
Definition side := option ((xr -> xr) * list (list R)).

(** Selection of the pattern of one side; [dirs] are the unit directions, sim/ism/contributions.py:40-49. *)
Definition side_of (pattern : string) (dirs : option (list (list R))) : result side :=
  if String.eqb pattern "omni" then Ok None
  else match dirs with
       | None => Err ValueError
       | Some ds => do g <- directivity_gain pattern; Ok (Some (g, ds))
       end.

(** Direction of entity number [i] when broadcasting [ds] over the entities
    (contributions.py:82, 88-92, 130, 136-140); a single row is shared. *)
Definition dir_at (ds : list (list R)) (i : nat) : list R :=
  match ds with [d] => d | _ => nth i ds [] end.

(** Attenuation of one image, contributions.py:39-51, 78-96, 126-144. *)
Definition image_attenuation (gs gm : side) (s m : nat) (vec : list R) (refl : R) : xr :=
  let gain := Some refl in
  let gain := match gs with
              | None => gain
              | Some (g, ds) => xmul gain (g (cos_between vec (dir_at ds s)))
              end in
  let gain := match gm with
              | None => gain
              | Some (g, ds) => xmul gain (g (cos_between (vopp vec) (dir_at ds m)))
              end in
  xscale (/ clamped_dist vec) gain.

(** Whether direction rows broadcast against [count] entities: equal counts, one shared
    row, or one entity (then only the first row takes effect, because the accumulator
    reads the leading columns of its view, accumulate.py:46, 66). *)
Definition dirs_fit (gs : side) (count : nat) : bool :=
  match gs with
  | None => true
  | Some (_, ds) =>
      ((List.length ds =? count) || (List.length ds =? 1) ||
       ((count =? 1) && (1 <=? List.length ds)))%nat
  end.

(** [_compute_image_contributions_batch], contributions.py:55-97: flat
    (source, mic, image) arrays of delays and attenuations. *)
Definition contributions_batch (src mic : list (list R)) (size : list R) (fs c : R)
    (fdl2 : nat) (n_vec : list (list Z)) (refl : list R)
    (src_pattern mic_pattern : string) (src_dirs mic_dirs : option (list (list R)))
  : result (list R * list xr) :=
  do gs <- side_of src_pattern src_dirs;
  do gm <- side_of mic_pattern mic_dirs;
  if negb (dirs_fit gs (List.length src) && dirs_fit gm (List.length mic)) then Err RuntimeError
  else
    let vecs := fun s m => map (image_vec (nth s src []) (nth m mic []) size) n_vec in
    let samples := flat_map (fun s => flat_map (fun m =>
        map (image_sample fs c fdl2) (vecs s m)) (seq 0 (List.length mic)))
        (seq 0 (List.length src)) in
    let atts := flat_map (fun s => flat_map (fun m =>
        map2 (image_attenuation gs gm s m) (vecs s m) refl) (seq 0 (List.length mic)))
        (seq 0 (List.length src)) in
    Ok (samples, atts).

(** [_compute_image_contributions_time_batch], contributions.py:100-145: flat
    (time, source, mic, image) arrays.  [src t], [mic t] are the positions at step [t]. *)
Definition contributions_time_batch (steps : nat) (src mic : nat -> list (list R))
    (n_src n_mic : nat) (size : list R) (fs c : R)
    (fdl2 : nat) (n_vec : list (list Z)) (refl : list R)
    (src_pattern mic_pattern : string) (src_dirs mic_dirs : option (list (list R)))
  : result (list R * list xr) :=
  do gs <- side_of src_pattern src_dirs;
  do gm <- side_of mic_pattern mic_dirs;
  if negb (dirs_fit gs n_src && dirs_fit gm n_mic) then Err RuntimeError
  else
    let vecs := fun t s m =>
      map (image_vec (nth s (src t) []) (nth m (mic t) []) size) n_vec in
    let samples := flat_map (fun t => flat_map (fun s => flat_map (fun m =>
        map (image_sample fs c fdl2) (vecs t s m)) (seq 0 n_mic)) (seq 0 n_src)) (seq 0 steps) in
    let atts := flat_map (fun t => flat_map (fun s => flat_map (fun m =>
        map2 (image_attenuation gs gm s m) (vecs t s m) refl) (seq 0 n_mic)) (seq 0 n_src))
        (seq 0 steps) in
    Ok (samples, atts).

(** ** sim/ism/diffuse.py *)

(** [_apply_diffuse_tail], diffuse.py:15-49.  [randn seed n] is the generator's output
    for [n] values; [math.floor(tdiff * room.fs)] uses a binary64 product. *)
Definition apply_diffuse_tail (randn : Z -> nat -> list R) (rows nsample : nat)
    (rir : list xr) (r : room) (beta : list R) (tdiff : R) (seed : option Z)
  : result (list xr) :=
  let tdiff_idx := Z.min (Z.of_nat nsample - 1) (floorZ (rnd64 (tdiff * r_fs r))) in
  if (tdiff_idx <=? 0)%Z then Ok rir
  else
    let i0 := Z.to_nat tdiff_idx in
    let tail_len := (nsample - i0)%nat in
    do t60 <- estimate_t60_from_beta (r_size r) beta;
    let decay := fun i : nat =>
      let t := INR i / r_fs r in
      match t60 with
      | None => exp (- t * 3)
      | Some t60 => if Rle_dec t60 0 then exp (- t * 3) else exp (- t / (t60 / 6.9078))
      end in
    let noise := randn (match seed with None => 0%Z | Some s => s end) (rows * tail_len)%nat in
    Ok (flat_map (fun row =>
      let scale := option_map (fun x => Rabs x + / 10 ^ 8) (nth (row * nsample + i0 - 1) rir None) in
      block (row * nsample) i0 rir ++
      map (fun i => xscale (nth (row * tail_len + i) noise 0 * decay i) scale)
        (seq 0 tail_len)) (seq 0 rows)).

(** ** sim/ism/hpf.py *)

(** [_design_hpf_sos] check, hpf.py:23-25, then scipy's [iirfilter] ([design]). *)
Definition design_hpf_sos {sos : Type} (design : option Z -> R -> result sos) (fs fc : R)
    (n : option Z) : result sos :=
  let wc := 2 * fc / fs in
  if negb (Rltb 0 wc && Rltb wc 1) then Err ValueError else design n wc.

(** [apply_rir_hpf], hpf.py:40-57; [filt] is scipy's [sosfiltfilt] on one row (it may
    raise, for instance on rows shorter than its padding). *)
Definition apply_rir_hpf {sos : Type} (design : option Z -> R -> result sos)
    (filt : sos -> list xr -> result (list xr)) (rows nsample : nat) (rir : list xr)
    (fs : R) (c : config) : result (list xr) :=
  if negb (cfg_hpf_enable c) then Ok rir
  else
    do s <- design_hpf_sos design fs (cfg_hpf_fc c) (cfg_hpf_n c);
    do out <- mapM (fun i => filt s (block (i * nsample) nsample rir)) (seq 0 rows);
    Ok (concat out).

(** ** sim/ism/api.py *)

(** Unit directions of one side as rows; a 1-D result is one shared row
    (api.py:86-90, 101-109).  [count] is used for sources only. *)
Definition mic_directions (pattern : string) (ori : option tensor) (dim : nat)
  : result (option (list (list R))) :=
  if String.eqb pattern "omni" then Ok None
  else match ori with
       | None => Err ValueError
       | Some o => do u <- orientation_to_unit o dim;
                   (* a tensor that is neither 1-D nor 2-D is flattened by
                      view(1,1,1,-1), contributions.py:90, and then fails to broadcast *)
                   if (ndim u <=? 2)%nat then Ok (Some (trows u)) else Err RuntimeError
       end.

(** sim/ism/api.py:101-109, 204-212. *)
Definition src_directions (pattern : string) (ori : option tensor) (dim n_src : nat)
  : result (option (list (list R))) :=
  if String.eqb pattern "omni" then Ok None
  else match ori with
       | None => Err ValueError
       | Some o =>
           do u <- orientation_to_unit o dim;
           let rows := if (ndim u =? 1)%nat then repeat (nth 0 (trows u) []) n_src else trows u in
           if negb ((ndim u <=? 2) && (List.length rows =? n_src))%nat then Err ValueError
           else Ok (Some rows)
       end.

(** [img_chunk], api.py:97-99 and 200-202. *)
Definition image_chunk (c : config) (n_img : nat) : nat :=
  if (cfg_img_chunk c <=? 0)%Z then n_img else Z.to_nat (cfg_img_chunk c).

(** Image loop of [simulate_rir], api.py:92-128 ([exact] arithmetic: no rounding). *)
Definition static_loop (dev : device_type) (c : config) (nsample : nat)
    (src mic : list (list R)) (size : list R) (fs cc : R) (n_vec : list (list Z))
    (refl : list R) (sp mp : string) (sd md : option (list (list R))) : result (list xr) :=
  let n_sm := (List.length src * List.length mic)%nat in
  let fdl := Z.to_nat (cfg_fdl c) in
  let chunk := image_chunk c (List.length n_vec) in
  foldM (fun rir start =>
    let stop := Nat.min (start + chunk) (List.length n_vec) in
    do (sample, att) <- contributions_batch src mic size fs cc (half fdl)
      (block start (stop - start) n_vec) (block start (stop - start) refl) sp mp sd md;
    accumulate_impl (fun x => x) n_sm nsample rir sample att fdl (Z.to_nat (cfg_gran c))
      (lut_enabled (cfg_use_lut c) dev) (Z.to_nat (cfg_acc_chunk c)))
    (py_range_step (List.length n_vec) chunk)
    (repeat (Some 0) (n_sm * nsample)).

(** Image loop of [simulate_dynamic_rir], api.py:193-235. *)
Definition dynamic_loop (dev : device_type) (c : config) (nsample steps : nat)
    (src mic : nat -> list (list R)) (n_src n_mic : nat) (size : list R) (fs cc : R)
    (n_vec : list (list Z)) (refl : list R) (sp mp : string)
    (sd md : option (list (list R))) : result (list xr) :=
  let n_sm := (steps * n_src * n_mic)%nat in
  let fdl := Z.to_nat (cfg_fdl c) in
  let chunk := image_chunk c (List.length n_vec) in
  foldM (fun rir start =>
    let stop := Nat.min (start + chunk) (List.length n_vec) in
    do (sample, att) <- contributions_time_batch steps src mic n_src n_mic size fs cc (half fdl)
      (block start (stop - start) n_vec) (block start (stop - start) refl) sp mp sd md;
    accumulate_impl (fun x => x) n_sm nsample rir sample att fdl (Z.to_nat (cfg_gran c))
      (lut_enabled (cfg_use_lut c) dev) (Z.to_nat (cfg_acc_chunk c)))
    (py_range_step (List.length n_vec) chunk)
    (repeat (Some 0) (n_sm * nsample)).

(** External code used by the simulation: scipy's filter design and row filter, torch's
    random generator, sim/ism/api.py:130-132, 237. *)
Record externals := mkExt {
  x_sos : Type;
  x_design : option Z -> R -> result x_sos;
  x_filt : x_sos -> list xr -> result (list xr);
  x_randn : Z -> nat -> list R }.

(** [simulate_rir], api.py:33-133. *)
Definition simulate_rir (X : externals) (dev : device_type) (r : room) (sources mics : entity)
    (max_order : option Z) (nb_img : option (list Z)) (nsample : option Z)
    (tmax tdiff : option R) (dir : option dirspec) (ori : ori_arg) (cfg : option config)
  : result xtensor :=
  do (cfg, max_order, tmax, dir) <- resolve_config cfg max_order tmax dir;
  do ns <- validate_args (r_fs r) nsample tmax max_order;
  let nsample := Z.to_nat ns in
  do (src_pos, mic_pos, src_ori, mic_ori, size, dim) <- prepare_static r sources mics ori;
  do _ <- validate_pos_shapes src_pos mic_pos dim;
  do beta <- resolve_beta r;
  do beta <- validate_beta beta dim;
  do n_vec <- image_source_indices max_order dim nb_img;
  let refl := map (fun n => reflection_coefficient n beta) n_vec in
  do (sp, mp) <- split_directivity dir;
  do md <- mic_directions mp mic_ori dim;
  let src := trows src_pos in
  let mic := trows mic_pos in
  do sd <- src_directions sp src_ori dim (List.length src);
  do rir <- static_loop dev cfg nsample src mic size (r_fs r) (r_c r) n_vec refl sp mp sd md;
  let rows := (List.length src * List.length mic)%nat in
  do rir <- (match tdiff, tmax with
             | Some td, Some tm =>
                 if Rlt_dec td tm
                 then apply_diffuse_tail (x_randn X) rows nsample rir r beta td (cfg_seed cfg)
                 else Ok rir
             | _, _ => Ok rir
             end);
  do rir <- apply_rir_hpf (x_design X) (x_filt X) rows nsample rir (r_fs r) cfg;
  Ok (mkX [List.length src; List.length mic; nsample] rir).

(** Positions at step [t] of a (T, n, dim) tensor, sim/ism/api.py:193-196, 231-235. *)
Definition step_rows (traj : tensor) (t : nat) : list (list R) :=
  let n := nth 1 (shape traj) 0%nat in
  let d := nth 2 (shape traj) 0%nat in
  map (fun i => block ((t * n + i) * d) d (data traj)) (seq 0 n).

(** [simulate_dynamic_rir], api.py:136-238. *)
Definition simulate_dynamic_rir (X : externals) (dev : device_type) (r : room)
    (src_traj mic_traj : tensor)
    (max_order : option Z) (nb_img : option (list Z)) (nsample : option Z)
    (tmax : option R) (dir : option dirspec) (ori : ori_arg) (cfg : option config)
  : result xtensor :=
  do (cfg, max_order, tmax, dir) <- resolve_config cfg max_order tmax dir;
  do ns <- validate_args (r_fs r) nsample tmax max_order;
  let nsample := Z.to_nat ns in
  do (src, mic, src_ori, mic_ori, size, dim) <- prepare_dynamic r src_traj mic_traj ori;
  do _ <- validate_traj_shapes src mic dim;
  do beta <- resolve_beta r;
  do beta <- validate_beta beta dim;
  do n_vec <- image_source_indices max_order dim nb_img;
  let refl := map (fun n => reflection_coefficient n beta) n_vec in
  do (sp, mp) <- split_directivity dir;
  do md <- mic_directions mp mic_ori dim;
  let steps := nth 0 (shape src) 0%nat in
  let n_src := nth 1 (shape src) 0%nat in
  let n_mic := nth 1 (shape mic) 0%nat in
  do sd <- src_directions sp src_ori dim n_src;
  do rirs <- dynamic_loop dev cfg nsample steps (step_rows src) (step_rows mic) n_src n_mic
               size (r_fs r) (r_c r) n_vec refl sp mp sd md;
  do rirs <- apply_rir_hpf (x_design X) (x_filt X) (steps * n_src * n_mic)%nat nsample rirs
               (r_fs r) cfg;
  Ok (mkX [steps; n_src; n_mic; nsample] rirs).
