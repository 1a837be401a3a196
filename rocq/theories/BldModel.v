(** Model of /repo/src/torchrir/datasets/dynamic_cmu_arctic.py: scene geometry, fixed-length
    signals, normalisation and mixing, axis inference, and the order of checks and effects of
    the builder.

    Simplifications: real arithmetic is exact; [rng.uniform(a, b)] is [a + (b - a) u] for an
    arbitrary [u] in [0, 1); the draws of a trial are given per purpose and source (every
    stream of draws gives such a table); the arrays of velocities, directions and azimuths
    are one record per source. *)
From Coq Require Import String List ZArith Reals Bool.
From Verif Require Import Prelude FloatModel RoomModel GeoModel DsModel.
Import ListNotations.
Local Notation length := List.length.
Local Open Scope R_scope.

(** ** Geometry of one scene *)

(** A row of three coordinates, datasets/dynamic_cmu_arctic.py:57-61. *)
Record p3 := P3 { px : R; py : R; pz : R }.
(** [rng.uniform(a, b)] for the draw [u], dynamic_cmu_arctic.py:97-98, 170-171, 241, 270. *)
Definition unif (a b u : R) : R := a + (b - a) * u.

(** [_sample_random_mic_center], dynamic_cmu_arctic.py:64-101. *)
Definition sample_random_mic_center (u : p3) (room margin : p3) (dist radius : R) : result p3 :=
  let lx := Rmax radius (px margin + dist) in
  let ly := Rmax radius (py margin + dist) in
  let hx := Rmin (px room - radius) (px room - px margin - dist) in
  let hy := Rmin (py room - radius) (py room - py margin - dist) in
  let lz := radius in
  let hz := pz room - radius in
  if (Rleb hx lx || Rleb hy ly) || Rleb hz lz then Err ValueError
  else Ok (P3 (unif lx hx (px u)) (unif ly hy (py u)) (unif lz hz (pz u))).

(** [eps], dynamic_cmu_arctic.py:119. *)
Definition eps : R := / 1000000000.
(** The contribution of one axis to [bounds], dynamic_cmu_arctic.py:121-133 ([None]: return -1). *)
Definition axis_bound (cs c lo hi : R) : option (list R) :=
  if Rltb eps cs then Some [(hi - c) / cs]
  else if Rltb cs (- eps) then Some [(lo - c) / cs]
  else if Rltb c lo || Rltb hi c then None
  else Some [].
(** [_max_radius_for_azimuth], dynamic_cmu_arctic.py:104-137. *)
Definition max_radius_for_azimuth (az : R) (center room margin : p3) : R :=
  match axis_bound (cos az) (px center) (px margin) (px room - px margin) with
  | None => -1
  | Some b1 =>
      match axis_bound (sin az) (py center) (py margin) (py room - py margin) with
      | None => -1
      | Some b2 => match b1 ++ b2 with [] => -1 | b :: l => fold_left Rmin l b end
      end
  end.
(** [_sample_position_on_azimuth], dynamic_cmu_arctic.py:140-174. *)
Definition sample_position_on_azimuth (ur uz az : R) (center room margin : p3) (min_radius : R) (max_radius : option R) : result p3 :=
  let z_min := pz margin in
  let z_max := pz room - pz margin in
  if Rleb z_max z_min then Err ValueError
  else
    let r_max := max_radius_for_azimuth az center room margin in
    let r_max := match max_radius with Some m => Rmin r_max m | None => r_max end in
    if Rltb r_max min_radius then Err ValueError
    else
      let radius := unif min_radius r_max ur in
      Ok (P3 (px center + radius * cos az) (py center + radius * sin az) (unif z_min z_max uz)).

(** Horizontal distance, [np.linalg.norm(a[:2] - b[:2])], dynamic_cmu_arctic.py:271, 341. *)
Definition hnorm (a b : p3) : R := sqrt ((px a - px b) * (px a - px b) + (py a - py b) * (py a - py b)).

(** What the builder records about one source, dynamic_cmu_arctic.py:244-298. *)
Record placed := mkPlaced {
  p_start : p3; p_end : p3; p_az0 : R; p_az1 : R; p_vel : R; p_ang : R; p_dir : Z }.
(** The draws of one trial, dynamic_cmu_arctic.py:241-242, 170-171, 270, 278. *)
Record draws := mkDraws {
  d_base : R; d_perm : list nat; d_radius : nat -> R; d_z : nat -> R; d_speed : nat -> R; d_plus : nat -> bool }.
(** [max_uniform_radius], dynamic_cmu_arctic.py:232. *)
Definition max_uniform_radius (center room margin : p3) : R :=
  Rmin (Rmin (Rmin (px center - px margin) (px room - px margin - px center)) (py center - py margin))
    (py room - py margin - py center).
(** Membership in [moving_index_set], dynamic_cmu_arctic.py:238, 260. *)
Definition is_moving (moving : list nat) (i : nat) : bool := existsb (Nat.eqb i) moving.
(** The parameters of the motion, dynamic_cmu_arctic.py:184-190. *)
Record motion := mkMotion { m_start : R; m_end : R; v_min : R; v_max : R; m_dur : R }.
(** [move_duration_sec], dynamic_cmu_arctic.py:217. *)
Definition move_duration (m : motion) : R := m_dur m * (m_end m - m_start m).
(** One source within a trial, dynamic_cmu_arctic.py:248-298. *)
Definition place_one (d : draws) (n : nat) (moving : list nat) (m : motion) (center room margin : p3) (min_radius : R) (i : nat) : result placed :=
  let az0 := unif 0 (2 * PI) (d_base d) + INR (nth i (d_perm d) 0%nat) * (2 * PI / INR n) in
  do start <- sample_position_on_azimuth (d_radius d i) (d_z d i) az0 center room margin min_radius
                (if is_moving moving i then Some (max_uniform_radius center room margin) else None);
  if negb (is_moving moving i) then Ok (mkPlaced start start az0 az0 0 0 0)
  else
    let velocity := unif (v_min m) (v_max m) (d_speed d i) in
    let radius := hnorm start center in
    if Rltb radius min_radius then Err ValueError
    else if Rleb radius eps then Err ValueError
    else
      let direction := if d_plus d i then 1%Z else (-1)%Z in
      let ang := IZR direction * velocity / radius in
      let az1 := az0 + ang * move_duration m in
      let stop := P3 (px center + radius * cos az1) (py center + radius * sin az1) (pz start) in
      if negb ((Rleb (px margin) (px stop) && Rleb (px stop) (px room - px margin)) &&
               (Rleb (py margin) (py stop) && Rleb (py stop) (py room - py margin)))
      then Err ValueError
      else Ok (mkPlaced start stop az0 az1 velocity ang direction).
(** The loop over trials, dynamic_cmu_arctic.py:240-313: a [ValueError] starts the next trial. *)
Fixpoint trials (k fuel : nat) (d : nat -> draws) (n : nat) (moving : list nat) (m : motion) (center room margin : p3) (min_radius : R) :
  result (list placed) :=
  match fuel with
  | O => Err ValueError
  | S fuel =>
      match mapM (place_one (d k) n moving m center room margin min_radius) (seq 0 n) with
      | Ok l => Ok l
      | Err ValueError => trials (S k) fuel d n moving m center room margin min_radius
      | Err e => Err e
      end
  end.
(** [0 <= start < end <= 1], dynamic_cmu_arctic.py:208, 329. *)
Definition ratios_ok (m : motion) : bool :=
  (Rleb 0 (m_start m) && Rltb (m_start m) (m_end m)) && Rleb (m_end m) 1.
(** [_build_constrained_source_positions], dynamic_cmu_arctic.py:177-313; [moving] is the
    result of [sorted(rng.choice(n, size, replace=False))]. *)
Definition constrained_positions (d : nat -> draws) (moving : list nat) (n n_moving : Z) (m : motion) (center room margin : p3)
  (min_radius : R) (max_trials : nat) : result (list placed) :=
  if (n <=? 0)%Z then Err ValueError
  else if ((n_moving <? 0) || (n <? n_moving))%Z then Err ValueError
  else if negb (ratios_ok m) then Err ValueError
  else if Rleb (v_min m) 0 || Rltb (v_max m) (v_min m) then Err ValueError
  else if Rleb (move_duration m) 0 then Err ValueError
  else if Rltb (max_uniform_radius center room margin) min_radius then Err ValueError
  else trials 0 max_trials d (Z.to_nat n) moving m center room margin min_radius.

(** [np.linspace(0, 1, n_steps)[k]] for two or more steps, dynamic_cmu_arctic.py:333. *)
Definition timeline (n_steps k : nat) : R := INR k / (INR n_steps - 1).
(** [alpha], dynamic_cmu_arctic.py:334-339. *)
Definition alpha (m : motion) (t : R) : R :=
  if Rleb (m_start m) t && Rleb t (m_end m) then (t - m_start m) / (m_end m - m_start m)
  else if Rltb (m_end m) t then 1 else 0.
(** [_build_source_trajectory], dynamic_cmu_arctic.py:316-352: steps of sources. *)
Definition source_trajectory (l : list placed) (center : p3) (moving : list nat) (n_steps : Z) (m : motion) : result (list (list p3)) :=
  if (n_steps <=? 1)%Z then Ok [map p_start l]
  else if negb (ratios_ok m) then Err ValueError
  else
    let n := Z.to_nat n_steps in
    Ok (tabulate n (fun k =>
          tabulate (length l) (fun i =>
            let s := nth i l (mkPlaced (P3 0 0 0) (P3 0 0 0) 0 0 0 0 0) in
            if is_moving moving i then
              let radius := hnorm (p_start s) center in
              let theta := p_az0 s + (p_az1 s - p_az0 s) * alpha m (timeline n k) in
              P3 (px center + radius * cos theta) (py center + radius * sin theta) (pz (p_start s))
            else p_start s))).

(** The parameters of a scene, dynamic_cmu_arctic.py:443-470. *)
Record scene_args := mkSA {
  sa_n : Z; sa_moving : Z; sa_room : p3; sa_center : p3; sa_edge : R; sa_margin : p3; sa_steps : Z;
  sa_motion : motion; sa_random_center : bool }.
(** The draws of a scene, datasets/dynamic_cmu_arctic.py:559-631. *)
Record scene_draws := mkSD { sd_center : p3; sd_moving : list nat; sd_trials : nat -> draws }.
(** [min_source_distance_m], dynamic_cmu_arctic.py:500. *)
Definition min_distance : R := 18 / 10.
(** [base_mic_positions + scene_mic_center], dynamic_cmu_arctic.py:536-544, 573. *)
Definition place_mics (edge : R) (center : p3) : result (list p3) :=
  do base <- polyhedron_array (mkV Float [0; 0; 0]) "octahedron" (edge / sqrt 2);
  Ok (map (fun v => P3 (nth 0 v 0 + px center) (nth 1 v 0 + py center) (nth 2 v 0 + pz center)) base).
(** The result of the geometric part of a scene, datasets/dynamic_cmu_arctic.py:559-631. *)
Record scene_geo := mkGeo { geo_center : p3; geo_mics : list p3; geo_sources : list placed; geo_traj : list (list p3) }.
(** The geometric part of one scene, dynamic_cmu_arctic.py:559-577, 599-631. *)
Definition build_scene_geometry (a : scene_args) (d : scene_draws) : result scene_geo :=
  do base <- polyhedron_array (mkV Float [0; 0; 0]) "octahedron" (sa_edge a / sqrt 2);
  do center <- (if sa_random_center a
                then sample_random_mic_center (sd_center d) (sa_room a) (sa_margin a) min_distance (sa_edge a / sqrt 2)
                else Ok (sa_center a));
  do mics <- place_mics (sa_edge a) center;
  do l <- constrained_positions (sd_trials d) (sd_moving d) (sa_n a) (sa_moving a) (sa_motion a) center (sa_room a) (sa_margin a) min_distance 100;
  do tr <- source_trajectory l center (sd_moving d) (sa_steps a) (sa_motion a);
  Ok (mkGeo center mics l tr).

(** ** Signals of fixed length *)

(** The [while] loop of [_load_fixed_length_signal], dynamic_cmu_arctic.py:393-401, with at
    most [fuel] rounds; the sample rate is ignored. *)
Fixpoint fixed_loop (c : corpus) (g : rng) (target : Z) (spk : string) (fuel : nat)
  (order : list string) (idx : nat) (total : Z) (st : got) : option (result got) :=
  match fuel with
  | O => None
  | S fuel =>
      if negb (total <? target)%Z then Some (Ok st)
      else
        let '(order, idx, k) :=
          if (length order <=? idx)%nat then (shuffle g (g_shuffles st) order, 0%nat, S (g_shuffles st)) else (order, idx, g_shuffles st) in
        match nth_error order idx with
        | None => Some (Err IndexError)
        | Some u =>
            match audio_of c spk u with
            | Err e => Some (Err e)
            | Ok (a, _) =>
                fixed_loop c g target spk fuel order (S idx) (total + Z.of_nat (length a))
                  (mkGot k None (g_segs st ++ [a]) (g_ids st ++ [u]))
            end
        end
  end.
(** [_load_fixed_length_signal], dynamic_cmu_arctic.py:375-404; [k] counts the shuffles. *)
Definition load_fixed_length_signal (c : corpus) (g : rng) (target : Z) (fuel k : nat) (spk : string) :
  option (result (nat * list R * list string)) :=
  match utts c spk with
  | Err e => Some (Err e)
  | Ok [] => Some (Err RuntimeError)
  | Ok l =>
      match fixed_loop c g target spk fuel (shuffle g k l) 0 0 (mkGot (S k) None [] []) with
      | None => None
      | Some (Err e) => Some (Err e)
      | Some (Ok st) =>
          match cut (g_segs st) target with
          | Err e => Some (Err e)
          | Ok s => Some (Ok (g_shuffles st, s, g_ids st))
          end
      end
  end.

(** ** Normalisation and mixing *)

(** [float(np.max(np.abs(stem)))], dynamic_cmu_arctic.py:410; an empty array raises. A stem is
    its samples in row-major order. *)
Definition stem_peak (s : list R) : result R :=
  match s with [] => Err ValueError | x :: l => Ok (fold_left (fun m y => Rmax m (Rabs y)) l (Rabs x)) end.
(** [_normalize_sources], dynamic_cmu_arctic.py:407-414; [max] of nothing raises. *)
Definition normalize_sources (limit : R) (stems : list (list R)) : result (list (list R)) :=
  do peaks <- mapM stem_peak stems;
  match peaks with
  | [] => Err ValueError
  | p :: ps =>
      let peak := fold_left Rmax ps p in
      if Rleb peak 0 || Rleb peak limit then Ok stems
      else Ok (map (map (fun x => x * (limit / peak))) stems)
  end.
(** [np.sum(np.stack(stems, axis=0), axis=0)], dynamic_cmu_arctic.py:660. *)
Definition mix_stems (stems : list (list R)) : result (list R) :=
  match stems with
  | [] => Err ValueError
  | s :: rest =>
      if forallb (fun t => (length t =? length s)%nat) rest
      then Ok (tabulate (length s) (fun i => lsum (map (fun t => nth i t 0) stems)))
      else Err ValueError
  end.
(** The contents handed to [sf.write] for the source files and the mixture,
    dynamic_cmu_arctic.py:659-665. *)
Definition written_files (stems : list (list R)) : result (list (list R) * list R) :=
  do stems <- normalize_sources (99 / 100) stems;
  do mix <- mix_stems stems;
  Ok (stems, mix).

(** [np.squeeze]: drop the axes of length one, datasets/dynamic_cmu_arctic.py:421. *)
Definition squeeze (t : tensor) : tensor := mkT (filter (fun n => negb (n =? 1)%nat) (shape t)) (data t).
(** [data.T] of a matrix, datasets/dynamic_cmu_arctic.py:430-431. *)
Definition transpose2 (t : tensor) : tensor :=
  match shape t with
  | [a; b] => mkT [b; a] (flat_map (fun j => map (fun i => tget t [i; j]) (seq 0 a)) (seq 0 b))
  | _ => t
  end.
(** [_to_time_channel_audio], dynamic_cmu_arctic.py:417-436. *)
Definition to_time_channel_audio (audio : tensor) (n_mics : nat) : result tensor :=
  let t := squeeze audio in
  match shape t with
  | [n] => Ok (mkT [n; 1%nat] (data t))
  | [a; b] =>
      if (b =? n_mics)%nat then Ok t
      else if (a =? n_mics)%nat then Ok (transpose2 t)
      else Err ValueError
  | _ => Err ValueError
  end.

(** ** Checks and effects of the builder *)

(** Paths are lists of names; a world says what is at each path, datasets/dynamic_cmu_arctic.py:503-510, 562. *)
Definition bpath := list string.
(** datasets/dynamic_cmu_arctic.py:503-510, 562. *)
Inductive bnode := BFile (contents : list R) | BDir.
(** datasets/dynamic_cmu_arctic.py:503-510, 562. *)
Definition bworld := bpath -> option bnode.
(** datasets/dynamic_cmu_arctic.py:503-510, 562. *)
Definition bexists (w : bworld) (p : bpath) : bool := match w p with Some _ => true | None => false end.
(** [p] is [root] or lies below it, datasets/dynamic_cmu_arctic.py:509. *)
Fixpoint below (root p : bpath) : bool :=
  match root, p with
  | [], _ => true
  | a :: r, b :: q => String.eqb a b && below r q
  | _, _ => false
  end.
(** [shutil.rmtree(root)], dynamic_cmu_arctic.py:509. *)
Definition rmtree (root : bpath) (w : bworld) : bworld := fun p => if below root p then None else w p.
(** [root.mkdir(parents=True, exist_ok=True)], dynamic_cmu_arctic.py:510. *)
Definition mkdirs (root : bpath) (w : bworld) : bworld :=
  fun p => match w p with Some n => Some n | None => if below p root then Some BDir else None end.

(** The arguments of [build_dynamic_cmu_arctic_dataset] that are checked,
    dynamic_cmu_arctic.py:439-470. *)
Record build_args := mkBA {
  ba_root : bpath; ba_cmu : bpath; ba_speakers : list string; ba_scenes : Z; ba_scene : scene_args;
  ba_room_list : list R; ba_center_list : list R; ba_margin_list : list R; ba_rir : Z; ba_overwrite : bool }.
(** [_as_triplet], dynamic_cmu_arctic.py:57-61 (a list of numbers of any length). *)
Definition as_triplet (l : list R) : result p3 :=
  match l with [x; y; z] => Ok (P3 x y z) | _ => Err ValueError end.
(** The checks before any effect, dynamic_cmu_arctic.py:475-498. *)
Definition early_checks (a : build_args) : result (p3 * p3 * p3) :=
  do room <- as_triplet (ba_room_list a);
  do center <- as_triplet (ba_center_list a);
  do margin <- as_triplet (ba_margin_list a);
  if (ba_scenes a <=? 0)%Z then Err ValueError
  else if (sa_n (ba_scene a) <=? 0)%Z then Err ValueError
  else if ((sa_moving (ba_scene a) <? 0) || (sa_n (ba_scene a) <? sa_moving (ba_scene a)))%Z then Err ValueError
  else if (Z.of_nat (length (ba_speakers a)) <? sa_n (ba_scene a))%Z then Err ValueError
  else if (sa_steps (ba_scene a) <=? 0)%Z then Err ValueError
  else if Rleb (m_dur (sa_motion (ba_scene a))) 0 then Err ValueError
  else if (ba_rir a <=? 0)%Z then Err ValueError
  else Ok (room, center, margin).
(** The effects on the directory before the data are read, dynamic_cmu_arctic.py:504-510. *)
Definition prepare (a : build_args) (w : bworld) : result bworld :=
  if bexists w (ba_root a) then
    if negb (ba_overwrite a) then Err FileExistsError else Ok (mkdirs (ba_root a) (rmtree (ba_root a) w))
  else Ok (mkdirs (ba_root a) w).
(** Opening all speakers in order and comparing the sample rates,
    dynamic_cmu_arctic.py:515-531; [open] stands for the dataset constructor and the first
    utterance. *)
Definition open_speakers (open : string -> result Z) (l : list string) : result Z :=
  do r <- foldM (fun (acc : option Z) spk =>
            do sr <- open spk;
            match acc with
            | None => Ok (Some sr)
            | Some f => if negb (sr =? f)%Z then Err ValueError else Ok acc
            end) l None;
  match r with Some f => Ok f | None => Err AssertionError end.
(** The remaining checks before the first scene is simulated, dynamic_cmu_arctic.py:532-631;
    [room_ok] stands for [Room.shoebox], [d] for the draws of the first scene. *)
Definition late_checks (a : build_args) (open : string -> result Z) (room_ok : result unit) (d : scene_draws)
  (room center margin : p3) : result scene_geo :=
  do sr <- open_speakers open (ba_speakers a);
  if (target_samples (m_dur (sa_motion (ba_scene a))) sr <=? 0)%Z then Err ValueError
  else
    let s := ba_scene a in
    do base <- polyhedron_array (mkV Float [0; 0; 0]) "octahedron" (sa_edge s / sqrt 2);
    if (Z.of_nat (length base) <? sa_n s)%Z then Err ValueError
    else
      do _ <- room_ok;
      build_scene_geometry (mkSA (sa_n s) (sa_moving s) room center (sa_edge s) margin (sa_steps s) (sa_motion s) (sa_random_center s)) d.
(** [build_dynamic_cmu_arctic_dataset], dynamic_cmu_arctic.py:439-760: outcome and final
    world. [rest] stands for everything after the checks, [open] depends on the world because
    the data are read after the directory has been prepared. *)
Definition build (a : build_args) (open : bworld -> string -> result Z) (room_ok : result unit) (d : scene_draws)
  (rest : bworld -> scene_geo -> result (Z * Z) * bworld) (w : bworld) : result (Z * Z) * bworld :=
  match early_checks a with
  | Err e => (Err e, w)
  | Ok (room, center, margin) =>
      match prepare a w with
      | Err e => (Err e, w)
      | Ok w' =>
          match late_checks a (open w') room_ok d room center margin with
          | Err e => (Err e, w')
          | Ok g => rest w' g
          end
      end
  end.
