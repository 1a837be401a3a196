(** Model of the geometry of the example programs: /repo/examples/cli.py (the three modes),
    static.py, dynamic_src.py, dynamic_mic.py and build_dynamic_dataset.py.

    The functions start after the dry sources are loaded ([load_dataset_sources], DsModel.v):
    the stream of [random()] results, the picked indices and the chosen motions are what the
    generator gives from there on, whatever it gave before.  Simplifications: room sizes are
    finite; float32 arithmetic of tensors is exact except in the samplers (GeoModel.v);
    [from_positions] keeps a finite table of positions (C37); devices are not modelled. *)
From Coq Require Import String List ZArith Reals Bool.
From Verif Require Import Prelude FloatModel DirModel RoomModel GeoModel.
Import ListNotations.
Local Open Scope R_scope.
Local Notation length := List.length.

(** What [random.Random] gives: [random()] (through [uniform]), [sample(range(n), k)] and, for
    each source, whether [choice(["linear", "zigzag"])] is the second;
    build_dynamic_dataset.py:130, 133, 139, 142, 171, dynamic_src.py:198. *)
Record draws := mkDraws { d_uniform : stream; d_pick : nat -> nat -> list nat; d_zigzag : nat -> bool }.
(** A position; [None] has NaN coordinates (trajectories.py:9-14 with one step). *)
Definition xpoint := option (list R).

(** [Room.shoebox(size=args.room, fs=fs, beta=[0.9] * (6 if len(args.room) == 3 else 4))],
    cli.py:296-298, 386-388, 495-497, static.py:158-160, build_dynamic_dataset.py:301-303. *)
Definition example_room (room : list R) (fs : Z) : result nroom :=
  let walls := if (length room =? 3)%nat then 6%nat else 4%nat in
  shoebox (fun _ => 0%Z) (VNest [length room] (map (fun x => PyFloat (Fin x)) room)) (Fin (IZR fs)) (Fin 343)
    (Some (VNest [walls] (repeat (PyFloat (Fin (9 / 10))) walls))) None None.
(** [torch.tensor(args.room, dtype=torch.float32)], cli.py:299, 389, 498,
    build_dynamic_dataset.py:300. *)
Definition room_size (room : list R) : list R := map rnd32 room.

(** The default range of heights, sampling.py:35, 59. *)
Definition heights : R * R := (3 / 2, rnd64 (18 / 10)).
(** [sample_positions(num=1, ...).squeeze(0)] with the default margin, cli.py:302-304, 393-395,
    502-507, build_dynamic_dataset.py:306-308; the second result is the number of draws so far. *)
Definition one_point (g : stream) (k : nat) (size : list R) : list R * nat :=
  let r := sample_positions g k 1 size (1 / 2) in (nth 0 (fst r) [], snd r).
(** [sample_positions_min_distance(..., center, min_distance=1.5)] with its defaults,
    cli.py:305-311, 399-405, 508-514, build_dynamic_dataset.py:162-168. *)
Definition far_points (nrm : list R -> R) (g : stream) (k : nat) (num : Z) (size center : list R)
  : result (list (list R) * nat) :=
  do r <- sample_positions_min_distance nrm g k num size center (3 / 2) (Some heights) (1 / 2) 1000;
  Ok (fst r, (k + snd r * snd (attempt g 0 size (Some heights) (1 / 2)))%nat).
(** [sample_positions_with_z_range] with its defaults, cli.py:406-408,
    build_dynamic_dataset.py:133-135, 139-144, dynamic_src.py:192-194. *)
Definition end_points (g : stream) (k : nat) (num : Z) (size : list R) : result (list (list R) * nat) :=
  do p <- sample_positions_with_z_range g k num size heights (1 / 2);
  let '(lo, hi) := z_bounds size (1 / 2) heights in
  let n := Z.to_nat num in
  Ok (p, (k + n * length size + (if negb (length size <? 3)%nat && negb (Rleb hi lo) then n else 0))%nat).
(** [clamp_positions(positions, room_size)] on one position, cli.py:312, 396, 416, 521. *)
Definition clamp (size p : list R) : list R := clamp_positions p (mkV Float size) (1 / 10).

(** The microphones around a center, static.py:172-179, dynamic_src.py:173-180,
    dynamic_mic.py:178-201, build_dynamic_dataset.py:309-316; cli.py:312, 396, 519 has two. *)
Definition mics_at (num : Z) (center : list R) : result (list (list R)) :=
  if (num <=? 0)%Z then Err ValueError
  else if (num =? 2)%Z then binaural_array (mkV Float center) (8 / 100)
  else do r <- linear_array (mkV Float center) num (8 / 100) 0 None;
       match r with Some l => Ok l | None => Err NotImplementedError end.

(** The static scene: center of the array, sources, microphones; cli.py:296-315 with two
    microphones, static.py:158-183. *)
Definition static_scene (nrm : list R -> R) (g : stream) (room : list R) (fs n_src n_mics : Z)
  : result (list R * list (list R) * list (list R)) :=
  do _ <- example_room room fs;
  let size := room_size room in
  let '(c, k) := one_point g 0 size in
  do r <- far_points nrm g k n_src size c;
  do m <- mics_at n_mics c;
  Ok (c, fst r, map (clamp size) m).

(** A dynamic scene: recorded sources and microphones, positions of the sources and of the
    microphones at every step, cli.py:418-419, 444-448, 525-526, 551-555. *)
Record dyn_scene := mkDyn { dy_sources : list (list R); dy_mics : list (list R);
                            dy_src : list (list xpoint); dy_mic : list (list xpoint) }.
(** [linear_trajectory] with NaN entries spelled out, trajectories.py:9-14. *)
Definition path (start end_ : list R) (steps : Z) : result (list xpoint) :=
  do r <- linear_trajectory start end_ steps;
  Ok (match r with Some l => map Some l | None => repeat None (Z.to_nat steps) end).
(** [torch.stack(tracks, dim=1)]: one row for each step; no tracks or tracks of different
    lengths raise; cli.py:409-415, build_dynamic_dataset.py:189. *)
Definition stack_tracks (tracks : list (list xpoint)) : result (list (list xpoint)) :=
  match tracks with
  | [] => Err RuntimeError
  | t0 :: _ =>
      if forallb (fun t => length t =? length t0)%nat tracks
      then Ok (map (fun k => map (fun t => nth k t None) tracks) (seq 0 (length t0)))
      else Err RuntimeError
  end.
(** [x.unsqueeze(0).repeat(steps, 1, ...)], cli.py:397, 523, build_dynamic_dataset.py:184, 361. *)
Definition still {A} (steps : Z) (x : A) : list A := repeat x (Z.to_nat steps).
(** [clamp_positions] of a tensor (steps, n, dim), cli.py:416, 521, build_dynamic_dataset.py:190. *)
Definition clamp_rows (size : list R) (rows : list (list xpoint)) : list (list xpoint) :=
  map (map (option_map (clamp size))) rows.

(** Moving sources, cli.py:386-419 ([level = false], every source moves, two microphones) and
    dynamic_src.py:165-214 ([level = true], the height of the end is that of the start). *)
Definition moving_sources (nrm : list R -> R) (g : stream) (level : bool) (moves : nat -> bool)
    (room : list R) (fs n_src n_mics steps : Z) : result dyn_scene :=
  do _ <- example_room room fs;
  let size := room_size room in
  let '(c, k) := one_point g 0 size in
  do m <- mics_at n_mics c;
  let m := map (clamp size) m in
  let steps := Z.max 2 steps in
  do r <- far_points nrm g k n_src size c;
  let '(starts, k) := r in
  do e <- end_points g k n_src size;
  let ends := if level && (length size =? 3)%nat
              then map (fun i => upd_nth 2 (fun _ => nth 2 (nth i starts []) 0) (nth i (fst e) [])) (seq 0 (length (fst e)))
              else fst e in
  do tracks <- mapM (fun i => if moves i then path (nth i starts []) (nth i ends []) steps
                              else Ok (still steps (Some (nth i starts [])))) (seq 0 (Z.to_nat n_src));
  do rows <- stack_tracks tracks;
  Ok (mkDyn starts m (clamp_rows size rows) (still steps (map Some m))).
(** cli.py:378-419. *)
Definition cli_moving_sources (nrm : list R -> R) (g : stream) (room : list R) (fs n_src steps : Z) : result dyn_scene :=
  moving_sources nrm g false (fun _ => true) room fs n_src 2 steps.
(** [set(rng.sample(range(num_sources), k=num_moving))], dynamic_src.py:197-198 (the sample is
    drawn after all positions). *)
Definition picked (d : draws) (n k : nat) (i : nat) : bool := existsb (Nat.eqb i) (d_pick d n k).
(** dynamic_src.py:165-217. *)
Definition script_moving_sources (nrm : list R -> R) (d : draws) (room : list R) (fs n_src n_moving n_mics steps : Z)
  : result dyn_scene :=
  moving_sources nrm (d_uniform d) true (picked d (Z.to_nat n_src) (Z.to_nat (Z.min n_src (Z.max 1 n_moving))))
    room fs n_src n_mics steps.

(** Moving microphones, cli.py:495-526 ([level = false], two microphones) and
    dynamic_mic.py:159-211 ([level = true]).  [binaural_array] and [linear_array] of a finite
    center. *)
Definition moving_mics (nrm : list R -> R) (g : stream) (level : bool) (room : list R) (fs n_src n_mics steps : Z)
  : result dyn_scene :=
  do _ <- example_room room fs;
  let size := room_size room in
  let '(c0, k) := one_point g 0 size in
  let '(c1, k) := one_point g k size in
  let c1 := if level && (length size =? 3)%nat then upd_nth 2 (fun _ => nth 2 c0 0) c1 else c1 in
  do r <- far_points nrm g k n_src size c0;
  if (n_mics <=? 0)%Z then Err ValueError
  else
    let steps := Z.max 2 steps in
    do centers <- path c0 c1 steps;
    do rows <- mapM (fun c => match c with
                              | Some c => do m <- mics_at n_mics c; Ok (map (fun p => Some (clamp size p)) m)
                              | None => Ok (repeat None (Z.to_nat n_mics))
                              end) centers;
    Ok (mkDyn (fst r) (map (fun p => match p with Some p => p | None => [] end) (nth 0 rows []))
          (still steps (map Some (fst r))) rows).
(** cli.py:487-526. *)
Definition cli_moving_mics (nrm : list R -> R) (g : stream) (room : list R) (fs n_src steps : Z) : result dyn_scene :=
  moving_mics nrm g false room fs n_src 2 steps.
(** dynamic_mic.py:159-211. *)
Definition script_moving_mics (nrm : list R -> R) (g : stream) (room : list R) (fs n_src n_mics steps : Z) : result dyn_scene :=
  moving_mics nrm g true room fs n_src n_mics steps.

(** ** build_dynamic_dataset.py *)

(** The first row of [end_points] for one point, [.squeeze(0)], build_dynamic_dataset.py:133-135,
    139-144. *)
Definition one_end (g : stream) (k : nat) (size : list R) : result (list R * nat) :=
  do r <- end_points g k 1 size; Ok (nth 0 (fst r) [], snd r).
(** [_random_trajectory], build_dynamic_dataset.py:122-149: track, motion and number of draws. *)
Definition random_trajectory (g : stream) (zigzag : bool) (k : nat) (start size : list R) (steps : Z)
  : result (list xpoint * string * nat) :=
  if negb zigzag then
    do e <- one_end g k size;
    do t <- path start (fst e) steps;
    Ok (t, "linear"%string, snd e)
  else
    do m <- one_end g k size;
    do e <- one_end g (snd m) size;
    let split := Z.max 2 (steps / 2) in
    do first <- path start (fst m) split;
    do second <- path (fst m) (fst e) (steps - split + 1);
    Ok (removelast first ++ second, "zigzag"%string, snd e).
(** The loop over the sources, build_dynamic_dataset.py:173-187. *)
Fixpoint source_tracks (d : draws) (moves : nat -> bool) (starts : list (list R)) (size : list R) (steps : Z)
    (l : list nat) (k : nat) : result (list (list xpoint * string)) :=
  match l with
  | [] => Ok []
  | i :: l' =>
      do r <- (if moves i then random_trajectory (d_uniform d) (d_zigzag d i) k (nth i starts []) size steps
               else Ok (still steps (Some (nth i starts [])), "static"%string, k));
      let '(t, mode, k) := r in
      do rest <- source_tracks d moves starts size steps l' k;
      Ok ((t, mode) :: rest)
  end.
(** [_build_source_trajectories], build_dynamic_dataset.py:152-191: positions, motions and the
    moving sources in increasing order. *)
Definition source_trajectories (nrm : list R -> R) (d : draws) (n n_moving : Z) (size center : list R) (steps : Z)
  : result (list (list xpoint) * list string * list nat) :=
  do r <- far_points nrm (d_uniform d) 0 n size center;
  let '(starts, k) := r in
  let num := Z.max 0 (Z.min n n_moving) in
  let moves := if (0 <? num)%Z then picked d (Z.to_nat n) (Z.to_nat num) else (fun _ => false) in
  do tracks <- source_tracks d moves starts size steps (seq 0 (Z.to_nat n)) k;
  do rows <- stack_tracks (map fst tracks);
  Ok (clamp_rows size rows, map snd tracks, filter moves (seq 0 (Z.to_nat n))).
(** The scenes of a run, build_dynamic_dataset.py:300-318, 333-335, 350-364, with 16000 Hz for
    the room: [fresh seed] is the stream of [random.Random(seed)], [loaded seed] what the
    generator of that seed gives after the sources are loaded. *)
Definition dataset_scenes (nrm : list R -> R) (fresh : Z -> stream) (loaded : Z -> draws) (room : list R)
    (seed n_scenes n n_moving n_mics steps : Z) : result (list dyn_scene) :=
  do _ <- example_room room 16000;
  let size := room_size room in
  let '(c, _) := one_point (fresh seed) 0 size in
  do m <- mics_at n_mics c;
  let m := map (clamp size) m in
  let steps := Z.max 2 steps in
  mapM (fun idx =>
          do r <- source_trajectories nrm (loaded (seed + Z.of_nat idx)%Z) n n_moving size c steps;
          let rows := fst (fst r) in
          Ok (mkDyn (map (fun p => match p with Some p => p | None => [] end) (nth 0 rows [])) m
                rows (still steps (map Some m))))
       (seq 0 (Z.to_nat n_scenes)).
