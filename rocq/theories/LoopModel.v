(** Model of the whole of [build_dynamic_cmu_arctic_dataset],
    /repo/src/torchrir/datasets/dynamic_cmu_arctic.py:439-760: the loop over the scenes with the
    two random generators that run through it, and everything it writes.

    Simplifications: creating a directory succeeds (writing a file may fail); the draws of the
    numpy generator for one scene are a function of its state (any generator gives such a
    function); the microphones and sources of the pictures and of the metadata are the tables of
    positions ([from_positions] accepts every finite table of this shape, C37); what the rest of
    the scene does with responses that are not numbers is left open; the text written into the
    pictures is not modelled. *)
From Coq Require Import Ascii String List ZArith Reals Bool Decimal DecimalString.
From Verif Require Import Prelude SignalModel FloatModel DirModel IsmModel RoomModel GeoModel DsModel BldModel MetaModel.
From Verif Require ScnModel.
Import ListNotations.
Local Notation length := List.length.
Local Open Scope R_scope.

(** ** Names *)

(** Decimal digits of a number, dynamic_cmu_arctic.py:560, 663. *)
Definition dec (n : nat) : string := NilZero.string_of_uint (Nat.to_uint n).
(** [k] zeros, dynamic_cmu_arctic.py:560, 663. *)
Fixpoint zeros (k : nat) : string := match k with O => EmptyString | S k => String "0"%char (zeros k) end.
(** The format [0wd], dynamic_cmu_arctic.py:560, 663. *)
Definition padded (w n : nat) : string := (zeros (w - String.length (dec n)) ++ dec n)%string.
(** [f"scene_{scene_idx:04d}"], dynamic_cmu_arctic.py:560. *)
Definition scene_name (n : nat) : string := ("scene_" ++ padded 4 n)%string.
(** [f"source_{src_idx:02d}.wav"], dynamic_cmu_arctic.py:663. *)
Definition source_name (n : nat) : string := ("source_" ++ padded 2 n ++ ".wav")%string.

(** ** What is written *)

(** Contents of a file: samples of shape (time, channel) with a rate, or a JSON value,
    dynamic_cmu_arctic.py:663-665, 709-751. *)
Inductive payload := Audio (t : tensor) (rate : Z) | Json (v : pyval).
(** An effect below the data set root, dynamic_cmu_arctic.py:562, 663-751. *)
Inductive happening :=
| Directory (dir : string)
| Written (dir file : string) (p : payload)
| Drawn (dir : string) (l : list ScnModel.ev)
| Filmed (dir : string) (l : list ScnModel.aev).
(** Effects and outcome; [None] is a loop that goes on for ever, dynamic_cmu_arctic.py:393, 559. *)
Definition run (A : Type) : Type := list happening * option (result A).
(** dynamic_cmu_arctic.py:559-760. *)
Definition rret {A} (a : A) : run A := ([], Some (Ok a)).
(** An exception ends the run and what was written stays, dynamic_cmu_arctic.py:559-760. *)
Definition rbind {A B} (m : run A) (f : A -> run B) : run B :=
  match m with
  | (t, Some (Ok a)) => let '(t', r) := f a in (t ++ t', r)
  | (t, Some (Err e)) => (t, Some (Err e))
  | (t, None) => (t, None)
  end.
(** dynamic_cmu_arctic.py:559-760. *)
Definition rlift {A} (r : result A) : run A := ([], Some r).
(** dynamic_cmu_arctic.py:562, 675-707. *)
Definition rlog (h : happening) : run unit := ([h], Some (Ok tt)).

(** The world around the builder, dynamic_cmu_arctic.py:512-529, 643-751: the externals of the
    simulation, the numpy generator with its initial state, the calls of [random.Random] (numbered
    in the order in which they are made), the corpus, the outcome of writing files, the colours
    and outcomes of the drawing functions, and what happens to responses that are not numbers. *)
Record env := mkEnv {
  e_ext : externals;
  e_gen : Type; e_draw : scene_args -> e_gen -> scene_draws * e_gen; e_gen0 : e_gen;
  e_sample : nat -> list string -> nat -> list string; e_shuffle : nat -> list string -> list string;
  e_corpus : bworld -> corpus;
  e_save : string -> string -> option exn;
  e_palette : list string; e_disk : string -> string -> option exn; e_clip : string -> ScnModel.request -> option exn;
  e_undefined : list R -> xtensor -> nat -> result tensor }.
(** The options of the builder that [build_args] does not have, dynamic_cmu_arctic.py:454-471. *)
Record options := mkOpt {
  o_t60 : R; o_c : R; o_order : Z; o_mp4 : bool; o_mp4_3d : bool; o_fps : option R; o_mux : bool;
  o_images : bool; o_images_3d : bool; o_annotate : bool }.

(** ** One scene *)

(** [sf.write] and [json.dump], dynamic_cmu_arctic.py:663-665, 709-751. *)
Definition save (E : env) (dir file : string) (p : payload) : run unit :=
  match e_save E dir file with Some e => ([], Some (Err e)) | None => rlog (Written dir file p) end.
(** dynamic_cmu_arctic.py:662-663. *)
Fixpoint save_all (E : env) (dir : string) (l : list (string * payload)) : run unit :=
  match l with [] => rret tt | (f, p) :: l => rbind (save E dir f p) (fun _ => save_all E dir l) end.

(** The three coordinates, dynamic_cmu_arctic.py:574-577, 640-641, 667. *)
Definition xyz (p : p3) : list R := [px p; py p; pz p].
(** A table of positions, dynamic_cmu_arctic.py:574-576, 667. *)
Definition table (l : list p3) : tensor := mkT [length l; 3%nat] (flat_map xyz l).
(** [src_traj] and [mic_traj] for [n] entities, dynamic_cmu_arctic.py:577, 640-641. *)
Definition track (n : nat) (l : list (list p3)) : tensor := mkT [length l; n; 3%nat] (flat_map (flat_map xyz) l).
(** The same tables for the drawing functions, dynamic_cmu_arctic.py:675-707. *)
Definition drawn_table (l : list p3) : ScnModel.postab := ScnModel.mkPos (length l) 3 (fun i => xyz (nth i l (P3 0 0 0))).
(** dynamic_cmu_arctic.py:675-707. *)
Definition drawn_track (n : nat) (l : list (list p3)) : ScnModel.trajectory :=
  ScnModel.mkTraj (length l) n 3 (fun t i => xyz (nth i (nth t l []) (P3 0 0 0))).

(** [scene_mic_center], dynamic_cmu_arctic.py:563-572. *)
Definition scene_center (s : scene_args) (d : scene_draws) : result p3 :=
  if sa_random_center s
  then sample_random_mic_center (sd_center d) (sa_room s) (sa_margin s) min_distance (sa_edge s / sqrt 2)
  else Ok (sa_center s).
(** The signals of the chosen speakers, dynamic_cmu_arctic.py:580-590; [k] counts the calls of
    the generator. *)
Fixpoint load_all (E : env) (c : corpus) (target : Z) (fuel k : nat) (l : list string) : run (nat * list (list R) * list (string * list string)) :=
  match l with
  | [] => rret (k, [], [])
  | spk :: l =>
      match load_fixed_length_signal c (mkRng (e_sample E 0) (e_shuffle E)) target fuel k spk with
      | None => ([], None)
      | Some (Err e) => rlift (Err e)
      | Some (Ok (k', row, ids)) =>
          rbind (load_all E c target fuel k' l) (fun r => let '(k'', rows, info) := r in rret (k'', row :: rows, (spk, ids) :: info))
      end
  end.
(** [np.repeat(mic_positions[None], trajectory_steps, axis=0)], dynamic_cmu_arctic.py:577. *)
Definition repeat_mics (steps : Z) (mics : list p3) : list (list p3) := repeat mics (Z.to_nat steps).

(** A response tensor of numbers, dynamic_cmu_arctic.py:653-656. *)
Definition all_numbers (T : xtensor) : option tensor :=
  if forallb (fun x => match x with Some _ => true | None => false end) (xdata T)
  then Some (mkT (xshape T) (map (fun x => match x with Some r => r | None => 0 end) (xdata T)))
  else None.
(** [rirs[:, s : s + 1, :, :]], dynamic_cmu_arctic.py:655. *)
Definition of_source (h : tensor) (s : nat) : tensor :=
  match shape h with
  | [T; n; M; L] => mkT [T; 1%nat; M; L] (flat_map (fun t => block ((t * n + s) * (M * L)) (M * L) (data h)) (seq 0 T))
  | _ => h
  end.
(** One multichannel stem, dynamic_cmu_arctic.py:557, 652-657. *)
Definition stem_of (n_mics : nat) (row : list R) (h : tensor) : result tensor :=
  do y <- convolver_convolve (mkConvolver "trajectory" None None None) Cpu (mkT [1%nat; length row] row) h;
  to_time_channel_audio y n_mics.
(** All stems, dynamic_cmu_arctic.py:651-657. *)
Definition stems_of (E : env) (n_mics : nat) (dry : list (list R)) (rirs : xtensor) : result (list tensor) :=
  mapM (fun s => match all_numbers rirs with
                 | Some h => stem_of n_mics (nth s dry []) (of_source h s)
                 | None => e_undefined E (nth s dry []) rirs s
                 end) (seq 0 (length dry)).
(** The audio files of a scene, dynamic_cmu_arctic.py:659-665. *)
Definition audio_files (stems : list tensor) (sr : Z) : result (list (string * payload)) :=
  do r <- written_files (map data stems);
  let '(out, mix) := r in
  Ok (map (fun i => (source_name i, Audio (mkT (shape (nth i stems (mkT [] []))) (nth i out [])) sr)) (seq 0 (length out))
      ++ [("mixture.wav"%string, Audio (mkT (shape (hd (mkT [] []) stems)) mix) sr)]).

(** An integer of a JSON file, dynamic_cmu_arctic.py:631-636, 722-735. *)
Definition pyi (z : Z) : pyval := PScalar (SInt z).
(** dynamic_cmu_arctic.py:632, 726. *)
Definition pyb (b : bool) : pyval := PScalar (SBool b).
(** A list of numbers, dynamic_cmu_arctic.py:725-735. *)
Definition pyl (l : list R) : pyval := PList (map pyf l).
(** [source_info], dynamic_cmu_arctic.py:590, 629-638. *)
Definition source_entry (m : motion) (moving : list nat) (placed : list placed) (i : nat) (who : string * list string) : pyval :=
  let p := nth i placed (mkPlaced (P3 0 0 0) (P3 0 0 0) 0 0 0 0 0) in
  PDict [(KStr "speaker", PStr (fst who)); (KStr "utterance_ids", PList (map PStr (snd who)));
         (KStr "source_index", pyi (Z.of_nat i)); (KStr "is_moving", pyb (is_moving moving i));
         (KStr "velocity_mps", pyf (p_vel p)); (KStr "motion_type", PStr (if is_moving moving i then "arc" else "static"));
         (KStr "angular_velocity_rad_s", pyf (p_ang p)); (KStr "turn_direction", pyi (p_dir p));
         (KStr "move_start_sec", pyf (m_dur m * m_start m)); (KStr "move_end_sec", pyf (m_dur m * m_end m))]%string.
(** dynamic_cmu_arctic.py:581, 630. *)
Definition source_info (m : motion) (moving : list nat) (placed : list placed) (who : list (string * list string)) : pyval :=
  PList (map (fun i => source_entry m moving placed i (nth i who (EmptyString, []))) (seq 0 (length who))).
(** [extra], dynamic_cmu_arctic.py:720-746. *)
Definition scene_extra (s : scene_args) (dir : string) (center : p3) (moving : list nat) (placed : list placed) : list (pykey * pyval) :=
  let m := sa_motion s in
  let deg x := x * (180 / PI) in
  [(KStr "scene_id", PStr dir); (KStr "n_sources", pyi (sa_n s)); (KStr "n_moving_sources", pyi (sa_moving s));
   (KStr "octa_edge_m", pyf (sa_edge s)); (KStr "mic_center_xyz_m", pyl (xyz center));
   (KStr "randomize_mic_center", pyb (sa_random_center s));
   (KStr "min_source_distance_from_array_center_m", pyf min_distance);
   (KStr "azimuth_step_deg", pyf (360 / IZR (sa_n s)));
   (KStr "moving_source_indices", PList (map (fun i => pyi (Z.of_nat i)) moving));
   (KStr "start_azimuth_deg", pyl (map (fun p => deg (p_az0 p)) placed));
   (KStr "end_azimuth_deg", pyl (map (fun p => deg (p_az1 p)) placed));
   (KStr "source_velocity_mps", pyl (map p_vel placed)); (KStr "motion_type", PStr "arc");
   (KStr "angular_velocity_rad_s", pyl (map p_ang placed));
   (KStr "turn_direction", PList (map (fun p => pyi (p_dir p)) placed));
   (KStr "motion_profile", PDict [(KStr "pre_static_ratio", pyf (m_start m)); (KStr "move_ratio", pyf (m_end m - m_start m));
                                  (KStr "post_static_ratio", pyf (1 - m_end m))]);
   (KStr "motion_time_sec", PDict [(KStr "total", pyf (m_dur m)); (KStr "move_start", pyf (m_dur m * m_start m));
                                   (KStr "move_end", pyf (m_dur m * m_end m))])]%string.

(** What is fixed before the loop, dynamic_cmu_arctic.py:531-557. *)
Record setup := mkSetup { su_scene : scene_args; su_speakers : list string; su_rir : Z; su_opt : options;
                          su_corpus : corpus; su_rate : Z; su_target : Z; su_room : room }.

(** The geometry, the signals, the responses and the stems of a scene,
    dynamic_cmu_arctic.py:563-660; nothing is written here. *)
Record scene_data := mkScene {
  sn_center : p3; sn_mics : list p3; sn_who : list (string * list string); sn_dry : list (list R);
  sn_placed : list placed; sn_traj : list (list p3); sn_rirs : xtensor; sn_files : list (string * payload) }.
(** dynamic_cmu_arctic.py:563-660; also the number of calls of [random.Random]. *)
Definition compute_scene (E : env) (u : setup) (fuel k : nat) (d : scene_draws) : run (nat * scene_data) :=
  let s := su_scene u in
  rbind (rlift (scene_center s d)) (fun center =>
  rbind (rlift (place_mics (sa_edge s) center)) (fun mics =>
  rbind (load_all E (su_corpus u) (su_target u) fuel (S k) (e_sample E k (su_speakers u) (Z.to_nat (sa_n s)))) (fun r =>
  let '(k, rows, who) := r in
  rbind (rlift (stack_rows rows)) (fun dry =>
  rbind (rlift (constrained_positions (sd_trials d) (sd_moving d) (sa_n s) (sa_moving s) (sa_motion s) center (sa_room s)
                  (sa_margin s) min_distance 100)) (fun placed =>
  rbind (rlift (source_trajectory placed center (sd_moving d) (sa_steps s) (sa_motion s))) (fun tr =>
  rbind (rlift (simulate_dynamic_rir (e_ext E) Cpu (su_room u) (track (length placed) tr) (track (length mics) (repeat_mics (sa_steps s) mics))
                  (Some (o_order (su_opt u))) None (Some (su_rir u)) None None ONone None)) (fun rirs =>
  rbind (rlift (stems_of E (length mics) dry rirs)) (fun stems =>
  rbind (rlift (audio_files stems (su_rate u))) (fun files =>
  rret (k, mkScene center mics who dry placed tr rirs files)))))))))).
(** The arguments of [save_scene_metadata], dynamic_cmu_arctic.py:709-748. *)
Definition metadata_args (u : setup) (dir : string) (d : scene_draws) (x : scene_data) : md_args :=
  let s := su_scene u in
  mkMd (r_size (su_room u)) (r_c (su_room u)) None (r_t60 (su_room u)) (r_fs (su_room u))
    (table (map p_start (sn_placed x))) None (table (sn_mics x)) Float None (xshape (sn_rirs x))
    (Some (track (length (sn_placed x)) (sn_traj x))) (Some (track (length (sn_mics x)) (repeat_mics (sa_steps s) (sn_mics x))))
    None (Some (su_target u)) (Some (source_info (sa_motion s) (sd_moving d) (sn_placed x) (sn_who x)))
    (Some (scene_extra s dir (sn_center x) (sd_moving d) (sn_placed x))).
(** The effects of a computed scene, dynamic_cmu_arctic.py:662-751. *)
Definition write_scene (E : env) (u : setup) (dir : string) (d : scene_draws) (x : scene_data) : run unit :=
  let o := su_opt u in
  let s := su_scene u in
  let n := length (sn_placed x) in
  rbind (save_all E dir (sn_files x)) (fun _ =>
  rbind (if o_images o
         then rlog (Drawn dir (ScnModel.save_scene_layout_images (e_palette E) (e_disk E dir) 0 (data (r_size (su_room u)))
                (drawn_table (map p_start (sn_placed x))) (drawn_table (sn_mics x))
                (Some (ScnModel.TTraj (drawn_track n (sn_traj x))))
                (Some (ScnModel.TTraj (drawn_track (length (sn_mics x)) (repeat_mics (sa_steps s) (sn_mics x)))))
                (o_annotate o) true (o_images_3d o)))
         else rret tt) (fun _ =>
  rbind (if o_mp4 o
         then rlog (Filmed dir (ScnModel.save_scene_videos (e_clip E dir) (numel (r_size (su_room u))) (o_fps o) (o_mp4_3d o)
                (Some "mixture.wav"%string) (o_mux o)))
         else rret tt) (fun _ =>
  rbind (rlift (build_metadata (metadata_args u dir d x))) (fun md =>
  save_all E dir [("metadata.json"%string, Json md);
                  ("source_info.json"%string, Json (source_info (sa_motion s) (sd_moving d) (sn_placed x) (sn_who x)))])))).
(** One round of the loop, dynamic_cmu_arctic.py:559-758. *)
Definition build_scene (E : env) (u : setup) (fuel idx : nat) (st : e_gen E * nat) : run (e_gen E * nat) :=
  let '(g, k) := st in
  let '(d, g') := e_draw E (su_scene u) g in
  rbind (rlog (Directory (scene_name idx))) (fun _ =>
  rbind (compute_scene E u fuel k d) (fun r =>
  rbind (write_scene E u (scene_name idx) d (snd r)) (fun _ => rret (g', fst r)))).
(** The loop, dynamic_cmu_arctic.py:559-758: [n] scenes from number [idx] on. *)
Fixpoint build_scenes (E : env) (u : setup) (fuel n idx : nat) (st : e_gen E * nat) : run (e_gen E * nat) :=
  match n with
  | O => rret st
  | S n => rbind (build_scene E u fuel idx st) (fun st' => build_scenes E u fuel n (S idx) st')
  end.

(** ** The builder *)

(** The constructor of the data set, its first utterance and the rate, dynamic_cmu_arctic.py:518-524. *)
Definition first_rate (c : corpus) (spk : string) : result Z :=
  do l <- utts c spk;
  match l with
  | [] => Err RuntimeError
  | first :: _ => do r <- audio_of c spk first; Ok (snd r)
  end.
(** [Room.shoebox(size, fs, c, t60, dtype=torch.float64)], dynamic_cmu_arctic.py:550-556. *)
Definition shoebox_room (size : p3) (sr : Z) (c t60 : R) : result room :=
  do r <- shoebox (fun _ => 0%Z) (VNest [3%nat] (map (fun x => PyFloat (Fin x)) (xyz size))) (Fin (IZR sr)) (Fin c) None (Some (Fin t60)) (Some Float);
  match plain_room r with Some r => Ok r | None => Err NotImplementedError end.
(** Everything between the preparation of the directory and the loop, dynamic_cmu_arctic.py:512-557. *)
Definition make_setup (E : env) (b : build_args) (o : options) (w : bworld) (room center margin : p3) : result setup :=
  let s := ba_scene b in
  let c := e_corpus E w in
  do sr <- open_speakers (first_rate c) (ba_speakers b);
  let target := target_samples (m_dur (sa_motion s)) sr in
  if (target <=? 0)%Z then Err ValueError
  else
    do base <- polyhedron_array (mkV Float [0; 0; 0]) "octahedron" (sa_edge s / sqrt 2);
    if (Z.of_nat (length base) <? sa_n s)%Z then Err ValueError
    else
      do r <- shoebox_room room sr (o_c o) (o_t60 o);
      Ok (mkSetup (mkSA (sa_n s) (sa_moving s) room center (sa_edge s) margin (sa_steps s) (sa_motion s) (sa_random_center s))
            (ba_speakers b) (ba_rir b) o c sr target r).
(** [build_dynamic_cmu_arctic_dataset], dynamic_cmu_arctic.py:439-760: the world the loop starts
    from, the effects of the loop below the root and the outcome (rate and number of
    microphones). *)
Definition build_dataset (E : env) (b : build_args) (o : options) (fuel : nat) (w : bworld) : bworld * run (Z * Z) :=
  match early_checks b with
  | Err e => (w, ([], Some (Err e)))
  | Ok (room, center, margin) =>
      match prepare b w with
      | Err e => (w, ([], Some (Err e)))
      | Ok w' =>
          match make_setup E b o w' room center margin with
          | Err e => (w', ([], Some (Err e)))
          | Ok u => (w', rbind (build_scenes E u fuel (Z.to_nat (ba_scenes b)) 0 (e_gen0 E, 0%nat))
                           (fun _ => rret (su_rate u, 6%Z)))
          end
      end
  end.
