(** Specification vocabulary for C81 (audio files of a built scene) and C82 (its JSON files). *)
From Coq Require Import Ascii String List ZArith Reals Bool Permutation.
From Verif Require Import Prelude SignalModel SignalSpec DirModel IsmModel RoomModel DsModel DsSpec BldModel BldSpec MetaModel LoopModel LoopSpec.
From Verif Require MetaSpec.
Import ListNotations.
Local Notation length := List.length.
Local Notation field := MetaSpec.field.
Local Notation item := MetaSpec.item.
Local Notation number := MetaSpec.number.
Local Open Scope R_scope.

(** Coordinate [k] of a point. *)
Definition coord (p : p3) (k : nat) : R := nth k [px p; py p; pz p] 0.
(** What scene [i] is made of: the rate of the corpus, the geometry for its draws, distinct
    choices from the speakers with their utterances, and one signal of the wanted length for
    each of them. *)
Definition made_of (E : env) (b : build_args) (w : bworld) (s : scene_args) (i : nat) (rate : Z) (geo : scene_geo)
    (who : list (string * list string)) (dry : list (list R)) : Prop :=
  open_speakers (first_rate (e_corpus E w)) (ba_speakers b) = Ok rate /\
  build_scene_geometry s (draws_for E s i) = Ok geo /\
  length who = Z.to_nat (sa_n s) /\ (exists rest, Permutation (ba_speakers b) (map fst who ++ rest)) /\
  Forall2 (fun p row => fixed_row_for (e_corpus E w) (Z.to_nat (target_samples (m_dur (sa_motion s)) rate)) (fst p) (snd p) row) who dry.
(** The room of all scenes. *)
Definition room_of (s : scene_args) (o : options) (rate : Z) : room :=
  mkRoom (mkT [3%nat] [px (sa_room s); py (sa_room s); pz (sa_room s)]) (IZR rate) (o_c o) None (Some (o_t60 o)).
(** Every source file holds its dry signal heard through the responses of its moving source, all
    with one gain, the greatest up to 1 that keeps them within 0.99; the mixture is the sum of the
    source files. *)
Definition audio_right (X : externals) (r : room) (order rir : Z) (n T N : nat) (geo : scene_geo) (dry : list (list R)) (rate : Z)
    (written : string -> payload -> Prop) : Prop :=
  let L := Z.to_nat rir in
  exists w h g, partition_starts w N /\ length w = T /\ segment_starts Cpu N T None None = Ok w /\
    responses X r order rir (geo_traj geo) (geo_mics geo) n L h /\ 0 < g <= 1 /\
    (let fits g := forall s j m, (s < n)%nat -> (j < N + L - 1)%nat -> (m < 6)%nat ->
       Rabs (g * heard N (nth s dry []) w (fun k m => zext L (h k s m)) m j) <= 99 / 100 in
     fits g /\ forall g', 0 <= g' <= 1 -> fits g' -> g' <= g) /\
    (forall s p, (s < n)%nat -> written (source_name s) p -> exists f, p = Audio f rate /\ shape f = [(N + L - 1)%nat; 6%nat] /\
       forall j m, (j < N + L - 1)%nat -> (m < 6)%nat -> tget f [j; m] = g * heard N (nth s dry []) w (fun k m => zext L (h k s m)) m j) /\
    forall p, written "mixture.wav"%string p -> exists f, p = Audio f rate /\ shape f = [(N + L - 1)%nat; 6%nat] /\
       forall j m, (j < N + L - 1)%nat -> (m < 6)%nat ->
         tget f [j; m] = rsum n (fun s => g * heard N (nth s dry []) w (fun k m => zext L (h k s m)) m j).

(** The entry of source [i] in [source_info.json]. *)
Record entry_right (m : motion) (moving : list nat) (i : nat) (q : placed) (who : string * list string) (e : pyval) : Prop := {
  er_speaker : field e ["speaker"%string] = Some (PStr (fst who));
  er_ids : field e ["utterance_ids"%string] = Some (PList (map PStr (snd who)));
  er_index : field e ["source_index"%string] = Some (PScalar (SInt (Z.of_nat i)));
  er_moving : In i moving /\ field e ["is_moving"%string] = Some (PScalar (SBool true)) /\ field e ["motion_type"%string] = Some (PStr "arc") \/
    ~ In i moving /\ field e ["is_moving"%string] = Some (PScalar (SBool false)) /\ field e ["motion_type"%string] = Some (PStr "static");
  er_velocity : field e ["velocity_mps"%string] = Some (number (p_vel q));
  er_angular : field e ["angular_velocity_rad_s"%string] = Some (number (p_ang q));
  er_turn : field e ["turn_direction"%string] = Some (PScalar (SInt (p_dir q)));
  er_start : field e ["move_start_sec"%string] = Some (number (m_dur m * m_start m));
  er_end : field e ["move_end_sec"%string] = Some (number (m_dur m * m_end m)) }.
(** [source_info.json] has one entry for each source, in the order of the source files. *)
Definition info_right (s : scene_args) (d : scene_draws) (geo : scene_geo) (who : list (string * list string)) (info : pyval) : Prop :=
  exists l, info = PList l /\ length l = Z.to_nat (sa_n s) /\
    forall i e, nth_error l i = Some e -> exists q p, nth_error (geo_sources geo) i = Some q /\ nth_error who i = Some p /\
      entry_right (sa_motion s) (sd_moving d) i q p e.
(** A list of numbers read off the sources. *)
Definition per_source (geo : scene_geo) (f : placed -> pyval) (v : option pyval) : Prop :=
  exists a, v = Some a /\ (forall i q, nth_error (geo_sources geo) i = Some q -> item a [i] = Some (f q)) /\
    item a [length (geo_sources geo)] = None.
(** Positions of a set of points. *)
Definition lists_points (l : list p3) (v : option pyval) : Prop :=
  exists a, v = Some a /\ (forall i q k, nth_error l i = Some q -> (k < 3)%nat -> item a [i; k] = Some (number (coord q k))) /\ item a [length l] = None.
(** Positions of moving points. *)
Definition lists_steps (l : list (list p3)) (v : option pyval) : Prop :=
  exists a, v = Some a /\ forall t row i q k, nth_error l t = Some row -> nth_error row i = Some q -> (k < 3)%nat -> item a [t; i; k] = Some (number (coord q k)).
Record metadata_right (s : scene_args) (o : options) (rate rir N : Z) (dir : string) (d : scene_draws) (geo : scene_geo) (info md : pyval) : Prop := {
  mr_json : MetaSpec.json md;
  mr_info : field md ["source_info"%string] = Some info;
  mr_size : exists a, field md ["room"; "size"]%string = Some a /\ forall k, (k < 3)%nat -> item a [k] = Some (number (coord (sa_room s) k));
  mr_c : field md ["room"; "c"]%string = Some (number (o_c o));
  mr_beta : field md ["room"; "beta"]%string = Some PNone;
  mr_t60 : field md ["room"; "t60"]%string = Some (number (o_t60 o));
  mr_fs : field md ["room"; "fs"]%string = Some (number (IZR rate));
  mr_sources : lists_points (map p_start (geo_sources geo)) (field md ["sources"; "positions"]%string);
  mr_mics : lists_points (geo_mics geo) (field md ["mics"; "positions"]%string);
  mr_moving : (1 < sa_steps s)%Z -> field md ["dynamic"%string] = Some (PScalar (SBool true)) /\
    lists_steps (geo_traj geo) (field md ["trajectories"; "sources"]%string) /\
    lists_steps (repeat (geo_mics geo) (length (geo_traj geo))) (field md ["trajectories"; "mics"]%string) /\
    exists a, field md ["timestamps"]%string = Some a /\ forall t, (Z.of_nat t < sa_steps s)%Z ->
      item a [t] = Some (number (INR t * ((IZR N - 1) / IZR rate) / (IZR (sa_steps s) - 1)));
  mr_still : (sa_steps s <= 1)%Z -> field md ["dynamic"%string] = Some (PScalar (SBool false)) /\
    field md ["trajectories"; "sources"]%string = Some PNone /\ field md ["trajectories"; "mics"]%string = Some PNone /\ field md ["timestamps"]%string = Some PNone;
  mr_doa : exists fa fe, field md ["doa"; "azimuth"]%string = Some fa /\ field md ["doa"; "elevation"]%string = Some fe /\
    forall t row i q j m, nth_error (geo_traj geo) t = Some row -> nth_error row i = Some q -> nth_error (geo_mics geo) j = Some m ->
      exists az el, item fa [t; i; j] = Some (number az) /\ item fe [t; i; j] = Some (number el) /\
        MetaSpec.points_along az el (px q - px m) (py q - py m) (pz q - pz m);
  mr_rirs : field md ["rirs_shape"%string] = Some (PList (map (fun z => PScalar (SInt z)) [Z.max 1 (sa_steps s); sa_n s; 6%Z; rir]));
  mr_id : field md ["extra"; "scene_id"]%string = Some (PStr dir);
  mr_n : field md ["extra"; "n_sources"]%string = Some (PScalar (SInt (sa_n s)));
  mr_nm : field md ["extra"; "n_moving_sources"]%string = Some (PScalar (SInt (sa_moving s)));
  mr_edge : field md ["extra"; "octa_edge_m"]%string = Some (number (sa_edge s));
  mr_center : field md ["extra"; "mic_center_xyz_m"]%string = Some (PList (map number [px (geo_center geo); py (geo_center geo); pz (geo_center geo)]));
  mr_random : field md ["extra"; "randomize_mic_center"]%string = Some (PScalar (SBool (sa_random_center s)));
  mr_min : field md ["extra"; "min_source_distance_from_array_center_m"]%string = Some (number (9 / 5));
  mr_step : field md ["extra"; "azimuth_step_deg"]%string = Some (number (360 / IZR (sa_n s)));
  mr_indices : field md ["extra"; "moving_source_indices"]%string = Some (PList (map (fun i => PScalar (SInt (Z.of_nat i))) (sd_moving d)));
  mr_az0 : per_source geo (fun q => number (p_az0 q * 180 / PI)) (field md ["extra"; "start_azimuth_deg"]%string);
  mr_az1 : per_source geo (fun q => number (p_az1 q * 180 / PI)) (field md ["extra"; "end_azimuth_deg"]%string);
  mr_vel : per_source geo (fun q => number (p_vel q)) (field md ["extra"; "source_velocity_mps"]%string);
  mr_type : field md ["extra"; "motion_type"]%string = Some (PStr "arc");
  mr_ang : per_source geo (fun q => number (p_ang q)) (field md ["extra"; "angular_velocity_rad_s"]%string);
  mr_dir : per_source geo (fun q => PScalar (SInt (p_dir q))) (field md ["extra"; "turn_direction"]%string);
  mr_pre : field md ["extra"; "motion_profile"; "pre_static_ratio"]%string = Some (number (m_start (sa_motion s)));
  mr_mid : field md ["extra"; "motion_profile"; "move_ratio"]%string = Some (number (m_end (sa_motion s) - m_start (sa_motion s)));
  mr_post : field md ["extra"; "motion_profile"; "post_static_ratio"]%string = Some (number (1 - m_end (sa_motion s)));
  mr_total : field md ["extra"; "motion_time_sec"; "total"]%string = Some (number (m_dur (sa_motion s)));
  mr_from : field md ["extra"; "motion_time_sec"; "move_start"]%string = Some (number (m_dur (sa_motion s) * m_start (sa_motion s)));
  mr_to : field md ["extra"; "motion_time_sec"; "move_end"]%string = Some (number (m_dur (sa_motion s) * m_end (sa_motion s))) }.
