(** Specification vocabulary for C88: the geometry of the scenes of the example programs. *)
From Coq Require Import String List ZArith Reals Sorting.
From Verif Require Import Prelude FloatModel DirSpec GeoSpec ExModel.
Import ListNotations.
Local Open Scope R_scope.
Local Notation length := List.length.

(** A plane or a solid room with sides from one metre to a thousand kilometres. *)
Definition usual_room (room : list R) : Prop :=
  (length room = 2%nat \/ length room = 3%nat) /\ Forall (fun s => 1 <= s <= 10 ^ 6) room.
(** A plane or a solid room with positive sides and a positive sample rate. *)
Definition sound_room (room : list R) (fs : Z) : Prop :=
  (length room = 2%nat \/ length room = 3%nat) /\ Forall (fun s => 0 < s) room /\ (0 < fs)%Z.
(** A point at least half a metre away from every wall; sides are numbers of float32. *)
Definition kept (room p : list R) : Prop :=
  length p = length room /\ forall i, (i < length room)%nat -> 1 / 2 <= nth i p 0 <= rnd32 (nth i room 0) - 1 / 2.
(** At the height of a mouth if the room is higher than two metres. *)
Definition mouth_height (room p : list R) : Prop :=
  length room = 3%nat -> 2 < rnd32 (nth 2 room 0) -> 3 / 2 <= nth 2 p 0 <= 9 / 5.
(** One metre and a half from [c], but for the error [e] of the norm and one rounding. *)
Definition far (e : R) (c p : list R) : Prop := 3 / 2 <= (1 + e) * (1 + / 2 ^ 24) * distance c p.
(** A place for a source. *)
Definition source_place (room : list R) (e : R) (c p : list R) : Prop := kept room p /\ mouth_height room p /\ far e c p.
(** Space between neighbours: two microphones stand twice as far apart as those of longer rows. *)
Definition gap (n : nat) : R := if Nat.eq_dec n 2 then 16 / 100 else 8 / 100.
(** A row of [n] microphones along x centred at [c], cut ten centimetres before the walls. *)
Definition row_at (room c : list R) (n : nat) (mics : list (list R)) : Prop :=
  length mics = n /\ forall j, (j < n)%nat ->
    length (nth j mics []) = length room /\
    nth 0 (nth j mics []) 0 = Rmin (Rmax (nth 0 c 0 + (INR j - (INR n - 1) / 2) * gap n) (1 / 10)) (rnd32 (nth 0 room 0) - 1 / 10) /\
    forall i, (0 < i < length room)%nat -> nth i (nth j mics []) 0 = nth i c 0.
(** The point at the fraction [f] of the way from [a] to [b]. *)
Definition on_way (a b : list R) (f : R) (p : list R) : Prop :=
  length p = length a /\ forall i, (i < length a)%nat -> nth i p 0 = nth i a 0 + f * (nth i b 0 - nth i a 0).
(** A straight track at constant speed: step [t] of [n] is at the fraction t / (n - 1). *)
Definition straight (n : nat) (a b : list R) (track : nat -> xpoint) : Prop :=
  forall t, (t < n)%nat -> exists p, track t = Some p /\ on_way a b (INR t / (INR n - 1)) p.
(** Steps of a run: at least two. *)
Definition steps_of (steps : Z) : nat := Z.to_nat (Z.max 2 steps).
(** [sample(range(n), k)] gives [k] different numbers below [n]. *)
Definition fair_pick (d : draws) : Prop :=
  forall n k, (k <= n)%nat -> length (d_pick d n k) = k /\ NoDup (d_pick d n k) /\ Forall (fun i => (i < n)%nat) (d_pick d n k).
(** The three motions of the data set.  A zigzag turns at step max(2, n / 2) - 1; when no step
    remains after the turn the last position is not a number. *)
Inductive motion (room : list R) (n : nat) (start : list R) (track : nat -> xpoint) : string -> Prop :=
| stands : (forall t, (t < n)%nat -> track t = Some start) -> motion room n start track "static"
| goes e : kept room e -> mouth_height room e -> straight n start e track -> motion room n start track "linear"
| turns m e s : kept room m -> mouth_height room m -> kept room e -> mouth_height room e ->
    s = Nat.max 2 (n / 2) ->
    (forall t, (t + 1 < s)%nat -> exists p, track t = Some p /\ on_way start m (INR t / (INR s - 1)) p) ->
    (s < n -> forall t, s - 1 <= t < n -> exists p, track t = Some p /\ on_way m e (INR (t - (s - 1)) / INR (n - s)) p)%nat ->
    (n = s -> track (s - 1) = None)%nat ->
    motion room n start track "zigzag".

(** Track of source (or microphone) [i] in a table with one row for each step. *)
Definition track_of (rows : list (list xpoint)) (i t : nat) : xpoint := nth i (nth t rows []) None.
(** [n] sources, of which [moves] go straight, before a fixed row of [m] microphones. *)
Record moving_sources_scene (e : R) (room : list R) (level : bool) (moves : nat -> bool) (n m T : nat) (d : dyn_scene) : Prop := {
  ms_center : exists c, kept room c /\ row_at room c m (dy_mics d) /\ forall p, In p (dy_sources d) -> source_place room e c p;
  ms_count : length (dy_sources d) = n;
  ms_mics : dy_mic d = repeat (map Some (dy_mics d)) T;
  ms_steps : length (dy_src d) = T;
  ms_rows : forall row, In row (dy_src d) -> length row = n;
  ms_tracks : forall i, (i < n)%nat ->
    let start := nth i (dy_sources d) [] in
    if moves i
    then exists b, kept room b /\ mouth_height room b /\ (level = true -> length room = 3%nat -> nth 2 b 0 = nth 2 start 0) /\
           straight T start b (track_of (dy_src d) i)
    else forall t, (t < T)%nat -> track_of (dy_src d) i t = Some start }.
(** A row of [m] microphones whose center goes straight, before [n] fixed sources. *)
Record moving_mics_scene (e : R) (room : list R) (level : bool) (n m T : nat) (d : dyn_scene) : Prop := {
  mm_count : length (dy_sources d) = n;
  mm_sources : dy_src d = repeat (map Some (dy_sources d)) T;
  mm_steps : length (dy_mic d) = T;
  mm_first : nth 0 (dy_mic d) [] = map Some (dy_mics d);
  mm_centers : exists c0 c1, kept room c0 /\ kept room c1 /\ (level = true -> length room = 3%nat -> nth 2 c1 0 = nth 2 c0 0) /\
    (forall p, In p (dy_sources d) -> source_place room e c0 p) /\
    forall t, (t < T)%nat -> exists c mics, on_way c0 c1 (INR t / (INR T - 1)) c /\ row_at room c m mics /\ nth t (dy_mic d) [] = map Some mics }.
(** A scene of the data set: [n] sources with motions, before the row of microphones at [c]. *)
Record dataset_scene (e : R) (room c : list R) (n m T : nat) (d : dyn_scene) : Prop := {
  ds_center : kept room c /\ row_at room c m (dy_mics d) /\ forall p, In p (dy_sources d) -> source_place room e c p;
  ds_count : length (dy_sources d) = n;
  ds_mics : dy_mic d = repeat (map Some (dy_mics d)) T;
  ds_steps : length (dy_src d) = T;
  ds_rows : forall row, In row (dy_src d) -> length row = n;
  ds_motions : forall i, (i < n)%nat -> exists mode, motion room T (nth i (dy_sources d) []) (track_of (dy_src d) i) mode }.
(** The trajectories of a scene of the data set around [c]: positions, motions, moving sources. *)
Record source_motions (e : R) (room c : list R) (n k T : nat) (rows : list (list xpoint)) (modes : list string) (moving : list nat)
    (starts : list (list R)) : Prop := {
  sm_starts : length starts = n /\ forall p, In p starts -> source_place room e c p;
  sm_first : nth 0 rows [] = map Some starts;
  sm_steps : length rows = T;
  sm_rows : forall row, In row rows -> length row = n;
  sm_modes : length modes = n;
  sm_motions : forall i, (i < n)%nat -> motion room T (nth i starts []) (track_of rows i) (nth i modes ""%string);
  sm_moving : forall i, In i moving <-> (i < n)%nat /\ nth i modes ""%string <> "static"%string;
  sm_sorted : StronglySorted lt moving;
  sm_picked : length moving = k }.
(** Every coordinate at least [margin] away from the walls. *)
Definition inside (room : list R) (margin : R) (p : list R) : Prop :=
  length p = length room /\ forall i, (i < length room)%nat -> margin <= nth i p 0 <= rnd32 (nth i room 0) - margin.
(** The diagonal of the box of the kept points. *)
Definition longest_way (room : list R) : R := norm (map (fun s => rnd32 s - 1) room).
(** Distance of the microphones [j] and [j + 1] along the row. *)
Definition spacing (mics : list (list R)) (j : nat) : R := nth 0 (nth (S j) mics []) 0 - nth 0 (nth j mics []) 0.
