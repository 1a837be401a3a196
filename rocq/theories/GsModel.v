(** Model of the geometry of /repo/examples/getting_started.py (the program of the
    documentation), after the two speakers are loaded.

    Python floats and float32 tensors round after every operation.  Simplifications: the two
    additions inside [binaural_array] are exact (GeoModel.v); cosine and sine of
    [math.radians] of the two angles, the fractions of [torch.linspace] and the norm come from
    outside ([maths]); audio, pictures and prints are left out. *)
From Coq Require Import List ZArith Reals Bool.
From Verif Require Import Prelude FloatModel DirModel RoomModel GeoModel.
Import ListNotations.
Local Open Scope R_scope.

(** [math.cos(math.radians(deg))], [math.sin(math.radians(deg))], entry [k] of
    [torch.linspace(0.0, 1.0, n)] and [torch.linalg.norm], getting_started.py:86-90, 97, 176. *)
Record maths := mkMaths { m_cos : R -> R; m_sin : R -> R; m_lin : nat -> nat -> R; m_norm : list R -> R }.
(** [room.size / 2.0] of the room of 8 m, 6 m and 3 m, getting_started.py:64, 68. *)
Definition room_center : list R := [rnd32 (8 / 2); rnd32 (6 / 2); rnd32 (3 / 2)].
(** [torch.tensor([rng.uniform(-a, a), ...])], getting_started.py:69-76; [k] draws were made
    while loading the speakers. *)
Definition jitter (g : stream) (k : nat) : list R :=
  let u a i := rnd32 (uniform (rnd64 (- a)) (rnd64 a) (g (k + i)%nat)) in
  [u (3 / 100) 0%nat; u (3 / 100) 1%nat; u (1 / 100) 2%nat].
(** float32 tensors, one rounding for each entry, getting_started.py:77, 96, 175-177. *)
Definition add32 (p q : list R) : list R := map2 (fun x y => rnd32 (x + y)) p q.
(** getting_started.py:96, 177, 183-184. *)
Definition sub32 (p q : list R) : list R := map2 (fun x y => rnd32 (x - y)) p q.
(** [room_center + mic_jitter], getting_started.py:77. *)
Definition mic_center (g : stream) (k : nat) : list R := add32 room_center (jitter g k).
(** A source at 2.2 m from the center, getting_started.py:82-94. *)
Definition source_at (m : maths) (c : list R) (deg : R) : list R :=
  [rnd32 (rnd64 (nth 0 c 0 + rnd64 (rnd64 (22 / 10) * m_cos m deg)));
   rnd32 (rnd64 (nth 1 c 0 + rnd64 (rnd64 (22 / 10) * m_sin m deg))); rnd32 (3 / 2)].
(** The positions: center, microphones, sources; [assert torch.all(radii >= 2.0)] and
    [assert angle_gap >= 30.0], getting_started.py:64-102. *)
Definition common_setup (m : maths) (g : stream) (k : nat) : result (list R * list (list R) * list (list R)) :=
  let c := mic_center g k in
  do mics <- binaural_array (mkV Float c) (10 / 100);
  let src := map (source_at m c) [30; 150] in
  let radii := map (fun p => m_norm m (sub32 (firstn 2 p) (firstn 2 c))) src in
  if negb (forallb (fun r => negb (Rltb r 2)) radii) then Err AssertionError
  else if Rltb (Rabs (150 - 30)) 30 then Err AssertionError
  else Ok (c, mics, src).
(** The second source at step [k] of 128, getting_started.py:170, 174-177. *)
Definition moving_source (m : maths) (a b : list R) (k : nat) : list R :=
  let end_ := add32 a (map rnd32 [35 / 100; 10 / 100; 0]) in
  add32 b (map (fun x => rnd32 (m_lin m 128 k * x)) (sub32 end_ b)).
(** The film: sources and microphones at every step; [assert dist_end < dist_start],
    getting_started.py:170-185. *)
Definition film (m : maths) (mics src : list (list R)) : result (list (list (list R)) * list (list (list R))) :=
  let a := nth 0 src [] in
  let b := nth 1 src [] in
  let rows := map (fun k => [a; moving_source m a b k]) (seq 0 128) in
  let dist row := m_norm m (sub32 (nth 1 row []) (nth 0 row [])) in
  if Rltb (dist (nth 127 rows [])) (dist (nth 0 rows [])) then Ok (rows, repeat mics 128) else Err AssertionError.
