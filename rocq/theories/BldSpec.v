(** Specification vocabulary for the dataset builder. *)
From Coq Require Import String List ZArith Reals Bool Permutation.
From Verif Require Import Prelude RoomModel DsModel DsSpec BldModel.
Import ListNotations.
Local Notation length := List.length.
Local Open Scope R_scope.

(** A draw of a uniform generator. *)
Definition u01 (u : R) : Prop := 0 <= u < 1.
Definition u01_3 (u : p3) : Prop := u01 (px u) /\ u01 (py u) /\ u01 (pz u).
(** A trial: uniform draws and a permutation of the slots. *)
Definition fair_trial (n : nat) (d : draws) : Prop :=
  u01 (d_base d) /\ Permutation (seq 0 n) (d_perm d) /\
  (forall i, u01 (d_radius d i) /\ u01 (d_z d i) /\ u01 (d_speed d i)).
(** A scene: also [k] distinct indices of moving sources. *)
Definition fair_scene (a : scene_args) (d : scene_draws) : Prop :=
  u01_3 (sd_center d) /\ (forall k, fair_trial (Z.to_nat (sa_n a)) (sd_trials d k)) /\
  NoDup (sd_moving d) /\ (forall i, In i (sd_moving d) -> (i < Z.to_nat (sa_n a))%nat) /\
  Z.of_nat (length (sd_moving d)) = sa_moving a.

(** Inside the box between two corners (walls included). *)
Definition in_box (lo hi p : p3) : Prop :=
  px lo <= px p <= px hi /\ py lo <= py p <= py hi /\ pz lo <= pz p <= pz hi.
Definition in_room (room p : p3) : Prop := in_box (P3 0 0 0) room p.
Definition in_margin (room margin p : p3) : Prop :=
  in_box margin (P3 (px room - px margin) (py room - py margin) (pz room - pz margin)) p.
(** At least [d] away horizontally. *)
Definition away (d : R) (c p : p3) : Prop := d * d <= (px p - px c) * (px p - px c) + (py p - py c) * (py p - py c).
(** Rotation by [phi] about the vertical axis through [c]. *)
Definition rotate (c : p3) (phi : R) (p : p3) : p3 :=
  P3 (px c + (cos phi * (px p - px c) - sin phi * (py p - py c)))
     (py c + (sin phi * (px p - px c) + cos phi * (py p - py c)))
     (pz p).
(** [r] is the horizontal distance of [p] from [c]. *)
Definition hdist_is (r : R) (c p : p3) : Prop :=
  0 <= r /\ r * r = (px p - px c) * (px p - px c) + (py p - py c) * (py p - py c).

(** What the arguments must satisfy for a scene to exist. *)
Definition sensible (a : scene_args) : Prop :=
  0 < sa_edge a /\ (0 < sa_n a)%Z /\ (0 <= sa_moving a <= sa_n a)%Z /\
  0 <= m_start (sa_motion a) /\ m_start (sa_motion a) < m_end (sa_motion a) /\ m_end (sa_motion a) <= 1 /\
  0 < v_min (sa_motion a) /\ v_min (sa_motion a) <= v_max (sa_motion a) /\ 0 < m_dur (sa_motion a) /\
  pz (sa_margin a) < pz (sa_room a) - pz (sa_margin a).
(** There is room for a random centre: an interval of positive length on each axis. *)
Definition spacious (a : scene_args) : Prop :=
  let r := sa_edge a / sqrt 2 in
  2 * r < pz (sa_room a) /\
  forall f, f = px \/ f = py -> exists x y, x < y /\ forall c, c = x \/ c = y ->
    r <= c <= f (sa_room a) - r /\ f (sa_margin a) + 18 / 10 <= c <= f (sa_room a) - f (sa_margin a) - 18 / 10.
(** The given centre is at least 1.8 m inside the margins. *)
Definition center_fits (a : scene_args) : Prop :=
  forall f, f = px \/ f = py -> f (sa_margin a) + 18 / 10 <= f (sa_center a) <= f (sa_room a) - f (sa_margin a) - 18 / 10.

(** Clipping: a sample outside the range of the file format. *)
Definition clips (l : list R) : Prop := exists x, In x l /\ 1 < Rabs x.
(** Sum of the samples at one index. *)
Definition sum_at (stems : list (list R)) (i : nat) : R := fold_right Rplus 0 (map (fun s => nth i s 0) stems).

(** A row from utterances whose rates are not looked at. *)
Definition fixed_row_for (c : corpus) (target : nat) (spk : string) (ids : list string) (row : list R) : Prop :=
  length row = target /\
  exists all segs, utts c spk = Ok all /\ by_epochs all ids /\
    Forall2 (fun u a => exists f, audio_of c spk u = Ok (a, f)) ids segs /\
    row = firstn target (concat segs) /\
    (forall pre a, segs = pre ++ [a] -> (length (concat pre) < target)%nat).

(** The directory [root] and what is below it. *)
Definition inside (root p : bpath) : Prop := exists q, p = root ++ q.
