(** Specification vocabulary for animations and muxing. *)
From Coq Require Import Ascii String List ZArith Reals Bool.
From Verif Require Import Prelude RoomModel IoSpec VizModel.
Import ListNotations.
Local Open Scope R_scope.
Local Notation length := List.length.

(** The trajectories given all have [T] steps, and there is one. *)
Definition same_length (T : nat) (src mic : option nat) : Prop :=
  (src = Some T /\ (mic = None \/ mic = Some T)) \/ (src = None /\ mic = Some T).
(** Steps [0, step, 2 step, ...] as long as they are valid. *)
Record covers (T : nat) (step : Z) (shown : list Z) : Prop := mkCovers {
  cov_valid : forall x, In x shown -> (0 <= x < Z.of_nat T)%Z;
  cov_first : nth 0 shown (-1)%Z = 0%Z;
  cov_next : forall i, (S i < length shown)%nat -> nth (S i) shown 0%Z = (nth i shown 0 + step)%Z;
  cov_last : (Z.of_nat T - step <= last shown (-1) )%Z;
  cov_end : last shown (-1)%Z = (Z.of_nat T - 1)%Z <-> (step | Z.of_nat T - 1)%Z }.

(** ffmpeg does what it promises: a zero exit status means that its output is the video [v]
    with the sound file [a] as its track. *)
Definition honest (mux : bytes -> bytes -> bytes) (e : tools) (v a : bytes) : Prop :=
  exit_status e = Ok 0%Z -> mux_final e = Some (mux v a).
(** The two channels of a row that a listener should get: the only one twice, the ones asked
    for if both exist, else the first two. *)
Definition listens (n : nat) (l r : Z) (row out : list R) : Prop :=
  (n = 1%nat /\ exists x, row = [x] /\ out = [x; x]) \/
  (n <> 1%nat /\ (0 <= l < Z.of_nat n)%Z /\ (0 <= r < Z.of_nat n)%Z /\
     exists x y, nth_error row (Z.to_nat l) = Some x /\ nth_error row (Z.to_nat r) = Some y /\ out = [x; y]) \/
  (n <> 1%nat /\ ~ ((0 <= l < Z.of_nat n)%Z /\ (0 <= r < Z.of_nat n)%Z) /\ exists x y rest, row = x :: y :: rest /\ out = [x; y]).
