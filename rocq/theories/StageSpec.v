(** What the stages around the image sum should do, stated without the model's helpers:
    valid configurations, decay of the diffuse tail, Sabine's formula. *)
From Coq Require Import List ZArith Reals Bool.
From Verif Require Import Prelude DirModel IsmModel.
Import ListNotations.
Local Open Scope R_scope.
Local Notation length := List.length.

(** A value that, when given, satisfies [P]. *)
Definition given {A} (o : option A) (P : A -> Prop) : Prop := forall a, o = Some a -> P a.
(** Valid configurations (the documented constraints of config.py:22-39). *)
Definition valid_config (c : config) : Prop :=
  given (cfg_fs c) (fun x => 0 < x) /\ given (cfg_max_order c) (fun n => (0 <= n)%Z) /\
  given (cfg_tmax c) (fun x => 0 < x) /\ given (cfg_seed c) (fun n => (0 <= n)%Z) /\
  (0 < cfg_fdl c)%Z /\ Z.Odd (cfg_fdl c) /\ (0 < cfg_gran c)%Z /\
  (0 < cfg_img_chunk c)%Z /\ (0 < cfg_acc_chunk c)%Z /\ 0 < cfg_hpf_fc c /\
  given (cfg_hpf_n c) (fun n => (0 < n)%Z).
(** First available value. *)
Definition first {A} (o : option A) (d : option A) : option A := match o with Some a => Some a | None => d end.

(** Rate of the exponential decay: -60 dB after the estimated reverberation time, or 3 per
    second when there is none. *)
Definition tail_rate (t60 : option R) : R :=
  match t60 with Some t => if Rle_dec t 0 then 3 else 6.9078 / t | None => 3 end.

(** Room volume, wall surface (in 2-D: unit height, side walls only) and Sabine's absorption
    coefficient for a reverberation time. *)
Definition volume (size : list R) : R := match size with [x; y] => x * y | [x; y; z] => x * y * z | _ => 0 end.
Definition surface (size : list R) : R :=
  match size with [x; y] => 2 * (x + y) | [x; y; z] => 2 * (x * y + y * z + x * z) | _ => 0 end.
Definition sabine (size : list R) (t60 : R) : R := 0.161 * volume size / (t60 * surface size).
Definition size_ok (size : tensor) : Prop :=
  exists d, shape size = [d] /\ (d = 2 \/ d = 3)%nat /\ length (data size) = d /\ Forall (fun l => 0 < l) (data size).

(** Energy absorbed per unit of sound, wall by wall: the walls 2i and 2i+1 are perpendicular to
    axis [i] and have the area volume / side_i. *)
Definition absorbed (size beta : list R) : R :=
  lsum (map (fun i => volume size / nth i size 0 * ((1 - (nth (2 * i) beta 0)²) + (1 - (nth (2 * i + 1) beta 0)²)))
            (seq 0 (length size))).
(** Sound energy after the time [t] relative to the start: 60 dB are lost in [t60]. *)
Definition energy_left (t60 t : R) : R := Rpower 10 (- 6 * (t / t60)).
(** Energy ratio of an attenuation given in dB. *)
Definition of_db (db : R) : R := Rpower 10 (- db / 10).
