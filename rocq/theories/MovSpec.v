(** Specification vocabulary for C100: recordings of sources and microphones that move. *)
From Coq Require Import List ZArith Reals Bool.
From Verif Require Import Prelude SignalModel SignalSpec IsmModel.
Import ListNotations.
Local Open Scope R_scope.

(** Trajectories that fit to a room: [steps] steps of [ns] sources and [nm] microphones. *)
Record moving (r : room) (src mic : tensor) (steps ns nm dim : nat) (beta : list R) : Prop := {
  mv_dim : dim = 2%nat \/ dim = 3%nat;
  mv_size : shape (r_size r) = [dim]; mv_size_wf : wf (r_size r);
  mv_fs : 0 < r_fs r;
  mv_beta : resolve_beta r = Ok beta; mv_beta_len : List.length beta = (2 * dim)%nat;
  mv_steps : (0 < steps)%nat; mv_ns : (0 < ns)%nat; mv_nm : (0 < nm)%nat;
  mv_src : shape (unsqueeze_traj src) = [steps; ns; dim]; mv_mic : shape (unsqueeze_traj mic) = [steps; nm; dim] }.
(** Sample [tau] of a signal of [n] samples is played at step [k tau]. *)
Definition played_at (dev : device_type) (n steps : nat) (ts : option tensor) (fs : option R) (k : nat -> nat) : Prop :=
  exists starts, segment_starts dev n steps ts fs = Ok starts /\ List.length starts = steps /\ partition_starts starts n /\ segment_of starts n k.
