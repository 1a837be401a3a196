(** Specification vocabulary for the walls a simulation uses. *)
From Coq Require Import Reals List ZArith.
From Verif Require Import Prelude IsmModel.
Import ListNotations.
Open Scope R_scope.

(** The same room with the given wall coefficients and nothing else said about its walls. *)
Definition with_walls (r : room) (b : list R) : room := mkRoom (r_size r) (r_fs r) (r_c r) (Some b) None.
(** Two rooms that no simulation, static or dynamic, can tell apart. *)
Definition same_simulations (r r' : room) : Prop :=
  (forall X dev srcs mics mo nb ns tmax tdiff dir ori cfg,
     simulate_rir X dev r srcs mics mo nb ns tmax tdiff dir ori cfg =
     simulate_rir X dev r' srcs mics mo nb ns tmax tdiff dir ori cfg) /\
  (forall X dev src mic mo nb ns tmax dir ori cfg,
     simulate_dynamic_rir X dev r src mic mo nb ns tmax dir ori cfg =
     simulate_dynamic_rir X dev r' src mic mo nb ns tmax dir ori cfg).
