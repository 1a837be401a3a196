(** Specification vocabulary for C97: how a response depends on the walls. *)
From Coq Require Import List ZArith Reals Bool.
From Verif Require Import Prelude ImageSpec IsmModel IsmSpec.
Import ListNotations.
Local Open Scope R_scope.

(** The same box and medium; nothing is said about the walls. *)
Definition same_box (r r' : room) : Prop := r_size r' = r_size r /\ r_fs r' = r_fs r /\ r_c r' = r_c r.
(** The coefficients of the walls met on the way to an image. *)
Fixpoint met (walls : list (R * R)) (n : list Z) : list R :=
  match walls, n with
  | (lo, hi) :: ws, k :: ks => map (wall_of lo hi) (planes k) ++ met ws ks
  | _, _ => []
  end.
(** Sum over images of the number of reflections divided by the distance. *)
Definition reflections_over_distance (size src mic : list R) (images : list (list Z)) : R :=
  fold_right Rplus 0 (map (fun n => IZR (order_of n) / ray_length src mic size n) images).
(** Sum over images of the inverse distance. *)
Definition inverse_distances (size src mic : list R) (images : list (list Z)) : R :=
  fold_right Rplus 0 (map (fun n => / ray_length src mic size n) images).
