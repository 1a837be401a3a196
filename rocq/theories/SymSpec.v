(** Specification vocabulary for changes of units and of axes. *)
From Coq Require Import List ZArith Reals Bool.
From Verif Require Import Prelude DirModel ImageSpec IsmModel IsmSpec.
Import ListNotations.
Local Open Scope R_scope.

(** ** Other units of length *)
(** All numbers of a tensor multiplied by [k]. *)
Definition tscale (k : R) (t : tensor) : tensor := mkT (shape t) (map (Rmult k) (data t)).
(** Positions multiplied by [k]; orientations are directions and do not change. *)
Definition escale (k : R) (e : entity) : entity :=
  match e with EObj p q => EObj (tscale k p) q | ETensor p => ETensor (tscale k p) end.
(** The same room with lengths and the speed of sound expressed in a unit that is [k] times smaller. *)
Definition in_units (k : R) (r : room) : room :=
  mkRoom (tscale k (r_size r)) (r_fs r) (k * r_c r) (r_beta r) (r_t60 r).
(** The same room with the unit of time [k] times larger. *)
Definition in_time_units (k : R) (r : room) : room :=
  mkRoom (r_size r) (k * r_fs r) (k * r_c r) (r_beta r) (r_t60 r).

(** Multiplication of a simulation outcome by a number: errors stay errors. *)
Definition times (a : R) (res : result xtensor) : result xtensor :=
  match res with Ok T => Ok (mkX (xshape T) (map (xscale a) (xdata T))) | Err e => Err e end.

(** Every image is far enough from the microphone for the one micrometre floor not to matter. *)
Definition far (k : R) (src mic size : list R) (n : list Z) : Prop :=
  / 10 ^ 6 <= euclid mic (image_of src size n) /\ / 10 ^ 6 <= k * euclid mic (image_of src size n).

(** The external filter does not care about the scale of its input (true of linear filters). *)
Definition homogeneous (X : externals) : Prop :=
  forall a s row, 0 < a -> x_filt X s (map (xscale a) row) =
    match x_filt X s row with Ok out => Ok (map (xscale a) out) | Err e => Err e end.

(** ** Renaming of the axes *)
(** Coordinate [i] of the result is coordinate [nth i p] of the argument. *)
Definition permute {A} (d : A) (p : list nat) (l : list A) : list A := map (fun i => nth i l d) p.
(** The two walls of each axis move together. *)
Definition permute_walls (p : list nat) (beta : list R) : list R :=
  flat_map (fun i => [nth (2 * i) beta 0; nth (2 * i + 1) beta 0]) p.
