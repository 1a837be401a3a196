(** Specification vocabulary for C90: the scene of the documentation. *)
From Coq Require Import List ZArith Reals.
From Verif Require Import Prelude FloatModel DirSpec GeoSpec GsModel.
Import ListNotations.
Local Open Scope R_scope.
Local Notation length := List.length.

(** Elementary functions that are right up to small errors: a thousandth for the norm, a
    millionth for fractions and angles; the fractions stay between 0 and 1. *)
Definition sound_maths (m : maths) : Prop :=
  (forall deg, Rabs (m_cos m deg - cos (deg * PI / 180)) <= / 10 ^ 6) /\
  (forall deg, Rabs (m_sin m deg - sin (deg * PI / 180)) <= / 10 ^ 6) /\
  (forall n k, (k < n)%nat -> 0 <= m_lin m n k <= 1 /\ Rabs (m_lin m n k - INR k / (INR n - 1)) <= / 10 ^ 6) /\
  (forall v, norm v * (1 - / 1000) <= m_norm m v <= norm v * (1 + / 1000)).
(** All coordinates of [p] within [e] of those of [q]. *)
Definition near (e : R) (p q : list R) : Prop := length p = length q /\ forall i, (i < length q)%nat -> Rabs (nth i p 0 - nth i q 0) <= e.
(** A point of the room of 8 m, 6 m and 3 m, [margin] away from the walls. *)
Definition in_room (margin : R) (p : list R) : Prop :=
  exists x y z, p = [x; y; z] /\ margin <= x <= 8 - margin /\ margin <= y <= 6 - margin /\ margin <= z <= 3 - margin.
(** The distance of the sources in a row of the film. *)
Definition apart (row : list (list R)) : R := distance (nth 0 row []) (nth 1 row []).
(** The announced set-up: the array around the middle of the room, microphones 20 cm apart, two
    sources on a circle of 2.2 m at 30 and 150 degrees at the height of 1.5 m (but for rounding),
    two metres or more away and 30 degrees or more apart as seen from the center. *)
Record setup_ok (c : list R) (mics src : list (list R)) : Prop := {
  so_center : exists x y z, c = [x; y; z] /\ Rabs (x - 4) <= 3 / 100 + / 10 ^ 5 /\ Rabs (y - 3) <= 3 / 100 + / 10 ^ 5 /\ Rabs (z - 3 / 2) <= 1 / 100 + / 10 ^ 5;
  so_mics : exists l r, mics = [l; r] /\ distance l r = 20 / 100 /\ centred c mics;
  so_sources : exists a b, src = [a; b] /\
    near (/ 10 ^ 5) a [nth 0 c 0 + 22 / 10 * cos (PI / 6); nth 1 c 0 + 22 / 10 * sin (PI / 6); 3 / 2] /\
    near (/ 10 ^ 5) b [nth 0 c 0 + 22 / 10 * cos (5 * PI / 6); nth 1 c 0 + 22 / 10 * sin (5 * PI / 6); 3 / 2] /\
    cosine (disp c a) (disp c b) <= cos (PI / 6);
  so_far : forall p, In p src -> 2 <= distance c p;
  so_inside : forall p, In p (mics ++ src) -> in_room (14 / 10) p }.
(** The film: 128 steps, microphones and first source at rest, the second source from its place
    straight at constant speed to a place 35 cm and 10 cm behind the first one. *)
Record film_ok (mics src : list (list R)) (rows mic_rows : list (list (list R))) : Prop := {
  fo_steps : length rows = 128%nat;
  fo_mics : mic_rows = repeat mics 128;
  fo_rows : forall k, (k < 128)%nat -> exists p, nth k rows [] = [nth 0 src []; p] /\
    let a := nth 0 src [] in let b := nth 1 src [] in
    near (/ 10 ^ 4) p (map (fun i => nth i b 0 + INR k / 127 * (nth i a 0 + nth i [35 / 100; 10 / 100; 0] 0 - nth i b 0)) [0; 1; 2]%nat);
  fo_inside : forall k p, (k < 128)%nat -> In p (nth k rows []) -> in_room (14 / 10) p }.
