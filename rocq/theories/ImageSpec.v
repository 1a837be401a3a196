(** Specification vocabulary for the image method: reflections, walls, boxes of indices. *)
From Coq Require Import List ZArith Reals Bool.
Import ListNotations.
Local Open Scope R_scope.

(** Mirror image of a coordinate in the plane at coordinate [w]. *)
Definition mirror (w x : R) : R := 2 * w - x.

(** Successive mirroring in the planes [len], [2 len], ..., [k len]. *)
Fixpoint reflect_up (len x : R) (k : nat) : R :=
  match k with
  | O => x
  | S k' => mirror (INR k * len) (reflect_up len x k')
  end.
(** Successive mirroring in the planes [0], [-len], ..., [-(k-1) len]. *)
Fixpoint reflect_down (len x : R) (k : nat) : R :=
  match k with
  | O => x
  | S k' => mirror (- INR k' * len) (reflect_down len x k')
  end.
(** Coordinate of the image number [n]: the source mirrored |n| times away from the room. *)
Definition reflected (len x : R) (n : Z) : R :=
  match n with
  | Z0 => x
  | Zpos p => reflect_up len x (Pos.to_nat p)
  | Zneg p => reflect_down len x (Pos.to_nat p)
  end.

(** Plane number [j] (at coordinate [j * len]) is a copy of the low wall for even [j] and of
    the high wall for odd [j]. *)
Definition wall_of (lo hi : R) (j : Z) : R := if Z.even j then lo else hi.

(** Planes met between the room (cell 0) and cell [n]. *)
Definition planes (n : Z) : list Z :=
  match n with
  | Z0 => []
  | Zpos p => map (fun i => (Z.of_nat i + 1)%Z) (seq 0 (Pos.to_nat p))
  | Zneg p => map (fun i => (- Z.of_nat i)%Z) (seq 0 (Pos.to_nat p))
  end.

(** Product of the coefficients of a list of planes. *)
Fixpoint wall_product (lo hi : R) (js : list Z) : R :=
  match js with [] => 1 | j :: r => wall_of lo hi j * wall_product lo hi r end.

(** Walls of all axes: one (low, high) pair per axis, one index per axis. *)
Fixpoint path_gain (walls : list (R * R)) (n : list Z) : R :=
  match walls, n with
  | (lo, hi) :: ws, k :: ks => wall_product lo hi (planes k) * path_gain ws ks
  | _, _ => 1
  end.

(** L1 norm of an index vector. *)
Definition order_of (n : list Z) : Z := fold_right Z.add 0%Z (map Z.abs n).

(** Coordinates inside the closed box [0, size]. *)
Definition inside (p size : list R) : Prop := Forall2 (fun x l => 0 <= x <= l) p size.

(** Euclidean distance. *)
Definition sqdist (p q : list R) : R :=
  fold_right Rplus 0 (map (fun ab => (fst ab - snd ab) * (fst ab - snd ab)) (combine p q)).
Definition euclid (p q : list R) : R := sqrt (sqdist p q).
