(** Specification vocabulary for scene metadata: JSON values, look-ups, positions over time. *)
From Coq Require Import String List ZArith Reals Bool.
From Verif Require Import Prelude AccumModel MetaModel.
Import ListNotations.
Local Open Scope R_scope.
Local Notation length := List.length.

(** JSON values: null, booleans, numbers, strings, arrays, objects with string keys. *)
Fixpoint json (v : pyval) : Prop :=
  match v with
  | PNone | PScalar _ | PStr _ => True
  | PList l => (fix all l := match l with [] => True | x :: l' => json x /\ all l' end) l
  | PDict l => (fix all l := match l with
                             | [] => True
                             | (k, x) :: l' => (exists s, k = KStr s) /\ json x /\ all l' end) l
  | _ => False
  end.
(** Values built from JSON values, tensors, paths and tuples. *)
Fixpoint supported (v : pyval) : Prop :=
  match v with
  | PNone | PScalar _ | PStr _ | PTensor _ _ | PPath _ => True
  | PList l | PTuple l => (fix all l := match l with [] => True | x :: l' => supported x /\ all l' end) l
  | PDict l => (fix all l := match l with
                             | [] => True
                             | (k, x) :: l' => (exists s, k = KStr s) /\ supported x /\ all l' end) l
  | POther _ => False
  end.

(** Nested member [v["k1"]["k2"]...] and nested entry [v[i][j]...]. *)
Fixpoint lookup (l : list (pykey * pyval)) (k : string) : option pyval :=
  match l with
  | [] => None
  | (KStr s, v) :: l' => if String.eqb s k then Some v else lookup l' k
  | _ :: l' => lookup l' k
  end.
Fixpoint field (v : pyval) (ks : list string) : option pyval :=
  match ks with
  | [] => Some v
  | k :: ks' => match v with
                | PDict l => match lookup l k with Some w => field w ks' | None => None end
                | _ => None
                end
  end.
Fixpoint item (v : pyval) (idx : list nat) : option pyval :=
  match idx with
  | [] => Some v
  | i :: idx' => match v with
                 | PList l => match nth_error l i with Some w => item w idx' | None => None end
                 | _ => None
                 end
  end.
(** A multi-index within a shape. *)
Definition within (idx sh : list nat) : Prop := Forall2 lt idx sh.
(** [v] holds the number [x]. *)
Definition number (x : R) : pyval := PScalar (SFloat (Some x)).

(** Steps and number of entities described by a trajectory argument next to positions. *)
Definition steps (traj : option tensor) : nat :=
  match traj with None => 1%nat | Some t => hd 0%nat (shape t) end.
Definition entities (traj : option tensor) (pos : tensor) : nat :=
  match traj with
  | None => hd 0%nat (shape pos)
  | Some t => if (length (shape t) =? 2)%nat then 1%nat else nth 1 (shape t) 0%nat
  end.
(** Coordinate [k] of entity [i] at step [t]: a static position or one-step trajectory stays
    where it is. *)
Definition place (traj : option tensor) (pos : tensor) (t i k : nat) : R :=
  match traj with
  | None => tget pos [i; k]
  | Some tr =>
      let t' := if (steps traj =? 1)%nat then 0%nat else t in
      if (length (shape tr) =? 2)%nat then tget tr [t'; k] else tget tr [t'; i; k]
  end.
(** A trajectory argument that describes points of dimension [dim]. *)
Definition proper (traj : option tensor) (pos : tensor) (dim : nat) : Prop :=
  match traj with
  | None => exists n, shape pos = [n; dim] /\ wf pos
  | Some t => wf t /\ ((exists s, shape t = [s; dim]) \/ exists s n, shape t = [s; n; dim])
  end.
(** Two numbers of steps that can be combined. *)
Definition compatible (a b : nat) : Prop := a = b \/ (a = 1 /\ 1 < b)%nat \/ (b = 1 /\ 1 < a)%nat.

(** Azimuth [a] and elevation [e] of the vector with the given coordinates: spherical
    coordinates with the length of the vector give it back. *)
Definition points_along (a e x y z : R) : Prop :=
  let d := sqrt (x ^ 2 + y ^ 2 + z ^ 2) in
  x = d * (cos e * cos a) /\ y = d * (cos e * sin a) /\ z = d * sin e /\
  - PI < a <= PI /\ - (PI / 2) <= e <= PI / 2.

(** Distance of points [i] and [j] of a list of points; [s] is the smallest positive one. *)
Definition distance (t : tensor) (d i j : nat) : R := sqrt (rsum d (fun k => (tget t [i; k] - tget t [j; k]) ^ 2)).
Definition closest (t : tensor) (n d : nat) (s : R) : Prop :=
  0 < s /\ (exists i j, (i < n)%nat /\ (j < n)%nat /\ distance t d i j = s) /\
  forall i j, (i < n)%nat -> (j < n)%nat -> 0 < distance t d i j -> s <= distance t d i j.
