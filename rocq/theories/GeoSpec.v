(** Vocabulary for positions: displacement, distance, centroid, boxes. *)
From Coq Require Import String List ZArith Reals.
From Verif Require Import Prelude FloatModel DirSpec.
Import ListNotations.
Local Open Scope R_scope.
Local Notation length := List.length.

(** Vector from [c] to [p]; distance of two points. *)
Fixpoint disp (c p : list R) : list R :=
  match c, p with x :: c', y :: p' => (y - x) :: disp c' p' | _, _ => [] end.
Definition distance (c p : list R) : R := norm (disp c p).
(** [c] is the mean of the points. *)
Definition centred (c : list R) (pts : list (list R)) : Prop :=
  forall i, (i < length c)%nat -> rsum (length pts) (fun j => nth i (nth j pts []) 0) = INR (length pts) * nth i c 0.
(** [p] is [a] times [u]. *)
Definition multiple (a : R) (u p : list R) : Prop :=
  length p = length u /\ forall i, (i < length u)%nat -> nth i p 0 = a * nth i u 0.
(** [n] points at distance [r] of [c], equally spaced in angle: the angle between points i
    and j is 2 pi (i - j) / n. *)
Record ring (c : list R) (r : R) (n : nat) (pts : list (list R)) : Prop := {
  rg_length : length pts = n;
  rg_dim : forall p, In p pts -> length p = length c;
  rg_distance : forall p, In p pts -> distance c p = r;
  rg_angle : forall i j, (i < n)%nat -> (j < n)%nat ->
    dot (disp c (nth i pts [])) (disp c (nth j pts [])) = r ^ 2 * cos (2 * PI * (INR i - INR j) / INR n) }.
(** All points lie in the plane through [c] with normal [v]. *)
Definition in_plane (c v : list R) (pts : list (list R)) : Prop := forall p, In p pts -> dot v (disp c p) = 0.
(** Every coordinate lies between the corresponding bounds. *)
Definition in_box (lo hi p : list R) : Prop :=
  length lo = length p /\ length hi = length p /\ forall i, (i < length p)%nat -> nth i lo 0 <= nth i p 0 <= nth i hi 0.
(** Python floats; numbers of torch.float32; results of [random.Random.random]. *)
Definition double (x : R) : Prop := rnd64 x = x.
Definition single (x : R) : Prop := rnd32 x = x.
Definition random_draws (rng : nat -> R) : Prop := forall k, 0 <= rng k <= 1 - / 2 ^ 53.
(** The room leaves space for the margin on every axis (Python floats). *)
Definition spacious (size : list R) (margin : R) : Prop :=
  double margin /\ Forall (fun s => margin <= rnd64 (s - margin)) size.
(** Corners of the region allowed by the margin, in float32. *)
Definition low_corner (size : list R) (margin : R) : list R := map (fun _ => rnd32 margin) size.
Definition high_corner (size : list R) (margin : R) : list R := map (fun s => rnd32 (rnd64 (s - margin))) size.
(** Heights allowed by the margin and the requested range. *)
Definition z_feasible (size : list R) (margin zmin zmax : R) : Prop :=
  (3 <= length size)%nat /\ Rmax margin zmin < Rmin (rnd64 (nth 2 size 0 - margin)) zmax.
(** Regular polyhedra: name, number of vertices, cosine of the smallest angle between two
    vertices seen from the center. *)
Definition solids : list (string * nat * R) :=
  [("tetrahedron", 4%nat, - (1 / 3)); ("cube", 8%nat, 1 / 3); ("octahedron", 6%nat, 0);
   ("dodecahedron", 20%nat, sqrt 5 / 3); ("icosahedron", 12%nat, / sqrt 5)]%string.
(** [n] distinct points of the sphere of center [c] and radius [r]. *)
Record on_sphere (c : list R) (r : R) (n : nat) (pts : list (list R)) : Prop := {
  os_length : length pts = n;
  os_dim : forall p, In p pts -> length p = length c;
  os_distance : forall p, In p pts -> distance c p = r }.
(** Any two of them are seen from the center under an angle of cosine at most [k]. *)
Definition separated (c : list R) (r k : R) (pts : list (list R)) : Prop :=
  forall i j, (i < length pts)%nat -> (j < length pts)%nat -> i <> j ->
    dot (disp c (nth i pts [])) (disp c (nth j pts [])) <= r ^ 2 * k.
(** A vector that can hardly be told from a positive multiple of the x axis: its direction
    differs by at most 1.001e-5 along x and 1e-8 along the other axes. *)
Definition along_x (v : list R) : Prop :=
  match v with
  | [a; b; c] => Rabs (a - norm v) <= (/ 10 ^ 8 + / 10 ^ 5) * norm v /\ Rabs b <= / 10 ^ 8 * norm v /\ Rabs c <= / 10 ^ 8 * norm v
  | _ => False
  end.

(** The point in the direction of colatitude [t] and azimuth [f] in degrees, at distance [r] from [c]. *)
Definition at_angles (c : list R) (r t f : R) (p : list R) : Prop :=
  let k := PI / 180 in
  nth 0 p 0 = nth 0 c 0 + r * (sin (t * k) * cos (f * k)) /\ nth 1 p 0 = nth 1 c 0 + r * (sin (t * k) * sin (f * k)) /\
  nth 2 p 0 = nth 2 c 0 + r * cos (t * k).
(** Opposite points of a sphere up to [e] degrees in either angle. *)
Definition opposite (c : list R) (r e : R) (p q : list R) : Prop :=
  exists t f t' f', at_angles c r t f p /\ at_angles c r t' f' q /\ Rabs (t' - (180 - t)) <= e /\ Rabs (f' - (f + 180)) <= e.
