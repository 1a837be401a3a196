(** Specification vocabulary for C76 (scene plots) and C77 (picture files). *)
From Coq Require Import String Ascii List ZArith Reals Bool.
From Verif Require Import Prelude ScnModel.
Import ListNotations.
Local Open Scope R_scope.
Local Notation length := List.length.

(** Two points at most [d] apart. *)
Definition within (d : R) (a b : list R) : Prop := lsum (map2 (fun x y => (x - y)²) a b) <= d².
(** Entities leave their drawn positions. *)
Definition moves (t : trajectory) (p : postab) : Prop :=
  exists s i, (s < t_steps t)%nat /\ (i < t_n t)%nat /\ ~ within (/ 10 ^ 6) (t_at t s i) (p_row p i).

(** Reading a drawing. *)
Definition hidden (label : string) : bool := match label with String "_" _ => true | _ => false end.
(** Entries of the legend, in order. *)
Definition legend (d : list cmd) : list string :=
  flat_map (fun c => match c with CLine _ l _ _ | CScatter _ l _ _ => if hidden l then [] else [l] | _ => [] end) d.
Definition paths (d : list cmd) : list (list (list R)) :=
  flat_map (fun c => match c with CLine p _ _ _ => [p] | _ => [] end) d.
Definition markers (d : list cmd) : list (list R) :=
  flat_map (fun c => match c with CScatter p _ _ _ => p | _ => [] end) d.
Definition indices (d : list cmd) : list (list R * nat) :=
  flat_map (fun c => match c with CIndex p i => [(p, i)] | _ => [] end) d.
Definition outline (d : list cmd) : list (list R * list R) :=
  flat_map (fun c => match c with CEdge a b => [(a, b)] | _ => [] end) d.
Definition limits (d : list cmd) : list (nat * (R * R)) :=
  flat_map (fun c => match c with CLim a lo hi => [(a, (lo, hi))] | _ => [] end) d.

(** A corner of the box: every coordinate is zero or the side. *)
Definition corner (size p : list R) : Prop := Forall2 (fun l x => x = 0 \/ x = l) size p.
(** Number of coordinates in which two points differ. *)
Fixpoint differ (a b : list R) : nat :=
  match a, b with x :: a', y :: b' => ((if Req_EM_T x y then 0 else 1) + differ a' b')%nat | _, _ => 0%nat end.
(** Positions and trajectories of entities in a room of [dim] dimensions. *)
Definition pos_ok (dim : nat) (p : postab) : Prop := p_dim p = dim /\ forall i, (i < p_n p)%nat -> length (p_row p i) = dim.
Definition traj_ok (dim : nat) (t : trajectory) : Prop :=
  t_dim t = dim /\ forall s i, (s < t_steps t)%nat -> (i < t_n t)%nat -> length (t_at t s i) = dim.
(** The steps that a path with stride [k] visits: 0, k, 2k, ... below [n]. *)
Definition visited (n k : nat) (l : list nat) : Prop :=
  (forall s, In s l <-> (s < n)%nat /\ Nat.divide k s) /\ (forall i j, (i < j < length l)%nat -> (nth i l 0 < nth j l 0)%nat).
Definition rectangles (d : list cmd) : list (R * R) := flat_map (fun c => match c with CRect w h => [(w, h)] | _ => [] end) d.
(** The room as drawn: a rectangle, or every edge of the box once; axes from zero to the side. *)
Definition shows_room (size : list R) (d : list cmd) : Prop :=
  limits d = map (fun i => (i, (0, nth i size 0))) (seq 0 (length size)) /\
  match size with
  | [x; y] => rectangles d = [(x, y)] /\ outline d = []
  | _ => rectangles d = [] /\ length (outline d) = 12%nat /\
         forall a b, In (a, b) (outline d) \/ In (b, a) (outline d) <-> corner size a /\ corner size b /\ differ a b = 1%nat
  end.
(** Every member of a group at its position, one legend entry for the group. *)
Definition rows (p : postab) (q : list R) : Prop := exists i, (i < p_n p)%nat /\ q = p_row p i.
(** Paths drawn for a group: one per member through every [step]-th position, if the group moves. *)
Definition shows_paths (t : trajectory) (p : postab) (step : Z) (l : list (list (list R))) : Prop :=
  exists ls, visited (t_steps t) (Z.to_nat step) ls /\
    (moves t p /\ l = map (fun i => map (fun s => t_at t s i) ls) (seq 0 (t_n t)) \/ ~ moves t p /\ l = []).
(** A drawing of a static and of a moving scene. *)
Definition static_scene (room : list R) (src mic : postab) (idx : bool) (d : list cmd) : Prop :=
  shows_room room d /\ legend d = ["sources"; "mics"]%string /\ paths d = [] /\
  markers d = map (p_row src) (seq 0 (p_n src)) ++ map (p_row mic) (seq 0 (p_n mic)) /\
  indices d = (if idx then map (fun i => (p_row src i, i)) (seq 0 (p_n src)) else []).
Definition moving_scene (room : list R) (ts tm : trajectory) (src mic : postab) (step : Z) (idx : bool) (d : list cmd) : Prop :=
  shows_room room d /\ legend d = ["sources"; "mics"]%string /\
  (exists a b, paths d = a ++ b /\ shows_paths ts src step a /\ shows_paths tm mic step b) /\
  (forall q, In q (markers d) <-> rows src q \/ rows mic q) /\
  indices d = (if idx then map (fun i => (p_row src i, i)) (seq 0 (p_n src)) else []).
(** Points of a drawing with their colours, markers and paths alike. *)
Definition painted (d : list cmd) : list (list R * string) :=
  flat_map (fun c => match c with
                     | CScatter p _ (Some h) _ => map (fun q => (q, h)) p
                     | CLine p _ h _ => map (fun q => (q, h)) p
                     | _ => []
                     end) d.
(** The colour of source [i]: the colours of the style in turn, six named ones if it has none. *)
Definition hue (style : list string) (i : nat) : string :=
  let l := match style with [] => ["C0"; "C1"; "C2"; "C3"; "C4"; "C5"]%string | _ => style end in
  nth (i mod length l) l ""%string.
(** A point at which entity [i] is drawn. *)
Definition spot (t : trajectory) (p : postab) (i : nat) (q : list R) : Prop :=
  (i < t_n t)%nat /\ (q = p_row p i \/ exists s, (s < t_steps t)%nat /\ q = t_at t s i).
(** The sides of a room of the plane or of space. *)
Definition room_ok (room : list R) : Prop := (length room = 2 \/ length room = 3)%nat /\ Forall (fun l => 0 < l) room.
(** A group and its trajectory. *)
Definition group_ok (dim : nat) (t : trajectory) (p : postab) : Prop :=
  traj_ok dim t /\ pos_ok dim p /\ p_n p = t_n t /\ (0 < t_steps t)%nat /\ (0 < t_n t)%nat.
(** A trajectory as given, if it was given. *)
Definition given_ok (dim : nat) (p : postab) (a : option traj_arg) : Prop :=
  match a with None => True | Some (TTraj t) => group_ok dim t p | Some TOther => False end.
(** The motion shown: as given; a group without trajectory stays. *)
Definition motion (a : option traj_arg) (p : postab) (t : trajectory) : Prop :=
  match a with Some (TTraj u) => t = u | _ => t_n t = p_n p /\ t_dim t = p_dim p /\ forall s i, t_at t s i = p_row p i end.
(** Files saved, with their drawing; lines logged. *)
Definition saved (log : list ev) : list (string * list cmd) := flat_map (fun e => match e with ESaved f d => [(f, d)] | _ => [] end) log.
Definition logged (log : list ev) : list string := flat_map (fun e => match e with EInfo f => [f] | _ => [] end) log.
Definition warned (log : list ev) : Prop := In EWarn log.
(** Names of the pictures of [save_scene_plots]. *)
Definition plot_names (prefix : string) (dynamic : bool) (view : string) : list string :=
  (prefix ++ "_static_" ++ view ++ ".png")%string :: (if dynamic then [(prefix ++ "_dynamic_" ++ view ++ ".png")%string] else []).
Definition given (a : option traj_arg) : bool := match a with None => false | Some _ => true end.
(** What a log of animations has to say about the calls that were made. *)
Definition honest (run : request -> option exn) (log : list aev) : Prop :=
  (forall f, In (AInfo f) log <-> exists q, In (ARender q) log /\ run q = None /\ q_file q = f) /\
  (In AWarn log <-> exists q, In (ARender q) log /\ run q <> None).
