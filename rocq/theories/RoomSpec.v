(** What validated rooms, entities and scenes should look like. *)
From Coq Require Import List ZArith Reals.
From Verif Require Import Prelude RoomModel.
Import ListNotations.
Local Open Scope R_scope.
Local Notation length := List.length.

(** A finite positive number; a number that is not zero or negative (IEEE: NaN included). *)
Definition positive (x : num) : Prop := exists r, x = Fin r /\ 0 < r.
Definition not_nonpositive (x : num) : Prop := positive x \/ x = PInf \/ x = NaN.
(** A wall coefficient. *)
Definition unit_interval (x : num) : Prop := exists r, x = Fin r /\ 0 <= r <= 1.
Definition finite (x : num) : Prop := exists r, x = Fin r.

(** The invariant of rooms, for a given condition [P] on the scalar fields. *)
Record room_inv (P : num -> Prop) (r : nroom) : Prop := {
  ri_size : exists d, (d = 2 \/ d = 3)%nat /\ nshape (nr_size r) = [d] /\ length (ndata (nr_size r)) = d /\
            Forall positive (ndata (nr_size r));
  ri_fs : P (nr_fs r); ri_c : P (nr_c r);
  ri_excl : nr_beta r = None \/ nr_t60 r = None;
  ri_t60 : forall t, nr_t60 r = Some t -> P t;
  ri_beta : forall b, nr_beta r = Some b ->
    let k := (2 * length (ndata (nr_size r)))%nat in
    nshape b = [k] /\ length (ndata b) = k /\ Forall unit_interval (ndata b) }.

(** Values whose number of entries is the one of their shape. *)
Definition value_wf (v : value) : Prop :=
  match v with VTensor t => nwf t | VNest sh l => length l = prodn sh end.
Definition opt_wf {A} (P : A -> Prop) (o : option A) : Prop := match o with Some a => P a | None => True end.

(** Rooms that can exist: built by the constructor or [shoebox], or obtained from such a
    room by [replace], in any order. *)
Inductive reachable (junk : num -> Z) : nroom -> Prop :=
| built size fs c beta t60 r : nwf size -> opt_wf value_wf beta ->
    make_room junk size fs c beta t60 = Ok r -> reachable junk r
| boxed size fs c beta t60 dt r : value_wf size -> opt_wf value_wf beta ->
    shoebox junk size fs c beta t60 dt = Ok r -> reachable junk r
| replaced r u r' : reachable junk r -> opt_wf nwf (u_size u) -> opt_wf (opt_wf value_wf) (u_beta u) ->
    room_replace junk r u = Ok r' -> reachable junk r'.

(** Numbers written in a value, in row-major order. *)
Definition numbers (v : value) : list num :=
  match v with
  | VTensor t => ndata t
  | VNest _ l => map (fun p => match p with PyInt z => Fin (IZR z) | PyFloat x => x end) l
  end.
Definition dims (v : value) : list nat := match v with VTensor t => nshape t | VNest sh _ => sh end.

(** Entities: (n, d) finite positions. *)
Record entity_inv (e : nentity) (n d : nat) : Prop := {
  ei_shape : nshape (ne_pos e) = [n; d]; ei_dim : (d = 2 \/ d = 3)%nat;
  ei_finite : Forall finite (ndata (ne_pos e)) }.

(** The shapes of an orientation for [n] entities in [d] dimensions: a vector, or angles (one in
    the plane, two in space), shared by all or one row each; in the plane also a list of [n] angles. *)
Definition orientation_shape (n d : nat) (sh : list nat) : Prop :=
  d = 2%nat /\ In sh [[]; [1%nat]; [2%nat]; [n]; [n; 1%nat]; [n; 2%nat]] \/
  d = 3%nat /\ In sh [[2%nat]; [3%nat]; [n; 2%nat]; [n; 3%nat]].
(** What can be made an entity. *)
Definition entity_input (pos : value) (ori : option value) : Prop :=
  exists n d, (dims pos = [n; d] \/ n = 1%nat /\ dims pos = [d]) /\ (d = 2%nat \/ d = 3%nat) /\ Forall finite (numbers pos) /\
    match ori with None => True | Some v => Forall finite (numbers v) /\ orientation_shape n d (dims v) end.
