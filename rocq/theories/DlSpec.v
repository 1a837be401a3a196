(** Specification vocabulary for dataset download and extraction. *)
From Coq Require Import String List Arith Bool.
From Verif Require Import Prelude DlModel.
Import ListNotations.
Local Notation length := List.length.

(** [c] is the complete body of one of the responses in [S], of the announced length if one
    was announced. *)
Definition intact (S : response -> Prop) (c : bytes) : Prop :=
  exists announced chunks b, S (Serve announced chunks b) /\ c = delivered chunks /\
    forall n, announced = Some n -> n > 0 -> length c = n.
(** All environments met answer with responses in [S] and read archives like [pk]. *)
Definition fits (S : response -> Prop) (pk : bytes -> result (list file)) (e : env) : Prop :=
  (forall k, S (net e k)) /\ pack e = pk.
(** Any number of constructions, each cut short anywhere or run to its end, possibly failing;
    [ok] restricts environments and stopping points. *)
Inductive history (ok : env -> world -> Prop) (w0 : world) : world -> Prop :=
| H_start : history ok w0 w0
| H_run e dl w w' : history ok w0 w -> In w' (states (construct e dl w)) -> ok e w' -> history ok w0 w'.
(** The dataset directory holds all files of an intact archive, written last. *)
Definition complete (S : response -> Prop) (pk : bytes -> result (list file)) (w : world) : Prop :=
  exists c files pre, intact S c /\ pk c = Ok files /\ data w = Some (pre ++ files).
(** Nothing prepared yet. *)
Definition fresh (w : world) : Prop := final w = None /\ data w = None.
(** Two successive states of the disk: at most one file operation lies between them. *)
Inductive one_change (w w' : world) : Prop :=
| O_none : part w' = part w -> final w' = final w -> data w' = data w -> one_change w w'
| O_part : final w' = final w -> data w' = data w -> one_change w w'
| O_rename : part w' = None -> final w' = part w -> data w' = data w -> one_change w w'
| O_unlink : part w' = part w -> final w' = None -> data w' = data w -> one_change w w'
| O_write f : part w' = part w -> final w' = final w -> data w' = Some (match data w with Some l => l | None => [] end ++ [f]) -> one_change w w'.
