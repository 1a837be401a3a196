(** Specification vocabulary for C82: which calls of the random generator decide which speakers and
    utterances a scene uses. *)
From Coq Require Import String List ZArith Bool.
From Verif Require Import Prelude SignalModel DsModel.
Import ListNotations.
Local Notation length := List.length.

Section Calls.
  Variable shuf : nat -> list string -> list string.
  (** The order of the utterances after [m] shuffles in place, the first of which is call [k]. *)
  Fixpoint order_after (k : nat) (l : list string) (m : nat) : list string :=
    match m with O => l | S m => shuf (k + m) (order_after k l m) end.
  (** The orders after 1, ..., [m] shuffles one after the other. *)
  Definition rounds (k : nat) (l : list string) (m : nat) : list string := concat (map (order_after k l) (seq 1 m)).
  (** [ids] goes through these orders and uses something of the last of the [m] shuffles. *)
  Definition played (k m : nat) (l ids : list string) : Prop :=
    (m * length l < length ids + length l <= m * length l + length l)%nat /\ exists rest, rounds k l m = ids ++ rest.
  (** The speakers of a scene one after the other: each starts where the one before stopped. *)
  Inductive chain (c : corpus) : nat -> list (string * list string) -> nat -> Prop :=
  | chain_nil k : chain c k [] k
  | chain_cons k m l spk ids rest k' : utts c spk = Ok l -> played k m l ids -> chain c (k + m) rest k' ->
      chain c k ((spk, ids) :: rest) k'.
End Calls.
