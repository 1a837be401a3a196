(** Specification vocabulary for C99: recordings in a room, that is signals convolved with simulated
    responses. *)
From Coq Require Import List ZArith Reals Bool.
From Verif Require Import Prelude SignalSpec ImageSpec IsmSpec.
From Verif Require ContSpec.
Import ListNotations.
Local Open Scope R_scope.

(** A pulse of strength one that arrives at the (fractional) sample [d]. *)
Definition tap (L : nat) (kern : R -> R) (d : R) (j : nat) : R :=
  kern (INR j - INR (L / 2) - d) * ContSpec.window L (Z.of_nat j - floorZ d).
(** The dry signal [x] on its way of [d] samples, through a response of [n] samples. *)
Definition echo (L : nat) (kern : R -> R) (n : nat) (d : R) (x : nat -> R) : nat -> R :=
  lin_conv x (zext n (tap L kern d)).
(** The signal [D] samples later. *)
Definition later (D : nat) (x : nat -> R) (j : nat) : R := if (j <? D)%nat then 0 else x (j - D)%nat.
(** A signal that fits to [S] sources: one row for all or one for each. *)
Definition plays (x : tensor) (S : nat) : Prop :=
  sig_rank_ok x /\ wf x /\ (0 < sig_len x)%nat /\ (sig_rows x = 1%nat \/ sig_rows x = S).
