(** Specification vocabulary for C96 (notes on the layouts). *)
From Coq Require Import Ascii String List ZArith Reals Bool.
From Verif Require Import Prelude LoopSpec CliSpec.
Import ListNotations.
Local Notation length := List.length.
Local Open Scope R_scope.

(** The text of [n] hundredths: digits, a point, two digits; no needless zero in front. *)
Definition two_decimals (n : nat) (s : string) : Prop :=
  exists whole part, s = (whole ++ "." ++ part)%string /\ writes 1 (n / 100) whole /\ writes 2 (n mod 100) part.
(** A text shows a number that is not negative: no other text of two decimals is nearer, and of two
    equally near ones it is the even one. *)
Definition shows (s : string) (x : R) : Prop :=
  exists n, two_decimals n s /\ Rabs (x - INR n / 100) <= / 200 /\
    (Rabs (x - INR n / 100) = / 200 -> Nat.even n = true).
(** A text that stands for the list of speeds [l] (index and speed). *)
Definition item (p : nat * R) (s : string) : Prop :=
  exists i v, s = ("S" ++ i ++ "=" ++ v ++ "m/s")%string /\ writes 1 (fst p) i /\ shows v (snd p).
Definition lists (l : list (nat * R)) (s : string) : Prop :=
  (l = [] /\ s = "none"%string) \/ (l <> [] /\ exists parts, Forall2 item l parts /\ s = String.concat ", " parts).
(** The positive numbers of a list with their positions, in order. *)
Definition positives (v : list R) (l : list (nat * R)) : Prop :=
  (forall i x, In (i, x) l <-> nth_error v i = Some x /\ 0 < x) /\ (forall a b p q, (a < b)%nat -> nth_error l a = Some p -> nth_error l b = Some q -> (fst p < fst q)%nat).
(** Texts one below the other: between two of them there is one line feed. *)
Definition below (l : list string) : string := String.concat (String (ascii_of_nat 10) EmptyString) l.
