(** Specification vocabulary for C84: how much a response changes when a source or a microphone
    moves. *)
From Coq Require Import List ZArith Reals Bool.
From Verif Require Import Prelude ImageSpec IsmSpec.
Import ListNotations.
Local Open Scope R_scope.

(** Sum of a list. *)
Definition rsum (l : list R) : R := fold_right Rplus 0 l.
(** The Hann window of length [L], continued by zero. *)
Definition window (L : nat) (k : Z) : R :=
  if ((0 <=? k) && (k <? Z.of_nat L))%Z then hann L (Z.to_nat k) else 0.
(** The middle of the window minus its neighbour. *)
Definition jump (L : nat) : R := 1 - window L (Z.of_nat (L / 2) + 1).
(** [x] lies between [a] and [b], and the smaller of the two is not [x]. *)
Definition between (x a b : R) : bool :=
  (if Rlt_dec a x then if Rle_dec x b then true else false else false)
  || (if Rlt_dec b x then if Rle_dec x a then true else false else false).
(** Arrival time of an image in samples. *)
Definition arrival (fs c : R) (src mic size : list R) (n : list Z) : R := ray_length src mic size n * fs / c.
(** Sum of the strengths of all arrivals. *)
Definition total_strength (walls : list (R * R)) (size : list R) (images : list (list Z)) (src mic : list R) : R :=
  rsum (map (fun n => Rabs (path_gain walls n) / ray_length src mic size n) images).
(** Bound on the change of sample [j] when the source moves from [src] to [src'] and the
    microphone from [mic] to [mic']: one term that is proportional to the distance moved, and a
    jump for every image whose arrival passes the sample in the middle of its pulse. *)
Definition variation (L : nat) (fs c : R) (walls : list (R * R)) (size : list R) (images : list (list Z))
    (src mic src' mic' : list R) (j : nat) : R :=
  let moved := euclid src src' + euclid mic mic' in
  rsum (map (fun n =>
    Rabs (path_gain walls n) / ray_length src mic size n *
    (moved * (/ ray_length src' mic' size n + PI / 2 * (fs / c)) +
     if between (INR j - INR (L / 2)) (arrival fs c src mic size n) (arrival fs c src' mic' size n) then jump L else 0)) images).
