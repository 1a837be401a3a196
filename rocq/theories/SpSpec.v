(** Specification vocabulary for C91: how far single precision is from the exact delays. *)
From Coq Require Import List ZArith Reals Bool.
From Verif Require Import Prelude ImageSpec IsmSpec ContSpec.
Import ListNotations.
Local Open Scope R_scope.

(** A number of single precision: a multiple of 2^e below 2^(e+24). *)
Definition single (x : R) : Prop :=
  exists m e : Z, (Z.abs m < 2 ^ 24)%Z /\ (-149 <= e)%Z /\ x = IZR m * powerRZ 2 e.
(** A point in the room. *)
Definition inside (size p : list R) : Prop := Forall2 (fun l x => 0 <= x <= l) size p.
(** A room of at least a millimetre in every direction. *)
Definition roomy (size : list R) : Prop := Forall (fun l => 1 / 1000 <= l) size.
(** A norm that is right to three parts in ten million. *)
Definition sound_norm (nrm : list R -> R) : Prop :=
  forall v, let exact := sqrt (rsum (map (fun x => x * x) v)) in Rabs (nrm v - exact) <= 3 / 10 ^ 7 * exact.
(** A power that is right to three parts in ten million, apart from underflow. *)
Definition sound_power (pw : R -> R -> R) : Prop :=
  forall b k, Rabs b <= 1 -> Rabs (pw b (INR k) - b ^ k) <= 3 / 10 ^ 7 * Rabs (b ^ k) + / 10 ^ 40.
(** How far image number [n] can be away: the diagonal of [|n_i| + 3] rooms in every direction. *)
Fixpoint spread (size : list R) (n : list Z) : list R :=
  match size, n with l :: size', k :: n' => (IZR (Z.abs k) + 3) * l :: spread size' n' | _, _ => [] end.
Definition reach (size : list R) (n : list Z) : R := sqrt (rsum (map (fun x => x * x) (spread size n))).
(** The exact position of the pulse of image [n] in samples. *)
Definition exact_sample (fs c : R) (fdl2 : nat) (src mic size : list R) (n : list Z) : R :=
  ray_length src mic size n * fs / c + INR fdl2.
(** A millionth of the greatest delay in samples. *)
Definition delay_error (fs c : R) (fdl2 : nat) (size : list R) (n : list Z) : R :=
  / 10 ^ 6 * (reach size n * fs / c + INR fdl2).
(** Bound on the change of sample [j] of the response: for every image its strength times the
    errors of gain and delay, and a jump where the rounded delay is on the other side of the
    sample in the middle. *)
Definition response_error (L : nat) (fs c : R) (size : list R) (images : list (list Z)) (refl : list Z -> R)
    (src mic : list R) (delay : list Z -> R) (j : nat) : R :=
  rsum (map (fun n =>
    let d := ray_length src mic size n in
    Rabs (refl n) / d *
      (reach size n / d / 10 ^ 6 + PI / 2 * delay_error fs c (L / 2) size n +
       if between (INR j) (exact_sample fs c (L / 2) src mic size n) (delay n) then jump L else 0)
    + / 10 ^ 40) images).
