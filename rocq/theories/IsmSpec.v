(** Specification vocabulary for the simulated impulse response: the sum of one windowed
    sinc pulse per image source.  Nothing here mentions buffers, chunks, scatter operations
    or look-up positions. *)
From Coq Require Import List ZArith Reals Bool.
From Verif Require Import Prelude DirModel ImageSpec.
Import ListNotations.
Local Open Scope R_scope.

(** Sum of possibly undefined numbers. *)
Definition xsum (l : list xr) : xr := fold_right xadd (Some 0) l.

(** Normalised sinc. *)
Definition nsinc (x : R) : R := if Req_EM_T x 0 then 1 else sin (PI * x) / (PI * x).
(** Symmetric Hann window of odd length [L]. *)
Definition hann (L k : nat) : R :=
  if (L =? 1)%nat then 1 else (sin (PI * INR k / INR (L - 1))) ^ 2.
(** Linear interpolation of [h] on the grid of step 1/g. *)
Definition grid_interp (g : nat) (h : R -> R) (x : R) : R :=
  let i := floorZ (x * INR g) in
  let a := h (IZR i / INR g) in
  let b := h ((IZR i + 1) / INR g) in
  a + (x * INR g - IZR i) * (b - a).
(** Interpolating kernel: exact, or tabulated with [g] points per sample. *)
Definition kernel (table : option nat) (x : R) : R :=
  match table with None => nsinc x | Some g => grid_interp g nsinc x end.

(** Value at sample [j] of a pulse of amplitude [a] arriving at the (fractional) sample
    [delay], spread over [L] samples from floor(delay). *)
Definition pulse (L : nat) (kern : R -> R) (delay : R) (a : xr) (j : nat) : xr :=
  let i := floorZ delay in
  let k := (Z.of_nat j - i)%Z in
  if ((0 <=? k) && (k <? Z.of_nat L))%Z
  then xscale (kern (IZR k - INR (L / 2) - (delay - IZR i)) * hann L (Z.to_nat k)) a
  else Some 0.

(** Position of image number [n] of a source. *)
Fixpoint image_of (src size : list R) (n : list Z) : list R :=
  match src, size, n with
  | x :: src', l :: size', k :: n' => reflected l x k :: image_of src' size' n'
  | _, _, _ => []
  end.
(** Ray from the image to the microphone and its length (at least one micrometre). *)
Fixpoint diff (a b : list R) : list R :=
  match a, b with x :: a', y :: b' => x - y :: diff a' b' | _, _ => [] end.
Definition ray (src mic size : list R) (n : list Z) : list R := diff mic (image_of src size n).
Definition ray_length (src mic size : list R) (n : list Z) : R :=
  Rmax (euclid mic (image_of src size n)) (/ 10 ^ 6).

(** Directional gains: functions of the ray. *)
Definition gains := list R -> xr.
Definition unity : gains := fun _ => Some 1.

(** Amplitude of an image: reflections times directivities, divided by the distance. *)
Definition amplitude (walls : list (R * R)) (gs gm : gains) (src mic size : list R) (n : list Z) : xr :=
  xscale (path_gain walls n / ray_length src mic size n)
    (xmul (gs (ray src mic size n)) (gm (ray src mic size n))).

(** Impulse response between one source and one microphone for a list of images. *)
Definition response (L : nat) (kern : R -> R) (fs c : R) (walls : list (R * R)) (size : list R)
    (images : list (list Z)) (gs gm : gains) (src mic : list R) (j : nat) : xr :=
  xsum (map (fun n => pulse L kern (ray_length src mic size n * fs / c)
                        (amplitude walls gs gm src mic size n) j) images).

(** ** Symmetries *)
(** Partner of an image index when source and microphone are exchanged. *)
Definition swap_index (n : Z) : Z := if Z.even n then (- n)%Z else n.
(** Mirroring of axis [i] of a point in a room of the given size. *)
Fixpoint mirrored (i : nat) (size p : list R) : list R :=
  match i, size, p with
  | O, l :: _, x :: p' => l - x :: p'
  | S i', _ :: size', x :: p' => x :: mirrored i' size' p'
  | _, _, _ => p
  end.
(** Exchange of the two wall coefficients of axis [i]. *)
Fixpoint swap_walls (i : nat) (beta : list R) : list R :=
  match i, beta with
  | O, lo :: hi :: r => hi :: lo :: r
  | S i', lo :: hi :: r => lo :: hi :: swap_walls i' r
  | _, _ => beta
  end.
Fixpoint negate_at (i : nat) (n : list Z) : list Z :=
  match i, n with
  | O, k :: r => (- k)%Z :: r
  | S i', k :: r => k :: negate_at i' r
  | _, _ => n
  end.
