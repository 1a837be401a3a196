(** Delays and gains of the images in single precision (torch.float32, the usual type of the
    tensors): every tensor operation of sim/ism/images.py:35-66 and
    sim/ism/contributions.py:31-51, 70-96, 118-144 is rounded to nearest.  Python numbers stay
    binary64 until they meet a tensor, where torch converts them to binary32.
    Simplifications: overflow is not modelled (FloatModel.v); directivities are "omni"; the
    filter taps, their products with the gains and the sums are exact. *)
From Coq Require Import List ZArith Reals Bool.
From Verif Require Import Prelude DirModel FloatModel ImageModel AccumModel.
Import ListNotations.
Local Open Scope R_scope.

(** One coordinate of an image position, sim/ism/images.py:37-39, 44-47. *)
Definition coord32 (x len : R) (n : Z) : R :=
  let sign := if (n mod 2 =? 0)%Z then 1 else -1 in
  let k := rnd32 (IZR ((n + 1) / 2)%Z) in
  rnd32 (rnd32 (rnd32 (2 * len) * k) + rnd32 (sign * x)).
(** [mic_pos - img], sim/ism/contributions.py:31-32, 70-71, 118-119. *)
Definition vec32 (src mic size : list R) (n : list Z) : list R :=
  map2 (fun m i => rnd32 (m - i)) mic
    (map2 (fun p k => coord32 (fst p) (snd p) k) (combine src size) n).
(** [torch.clamp(torch.linalg.norm(vec), min=1e-6)], sim/ism/contributions.py:33-34, 72-73,
    120-121; [nrm] is the norm as torch computes it. *)
Definition dist32 (nrm : list R -> R) (vec : list R) : R := Rmax (nrm vec) (rnd32 (rnd64 (/ 10 ^ 6))).
(** [(dist / c + fdl2 / fs) * fs], sim/ism/contributions.py:35-37, 74-76, 122-124. *)
Definition sample32 (nrm : list R -> R) (fs c : R) (fdl2 : nat) (vec : list R) : R :=
  let t := rnd32 (dist32 nrm vec / rnd32 c) in
  let t := rnd32 (t + rnd32 (rnd64 (INR fdl2 / fs))) in
  rnd32 (t * rnd32 fs).
(** [gain / dist] without directivity, sim/ism/contributions.py:39, 51, 78, 96, 126, 144. *)
Definition gain32 (nrm : list R -> R) (refl : R) (vec : list R) : R := rnd32 (refl / dist32 nrm vec).
(** [beta_hi**n_hi * beta_lo**n_lo] of one axis, sim/ism/images.py:57-65; [pw] is the power as
    torch computes it, the exponents are tensors of the same type. *)
Definition axis32 (pw : R -> R -> R) (lo hi : R) (n : Z) : R :=
  rnd32 (pw hi (rnd32 (IZR (n_hi n))) * pw lo (rnd32 (IZR (n_lo n)))).
(** [torch.prod(coeff, dim=1)], sim/ism/images.py:66, from left to right. *)
Definition refl32 (pw : R -> R -> R) (walls : list (R * R)) (n : list Z) : R :=
  fold_left (fun a x => rnd32 (a * x)) (map2 (fun b k => axis32 pw (fst b) (snd b) k) walls n) 1.
(** [floor(sample)] and [sample - idx0], sim/ism/accumulate.py:39-40. *)
Definition index32 (sample : R) : Z := floorZ sample.
(** sim/ism/accumulate.py:40. *)
Definition frac32 (sample : R) : R := rnd32 (sample - rnd32 (IZR (index32 sample))).
(** The response of one source at one microphone, sim/ism/accumulate.py:28-94 on the delays and
    gains above. *)
Definition rir32 (nrm : list R -> R) (fs c : R) (fdl gran : nat) (use_lut : bool) (chunk nsample : nat)
    (size src mic : list R) (n_vec : list (list Z)) (refl : list Z -> R) : result (list xr) :=
  accumulate_impl (fun x => x) 1 nsample (repeat (Some 0) nsample)
    (map (fun n => sample32 nrm fs c (half fdl) (vec32 src mic size n)) n_vec)
    (map (fun n => Some (gain32 nrm (refl n) (vec32 src mic size n))) n_vec) fdl gran use_lut chunk.
