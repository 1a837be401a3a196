(** Model of torchrir.sim.directivity, torchrir.util.orientation and the cosine helper:
    /repo/src/torchrir/sim/directivity.py, util/orientation.py, sim/ism/helpers.py *)
From Coq Require Import String Ascii List ZArith Reals Bool.
From Verif Require Import Prelude.
Import ListNotations.
Local Open Scope R_scope.

(** ** Numbers that may be NaN *)

(** Value of a float tensor entry that may have become NaN through 0/0 ([None]).
    Infinities do not arise in the modelled code because distances are clamped
    (sim/ism/contributions.py:34, 73, 121). *)
Definition xr := option R.
(** IEEE addition and multiplication: NaN absorbs, sim/directivity.py:9-24. *)
Definition xadd (a b : xr) : xr :=
  match a, b with Some x, Some y => Some (x + y) | _, _ => None end.
(** sim/directivity.py:9-24. *)
Definition xmul (a b : xr) : xr :=
  match a, b with Some x, Some y => Some (x * y) | _, _ => None end.
(** sim/directivity.py:9-24. *)
Definition xscale (c : R) (a : xr) : xr := option_map (Rmult c) a.
(** Tensor whose entries may be NaN, sim/ism/helpers.py:76-80. *)
Record xtensor := mkX { xshape : list nat; xdata : list xr }.

(** ** Vectors: coordinate lists of length dim *)
(** sim/ism/helpers.py:76-80. *)
Definition vsub (a b : list R) : list R := map2 Rminus a b.
(** sim/ism/helpers.py:76-80. *)
Definition vopp (a : list R) : list R := map Ropp a.
(** sim/ism/helpers.py:76-80. *)
Definition vdot (a b : list R) : R := lsum (map2 Rmult a b).
(** [torch.linalg.norm(v, dim=-1)], sim/ism/helpers.py:76-80. *)
Definition vnorm (a : list R) : R := sqrt (vdot a a).
(** sim/ism/helpers.py:76-80. *)
Definition vscale (c : R) (a : list R) : list R := map (Rmult c) a.

(** ** sim/directivity.py *)

(** Python [str.lower] on one character; only ASCII strings are modelled, sim/directivity.py:9-24. *)
Definition lower_ascii (c : ascii) : ascii :=
  let n := nat_of_ascii c in
  if ((65 <=? n) && (n <=? 90))%nat then ascii_of_nat (n + 32) else c.
(** Python [str.lower], used at sim/directivity.py:11. *)
Fixpoint lower (s : string) : string :=
  match s with
  | EmptyString => EmptyString
  | String c s' => String (lower_ascii c) (lower s')
  end.

(** [pattern in ("a", "b", ...)], sim/directivity.py:12-22. *)
Definition str_in (s : string) (l : list string) : bool := existsb (String.eqb s) l.

(** [directivity_gain], sim/directivity.py:9-24.  The outcome is the element-wise gain
    function; on a NaN cosine the comparison [cos > 0] is False and [ones_like] is 1. *)
Definition directivity_gain (pattern : string) : result (xr -> xr) :=
  let p := lower pattern in
  if str_in p ["omni"; "omnidirectional"]%string then Ok (fun _ => Some 1)
  else if str_in p ["homni"; "halfomni"; "half-omni"]%string then
    Ok (fun c => match c with Some x => Some (if Rlt_dec 0 x then 1 else 0) | None => Some 0 end)
  else if str_in p ["subcardioid"; "subcard"]%string then
    Ok (option_map (fun x => 0.75 + 0.25 * x))
  else if str_in p ["cardioid"; "card"]%string then
    Ok (option_map (fun x => 0.5 + 0.5 * x))
  else if str_in p ["hypercardioid"; "hypcard"]%string then
    Ok (option_map (fun x => 0.25 + 0.75 * x))
  else if str_in p ["bidir"; "bidirectional"; "figure8"; "figure-8"]%string then
    Ok (fun c => c)
  else Err ValueError.

(** Directivity argument: one name, or a list/tuple of names, sim/directivity.py:27-33. *)
Inductive dirspec := DName (s : string) | DTuple (l : list string).

(** [split_directivity], sim/directivity.py:27-33. *)
Definition split_directivity (d : dirspec) : result (string * string) :=
  match d with
  | DTuple [a; b] => Ok (a, b)
  | DTuple _ => Err ValueError
  | DName s => Ok (s, s)
  end.

(** ** util/orientation.py *)

(** [normalize_orientation] on one vector, util/orientation.py:9-13 (eps = 1e-8). *)
Definition normalize_orientation (v : list R) : list R :=
  let norm := Rmax (vnorm v) (/ 10 ^ 8) in
  map (fun x => x / norm) v.

(** [(cos a, sin a)], util/orientation.py:21, 25, 29. *)
Definition angle_vec (a : R) : list R := [cos a; sin a].
(** (azimuth, elevation) to a vector, util/orientation.py:38-43. *)
Definition azel_vec (az el : R) : list R :=
  [cos el * cos az; cos el * sin az; sin el].

(** Rows of a tensor along its last axis, in row-major order, util/orientation.py:9-46. *)
Definition trows (t : tensor) : list (list R) :=
  let d := last (shape t) 0%nat in
  map (fun i => block (i * d) d (data t)) (seq 0 (prodn (removelast (shape t)))).
(** Tensor of shape [pre ++ [d]] from its rows, util/orientation.py:9-46. *)
Definition of_rows (pre : list nat) (d : nat) (rows : list (list R)) : tensor :=
  mkT (pre ++ [d]) (concat rows).

(** [orientation_to_unit], util/orientation.py:16-46. *)
Definition orientation_to_unit (o : tensor) (dim : nat) : result tensor :=
  let d := last (shape o) 0%nat in
  let pre := removelast (shape o) in
  if (dim =? 2)%nat then
    if (ndim o =? 0)%nat then
      Ok (of_rows [] 2 [normalize_orientation (angle_vec (nth 0 (data o) 0))])
    else if (d =? 1)%nat then
      Ok (of_rows pre 2 (map (fun a => normalize_orientation (angle_vec a)) (data o)))
    else if ((ndim o =? 1) && negb (numel o =? 2))%nat then
      Ok (of_rows (shape o) 2 (map (fun a => normalize_orientation (angle_vec a)) (data o)))
    else if (d =? 2)%nat then
      Ok (of_rows pre 2 (map normalize_orientation (trows o)))
    else Err ValueError
  else if (dim =? 3)%nat then
    if (ndim o =? 0)%nat then Err IndexError  (* orientation.shape[-1] of a 0-d tensor *)
    else if (d =? 3)%nat then
      Ok (of_rows pre 3 (map normalize_orientation (trows o)))
    else if (d =? 2)%nat then
      Ok (of_rows pre 3
            (map (fun r => normalize_orientation (azel_vec (nth 0 r 0) (nth 1 r 0))) (trows o)))
    else Err ValueError
  else Err ValueError.

(** [_select_orientation], sim/ism/helpers.py:65-73. *)
Definition select_orientation (o : tensor) (idx count dim : nat) : result tensor :=
  if (ndim o <=? 1)%nat then orientation_to_unit o dim
  else if ((ndim o =? 2) && (nth 0 (shape o) 0 =? count))%nat then
    match nth_error (trows o) idx with
    | Some r => orientation_to_unit (mkT [last (shape o) 0%nat] r) dim
    | None => Err IndexError
    end
  else Err ValueError.

(** [_cos_between] on one vector, sim/ism/helpers.py:76-80: a zero vector gives 0/0. *)
Definition cos_between (vec ori : list R) : xr :=
  let o := normalize_orientation ori in
  if Req_EM_T (vnorm vec) 0 then None
  else Some (lsum (map2 Rmult (map (fun x => x / vnorm vec) vec) o)).
