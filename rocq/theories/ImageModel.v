(** Model of /repo/src/torchrir/sim/ism/images.py *)
From Coq Require Import List ZArith Reals Bool.
From Verif Require Import Prelude.
Import ListNotations.
Local Open Scope R_scope.

(** [torch.arange(lo, hi)] on integers, used at sim/ism/images.py:25, 28; torch raises
    when [hi < lo]. *)
Definition arange (lo hi : Z) : result (list Z) :=
  if (hi <? lo)%Z then Err RuntimeError
  else Ok (map (fun i => (lo + Z.of_nat i)%Z) (seq 0 (Z.to_nat (hi - lo)))).

(** [torch.meshgrid] with [indexing="ij"] flattened and stacked, images.py:26-27,
    29-30: all index vectors, last axis fastest. *)
Fixpoint meshgrid (ranges : list (list Z)) : list (list Z) :=
  match ranges with
  | [] => [[]]
  | r :: rest => flat_map (fun x => map (cons x) (meshgrid rest)) r
  end.

(** [torch.sum(torch.abs(n_vec), dim=-1)], images.py:31. *)
Definition l1 (n : list Z) : Z := fold_right (fun x a => (Z.abs x + a)%Z) 0%Z n.

(** [_image_source_indices], images.py:13-32. *)
Definition image_source_indices (max_order : Z) (dim : nat) (nb_img : option (list Z))
  : result (list (list Z)) :=
  match nb_img with
  | Some nb =>
      if negb (length nb =? dim)%nat then Err ValueError
      else do ranges <- mapM (fun n => arange (- n) (n + 1)) nb;
           Ok (meshgrid ranges)
  | None =>
      do rng <- arange (- max_order) (max_order + 1);
      Ok (filter (fun n => (l1 n <=? max_order)%Z) (meshgrid (repeat rng dim)))
  end.

(** One coordinate of an image position, images.py:37-39 (also 44-47 and
    contributions.py:115-118). *)
Definition image_coord (x len : R) (n : Z) : R :=
  let sign := if (n mod 2 =? 0)%Z then 1 else -1 in
  let k := IZR ((n + 1) / 2)%Z in
  2 * len * k + sign * x.

(** [_image_positions], images.py:35-39, for one index vector. *)
Definition image_position (src size : list R) (n : list Z) : list R :=
  map2 (fun p k => image_coord (fst p) (snd p) k) (combine src size) n.

(** Exponents of the high and low wall, images.py:58-60. *)
Definition n_hi (n : Z) : Z := if (0 <=? n)%Z then ((n + 1) / 2)%Z else (Z.abs n / 2)%Z.
(** sim/ism/images.py:60. *)
Definition n_lo (n : Z) : Z := if (0 <=? n)%Z then (n / 2)%Z else ((Z.abs n + 1) / 2)%Z.

(** Reflection coefficient of one axis, images.py:62-65; the exponents are non-negative
    integers, so the float power is the integer power. *)
Definition axis_coeff (lo hi : R) (n : Z) : R :=
  hi ^ Z.to_nat (n_hi n) * lo ^ Z.to_nat (n_lo n).

(** [beta.view(dim, 2)], images.py:53-55: pairs (low, high) per axis. *)
Fixpoint beta_pairs (beta : list R) : list (R * R) :=
  match beta with
  | lo :: hi :: rest => (lo, hi) :: beta_pairs rest
  | _ => []
  end.

(** sim/ism/images.py:66. *)
Fixpoint rprod (l : list R) : R := match l with [] => 1 | x :: l' => x * rprod l' end.

(** [_reflection_coefficients], images.py:50-66, for one index vector. *)
Definition reflection_coefficient (n : list Z) (beta : list R) : R :=
  rprod (map2 (fun b k => axis_coeff (fst b) (snd b) k) (beta_pairs beta) n).
