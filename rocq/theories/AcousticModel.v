(** Model of /repo/src/torchrir/util/acoustics.py (exact arithmetic; sizes are the checked
    1-D tensors of [ensure_dim], util/tensor.py:32-36). *)
From Coq Require Import List ZArith Reals Bool.
From Verif Require Import Prelude.
Import ListNotations.
Local Open Scope R_scope.

(** [ensure_dim], util/tensor.py:32-36. *)
Definition ensure_dim (size : tensor) : result tensor :=
  if (ndim size =? 1)%nat && ((numel size =? 2) || (numel size =? 3))%nat
  then Ok size else Err ValueError.

(** [extend_size], util/tensor.py:39-46. *)
Definition extend_size (size : tensor) (dim : nat) : result tensor :=
  if (numel size =? dim)%nat then Ok size
  else if (numel size =? 2)%nat && (dim =? 3)%nat then Ok (mkT [3%nat] (data size ++ [1]))
  else Err ValueError.

(** [max(0.0, min(alpha, 0.999))] and [math.sqrt(1.0 - alpha)], util/acoustics.py:45-46
    and 53-54. *)
Definition beta_of_alpha (alpha : R) : R := sqrt (1 - Rmax 0 (Rmin alpha 0.999)).

(** [estimate_beta_from_t60], util/acoustics.py:16-55. *)
Definition estimate_beta_from_t60 (size : tensor) (t60 : R) : result (list R) :=
  if Rle_dec t60 0 then Err ValueError
  else
    do size <- ensure_dim size;
    match data size with
    | [lx; ly] =>
        let lz := 1 in
        let volume := lx * ly * lz in
        let surface := 2 * (lx + ly) * lz in
        let alpha := 0.161 * volume / (t60 * surface) in
        Ok (repeat (beta_of_alpha alpha) 4)
    | _ =>
        do size <- extend_size size 3;
        match data size with
        | [lx; ly; lz] =>
            let volume := lx * ly * lz in
            let surface := 2 * (lx * ly + ly * lz + lx * lz) in
            let alpha := 0.161 * volume / (t60 * surface) in
            Ok (repeat (beta_of_alpha alpha) 6)
        | _ => Err ValueError
        end
    end.

(** [0.161 * volume / absorption] or infinity ([None]), util/acoustics.py:87-91, 102-106. *)
Definition t60_of_absorption (volume : R) (surfaces beta : list R) : option R :=
  let absorption := lsum (map2 Rmult surfaces (map (fun b => 1 - b ^ 2) beta)) in
  if Rle_dec absorption 0 then None else Some (0.161 * volume / absorption).

(** [estimate_t60_from_beta], util/acoustics.py:58-106; [None] is [float("inf")]. *)
Definition estimate_t60_from_beta (size : tensor) (beta : list R) : result (option R) :=
  do size <- ensure_dim size;
  match data size with
  | [lx; ly] =>
      if negb (length beta =? 4)%nat then Err ValueError
      else
        let lz := 1 in
        Ok (t60_of_absorption (lx * ly * lz) [ly * lz; ly * lz; lx * lz; lx * lz] beta)
  | _ =>
      do size <- extend_size size 3;
      if negb (length beta =? 6)%nat then Err ValueError
      else
        match data size with
        | [lx; ly; lz] =>
            Ok (t60_of_absorption (lx * ly * lz)
                  [ly * lz; ly * lz; lx * lz; lx * lz; lx * ly; lx * ly] beta)
        | _ => Err ValueError
        end
  end.

(** [attenuation_db_to_time_sabine], util/acoustics.py:109-125. *)
Definition attenuation_db_to_time_sabine (att_db t60 : R) : result R :=
  if Rle_dec t60 0 then Err ValueError
  else if Rle_dec att_db 0 then Err ValueError
  else Ok (att_db / 60 * t60).

(** [estimate_image_counts_from_tmax], util/acoustics.py:128-146. *)
Definition estimate_image_counts_from_tmax (tmax : R) (size : tensor) (c : R)
  : result (list Z) :=
  if Rle_dec tmax 0 then Err ValueError
  else do size <- ensure_dim size;
       Ok (map (fun l => ceilZ (tmax * c / l)) (data size)).
