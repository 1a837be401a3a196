(** Model of /repo/src/torchrir/sim/ism/accumulate.py *)
From Coq Require Import String List ZArith Reals Bool.
From Verif Require Import Prelude SignalModel DirModel.
Import ListNotations.
Local Open Scope R_scope.

(** ** Tables *)

(** [torch.sinc] (normalised), accumulate.py:83, 166. *)
Definition sinc (x : R) : R := if Req_EM_T x 0 then 1 else sin (PI * x) / (PI * x).

(** [(fdl - 1) // 2], accumulate.py:48, 140, 163. *)
Definition half (fdl : nat) : nat := ((fdl - 1) / 2)%nat.

(** [torch.arange(fdl)], accumulate.py:127-133. *)
Definition fdl_grid (fdl : nat) : list R := tabulate fdl INR.
(** [torch.arange(fdl) - fdl2], accumulate.py:136-143. *)
Definition fdl_offsets (fdl : nat) : list Z :=
  tabulate fdl (fun k => (Z.of_nat k - Z.of_nat (half fdl))%Z).
(** [torch.hann_window(fdl, periodic=False)], accumulate.py:146-152; a one-point window
    is [1]. *)
Definition fdl_window (fdl : nat) : list R :=
  if (fdl =? 1)%nat then [1]
  else tabulate fdl (fun k => 0.5 - 0.5 * cos (2 * PI * INR k / INR (fdl - 1))).
(** [torch.linspace(a, b, size)], accumulate.py:165. *)
Definition linspace (a b : R) (size : nat) : list R :=
  if (size =? 1)%nat then [a]
  else tabulate size (fun i => a + INR i * ((b - a) / INR (size - 1))).
(** [_get_sinc_lut] without the cache, accumulate.py:163-166. *)
Definition sinc_lut (fdl gran : nat) : list R :=
  let fdl2 := INR (half fdl) in
  map sinc (linspace (- fdl2 - 1) (fdl2 + 1) ((fdl + 1) * gran + 1)).

(** [torch.take(t, i)], accumulate.py:77-78: negative indices count from the end,
    indices outside [-n, n) raise. *)
Definition take (t : list R) (i : Z) : result R :=
  let n := Z.of_nat (List.length t) in
  if ((- n <=? i) && (i <? n))%Z
  then Ok (nth (Z.to_nat (if (i <? 0)%Z then i + n else i)%Z) t 0)
  else Err IndexError.

(** ** One chunk *)

(** Filter tap [k] for the fraction [frac], accumulate.py:69-83.  [rnd] is the rounding of
    the operations that determine table positions (accumulate.py:40, 70-72); the table
    values themselves are exact. *)
Definition filter_tap (rnd : R -> R) (use_lut : bool) (fdl gran : nat) (frac : R) (k : nat)
  : result R :=
  let w := nth k (fdl_window fdl) 0 in
  if use_lut then
    let x_off_frac := rnd (rnd (1 - frac) * INR gran) in
    let off := floorZ x_off_frac in
    let x_off := rnd (x_off_frac - IZR off) in
    let lut_pos := (off + Z.of_nat k * Z.of_nat gran)%Z in
    do s0 <- take (sinc_lut fdl gran) lut_pos;
    do s1 <- take (sinc_lut fdl gran) (lut_pos + 1);
    Ok ((s0 + x_off * (s1 - s0)) * w)
  else Ok (sinc (nth k (fdl_grid fdl) 0 - INR (half fdl) - frac) * w).

(** All (flat index, value) updates of one image for the pair number [sm],
    accumulate.py:39-40, 85-93. *)
Definition image_updates (rnd : R -> R) (use_lut : bool) (fdl gran nsample sm : nat)
    (sample : R) (amp : xr) : result (list (Z * xr)) :=
  let idx := floorZ sample in
  let frac := rnd (sample - IZR idx) in
  do filt <- mapM (filter_tap rnd use_lut fdl gran frac) (seq 0 fdl);
  let targets := map (fun o => (idx + o)%Z) (fdl_offsets fdl) in
  let pairs := combine targets (map (fun f => xscale f amp) filt) in
  let valid := filter (fun p => (0 <=? fst p) && (fst p <? Z.of_nat nsample))%Z pairs in
  Ok (map (fun p => ((fst p + Z.of_nat sm * Z.of_nat nsample)%Z, snd p)) valid).

(** [rir_flat.scatter_add_(0, index, values)], accumulate.py:94: duplicates accumulate,
    an index outside the buffer raises. *)
Definition scatter_add (buf : list xr) (upd : list (Z * xr)) : result (list xr) :=
  foldM (fun b p =>
    if ((0 <=? fst p) && (fst p <? Z.of_nat (List.length b)))%Z
    then Ok (upd_nth (Z.to_nat (fst p)) (fun v => xadd v (snd p)) b)
    else Err RuntimeError) upd buf.

(** [_accumulate_rir_batch_impl], accumulate.py:28-94, on the flat buffer of
    [n_sm = n_src * n_mic] rows.  [view(n_sm, -1)] raises when [n_sm = 0].  The early
    [continue] (accumulate.py:88-89) skips a scatter of nothing. *)
Definition accumulate_impl (rnd : R -> R) (n_sm nsample : nat) (rir : list xr)
    (sample : list R) (amplitude : list xr) (fdl gran : nat) (use_lut : bool)
    (chunk_size : nat) : result (list xr) :=
  if (n_sm =? 0)%nat then Err RuntimeError
  else
    let n_img := (List.length sample / n_sm)%nat in
    let amp_cols := (List.length amplitude / n_sm)%nat in
    foldM (fun buf start =>
      let stop := Nat.min (start + chunk_size) n_img in
      do upds <- mapM (fun sm =>
        do us <- mapM (fun i =>
            image_updates rnd use_lut fdl gran nsample sm
              (nth (sm * n_img + i) sample 0) (nth (sm * amp_cols + i) amplitude None))
          (seq start (stop - start));
        Ok (concat us)) (seq 0 n_sm);
      scatter_add buf (concat upds))
      (py_range_step n_img chunk_size) rir.

(** Whether the table is used, accumulate.py:101. *)
Definition lut_enabled (use_lut : bool) (d : device_type) : bool :=
  use_lut && match d with Mps => false | _ => true end.
