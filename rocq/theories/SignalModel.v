(** Model of torchrir.signal: /repo/src/torchrir/signal/{static,internal,dynamic}.py *)
From Coq Require Import String List ZArith Reals Bool.
From Coquelicot Require Import Complex.
From Verif Require Import Prelude FloatModel.
Import ListNotations.
Local Open Scope R_scope.

(** ** torch.fft *)

(** e^{i t}; used by the definition of the discrete Fourier transform, signal/static.py:11-33. *)
Definition cis (t : R) : C := (cos t, sin t).

(** Finite sum of complex numbers, signal/static.py:11-33. *)
Fixpoint csum (n : nat) (f : nat -> C) : C :=
  match n with
  | O => RtoC 0
  | S k => Cplus (csum k f) (f k)
  end.

(** [torch.fft.rfft(x, n=N)] as used in signal/static.py:30-31 and
    signal/dynamic.py:200-201: zero-pad (or cut) to [N] samples, keep the
    [N//2 + 1] non-redundant coefficients.  Modelled by the mathematical DFT. *)
Definition rfft (x : list R) (N : nat) : list C :=
  tabulate (N / 2 + 1)
    (fun k => csum N (fun i =>
       Cmult (RtoC (nth i x 0)) (cis (- (2 * PI * INR k * INR i / INR N))))).

(** Conjugate-symmetric completion that [irfft] assumes (static.py:32, dynamic.py:207). *)
Definition half_ext (X : list C) (N k : nat) : C :=
  if (k <=? N / 2)%nat then nth k X (RtoC 0) else Cconj (nth (N - k) X (RtoC 0)).

(** [torch.fft.irfft(X, n=N)] as used in signal/static.py:32 and
    signal/dynamic.py:207-209. *)
Definition irfft (X : list C) (N : nat) : list R :=
  tabulate N (fun j =>
    / INR N * fst (csum N (fun k =>
        Cmult (half_ext X N k) (cis (2 * PI * INR k * INR j / INR N))))).

(** ** signal/static.py *)

(** Python [int.bit_length], used at signal/static.py:29 and signal/dynamic.py:199. *)
Definition bit_length (z : Z) : Z :=
  if (z =? 0)%Z then 0%Z else (Z.log2 (Z.abs z) + 1)%Z.

(** [1 << (n - 1).bit_length()], signal/static.py:29, signal/dynamic.py:199. *)
Definition fft_len (n : Z) : nat := Z.to_nat (Z.shiftl 1 (bit_length (n - 1))).

(** [fft_convolve] on 1-D data, signal/static.py:28-33. *)
Definition fft_convolve_data (signal rir : list R) : list R :=
  let n := (Z.of_nat (length signal) + Z.of_nat (length rir) - 1)%Z in
  let fl := fft_len n in
  let sig_f := rfft signal fl in
  let rir_f := rfft rir fl in
  let out := irfft (map2 Cmult sig_f rir_f) fl in
  pyslice 0 n out.

(** [fft_convolve], signal/static.py:11-33. *)
Definition fft_convolve (signal rir : tensor) : result tensor :=
  if negb ((ndim signal =? 1)%nat && (ndim rir =? 1)%nat) then Err ValueError
  else let out := fft_convolve_data (data signal) (data rir) in
       Ok (mkT [length out] out).

(** ** signal/internal.py *)

(** [_ensure_signal], signal/internal.py:8-14. *)
Definition ensure_signal (t : tensor) : result tensor :=
  match shape t with
  | [n] => Ok (mkT [1%nat; n] (data t))
  | [_; _] => Ok t
  | _ => Err ValueError
  end.

(** [_ensure_static_rirs], signal/internal.py:17-27. *)
Definition ensure_static_rirs (t : tensor) : result tensor :=
  match shape t with
  | [l] => Ok (mkT [1%nat; 1%nat; l] (data t))
  | [m; l] => Ok (mkT [1%nat; m; l] (data t))
  | [_; _; _] => Ok t
  | _ => Err ValueError
  end.

(** [_ensure_dynamic_rirs], signal/internal.py:30-47. *)
Definition ensure_dynamic_rirs (rirs signal : tensor) : result tensor :=
  match shape rirs with
  | [t; l] => Ok (mkT [t; 1%nat; 1%nat; l] (data rirs))
  | [t; m; l] =>
      match shape signal with
      | [s; _] => if negb (s =? 1)%nat then Err ValueError
                  else Ok (mkT [t; 1%nat; m; l] (data rirs))
      | _ => Ok (mkT [t; 1%nat; m; l] (data rirs))
      end
  | [_; _; _; _] => Ok rirs
  | _ => Err ValueError
  end.

(** ** Buffers *)

(** [out[m] += v] and [out[m, a:b] += v] on one row: torch requires equal lengths, or
    broadcasts a length-1 right-hand side; anything else raises RuntimeError, signal/static.py:36-62, signal/dynamic.py:94, 163, 218-220. *)
Definition add_into (dst v : list R) : result (list R) :=
  if (length v =? length dst)%nat then Ok (map2 Rplus dst v)
  else if (length v =? 1)%nat then Ok (map (fun x => x + nth 0 v 0) dst)
  else Err RuntimeError.

(** [row[a:b] += v] with Python slice bounds (dynamic.py:94, 163, 218-220). *)
Definition slice_add (row : list R) (a b : Z) (v : list R) : result (list R) :=
  let a' := slice_bound (length row) a in
  let b' := slice_bound (length row) b in
  do mid <- add_into (firstn (b' - a') (skipn a' row)) v;
  Ok (firstn a' row ++ mid ++ skipn (a' + (b' - a')) row).

(** Replace row [m] of a buffer by the outcome of an in-place update of that row
    ([out[m] += ...], static.py:65, dynamic.py:94, 163, 218). *)
Definition upd_row (out : list (list R)) (m : nat) (f : list R -> result (list R))
  : result (list (list R)) :=
  do r <- f (nth m out []);
  Ok (upd_nth m (fun _ => r) out).

(** [torch.zeros((rows, len))] with an integer length that may be negative
    (then RuntimeError): static.py:60-61, dynamic.py:84, 150-152, 179-181. *)
Definition zeros2 (rows : nat) (len : Z) : result (list (list R)) :=
  if (len <? 0)%Z then Err RuntimeError
  else Ok (repeat (repeat 0 (Z.to_nat len)) rows).

(** [out.squeeze(0) if n_mic == 1 else out] (static.py:67, dynamic.py:96,165,222). *)
Definition finish (n_mic : nat) (len : nat) (out : list (list R)) : tensor :=
  if (n_mic =? 1)%nat then mkT [len] (concat out) else mkT [n_mic; len] (concat out).

(** ** [convolve_rir], signal/static.py:36-67 *)
Definition convolve_rir (signal rirs : tensor) : result tensor :=
  do signal <- ensure_signal signal;
  do rirs <- ensure_static_rirs rirs;
  match shape signal, shape rirs with
  | [ns; n_samples], [n_src; n_mic; rir_len] =>
      if negb ((ns =? 1)%nat || (ns =? n_src)%nat) then Err ValueError
      else
        (* expand(n_src, -1): all rows alias row 0, static.py:57-58 *)
        let expanded := ((ns =? 1)%nat && (1 <? n_src)%nat)%bool in
        let row s := block ((if expanded then 0 else s) * n_samples) n_samples (data signal) in
        let out_len := (Z.of_nat n_samples + Z.of_nat rir_len - 1)%Z in
        do out <- zeros2 n_mic out_len;
        do out <- foldM (fun out s =>
            foldM (fun out m =>
              upd_row out m (fun r =>
                add_into r (fft_convolve_data (row s)
                  (block ((s * n_mic + m) * rir_len) rir_len (data rirs)))))
              (seq 0 n_mic) out)
          (seq 0 n_src) out;
        Ok (finish n_mic (Z.to_nat out_len) out)
  | _, _ => Err ValueError
  end.

(** ** [_convolve_dynamic_rir_hop], signal/dynamic.py:76-96 *)

(** [math.ceil(signal.shape[1] / hop)] with Python's correctly rounded division
    (dynamic.py:80); [hop = 0] raises ZeroDivisionError. *)
Definition hop_frames (n_samples : nat) (hop : Z) : result Z :=
  if (hop =? 0)%Z then Err ZeroDivisionError
  else Ok (ceilZ (rnd64 (INR n_samples / IZR hop))).

(** The frame loop of hop mode, dynamic.py:76-96. *)
Definition conv_hop_core (n_samples ns : nat) (sig : list R)
  (t_steps n_src n_mic rir_len : nat) (rirs : list R) (hop : Z) : result tensor :=
  do frames0 <- hop_frames n_samples hop;
  let frames := Z.min frames0 (Z.of_nat t_steps) in
  let out_len := (hop * (frames - 1) + hop + Z.of_nat rir_len - 1)%Z in
  do out <- zeros2 n_mic out_len;
  do out <- foldM (fun out t =>
      let start := (Z.of_nat t * hop)%Z in
      foldM (fun out s =>
        (* signal[s, ...] raises IndexError when s is not a row of signal *)
        if (ns <=? s)%nat then Err IndexError else
        let frame := pyslice start (start + hop) (block (s * n_samples) n_samples sig) in
        if (length frame =? 0)%nat then Ok out else
        foldM (fun out m =>
          let seg := fft_convolve_data frame
            (block (((t * n_src + s) * n_mic + m) * rir_len) rir_len rirs) in
          upd_row out m (fun r => slice_add r start (start + Z.of_nat (length seg)) seg))
          (seq 0 n_mic) out)
        (seq 0 n_src) out)
    (seq 0 (Z.to_nat frames)) out;
  Ok (finish n_mic (Z.to_nat out_len) out).

(** [_convolve_dynamic_hop], dynamic.py:58-61. *)
Definition convolve_hop (signal rirs : tensor) (hop : Z) : result tensor :=
  do signal <- ensure_signal signal;
  do rirs <- ensure_dynamic_rirs rirs signal;
  match shape signal, shape rirs with
  | [ns; n_samples], [t_steps; n_src; n_mic; rir_len] =>
      conv_hop_core n_samples ns (data signal) t_steps n_src n_mic rir_len (data rirs) hop
  | _, _ => Err ValueError
  end.

(** ** Trajectory mode, signal/dynamic.py:99-165 *)

(** [signal.device.type] (dynamic.py:116, 125, 135). *)
Inductive device_type := Cpu | Cuda | Mps.

(** Rounding of the dtype chosen for timestamps: float32 on MPS, else float64
    (dynamic.py:116, 125). *)
Definition ts_round (d : device_type) : R -> R :=
  match d with Mps => rnd32 | _ => rnd64 end.

(** Segment starts [w_ini] (without the appended end), dynamic.py:110-128.
    [timestamps] entries and [fs] are Python/torch floats. *)
Definition segment_starts (d : device_type) (n_samples t_steps : nat)
  (timestamps : option tensor) (fs : option R) : result (list Z) :=
  match timestamps with
  | Some ts =>
      match fs with
      | None => Err ValueError
      | Some fs =>
          if negb ((ndim ts =? 1)%nat && (numel ts =? t_steps)%nat) then Err ValueError
          else
            let v := map (ts_round d) (data ts) in
            match v with
            | [] => Err IndexError                              (* ts[0] *)
            | t0 :: _ =>
                if negb (Reqb t0 0) then Err ValueError
                else Ok (map (fun x => truncZ (ts_round d (x * ts_round d fs))) v)
            end
      end
  | None =>
      if (t_steps =? 0)%nat then Err ZeroDivisionError
      else
        let step_fs := rnd64 (INR n_samples / INR t_steps) in
        Ok (tabulate t_steps (fun t =>
              truncZ (ts_round d (ts_round d (INR t) * ts_round d step_fs))))
  end.

(** [torch.cat([w_ini, [n_samples]])], dynamic.py:130-132. *)
Definition with_end (w : list Z) (n_samples : nat) : list Z := w ++ [Z.of_nat n_samples].

(** [w_len = w_ini[1:] - w_ini[:-1]], dynamic.py:133. *)
Definition seg_lens (w : list Z) : list Z :=
  tabulate (length w - 1) (fun t => (nth (S t) w 0 - nth t w 0)%Z).

(** [x.max().item()] of a non-empty integer tensor (RuntimeError when empty),
    dynamic.py:140 and 186. *)
Definition max_item (l : list Z) : result Z :=
  match l with [] => Err RuntimeError | x :: l' => Ok (fold_left Z.max l' x) end.

(** One time step of [segments[t, :, :end-start] = signal[:, start:end]] into a zero
    block of [n_src] rows of [max_len] samples (dynamic.py:141-148 and 189-196).  The
    source slice has [ns] rows; torch broadcasts one row to all, or a length-1 slice to
    the whole target, and raises RuntimeError otherwise. *)
Definition fill_segment (n_samples ns : nat) (sig : list R) (n_src : nat) (max_len : nat)
  (start stop : Z) : result (list (list R)) :=
  if (start <? stop)%Z then
    if negb ((ns =? 1)%nat || (ns =? n_src)%nat) then Err RuntimeError
    else
      mapM (fun s =>
        let row := block ((if (ns =? 1)%nat then 0 else s) * n_samples) n_samples sig in
        let piece := pyslice start stop row in
        let width := slice_bound max_len (stop - start) in
        if (length piece =? width)%nat then
          Ok (piece ++ repeat 0 (max_len - width))
        else if (length piece =? 1)%nat then
          Ok (repeat (nth 0 piece 0) width ++ repeat 0 (max_len - width))
        else Err RuntimeError)
      (seq 0 n_src)
  else Ok (repeat (repeat 0 max_len) n_src).

(** CPU path: dynamic.py:140-165.  [w] has [t_steps + 1] entries. *)
Definition conv_traj_cpu (n_samples ns : nat) (sig : list R)
  (t_steps n_src n_mic rir_len : nat) (rirs : list R) (w : list Z) : result tensor :=
  let w_len := seg_lens w in
  do max_len <- max_item w_len;
  if (max_len <? 0)%Z then Err RuntimeError else
  do segments <- mapM (fun t =>
      fill_segment n_samples ns sig n_src (Z.to_nat max_len) (nth t w 0%Z) (nth (S t) w 0%Z))
    (seq 0 t_steps);
  let out_len := (Z.of_nat n_samples + Z.of_nat rir_len - 1)%Z in
  do out <- zeros2 n_mic out_len;
  do out <- foldM (fun out t =>
      let seg_len := nth t w_len 0%Z in
      if (seg_len =? 0)%Z then Ok out else
      let start := nth t w 0%Z in
      foldM (fun out s =>
        let frame := pyslice 0 seg_len (nth s (nth t segments []) []) in
        foldM (fun out m =>
          let conv := fft_convolve_data frame
            (block (((t * n_src + s) * n_mic + m) * rir_len) rir_len rirs) in
          upd_row out m (fun r =>
            slice_add r start (start + seg_len + Z.of_nat rir_len - 1) conv))
          (seq 0 n_mic) out)
        (seq 0 n_src) out)
    (seq 0 t_steps) out;
  Ok (finish n_mic (Z.to_nat out_len) out).

(** [range(0, n, step)] for [step >= 1] (dynamic.py:183). *)
Definition py_range_step (n step : nat) : list nat :=
  map (fun i => (i * step)%nat) (seq 0 ((n + step - 1) / step)).

(** Batched path: [_convolve_dynamic_rir_trajectory_batched], dynamic.py:168-222. *)
Definition conv_traj_batched (n_samples ns : nat) (sig : list R)
  (t_steps n_src n_mic rir_len : nat) (rirs : list R) (w : list Z) (chunk_size : nat)
  : result tensor :=
  let w_len := seg_lens w in
  let out_len := (Z.of_nat n_samples + Z.of_nat rir_len - 1)%Z in
  do out <- zeros2 n_mic out_len;
  do out <- foldM (fun out t0 =>
      let t1 := Nat.min (t0 + chunk_size) t_steps in
      let lengths := block t0 (t1 - t0) w_len in
      do max_len <- max_item lengths;
      if (max_len =? 0)%Z then Ok out else
      if (max_len <? 0)%Z then Err RuntimeError else
      do segments <- mapM (fun t =>
          fill_segment n_samples ns sig n_src (Z.to_nat max_len) (nth t w 0%Z) (nth (S t) w 0%Z))
        (seq t0 (t1 - t0));
      let conv_len := (max_len + Z.of_nat rir_len - 1)%Z in
      let fl := fft_len conv_len in
      (* conv[idx][s][m][:conv_len] *)
      let conv idx s m :=
        pyslice 0 conv_len
          (irfft (map2 Cmult (rfft (nth s (nth idx segments []) []) fl)
                             (rfft (block ((((t0 + idx) * n_src + s) * n_mic + m) * rir_len)
                                      rir_len rirs) fl)) fl) in
      (* conv.sum(dim=1)[idx, m] *)
      let conv_sum idx m :=
        tabulate (length (pyslice 0 conv_len (repeat 0 fl)))
          (fun j => rsum n_src (fun s => nth j (conv idx s m) 0)) in
      foldM (fun out idx =>
        let seg_len := nth idx lengths 0%Z in
        if (seg_len =? 0)%Z then Ok out else
        let start := nth (t0 + idx) w 0%Z in
        foldM (fun out m =>
          upd_row out m (fun r =>
            slice_add r start (start + seg_len + Z.of_nat rir_len - 1)
              (pyslice 0 (seg_len + Z.of_nat rir_len - 1) (conv_sum idx m))))
          (seq 0 n_mic) out)
        (seq 0 (t1 - t0)) out)
    (py_range_step t_steps chunk_size) out;
  Ok (finish n_mic (Z.to_nat out_len) out).

(** [_convolve_dynamic_rir_trajectory] after shape normalisation, dynamic.py:99-165
    (dispatch at 135-138; the batched call uses the default chunk_size = 8). *)
Definition conv_traj_core (d : device_type) (n_samples ns : nat) (sig : list R)
  (t_steps n_src n_mic rir_len : nat) (rirs : list R)
  (timestamps : option tensor) (fs : option R) : result tensor :=
  do starts <- segment_starts d n_samples t_steps timestamps fs;
  let w := with_end starts n_samples in
  match d with
  | Cuda | Mps => conv_traj_batched n_samples ns sig t_steps n_src n_mic rir_len rirs w 8
  | Cpu => conv_traj_cpu n_samples ns sig t_steps n_src n_mic rir_len rirs w
  end.

(** [_convolve_dynamic_trajectory], dynamic.py:64-73. *)
Definition convolve_trajectory (d : device_type) (signal rirs : tensor)
  (timestamps : option tensor) (fs : option R) : result tensor :=
  do signal <- ensure_signal signal;
  do rirs <- ensure_dynamic_rirs rirs signal;
  match shape signal, shape rirs with
  | [ns; n_samples], [t_steps; n_src; n_mic; rir_len] =>
      conv_traj_core d n_samples ns (data signal) t_steps n_src n_mic rir_len (data rirs)
        timestamps fs
  | _, _ => Err ValueError
  end.

(** [DynamicConvolver] and its [convolve], dynamic.py:20-55. *)
Record convolver := mkConvolver {
  cv_mode : string;
  cv_hop : option Z;
  cv_timestamps : option tensor;
  cv_fs : option R }.

(** signal/dynamic.py:39-55. *)
Definition convolver_convolve (c : convolver) (d : device_type) (signal rirs : tensor)
  : result tensor :=
  if negb ((cv_mode c =? "trajectory")%string || (cv_mode c =? "hop")%string)
  then Err ValueError
  else if (cv_mode c =? "hop")%string then
    match cv_hop c with
    | None => Err ValueError
    | Some h => convolve_hop signal rirs h
    end
  else convolve_trajectory d signal rirs (cv_timestamps c) (cv_fs c).
