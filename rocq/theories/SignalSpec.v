(** Independent specification vocabulary for torchrir.signal.

    Nothing here mentions FFTs, buffers or the model's helper functions: only the
    mathematical meaning of (time-varying) convolution and of the documented tensor
    layouts (/repo/src/torchrir/signal/static.py:36-50, internal.py:8-47). *)
From Coq Require Import List ZArith Reals Bool.
From Verif Require Import Prelude.
Import ListNotations.
Local Open Scope R_scope.

(** Linear convolution of two zero-extended sequences at sample [j]. *)
Definition lin_conv (x h : nat -> R) (j : nat) : R :=
  rsum (S j) (fun tau => x tau * h (j - tau)%nat).

(** A sequence given by a list, zero outside. *)
Definition seq_of (l : list R) (i : nat) : R := nth i l 0.

(** Time-varying convolution: sample [tau] is filtered by filter number [k tau]. *)
Definition tv_conv (x : nat -> R) (k : nat -> nat) (h : nat -> nat -> R) (j : nat) : R :=
  rsum (S j) (fun tau => x tau * h (k tau) (j - tau)%nat).

(** Zero extension of a finite sequence of length [n]. *)
Definition zext (n : nat) (f : nat -> R) (i : nat) : R := if (i <? n)%nat then f i else 0.

(** Documented layouts of a signal: [(n_samples,)] or [(n_src, n_samples)]; one row
    serves every source. *)
Definition sig_rows (t : tensor) : nat := match shape t with [ns; _] => ns | _ => 1%nat end.
Definition sig_len (t : tensor) : nat :=
  match shape t with [n] => n | [_; n] => n | _ => 0%nat end.
Definition sig_view (t : tensor) (s : nat) : nat -> R :=
  match shape t with
  | [n] => zext n (fun i => tget t [i])
  | [ns; n] => zext n (fun i => tget t [if (ns =? 1)%nat then 0%nat else s; i])
  | _ => fun _ => 0
  end.

(** Documented layouts of static RIRs: [(L,)], [(M, L)], [(S, M, L)]. *)
Definition rir_srcs (t : tensor) : nat := match shape t with [s; _; _] => s | _ => 1%nat end.
Definition rir_mics (t : tensor) : nat :=
  match shape t with [m; _] => m | [_; m; _] => m | _ => 1%nat end.
Definition rir_len (t : tensor) : nat := last (shape t) 0%nat.
Definition rir_view (t : tensor) (s m : nat) : nat -> R :=
  match shape t with
  | [l] => zext l (fun i => tget t [i])
  | [_; l] => zext l (fun i => tget t [m; i])
  | [_; _; l] => zext l (fun i => tget t [s; m; i])
  | _ => fun _ => 0
  end.

(** Documented layouts of dynamic RIRs: [(T, L)], [(T, M, L)], [(T, S, M, L)]. *)
Definition dyn_steps (t : tensor) : nat := hd 0%nat (shape t).
Definition dyn_srcs (t : tensor) : nat := match shape t with [_; s; _; _] => s | _ => 1%nat end.
Definition dyn_mics (t : tensor) : nat :=
  match shape t with [_; m; _] => m | [_; _; m; _] => m | _ => 1%nat end.
Definition dyn_view (t : tensor) (k s m : nat) : nat -> R :=
  match shape t with
  | [_; l] => zext l (fun i => tget t [k; i])
  | [_; _; l] => zext l (fun i => tget t [k; m; i])
  | [_; _; _; l] => zext l (fun i => tget t [k; s; m; i])
  | _ => fun _ => 0
  end.

(** Documented output layout: [(M, len)], or [(len,)] for a single microphone. *)
Definition out_shape (mics len : nat) : list nat :=
  if (mics =? 1)%nat then [len] else [mics; len].
Definition out_view (t : tensor) (m j : nat) : R :=
  match shape t with [_] => tget t [j] | _ => tget t [m; j] end.

(** [t] is the well-formed output with [mics] channels of [len] samples and values [f]. *)
Definition is_output (t : tensor) (mics len : nat) (f : nat -> nat -> R) : Prop :=
  shape t = out_shape mics len /\ wf t /\
  forall m j, (m < mics)%nat -> (j < len)%nat -> out_view t m j = f m j.

(** Rank conditions of the documented layouts. *)
Definition sig_rank_ok (t : tensor) : Prop := ndim t = 1%nat \/ ndim t = 2%nat.
Definition rir_rank_ok (t : tensor) : Prop :=
  ndim t = 1%nat \/ ndim t = 2%nat \/ ndim t = 3%nat.
Definition dyn_rank_ok (t : tensor) : Prop :=
  ndim t = 2%nat \/ ndim t = 3%nat \/ ndim t = 4%nat.

(** [k] assigns to every sample below [n] the segment of [w] containing it, where the
    last of the [length w] segments ends at [n]. *)
Definition seg_start (w : list Z) (n : nat) (k : nat) : Z := nth k (w ++ [Z.of_nat n]) 0%Z.
Definition segment_of (w : list Z) (n : nat) (k : nat -> nat) : Prop :=
  forall tau, (tau < n)%nat ->
    (k tau < length w)%nat /\
    (seg_start w n (k tau) <= Z.of_nat tau < seg_start w n (S (k tau)))%Z.

(** Segment starts that partition [0, n): first is 0, never decreasing, none above [n]. *)
Definition partition_starts (w : list Z) (n : nat) : Prop :=
  (0 < length w)%nat /\ nth 0 w 0%Z = 0%Z /\
  forall k, (k < length w)%nat -> (seg_start w n k <= seg_start w n (S k))%Z.

(** The last step whose start is not after sample [tau]. *)
Fixpoint last_started (w : list Z) (T : nat) (tau : nat) : nat :=
  match T with
  | O => 0%nat
  | S t => if (nth t w 0 <=? Z.of_nat tau)%Z then t else last_started w t tau
  end.
Definition active_step (w : list Z) (tau : nat) : nat := last_started w (length w) tau.

(** Elementwise linear combination of two tensors. *)
Definition lin_comb (a : R) (x : tensor) (b : R) (y : tensor) : tensor :=
  mkT (shape x) (map2 (fun u v => a * u + b * v) (data x) (data y)).

(** The dynamic RIRs equal the static ones at every step. *)
Definition same_every_step (dyn st : tensor) : Prop :=
  dyn_srcs dyn = rir_srcs st /\ dyn_mics dyn = rir_mics st /\ rir_len dyn = rir_len st /\
  forall k s m i, (k < dyn_steps dyn)%nat -> (s < rir_srcs st)%nat -> (m < rir_mics st)%nat ->
    dyn_view dyn k s m i = rir_view st s m i.

(** [x1] and [r1] are source [s] of [signal] and of [rirs] taken alone. *)
Definition source_alone (signal rirs : tensor) (s : nat) (x1 r1 : tensor) : Prop :=
  wf x1 /\ wf r1 /\ shape x1 = [1%nat; sig_len signal] /\
  shape r1 = [dyn_steps rirs; 1%nat; dyn_mics rirs; rir_len rirs] /\
  (forall i, sig_view x1 0 i = sig_view signal s i) /\
  (forall k m i, (k < dyn_steps rirs)%nat -> (m < dyn_mics rirs)%nat ->
     dyn_view r1 k 0 m i = dyn_view rirs k s m i).

(** Two signals agree wherever an RIR of length [L] can carry energy to sample [j]. *)
Definition agree_before (L j : nat) (x y : tensor) : Prop :=
  forall s tau, (tau <= j)%nat -> (j < tau + L)%nat -> sig_view x s tau = sig_view y s tau.
