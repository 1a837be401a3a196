(** Specification vocabulary for C89: references and mixture of an example scene. *)
From Coq Require Import String List ZArith Reals.
From Verif Require Import Prelude SignalModel SignalSpec IoModel LoopSpec.
Import ListNotations.
Local Open Scope R_scope.
Local Notation length := List.length.

(** What a microphone records: sample [j] of microphone [m]. *)
Definition recording := nat -> nat -> R.
(** The factor that a file is divided by: its largest magnitude, one if it is silent. *)
Definition loudness (M len : nat) (g : recording) (p : R) : Prop :=
  (0 < p /\ (forall m j, (m < M)%nat -> (j < len)%nat -> Rabs (g m j) <= p) /\
            exists m j, (m < M)%nat /\ (j < len)%nat /\ Rabs (g m j) = p) \/
  (p = 1 /\ forall m j, (m < M)%nat -> (j < len)%nat -> g m j = 0).
(** A file with one column for each microphone and one row for each sample. *)
Definition holds (w : wave) (M len : nat) (g : recording) : Prop :=
  w_shape w = (if Nat.eq_dec M 1 then [len] else [len; M]) /\ length (w_data w) = (M * len)%nat /\
  forall m j, (m < M)%nat -> (j < len)%nat -> nth (j * M + m) (w_data w) None = Some (g m j).
(** A file with a row for each microphone and a column for each sample. *)
Definition holds_sideways (w : wave) (M len : nat) (g : recording) : Prop :=
  w_shape w = [M; len] /\ length (w_data w) = (M * len)%nat /\
  forall m j, (m < M)%nat -> (j < len)%nat -> nth (m * len + j) (w_data w) None = Some (g m j).
(** A file of either kind: sideways with more than eight microphones. *)
Definition file_of (w : wave) (M len : nat) (g : recording) : Prop :=
  ((M <= 8)%nat /\ holds w M len g) \/ ((8 < M)%nat /\ holds_sideways w M len g).
(** The samples of a file, whatever the kind. *)
Definition sample (w : wave) (M len m j : nat) : option R :=
  nth (if Nat.leb M 8 then j * M + m else m * len + j) (w_data w) None.
(** The files of a scene with [n] sources that the microphones hear as [ref 0], [ref 1], ...: the
    references, numbered from one, and the mixture; each is divided by its own loudness. *)
Record scene_audio (prefix : string) (n M len : nat) (ref : nat -> recording) (files : list (string * wave)) : Prop := {
  sa_count : length files = S n;
  sa_refs : forall s, (s < n)%nat -> exists d p w, writes 2 (s + 1) d /\
    nth_error files s = Some ((prefix ++ "_ref" ++ d ++ ".wav")%string, w) /\
    loudness M len (ref s) p /\ file_of w M len (fun m j => ref s m j / p);
  sa_mix : exists p w, nth_error files n = Some ((prefix ++ ".wav")%string, w) /\
    loudness M len (fun m j => rsum n (fun s => ref s m j)) p /\
    file_of w M len (fun m j => rsum n (fun s => ref s m j) / p) }.
(** Signals and responses of [n] sources: (n, T) and (n, M, L), or (K, n, M, L) with steps. *)
Definition static_input (n T M L : nat) (signals rirs : tensor) : Prop :=
  shape signals = [n; T] /\ wf signals /\ shape rirs = [n; M; L] /\ wf rirs /\ (0 < T)%nat /\ (0 < L)%nat.
Definition dynamic_input (d : device_type) (n T K M L : nat) (signals rirs : tensor) : Prop :=
  shape signals = [n; T] /\ wf signals /\ shape rirs = [K; n; M; L] /\ wf rirs /\ (0 < T)%nat /\ (0 < L)%nat /\
  (0 < K)%nat /\ (Z.of_nat K <= match d with Mps => 2 ^ 22 | _ => 2 ^ 51 end)%Z.
