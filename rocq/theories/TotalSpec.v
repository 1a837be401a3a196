(** Specification vocabulary for C83: when a run of the builder completes. *)
From Coq Require Import String List ZArith Reals Bool.
From Verif Require Import Prelude DirModel IsmModel RoomModel DsModel BldModel BldSpec LoopModel LoopSpec.
Import ListNotations.
Local Notation length := List.length.
Local Open Scope R_scope.

(** What the arguments must satisfy, for a scene [s] with the three given triplets and a corpus
    recorded at [rate] samples per second. *)
Record arguments_fit (b : build_args) (o : options) (s : scene_args) (rate : Z) : Prop := {
  af_scenes : (0 < ba_scenes b)%Z; af_rir : (0 < ba_rir b)%Z; af_steps : (0 < sa_steps s)%Z;
  af_mics : (sa_n s <= 6)%Z; af_speakers : (sa_n s <= Z.of_nat (length (ba_speakers b)))%Z;
  af_sensible : sensible s; af_place : if sa_random_center s then spacious s else center_fits s;
  af_size : 0 < px (sa_room s) /\ 0 < py (sa_room s) /\ 0 < pz (sa_room s);
  af_rate : (20 < rate)%Z; af_samples : (0 < target_samples (m_dur (sa_motion s)) rate)%Z;
  af_t60 : 0 < o_t60 o; af_c : 0 < o_c o; af_order : (0 <= o_order o)%Z }.
(** A corpus with the speakers [l]: every speaker has utterances, all of them can be read, one is
    not empty and the first one has the rate [rate]. *)
Definition corpus_good (c : corpus) (l : list string) (rate : Z) : Prop :=
  forall spk, In spk l -> exists u us a, utts c spk = Ok (u :: us) /\ audio_of c spk u = Ok (a, rate) /\
    (forall v, In v (u :: us) -> exists x f, audio_of c spk v = Ok (x, f)) /\
    exists v x f, In v (u :: us) /\ audio_of c spk v = Ok (x, f) /\ x <> [].
(** The second-order high-pass filter with cut-off 10 Hz can be designed and run on rows of [L]
    samples. *)
Definition filter_works (X : externals) (rate : Z) (L : nat) : Prop :=
  exists sos, x_design X (Some 2%Z) (20 / IZR rate) = Ok sos /\ forall row, length row = L -> exists out, x_filt X sos row = Ok out.
(** The run ends without an exception. *)
Definition completes (E : env) (b : build_args) (o : options) (w : bworld) (rate : Z) : Prop :=
  exists fuel w1 t, build_dataset E b o fuel w = (w1, (t, Some (Ok (rate, 6%Z)))).
(** The draws of every scene are fair whenever the numbers of sources make sense. *)
Definition fair_draws (E : env) (s : scene_args) : Prop :=
  (0 < sa_n s)%Z -> (0 <= sa_moving s <= sa_n s)%Z -> forall i, fair_scene s (draws_for E s i).
(** The three triplets of the arguments. *)
Definition triplets (b : build_args) (room center margin : p3) : Prop :=
  ba_room_list b = [px room; py room; pz room] /\ ba_center_list b = [px center; py center; pz center] /\ ba_margin_list b = [px margin; py margin; pz margin].
(** Every utterance can be read, and all of them are empty. *)
Definition corpus_silent (c : corpus) (l : list string) (rate : Z) : Prop :=
  forall spk, In spk l -> exists u us, utts c spk = Ok (u :: us) /\ forall v, In v (u :: us) -> audio_of c spk v = Ok ([], rate).
