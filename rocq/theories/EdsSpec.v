(** Specification vocabulary for C93: runs of the example that builds a data set. *)
From Coq Require Import Ascii String List ZArith Reals Bool.
From Verif Require Import Prelude SignalModel SignalSpec FloatModel DirModel DirSpec IsmModel IoModel MetaModel MetaSpec.
From Verif Require DsModel DsSpec LoopSpec RefSpec SimLocal TotalSpec.
From Verif Require Import GeoSpec ExModel ExSpec EdsModel.
Import ListNotations.
Local Notation length := List.length.
Local Open Scope R_scope.

(** ** Names *)
Definition reference_file (scene source : string) : string := ("scene_" ++ scene ++ "_ref" ++ source ++ ".wav")%string.
Definition mixture_file (scene : string) : string := ("scene_" ++ scene ++ ".wav")%string.
Definition description_file (scene : string) : string := ("scene_" ++ scene ++ "_metadata.json")%string.
(** The files of scene [i] with [n] sources in the order in which they are written: references,
    numbered from one, mixture, description. *)
Definition scene_names (n i : nat) (l : list string) : Prop :=
  exists d, LoopSpec.writes 3 i d /\ length l = S (S n) /\
    (forall s, (s < n)%nat -> exists e, LoopSpec.writes 2 (s + 1) e /\ nth_error l s = Some (reference_file d e)) /\
    nth_error l n = Some (mixture_file d) /\ nth_error l (S n) = Some (description_file d).
(** The files of a run with [count] scenes: the notice, then the scenes one by one. *)
Definition run_names (n count : nat) (l : list string) : Prop :=
  exists scenes, length scenes = count /\ (forall i x, nth_error scenes i = Some x -> scene_names n i x) /\
    l = ("ATTRIBUTION.txt" :: concat scenes)%string.
Definition names {A} (x : erun A) : list string := map fst (fst x).
(** The run ends without an exception. *)
Definition finished (x : erun unit) : Prop := snd x = Some (Ok tt).
(** What a directory with the files [old] holds afterwards: of several files with one name the last
    one stays. *)
Definition directory := string -> option item.
Definition afterwards (old : directory) (x : erun unit) : directory :=
  fold_left (fun d e f => if String.eqb f (fst e) then Some (snd e) else d f) (fst x) old.

(** ** Descriptions *)
(** The same arguments with another number of scenes. *)
Definition with_count (a : eargs) (n : Z) : eargs :=
  mkE (ea_dataset a) (ea_dir a) (ea_subset a) (ea_download a) n (ea_n a) (ea_moving a) (ea_mics a) (ea_duration a) (ea_seed a)
      (ea_room a) (ea_steps a) (ea_order a) (ea_tmax a) (ea_device a) (ea_out a) (ea_plot a) (ea_level a).
Definition is_key (k : string) (p : pykey) : bool := match p with KStr s => String.eqb s k | _ => false end.
(** A value without the members called [k], at any depth. *)
Fixpoint without (k : string) (v : pyval) : pyval :=
  match v with
  | PList l => PList (map (without k) l)
  | PTuple l => PTuple (map (without k) l)
  | PDict l => PDict ((fix go l := match l with
                                   | [] => []
                                   | (p, x) :: l => if is_key k p then go l else (p, without k x) :: go l
                                   end) l)
  | v => v
  end.
(** A file up to the number of scenes of the run in its description. *)
Definition forget_count (e : string * item) : string * item :=
  match e with (f, Json v) => (f, Json (without "num_scenes" v)) | e => e end.

(** ** Runs with usual arguments *)
(** The generators keep their contracts, divisions are exact, the norm has the relative error [e],
    the filter keeps numbers and lengths. *)
Record usual_world (W : eworld) (e : R) : Prop := {
  uw_fresh : forall s, random_draws (ew_fresh W s);
  uw_rng : forall s, DsSpec.fair (ew_rng W s);
  uw_after : forall s, random_draws (d_uniform (ew_after W s)) /\ fair_pick (ew_after W s);
  uw_speakers : NoDup (DsModel.speakers (ew_corpus W));
  uw_error : 0 <= e; uw_norm : forall v, ew_norm W v <= (1 + e) * norm v;
  uw_float : ew_float W = (fun x => x);
  uw_filter : LoopSpec.keeps_numbers (ew_ext W) /\ SimLocal.filt_length (ew_ext W) }.
(** A room from one metre to a thousand kilometres, sources, microphones, at least three steps. *)
Record usual_args (a : eargs) : Prop := {
  ua_room : usual_room (ea_room a); ua_n : (1 <= ea_n a)%Z; ua_mics : (1 <= ea_mics a)%Z; ua_steps : (3 <= ea_steps a <= 2 ^ 22)%Z }.

(** ** What a scene holds *)
(** The description of a scene: tracks, microphones, times, speech, files, motions, seed. *)
Record scene_note (a : eargs) (n K M dim T L : nat) (rows : list (list xpoint)) (starts mics : list (list R)) (info : list (string * list string))
    (modes : list string) (moving : list nat) (files : list string) (md : pyval) : Prop := {
  sn_rate : field md ["room"; "fs"]%string = Some (number 16000);
  sn_starts : exists v, field md ["sources"; "positions"]%string = Some v /\
    forall j k, (j < n)%nat -> (k < dim)%nat -> MetaSpec.item v [j; k] = Some (number (nth k (nth j starts []) 0));
  sn_sources : exists v, field md ["trajectories"; "sources"]%string = Some v /\
    forall t j k p, (t < K)%nat -> (j < n)%nat -> (k < dim)%nat -> track_of rows j t = Some p -> MetaSpec.item v [t; j; k] = Some (number (nth k p 0));
  sn_mics : exists v, field md ["trajectories"; "mics"]%string = Some v /\
    forall t j k, (t < K)%nat -> (j < M)%nat -> (k < dim)%nat -> MetaSpec.item v [t; j; k] = Some (number (nth k (nth j mics []) 0));
  sn_times : exists v, field md ["timestamps"]%string = Some v /\
    forall t, (t < K)%nat -> MetaSpec.item v [t] = Some (number (INR t * ((INR T - 1) / 16000) / (INR K - 1)));
  sn_axis : exists v, field md ["time_axis"; "t"]%string = Some v /\ forall j, (j < L)%nat -> MetaSpec.item v [j] = Some (number (INR j / 16000));
  sn_info : exists v, field md ["source_info"]%string = Some v /\
    forall j spk ids, nth_error info j = Some (spk, ids) -> MetaSpec.item v [j] = Some (PList [PStr spk; PList (map PStr ids)]);
  sn_refs : exists v, field md ["extra"; "reference_audio"]%string = Some v /\
    forall j spk ids f, (j < n)%nat -> nth_error info j = Some (spk, ids) -> nth_error files j = Some f -> exists r, MetaSpec.item v [j] = Some r /\
      field r ["index"]%string = Some (PScalar (SInt (Z.of_nat j))) /\ field r ["filename"]%string = Some (PStr f) /\
      field r ["speaker"]%string = Some (PStr spk) /\ field r ["utterances"]%string = Some (PList (map PStr ids));
  sn_modes : field md ["extra"; "motion_modes"]%string = Some (PList (map PStr modes));
  sn_moving : field md ["extra"; "moving_sources"]%string = Some (PList (map (fun j => PScalar (SInt (Z.of_nat j))) moving));
  sn_seed : field md ["extra"; "args"; "seed"]%string = Some (PScalar (SInt (ea_seed a))) }.
(** The responses [h] of a scene: those of [simulate_dynamic_rir] in the room with walls 0.9 for
    tensors that hold the tracks and the microphones. *)
Definition scene_responses (W : eworld) (a : eargs) (n K M L : nat) (rows : list (list xpoint)) (mics : list (list R)) (h : tensor) : Prop :=
  let dim := length (ea_room a) in
  exists dev src mic, ew_device W (ea_device a) = Ok dev /\
    shape src = [K; n; dim] /\ wf src /\ (forall t j k p, (t < K)%nat -> (j < n)%nat -> (k < dim)%nat -> track_of rows j t = Some p -> tget src [t; j; k] = nth k p 0) /\
    shape mic = [K; M; dim] /\ wf mic /\ (forall t j k, (t < K)%nat -> (j < M)%nat -> (k < dim)%nat -> tget mic [t; j; k] = nth k (nth j mics []) 0) /\
    simulate_dynamic_rir (ew_ext W) dev
      (mkRoom (mkT [dim] (ea_room a)) 16000 343 (Some (repeat (9 / 10) (if Nat.eq_dec dim 3 then 6 else 4))) None)
      src mic (Some (ea_order a)) None None (Some (ea_tmax a)) None ONone None = Ok (mkX (shape h) (map Some (data h))) /\
    shape h = [K; n; M; L] /\ wf h /\ Z.of_nat L = ceilZ (rnd64 (ea_tmax a * 16000)).
(** Scene [i] of a run with the microphones [mics] around [c]: speech of [T] samples from the
    recordings, motions of the sources, responses of the tracks, audio files, description. *)
Definition scene_made (W : eworld) (e : R) (a : eargs) (c : list R) (mics : list (list R)) (i T : nat) (q : Z) (info : list (string * list string))
    (files : list (string * wave)) (md : pyval) : Prop :=
  exists dry rows modes moving starts h w L d,
    let n := Z.to_nat (ea_n a) in let K := Z.to_nat (ea_steps a) in let M := Z.to_nat (ea_mics a) in
    length info = n /\ NoDup (map fst info) /\ length dry = n /\
    (forall j spk ids, nth_error info j = Some (spk, ids) -> DsSpec.row_for (ew_corpus W) q T spk ids (nth j dry [])) /\
    source_motions e (ea_room a) c n (Z.to_nat (Z.min (ea_n a) (ea_moving a))) K rows modes moving starts /\
    scene_responses W a n K M L rows mics h /\ partition_starts w T /\ length w = K /\ LoopSpec.writes 3 i d /\
    RefSpec.scene_audio ("scene_" ++ d) n M (T + L - 1)
      (fun s m j => tv_conv (zext T (fun k => nth k (nth s dry []) 0)) (active_step w) (fun k => dyn_view h k s m) j) files /\
    scene_note a n K M (length (ea_room a)) T L rows starts mics info modes moving (map fst files) md.

(** ** Runs that can end well *)
(** A speaker with utterances that can be read at the rate [q], one of them not empty. *)
Definition speaker_ready (c : DsModel.corpus) (q : Z) (spk : string) : Prop :=
  exists us, DsModel.utts c spk = Ok us /\ us <> [] /\ (forall u, In u us -> exists x, DsModel.audio_of c spk u = Ok (x, q)) /\
    exists u x, In u us /\ DsModel.audio_of c spk u = Ok (x, q) /\ x <> [].
(** A known data set, enough speakers, files that can be written, a filter that runs, speech of [T]
    samples at the rate [q], and places for the sources of every scene. *)
Record run_ready (W : eworld) (a : eargs) (q : Z) (T : nat) : Prop := {
  rr_device : exists d, ew_device W (ea_device a) = Ok d;
  rr_dataset : ea_dataset a = "cmu_arctic"%string \/ ea_dataset a = "librispeech"%string;
  rr_save : forall f, ew_save W f = None;
  rr_order : (0 <= ea_order a)%Z; rr_length : 0 < rnd64 (ea_tmax a * 16000);
  rr_filter : TotalSpec.filter_works (ew_ext W) 16000 (Z.to_nat (ceilZ (rnd64 (ea_tmax a * 16000))));
  rr_enough : (ea_n a <= Z.of_nat (length (DsModel.speakers (ew_corpus W))))%Z;
  rr_speakers : forall spk, In spk (DsModel.speakers (ew_corpus W)) -> speaker_ready (ew_corpus W) q spk;
  rr_samples : DsSpec.whole_samples (ea_duration a) q T /\ (0 < T)%nat;
  rr_places : forall u i, prepare W a = Ok u -> (Z.of_nat i < ea_scenes a)%Z ->
    source_trajectories (ew_norm W) (ew_after W (ea_seed a + Z.of_nat i)) (ea_n a) (ea_moving a) (fx_size u) (fx_center u) (Z.max 2 (ea_steps a)) <> Err RuntimeError }.
