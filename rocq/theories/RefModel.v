(** Model of the audio of the example programs: /repo/examples/static.py:222-254,
    dynamic_src.py:255-288, dynamic_mic.py:250-283, build_dynamic_dataset.py:401-435.

    The signals are what [load_dataset_sources] gives, the responses what the simulators give,
    whatever they are.  Simplifications: finite samples; files are the arrays handed to the
    sound file library (IoModel.v); the sample rate and the log are left out. *)
From Coq Require Import String List ZArith Reals Bool.
From Verif Require Import Prelude SignalModel IoModel LoopModel.
Import ListNotations.
Local Open Scope R_scope.
Local Notation length := List.length.

(** [t[s]], static.py:227, dynamic_src.py:261. *)
Definition index0 (t : tensor) (s : nat) : result tensor :=
  match shape t with
  | n :: sh => if (s <? n)%nat then Ok (mkT sh (block (s * prodn sh) (prodn sh) (data t))) else Err IndexError
  | [] => Err IndexError
  end.
(** [t[s : s + 1]], static.py:227. *)
Definition slice0 (t : tensor) (s : nat) : result tensor :=
  match shape t with
  | n :: sh => Ok (if (s <? n)%nat then mkT (1%nat :: sh) (block (s * prodn sh) (prodn sh) (data t)) else mkT (0%nat :: sh) [])
  | [] => Err IndexError
  end.
(** [t[:, s : s + 1]], dynamic_src.py:261, dynamic_mic.py:256, build_dynamic_dataset.py:408. *)
Definition slice1 (t : tensor) (s : nat) : result tensor :=
  match shape t with
  | a :: n :: sh =>
      Ok (if (s <? n)%nat
          then mkT (a :: 1%nat :: sh) (concat (map (fun i => block ((i * n + s) * prodn sh) (prodn sh) (data t)) (seq 0 a)))
          else mkT (a :: 0%nat :: sh) [])
  | _ => Err IndexError
  end.
(** A tensor of finite samples as the argument of [save_scene_audio], io/outputs.py:19-33. *)
Definition wave_of (t : tensor) : wave := mkW (shape t) (map Some (data t)).
(** [save_scene_audio] calls [save(out_path, audio, fs)] with the defaults [normalize=True] and
    [peak=1.0], io/outputs.py:30, io/audio.py:99-161. *)
Definition scene_file (fl : R -> R) (name : string) (t : tensor) : result (string * wave) :=
  do w <- save_samples fl true 1 (wave_of t); Ok (name, w).
(** [f"{prefix}_ref{src_idx + 1:02d}.wav"], static.py:228, dynamic_src.py:262, dynamic_mic.py:257,
    build_dynamic_dataset.py:409. *)
Definition ref_name (prefix : string) (s : nat) : string := (prefix ++ "_ref" ++ padded 2 (s + 1) ++ ".wav")%string.
(** The mixture first, then the references one by one, then the file of the mixture; [conv] is
    the convolution and [alone] the response of one source, static.py:222-254. *)
Definition audio_files (fl : R -> R) (conv : tensor -> tensor -> result tensor) (alone : tensor -> nat -> result tensor)
    (prefix : string) (n : nat) (signals rirs : tensor) : result (list (string * wave)) :=
  do y <- conv signals rirs;
  do refs <- mapM (fun s => do x <- index0 signals s;
                            do r <- alone rirs s;
                            do ref <- conv x r;
                            scene_file fl (ref_name prefix s) ref) (seq 0 n);
  do mix <- scene_file fl (prefix ++ ".wav") y;
  Ok (refs ++ [mix]).
(** static.py:222-254 with prefix "static". *)
Definition static_files (fl : R -> R) : string -> nat -> tensor -> tensor -> result (list (string * wave)) :=
  audio_files fl convolve_rir slice0.
(** [DynamicConvolver(mode="trajectory")] on device [d], dynamic_src.py:255-288 ("dynamic_src"),
    dynamic_mic.py:250-283 ("dynamic_mic"), build_dynamic_dataset.py:401-435 ("scene_..."). *)
Definition dynamic_files (fl : R -> R) (d : device_type) : string -> nat -> tensor -> tensor -> result (list (string * wave)) :=
  audio_files fl (convolver_convolve (mkConvolver "trajectory" None None None) d) slice1.
(** An entry of [reference_audio] in the metadata, static.py:237-245, dynamic_src.py:271-279,
    dynamic_mic.py:266-274, build_dynamic_dataset.py:418-426. *)
Record ref_entry := mkRef { re_index : nat; re_file : string; re_speaker : string; re_utterances : list string; re_kind : string }.
(** [speaker, utterances = info[src_idx]] for each source, static.py:226-245. *)
Definition reference_entries (prefix : string) (n : nat) (info : list (string * list string)) : result (list ref_entry) :=
  mapM (fun s => match nth_error info s with
                 | Some (speaker, utterances) => Ok (mkRef s (ref_name prefix s) speaker utterances "convolved")
                 | None => Err IndexError
                 end) (seq 0 n).
