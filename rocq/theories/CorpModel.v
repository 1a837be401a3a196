(** Model of the listing and loading of utterances (/repo/src/torchrir/datasets/librispeech.py,
    cmu_arctic.py) and of the attribution notice (datasets/attribution.py, io/outputs.py).
    Strings are lists of code points; the disk is an arbitrary function. *)
From Coq Require Import String Ascii List ZArith NArith Bool.
From Verif Require Import Prelude DirModel DsModel.
Import ListNotations.
Local Notation length := List.length.
Local Open Scope list_scope.

(** A literal as code points, language level, used for the literals of io/outputs.py:49-74. *)
Fixpoint u (s : string) : ustr :=
  match s with EmptyString => [] | String c s' => N_of_ascii c :: u s' end.

(** * Paths *)

(** A POSIX path of pathlib: absolute or not, and its components, language level, used at
    datasets/librispeech.py:115, 130, datasets/cmu_arctic.py:149. *)
Record path := mkPath { p_abs : bool; p_parts : list ustr }.
(** datasets/librispeech.py:115, 130 ([/] between components). *)
Definition slash : N := 47.
(** [str.split("/")] as used by pathlib to read components, language level, used at
    datasets/librispeech.py:115, 130. *)
Fixpoint split_on (c : N) (s : ustr) : list ustr :=
  match s with
  | [] => [[]]
  | x :: s' => if (x =? c)%N then [] :: split_on c s'
               else match split_on c s' with w :: l => (x :: w) :: l | [] => [[x]] end
  end.
(** Components that pathlib drops: empty ones and [.], datasets/librispeech.py:115, 130. *)
Definition kept (w : ustr) : bool := match w with [] => false | [46%N] => false | _ => true end.
(** [path / s], pathlib: an absolute [s] replaces the path, datasets/librispeech.py:115, 130,
    datasets/cmu_arctic.py:149. *)
Definition join (p : path) (s : ustr) : path :=
  let w := filter kept (split_on slash s) in
  match s with
  | c :: _ => if (c =? slash)%N then mkPath true w else mkPath (p_abs p) (p_parts p ++ w)
  | [] => p
  end.
(** [path.name], datasets/librispeech.py:105-106. *)
Definition name (p : path) : ustr := last (p_parts p) [].
(** [path.parent], datasets/librispeech.py:104-105. *)
Definition parent (p : path) : path := mkPath (p_abs p) (removelast (p_parts p)).

(** * LibriSpeech *)

(** [LibriSpeechSentence], librispeech.py:33-40. *)
Record sentence := mkSent { s_id : ustr; s_text : ustr; s_speaker : ustr; s_chapter : ustr }.
(** [available_sentences], librispeech.py:96-124.  [found] lists what [rglob] yields: directory
    and content of each transcript; [on_disk] tells which paths exist. *)
Definition libri_sentences (on_disk : path -> bool) (found : list (path * ustr)) : list sentence :=
  flat_map (fun f =>
    let '(dir, text) := f in
    map (fun s => mkSent (fst s) (snd s) (name (parent dir)) (name dir))
      (available_libri (fun utt => on_disk (join dir (utt ++ u ".flac"))) text)) found.
(** [utterance_id.split("-", 2)] unpacked into three names, librispeech.py:128. *)
Definition three_parts (s : ustr) : result (ustr * ustr * ustr) :=
  let '(a, f, r) := partition 45 s in
  if negb f then Err ValueError
  else let '(b, g, c) := partition 45 r in
       if negb g then Err ValueError else Ok (a, b, c).
(** The path that [load_audio] opens, librispeech.py:126-130. *)
Definition libri_path (subset_dir : path) (utt : ustr) : result path :=
  do p <- three_parts utt;
  let '(a, b, _) := p in
  Ok (join (join (join subset_dir a) b) (utt ++ u ".flac")).
(** [load_audio], librispeech.py:126-131; [decode] is the audio reader, a missing file raises. *)
Definition libri_load {A} (on_disk : path -> bool) (decode : path -> result A) (subset_dir : path) (utt : ustr) : result A :=
  do p <- libri_path subset_dir utt;
  if on_disk p then decode p else Err FileNotFoundError.

(** * CMU ARCTIC *)

(** Position of the last occurrence of [c], [str.rfind], language level of [path.stem],
    used at datasets/cmu_arctic.py:140. *)
Definition rfind (c : N) (s : ustr) : option nat :=
  let '(b, f, a) := partition c (rev s) in if f then Some (length a) else None.
(** [path.stem] of a file name, pathlib: without the part after the last dot, unless that dot is
    the first or the last character; used at datasets/cmu_arctic.py:140. *)
Definition stem (n : ustr) : ustr :=
  match rfind 46 n with
  | Some i => if ((0 <? i) && (i <? length n - 1))%nat then firstn i n else n
  | None => n
  end.
(** The names matched by [glob("*.wav")], datasets/cmu_arctic.py:140. *)
Definition is_wav (n : ustr) : bool :=
  (4 <=? length n)%nat && (if list_eq_dec N.eq_dec (skipn (length n - 4) n) (u ".wav") then true else false).
(** [available_sentences], cmu_arctic.py:138-141; [names] are the entries of the wav directory. *)
Definition cmu_sentences (names : list ustr) (text : ustr) : result (list (ustr * ustr)) :=
  let ids := map stem (filter is_wav names) in
  available_cmu (fun i => if in_dec (list_eq_dec N.eq_dec) i ids then true else false) text.
(** [audio_path], cmu_arctic.py:147-149. *)
Definition cmu_path (audio_dir : path) (utt : ustr) : path := join audio_dir (utt ++ u ".wav").

(** * Attribution *)

(** [DatasetAttribution], attribution.py:9-24. *)
Record attribution := mkAtt { a_key : ustr; a_dataset : ustr; a_source : ustr; a_license : ustr; a_url : ustr;
  a_credit : ustr; a_required : bool; a_subset : option ustr }.
(** [attribution_for], attribution.py:27-54. *)
Definition attribution_for (dataset : string) (subset : option ustr) : result attribution :=
  let key := lower dataset in
  if String.eqb key "cmu_arctic" then
    Ok (mkAtt (u "cmu_arctic") (u "CMU ARCTIC") (u "http://www.festvox.org/cmu_arctic/")
          (u "Permissive (attribution required; see upstream COPYING)") (u "http://www.festvox.org/cmu_arctic/")
          (u "Carnegie Mellon University, Language Technologies Institute (CMU ARCTIC)") true None)
  else if String.eqb key "librispeech" then
    Ok (mkAtt (u "librispeech") (u "LibriSpeech (SLR12)") (u "https://www.openslr.org/12")
          (u "Creative Commons Attribution 4.0 International (CC BY 4.0)") (u "https://creativecommons.org/licenses/by/4.0/")
          (u "Vassil Panayotov, Guoguo Chen, Daniel Povey, and Sanjeev Khudanpur (LibriSpeech, 2015)") true subset)
  else Err ValueError.
(** [default_modification_notes], attribution.py:57-73. *)
Definition default_notes (dynamic : bool) : list ustr :=
  [u "Utterances are concatenated and trimmed to a fixed duration per source.";
   u (if dynamic then "Dynamic room impulse responses are simulated with ISM over trajectories."
      else "Static room impulse responses are simulated with ISM at fixed geometry.");
   u "Outputs are derived mixtures and per-source convolved references."].

(** Values of an attribution mapping as far as the notice shows them: [None] or something with a
    text form, io/outputs.py:49-61. *)
Inductive value := VNone | VText (s : ustr).
(** [f"{v}"], io/outputs.py:54-61. *)
Definition shown (v : value) : ustr := match v with VNone => u "None" | VText s => s end.
(** What the caller may pass, io/outputs.py:118-131: a mapping, an object with [to_dict], a
    dataclass instance, or anything else. *)
Inductive given := GMapping (m : string -> option value) | GToDict (m : string -> option value)
  | GDataclass (m : string -> option value) | GOther.
(** [DatasetAttribution.to_dict], attribution.py:22-24. *)
Definition to_dict (a : attribution) : string -> option value := fun k =>
  if String.eqb k "dataset_key" then Some (VText (a_key a)) else
  if String.eqb k "dataset" then Some (VText (a_dataset a)) else
  if String.eqb k "source" then Some (VText (a_source a)) else
  if String.eqb k "license_name" then Some (VText (a_license a)) else
  if String.eqb k "license_url" then Some (VText (a_url a)) else
  if String.eqb k "required_attribution" then Some (VText (a_credit a)) else
  if String.eqb k "attribution_required" then Some (VText (u (if a_required a then "True" else "False"))) else
  if String.eqb k "subset" then Some (match a_subset a with None => VNone | Some s => VText s end) else None.
(** io/outputs.py:132-138. *)
Definition required_keys : list string :=
  ["dataset"; "source"; "license_name"; "license_url"; "required_attribution"]%string.
(** [_coerce_attribution_mapping], io/outputs.py:118-142. *)
Definition coerce_attribution (g : given) : result (string -> option value) :=
  match g with
  | GOther => Err TypeError
  | GMapping m | GToDict m | GDataclass m =>
      if forallb (fun k => match m k with Some _ => true | None => false end) required_keys then Ok m
      else Err ValueError
  end.
(** [info[key]], io/outputs.py:54-58. *)
Definition look (m : string -> option value) (k : string) : ustr :=
  match m k with Some v => shown v | None => [] end.
(** The list [lines], io/outputs.py:49-74. *)
Definition notice_lines (m : string -> option value) (notes : list ustr) : list ustr :=
  [u "TorchRIR Dataset Attribution"; u ""; u "This directory contains derived audio generated with TorchRIR."; u "";
   u "Dataset: " ++ look m "dataset"; u "Source: " ++ look m "source"; u "License: " ++ look m "license_name";
   u "License URL: " ++ look m "license_url"; u "Required attribution: " ++ look m "required_attribution"] ++
  match m "subset"%string with Some (VText s) => [u "Subset: " ++ s] | _ => [] end ++
  [u ""; u "Modifications applied in this output:"] ++ map (fun n => u "- " ++ n) notes ++
  [u ""; u "When redistributing these derived files, keep this attribution file";
   u "and include the upstream dataset license terms."; u ""; u "See repository notice: THIRD_PARTY_DATASETS.md"].
(** [chr(10).join(lines) + chr(10)], io/outputs.py:76. *)
Fixpoint joined (l : list ustr) : ustr :=
  match l with [] => [] | [x] => x | x :: l' => x ++ [10%N] ++ joined l' end.
(** What happens to the disk, in order, io/outputs.py:46, 76. *)
Inductive event := Mkdir (p : path) | Write (p : path) (text : ustr).
(** [save_attribution_file], io/outputs.py:36-79. *)
Definition save_attribution_file (out_dir : path) (g : given) (notes : list ustr) (file : ustr) : list event * result path :=
  match coerce_attribution g with
  | Err e => ([Mkdir out_dir], Err e)
  | Ok m => ([Mkdir out_dir; Write (join out_dir file) (joined (notice_lines m notes) ++ [10%N])], Ok (join out_dir file))
  end.
