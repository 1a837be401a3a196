(** Model of the constructors of the data sets with their arguments
    (/repo/src/torchrir/datasets/cmu_arctic.py:67-92, librispeech.py:53-88) and of the data set
    factory of the example that builds data sets (/repo/examples/build_dynamic_dataset.py:96-119).
    Download and extraction of one archive are those of DlModel.  Simplifications: names of
    speakers are single directory names; the archives of one root are told apart by their file
    names. *)
From Coq Require Import String List Arith Bool.
From Verif Require Import Prelude DlModel.
Import ListNotations.
Local Open Scope string_scope.

(** [VALID_SPEAKERS], datasets/cmu_arctic.py:20-39. *)
Definition valid_speakers : list string :=
  ["aew"; "ahw"; "aup"; "awb"; "axb"; "bdl"; "clb"; "eey"; "fem"; "gka"; "jmk"; "ksp"; "ljm"; "lnh"; "rms"; "rxr"; "slp"; "slt"].
(** [VALID_SUBSETS], datasets/librispeech.py:20-28. *)
Definition valid_subsets : list string :=
  ["dev-clean"; "dev-other"; "test-clean"; "test-other"; "train-clean-100"; "train-clean-360"; "train-other-500"].
(** [x in set], language level, used at datasets/cmu_arctic.py:77, datasets/librispeech.py:69. *)
Definition mem (x : string) (l : list string) : bool := existsb (String.eqb x) l.
(** The files below the roots of the data sets, by the name of the archive they belong to
    (temporary file, archive, extracted directory), datasets/cmu_arctic.py:79-83,
    datasets/librispeech.py:71-76. *)
Definition disk := string -> world.
(** What the run meets when it fetches and unpacks an archive, by name, datasets/cmu_arctic.py:108,
    datasets/librispeech.py:136. *)
Definition surroundings := string -> env.
(** A change of what belongs to one archive, datasets/cmu_arctic.py:104-124,
    datasets/librispeech.py:132-152. *)
Definition put (k : string) (w : world) (d : disk) : disk := fun k' => if String.eqb k' k then w else d k'.
(** [f"cmu_us_{speaker}_arctic.tar.bz2"], datasets/cmu_arctic.py:82. *)
Definition cmu_archive (speaker : string) : string := "cmu_us_" ++ speaker ++ "_arctic.tar.bz2".
(** [f"{subset}.tar.gz"], datasets/librispeech.py:74. *)
Definition libri_archive (subset : string) : string := subset ++ ".tar.gz".
(** [CmuArcticDataset(root, speaker=speaker, download=download)], datasets/cmu_arctic.py:67-92. *)
Definition cmu (e : surroundings) (d : disk) (speaker : string) (download : bool) : disk * result unit :=
  if negb (mem speaker valid_speakers) then (d, Err ValueError)
  else let k := cmu_archive speaker in
       let '(_, w, r) := construct (e k) download (d k) in (put k w d, r).
(** [self._speaker_dir.exists()]: a file was extracted into it, datasets/librispeech.py:77, 87. *)
Definition has_speaker (s : string) (w : world) : bool :=
  match data w with Some l => existsb (fun f => String.prefix (s ++ "/") (fst f)) l | None => false end.
(** [LibriSpeechDataset(root, subset=subset, speaker=speaker, download=download)],
    datasets/librispeech.py:53-88; an empty name of a speaker is no speaker (77). *)
Definition libri (e : surroundings) (d : disk) (subset : string) (speaker : option string) (download : bool) : disk * result unit :=
  if negb (mem subset valid_subsets) then (d, Err ValueError)
  else let k := libri_archive subset in
       let '(_, w, r) := construct (e k) download (d k) in
       (put k w d,
        match r, speaker with
        | Ok _, Some s => if String.eqb s "" || has_speaker s w then Ok tt else Err FileNotFoundError
        | _, _ => r
        end).
(** [speaker or "bdl"], examples/build_dynamic_dataset.py:105. *)
Definition speaker_or_default (speaker : option string) : string :=
  match speaker with Some s => if String.eqb s "" then "bdl" else s | None => "bdl" end.
(** [except FileNotFoundError: if download: raise; return <with download=True>],
    examples/build_dynamic_dataset.py:106-111, 112-119. *)
Definition with_retry (make : disk -> bool -> disk * result unit) (d : disk) (download : bool) : disk * result unit :=
  match make d download with
  | (d', Err FileNotFoundError) => if download then (d', Err FileNotFoundError) else make d' true
  | x => x
  end.
(** [_dataset_factory], examples/build_dynamic_dataset.py:96-119. *)
Definition factory (e : surroundings) (d : disk) (dataset subset : string) (download : bool) (speaker : option string) : disk * result unit :=
  if String.eqb dataset "cmu_arctic"
  then with_retry (fun d b => cmu e d (speaker_or_default speaker) b) d download
  else with_retry (fun d b => libri e d subset speaker b) d download.
