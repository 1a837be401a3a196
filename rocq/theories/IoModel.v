(** Model of /repo/src/torchrir/io/{__init__,audio,outputs,metadata}.py.

    Simplifications: a path is its file name (final component); strings are ASCII; the sound
    file library is external, so an entry point returns the backend call it makes; warnings,
    logging and directory creation are not modelled. *)
From Coq Require Import Ascii String List ZArith Reals Bool.
From Verif Require Import Prelude FloatModel DirModel AccumModel RoomModel GeoModel.
Import ListNotations.
Local Open Scope R_scope.
Local Notation length := List.length.

(** ** Formats *)

(** Text before and after the last dot ([name.rfind('.')]), used by [Path.suffix], io/__init__.py:100-107. *)
Fixpoint last_dot (s : string) : option (string * string) :=
  match s with
  | EmptyString => None
  | String c s' =>
      match last_dot s' with
      | Some (a, b) => Some (String c a, b)
      | None => if Ascii.eqb c "." then Some (EmptyString, s') else None
      end
  end.
(** pathlib [Path.suffix] of the path with that file name, io/__init__.py:101, io/audio.py:81, 148. *)
Definition suffix (name : string) : string :=
  match last_dot name with
  | Some (String _ _, String c e) => String "." (String c e)
  | _ => EmptyString
  end.
(** [s.lstrip(".")], io/__init__.py:101. *)
Fixpoint lstrip_dots (s : string) : string :=
  match s with
  | String c s' => if Ascii.eqb c "." then lstrip_dots s' else s
  | EmptyString => EmptyString
  end.
(** [x or y] on optional strings, io/__init__.py:92, 101. *)
Definition str_or (x : option string) (y : string) : string :=
  match x with Some (String c s) => String c s | _ => y end.
(** [_normalize_format], io/__init__.py:100-107. *)
Definition normalize_format (name : string) (fmt : option string) : result string :=
  let f := lower (str_or fmt (lstrip_dots (suffix name))) in
  if String.eqb f "" then Err ValueError else Ok f.

(** ** Backends *)

(** Keys of [_AUDIO_BACKENDS] and [_DEFAULT_AUDIO_BACKEND], io/__init__.py:57-65. *)
Record registry := mkReg { reg_names : list string; reg_default : string }.
(** State after import, io/__init__.py:57-65. *)
Definition initial : registry := mkReg ["soundfile"%string] "soundfile".
(** [set_audio_backend], io/__init__.py:80-88. *)
Definition set_audio_backend (r : registry) (name : string) : result registry :=
  if str_in name (reg_names r) then Ok (mkReg (reg_names r) name) else Err ValueError.
(** [_AUDIO_BACKENDS[name] = backend], the only way to add a backend (there is no function
    for it), io/__init__.py:57. *)
Definition add_backend (r : registry) (name : string) : registry :=
  if str_in name (reg_names r) then r else mkReg (reg_names r ++ [name]) (reg_default r).
(** [_resolve_backend], io/__init__.py:91-97. *)
Definition resolve_backend (r : registry) (name : option string) : result string :=
  let b := str_or name (reg_default r) in
  if str_in b (reg_names r) then Ok b else Err ValueError.

(** The call received by a backend, io/__init__.py:26-32; [Direct] stands for the sound file
    library called by io/audio.py without the registry. *)
Inductive engine := Backend (name : string) | Direct.
(** io/__init__.py:26-32. *)
Inductive operation := OLoad | OSave | OInfo.
(** io/__init__.py:26-32. *)
Record call := mkCall { c_engine : engine; c_op : operation; c_path : string }.

(** [load_wav], [save_wav], [info_wav] and the deprecated [load], [save], [info],
    io/__init__.py:110-178, 219-278. *)
Definition wav_entry (op : operation) (r : registry) (name : string) (backend fmt : option string) : result call :=
  do f <- normalize_format name fmt;
  if negb (str_in f ["wav"; "wave"]%string) then Err ValueError
  else do b <- resolve_backend r backend; Ok (mkCall (Backend b) op name).
(** [load_audio], [save_audio], [info_audio], io/__init__.py:181-216. *)
Definition audio_entry (op : operation) (r : registry) (name : string) (backend : option string) : result call :=
  do b <- resolve_backend r backend; Ok (mkCall (Backend b) op name).
(** [load] and [save] of io/audio.py:69-87, 126-161. *)
Definition direct_wav (op : operation) (name : string) : result call :=
  if negb (str_in (lower (suffix name)) [".wav"; ".wave"]%string) then Err ValueError
  else Ok (mkCall Direct op name).
(** [load_audio_data], [save_audio_data], [load_audio], [save_audio], [info_audio] of
    io/audio.py:64-66, 90-96, 164-218. *)
Definition direct_audio (op : operation) (name : string) : result call := Ok (mkCall Direct op name).
(** [save_scene_audio], io/outputs.py:19-33. *)
Definition save_scene_audio (name : string) : result call := direct_wav OSave name.

(** User actions on the package, io/__init__.py:80-278. *)
Inductive action :=
| Select (name : string) | Add (name : string)
| Wav (op : operation) (path : string) (backend fmt : option string)
| Audio (op : operation) (path : string) (backend : option string).
(** One action: new registry and outcome (the backend call, if any), io/__init__.py:57-278. *)
Definition act (r : registry) (a : action) : registry * result (option call) :=
  match a with
  | Select n => match set_audio_backend r n with Ok r' => (r', Ok None) | Err e => (r, Err e) end
  | Add n => (add_backend r n, Ok None)
  | Wav op p b f => (r, match wav_entry op r p b f with Ok c => Ok (Some c) | Err e => Err e end)
  | Audio op p b => (r, match audio_entry op r p b with Ok c => Ok (Some c) | Err e => Err e end)
  end.
(** A history of actions: final registry and outcomes, io/__init__.py:57-278. *)
Fixpoint run (r : registry) (l : list action) : registry * list (result (option call)) :=
  match l with
  | [] => (r, [])
  | a :: l' => let '(r1, o) := act r a in let '(r2, os) := run r1 l' in (r2, o :: os)
  end.

(** ** Writing and reading samples *)

(** [audio.abs().max().item()] ([None] = NaN), 0 for an empty tensor, io/audio.py:115. *)
Definition max_abs (l : list xr) : xr :=
  fold_right (fun x m => match x, m with Some a, Some b => Some (Rmax (Rabs a) b) | _, _ => None end) (Some 0) l.
(** Normalisation in [_save_audio], io/audio.py:112-117; [fl] is the rounding of the
    elementwise operations (identity for exact arithmetic, [rnd32] for float32 on CPU). *)
Definition normalize_audio (fl : R -> R) (normalize : bool) (peak : R) (l : list xr) : result (list xr) :=
  if normalize then
    if Rleb peak 0 then Err ValueError
    else match max_abs l with
         | Some m => if Rltb 0 m then Ok (map (option_map (fun x => fl (fl (x / m) * fl peak))) l) else Ok l
         | None => Ok l                     (* NaN > 0 is False *)
         end
  else Ok l.
(** Tensors of samples, io/audio.py:99-123. *)
Record wave := mkW { w_shape : list nat; w_data : list xr }.
(** [audio.transpose(0, 1)] of an (a, b) tensor, io/audio.py:119. *)
Definition transpose (a b : nat) (l : list xr) : list xr :=
  map (fun k => nth (k mod a * b + k / a) l None) (seq 0 (a * b)).
(** The array handed to the sound file library: (frames,) or (frames, channels),
    [_save_audio], io/audio.py:99-123. *)
Definition save_samples (fl : R -> R) (normalize : bool) (peak : R) (w : wave) : result wave :=
  do l <- normalize_audio fl normalize peak (w_data w);
  Ok (match w_shape w with
      | [a; b] => if (a <=? 8)%nat then mkW [b; a] (transpose a b l) else mkW [a; b] l
      | sh => mkW sh l
      end).
(** Mono audio kept by [_load_audio_data] from the (frames, channels) array of the file,
    io/audio.py:40-49. *)
Definition load_samples (frames channels : nat) (l : list xr) : wave :=
  mkW [frames] (map (fun t => nth (t * channels) l None) (seq 0 frames)).
