(** Model of the command lines: what [argparse] of the standard library (Python 3.11,
    /repo/pyproject.toml:6) does with the parsers of /repo/src/torchrir/datasets/dynamic_cmu_arctic.py
    and /repo/examples/cli.py, and [main] of the former.

    Simplifications: words are ASCII texts without line breaks; help and error messages are not
    modelled, only the exit codes (0 for help, 2 for errors); texts of numbers other than plain
    decimals of at most 300 characters (exponents, blanks, underscores, [inf], [nan]) are read by
    an oracle; [Path(...).expanduser().resolve()] is an oracle. *)
From Coq Require Import Ascii String List ZArith Reals Bool.
From Verif Require Import Prelude FloatModel RoomModel BldModel LoopModel.
From Verif Require UtlModel.
Import ListNotations.
Local Notation length := List.length.
Local Open Scope string_scope.
Local Open Scope list_scope.

(** ** Texts *)

(** [text.partition("=")] as used by argparse for every option, dynamic_cmu_arctic.py:892. *)
Fixpoint partition_eq (s : string) : string * option string :=
  match s with
  | EmptyString => (EmptyString, None)
  | String c r => if Ascii.eqb c "=" then (EmptyString, Some r) else let '(p, e) := partition_eq r in (String c p, e)
  end.
(** A decimal digit, dynamic_cmu_arctic.py:54, 892. *)
Definition is_digit (c : ascii) : bool := ((48 <=? nat_of_ascii c) && (nat_of_ascii c <=? 57))%nat.
(** [str.isspace] of an ASCII character, dynamic_cmu_arctic.py:51. *)
Definition is_space (c : ascii) : bool :=
  let n := nat_of_ascii c in (((9 <=? n) && (n <=? 13)) || ((28 <=? n) && (n <=? 32)))%nat.
(** The digits at the front: the number after [acc], how many, and what follows,
    dynamic_cmu_arctic.py:54, 892. *)
Fixpoint span_digits (acc : Z) (s : string) : Z * nat * string :=
  match s with
  | String c r => if is_digit c
                  then let '(a, n, t) := span_digits (acc * 10 + Z.of_nat (nat_of_ascii c - 48)) r in (a, S n, t)
                  else (acc, 0%nat, s)
  | EmptyString => (acc, 0%nat, s)
  end.
(** [-\d+] or [-\d*\.\d+], the negative numbers of argparse, dynamic_cmu_arctic.py:892. *)
Definition negative_number (s : string) : bool :=
  match s with
  | String c r =>
      let '(_, n, t) := span_digits 0 r in
      Ascii.eqb c "-" &&
      match t with
      | EmptyString => negb (n =? 0)%nat
      | String d t => let '(_, m, u) := span_digits 0 t in Ascii.eqb d "." && negb (m =? 0)%nat && String.eqb u EmptyString
      end
  | EmptyString => false
  end.
(** [' ' in text], dynamic_cmu_arctic.py:892. *)
Fixpoint has_blank (s : string) : bool :=
  match s with EmptyString => false | String c r => Ascii.eqb c " " || has_blank r end.

(** What [int] and [float] make of the texts that are not plain decimals,
    dynamic_cmu_arctic.py:54, 794-835. *)
Record texts := mkTexts { t_int : string -> option Z; t_float : string -> option num }.
(** A sign in front, dynamic_cmu_arctic.py:54, 794-835. *)
Definition signed (s : string) : bool * string :=
  match s with
  | String c r => if Ascii.eqb c "-" then (true, r) else if Ascii.eqb c "+" then (false, r) else (false, s)
  | EmptyString => (false, s)
  end.
(** [int(text)], dynamic_cmu_arctic.py:794-827. *)
Definition read_int (X : texts) (s : string) : option Z :=
  let '(neg, r) := signed s in
  let '(a, n, t) := span_digits 0 r in
  if (String.length s <=? 300)%nat && negb (n =? 0)%nat && String.eqb t EmptyString
  then Some (if neg then (- a)%Z else a) else t_int X s.
(** [float(text)], dynamic_cmu_arctic.py:54, 797-826: the double next to the decimal. *)
Definition read_float (X : texts) (s : string) : option num :=
  let '(neg, r) := signed s in
  let '(a, n, t) := span_digits 0 r in
  let '(b, m, u) := match t with String c v => if Ascii.eqb c "." then span_digits a v else (a, 0%nat, t) | EmptyString => (a, 0%nat, t) end in
  if (String.length s <=? 300)%nat && negb (n + m =? 0)%nat && String.eqb u EmptyString
  then Some (Fin (rnd64 (IZR (if neg then (- b)%Z else b) / 10 ^ m))) else t_float X s.

(** ** argparse *)

(** Values of a namespace, dynamic_cmu_arctic.py:763-892. *)
Inductive val := VNone | VInt (z : Z) | VFloat (x : num) | VText (s : string) | VPath (s : string) | VBool (b : bool) | VList (l : list val).
(** [type=] of an option, dynamic_cmu_arctic.py:768-890. *)
Inductive type := TText | TPath | TInt | TFloat.
(** Actions: [store] with one value, [store] with [nargs="+"], [store_true] and [store_false],
    and [help], dynamic_cmu_arctic.py:767-890. *)
Inductive kind := KOne | KMany | KFlag (b : bool) | KHelp.
(** One option string of a parser, dynamic_cmu_arctic.py:767-890. *)
Record opt := mkO { o_name : string; o_dest : string; o_kind : kind; o_type : type; o_choices : option (list string); o_required : bool }.

(** How argparse sees a word: an argument, an option with a value after "=" (or after a single
    letter), an unknown option, or an ambiguous one, dynamic_cmu_arctic.py:892. *)
Inductive class := CArg | COpt (o : opt) (e : option string) (short : bool) | CUnknown | CAmbiguous.
(** dynamic_cmu_arctic.py:892. *)
Definition named (T : list opt) (s : string) : option opt := find (fun o => String.eqb (o_name o) s) T.
(** Words that name no option, dynamic_cmu_arctic.py:892. *)
Definition classify_rest (s : string) : class :=
  if negative_number s then CArg else if has_blank s then CArg else CUnknown.
(** [_parse_optional] and [_get_option_tuples], dynamic_cmu_arctic.py:892. *)
Definition classify (T : list opt) (s : string) : class :=
  match s with
  | String d r =>
      if negb (Ascii.eqb d "-") then CArg
      else
      match named T s with
      | Some o => COpt o None false
      | None =>
          match r with
          | EmptyString => CArg
          | String c r' =>
              let '(p, e) := partition_eq s in
              match e, named T p with
              | Some v, Some o => COpt o (Some v) false
              | _, _ =>
                  if Ascii.eqb c "-"
                  then match filter (fun o => String.prefix p (o_name o)) T with
                       | [] => classify_rest s
                       | [o] => COpt o e false
                       | _ => CAmbiguous
                       end
                  else match filter (fun o => String.eqb (o_name o) (String "-" (String c EmptyString))) T with
                       | [] => classify_rest s
                       | o :: _ => COpt o (Some r') true
                       end
              end
          end
      end
  | EmptyString => CArg
  end.
(** The pattern of a command line: after "--" everything is an argument,
    dynamic_cmu_arctic.py:892; [None] for "--" itself. *)
Fixpoint pattern (T : list opt) (l : list string) : list (string * option class) :=
  match l with
  | [] => []
  | s :: l => if String.eqb s "--" then (s, None) :: map (fun a => (a, Some CArg)) l
              else (s, Some (classify T s)) :: pattern T l
  end.

(** [SystemExit] with its code, or a value, dynamic_cmu_arctic.py:892. *)
Inductive parsed (A : Type) := Parsed (a : A) | Exit (code : Z).
Arguments Parsed {A} a.
Arguments Exit {A} code.
(** dynamic_cmu_arctic.py:892. *)
Definition pbind {A B} (m : parsed A) (f : A -> parsed B) : parsed B := match m with Parsed a => f a | Exit c => Exit c end.
(** A namespace, the newest entry first, dynamic_cmu_arctic.py:892. *)
Definition namespace := list (string * val).
(** [getattr(args, d)], dynamic_cmu_arctic.py:897-937. *)
Definition lookup (ns : namespace) (d : string) : option val :=
  match find (fun p => String.eqb (fst p) d) ns with Some p => Some (snd p) | None => None end.
(** [_get_value], dynamic_cmu_arctic.py:768-890. *)
Definition convert (X : texts) (t : type) (s : string) : option val :=
  match t with
  | TText => Some (VText s)
  | TPath => Some (VPath s)
  | TInt => match read_int X s with Some z => Some (VInt z) | None => None end
  | TFloat => match read_float X s with Some x => Some (VFloat x) | None => None end
  end.
(** [_get_value] and [_check_value], dynamic_cmu_arctic.py:768-890; /repo/examples/cli.py:215-220. *)
Definition checked (X : texts) (o : opt) (s : string) : option val :=
  match convert X (o_type o) s with
  | Some v => match o_choices o with
              | None => Some v
              | Some l => if existsb (String.eqb s) l then Some v else None
              end
  | None => None
  end.
(** dynamic_cmu_arctic.py:789-793. *)
Fixpoint checked_all (X : texts) (o : opt) (l : list string) : option (list val) :=
  match l with
  | [] => Some []
  | s :: l => match checked X o s, checked_all X o l with Some v, Some vs => Some (v :: vs) | _, _ => None end
  end.
(** The state of the parser: namespace, options seen, words not recognised, dynamic_cmu_arctic.py:892. *)
Record pstate := mkP { p_ns : namespace; p_seen : list string; p_extras : list string }.
(** [take_action], dynamic_cmu_arctic.py:892. *)
Definition take (X : texts) (o : opt) (l : list string) (st : pstate) : parsed pstate :=
  let set v := Parsed (mkP ((o_dest o, v) :: p_ns st) (o_name o :: p_seen st) (p_extras st)) in
  match o_kind o, l with
  | KOne, [s] => match checked X o s with Some v => set v | None => Exit 2 end
  | KMany, _ => match checked_all X o l with Some vs => set (VList vs) | None => Exit 2 end
  | KFlag b, _ => set (VBool b)
  | KHelp, _ => Exit 0
  | KOne, _ => Exit 2
  end.
(** dynamic_cmu_arctic.py:892. *)
Definition extra (s : string) (st : pstate) : pstate := mkP (p_ns st) (p_seen st) (p_extras st ++ [s]).
(** The letters behind [-h]: they are tried as further letters, dynamic_cmu_arctic.py:892. *)
Fixpoint short_help (r : string) : Z :=
  match r with
  | EmptyString => 0
  | String c r =>
      if Ascii.eqb c "-" then 2
      else if Ascii.eqb c "h" then match r with
                                   | String d _ => if Ascii.eqb d "=" then 2 else short_help r
                                   | EmptyString => 0
                                   end
      else 0
  end%Z.
(** The arguments at the front, dynamic_cmu_arctic.py:892. *)
Fixpoint arguments (l : list (string * option class)) : list string * list (string * option class) :=
  match l with
  | (s, Some CArg) :: r => let '(a, t) := arguments r in (s :: a, t)
  | _ => ([], l)
  end.
(** The loop of [_parse_known_args] ([fuel] is the number of words; every round uses one),
    dynamic_cmu_arctic.py:892. *)
Fixpoint consume (X : texts) (fuel : nat) (l : list (string * option class)) (st : pstate) : parsed pstate :=
  match fuel, l with
  | _, [] => Parsed st
  | O, _ => Exit 2
  | S fuel, (s, k) :: r =>
      match k with
      | Some (COpt o (Some e) short) =>
          match o_kind o with
          | KOne | KMany => pbind (take X o [e] st) (consume X fuel r)
          | KHelp => Exit (if short then short_help e else 2)
          | KFlag _ => Exit 2
          end
      | Some (COpt o None _) =>
          match o_kind o with
          | KOne => match r with
                    | (v, Some CArg) :: r => pbind (take X o [v] st) (consume X fuel r)
                    | _ => Exit 2
                    end
          | KMany => let '(vs, r) := arguments r in
                     match vs with [] => Exit 2 | _ => pbind (take X o vs st) (consume X fuel r) end
          | KFlag _ | KHelp => pbind (take X o [] st) (consume X fuel r)
          end
      | _ => consume X fuel r (extra s st)
      end
  end.
(** [parse_known_args] with these defaults: an ambiguous word ends it first, a missing required
    option last, dynamic_cmu_arctic.py:892; /repo/examples/cli.py:596. *)
Definition parse_known (X : texts) (T : list opt) (defaults : namespace) (argv : list string) : parsed (namespace * list string) :=
  let l := pattern T argv in
  if existsb (fun p => match snd p with Some CAmbiguous => true | _ => false end) l then Exit 2
  else pbind (consume X (length l) l (mkP defaults [] [])) (fun st =>
    if forallb (fun o => negb (o_required o) || existsb (String.eqb (o_name o)) (p_seen st)) T
    then Parsed (p_ns st, p_extras st) else Exit 2).
(** [parse_args], dynamic_cmu_arctic.py:892. *)
Definition parse (X : texts) (T : list opt) (defaults : namespace) (argv : list string) : parsed namespace :=
  pbind (parse_known X T defaults argv) (fun r => match snd r with [] => Parsed (fst r) | _ => Exit 2 end).

(** ** The command line of the builder *)

(** Options by shape, dynamic_cmu_arctic.py:764-891. *)
Definition one (name dest : string) (t : type) : opt := mkO name dest KOne t None false.
(** dynamic_cmu_arctic.py:770-890. *)
Definition flag (name dest : string) (b : bool) : opt := mkO name dest (KFlag b) TText None false.
(** [-h] and [--help] of every parser, dynamic_cmu_arctic.py:764-766. *)
Definition help_options : list opt := [mkO "-h" "help" KHelp TText None false; mkO "--help" "help" KHelp TText None false].
(** The options of [_parse_args], dynamic_cmu_arctic.py:764-891. *)
Definition builder_options : list opt :=
  help_options ++
  [mkO "--cmu-root" "cmu_root" KOne TPath None true;
   flag "--download-cmu" "download_cmu" true; flag "--no-download-cmu" "download_cmu" false;
   one "--dataset-root" "dataset_root" TPath;
   mkO "--speakers" "speakers" KMany TText None false;
   one "--n-scenes" "n_scenes" TInt; one "--n-sources" "n_sources" TInt; one "--n-moving-sources" "n_moving_sources" TInt;
   one "--duration-sec" "duration_sec" TFloat; one "--room-size" "room_size" TText; one "--mic-center" "mic_center" TText;
   flag "--randomize-mic-center" "randomize_mic_center" true; flag "--no-randomize-mic-center" "randomize_mic_center" false;
   one "--octa-edge-m" "octa_edge_m" TFloat; one "--source-margin" "source_margin" TText;
   one "--trajectory-steps" "trajectory_steps" TInt; one "--rir-samples" "rir_samples" TInt;
   one "--rt60" "rt60" TFloat; one "--sound-speed" "sound_speed" TFloat; one "--max-order" "max_order" TInt; one "--seed" "seed" TInt;
   flag "--overwrite-dataset" "overwrite_dataset" true;
   flag "--save-layout-images" "save_layout_images" true; flag "--no-save-layout-images" "save_layout_images" false;
   flag "--save-layout-images-3d" "save_layout_images_3d" true; flag "--no-save-layout-images-3d" "save_layout_images_3d" false;
   flag "--save-layout-mp4" "save_layout_mp4" true; flag "--no-save-layout-mp4" "save_layout_mp4" false;
   flag "--save-layout-mp4-3d" "save_layout_mp4_3d" true; flag "--no-save-layout-mp4-3d" "save_layout_mp4_3d" false;
   one "--layout-video-fps" "layout_video_fps" TFloat;
   flag "--layout-video-no-audio" "layout_video_no_audio" true;
   flag "--no-annotate-source-indices" "no_annotate_source_indices" true;
   one "--log-level" "log_level" TText].
(** A literal of the source as a double, dynamic_cmu_arctic.py:797-826. *)
Definition lit (a : Z) (k : nat) : val := VFloat (Fin (rnd64 (IZR a / 10 ^ k))).
(** [DEFAULT_SPEAKERS], dynamic_cmu_arctic.py:40. *)
Definition default_speakers : list string := ["bdl"; "slt"; "clb"; "rms"; "jmk"; "awb"].
(** The defaults of [_parse_args], dynamic_cmu_arctic.py:767-890. *)
Definition builder_defaults : namespace :=
  [("cmu_root", VNone); ("download_cmu", VBool false); ("dataset_root", VPath "outputs/cmu_arctic_torchrir_dynamic_dataset");
   ("speakers", VList (map VText default_speakers));
   ("n_scenes", VInt 10); ("n_sources", VInt 3); ("n_moving_sources", VInt 1); ("duration_sec", lit 20 0);
   ("room_size", VText "8.0,6.0,3.0"); ("mic_center", VText "4.0,3.0,1.5"); ("randomize_mic_center", VBool true);
   ("octa_edge_m", lit 1 0); ("source_margin", VText "0.5,0.5,0.3"); ("trajectory_steps", VInt 1024); ("rir_samples", VInt 4096);
   ("rt60", lit 3 1); ("sound_speed", lit 343 0); ("max_order", VInt 6); ("seed", VInt 42); ("overwrite_dataset", VBool false);
   ("save_layout_images", VBool true); ("save_layout_images_3d", VBool true); ("save_layout_mp4", VBool true); ("save_layout_mp4_3d", VBool true);
   ("layout_video_fps", VNone); ("layout_video_no_audio", VBool false); ("no_annotate_source_indices", VBool false);
   ("log_level", VText "INFO")].
(** [_parse_args], dynamic_cmu_arctic.py:763-892. *)
Definition parse_builder (X : texts) (argv : list string) : parsed namespace := parse X builder_options builder_defaults argv.

(** ** [main] *)

(** [text.split(",")], dynamic_cmu_arctic.py:51. *)
Fixpoint split_comma (s : string) : list string :=
  match s with
  | EmptyString => [EmptyString]
  | String c r => if Ascii.eqb c "," then EmptyString :: split_comma r
                  else match split_comma r with h :: t => String c h :: t | [] => [String c EmptyString] end
  end.
(** [text.lstrip()], dynamic_cmu_arctic.py:51. *)
Fixpoint lstrip (s : string) : string :=
  match s with String c r => if is_space c then lstrip r else s | EmptyString => s end.
(** [text.rstrip()], dynamic_cmu_arctic.py:51. *)
Fixpoint rstrip (s : string) : string :=
  match s with
  | EmptyString => EmptyString
  | String c r => match rstrip r with
                  | EmptyString => if is_space c then EmptyString else String c EmptyString
                  | r' => String c r'
                  end
  end.
(** [text.strip()], dynamic_cmu_arctic.py:51. *)
Definition strip (s : string) : string := rstrip (lstrip s).
(** [_parse_triplet], dynamic_cmu_arctic.py:50-54. *)
Definition parse_triplet (X : texts) (s : string) : result (num * num * num) :=
  match filter (fun p => negb (String.eqb p EmptyString)) (map strip (split_comma s)) with
  | [a; b; c] => match read_float X a, read_float X b, read_float X c with
                 | Some x, Some y, Some z => Ok (x, y, z)
                 | _, _, _ => Err ValueError
                 end
  | _ => Err ValueError
  end.
(** [_configure_logging] in a process without handlers at the root logger: the level, or the
    exception of [setLevel] for the two names of the module that are not numbers,
    dynamic_cmu_arctic.py:43-47. *)
Definition configure_logging (s : string) : result Z :=
  let u := UtlModel.upper s in
  match find (fun p => String.eqb (fst p) u) [("CRITICAL", 50); ("FATAL", 50); ("ERROR", 40); ("WARNING", 30); ("WARN", 30); ("INFO", 20); ("DEBUG", 10); ("NOTSET", 0)]%Z with
  | Some p => Ok (snd p)
  | None => if String.eqb u "BASIC_FORMAT" then Err ValueError else if String.eqb u "_STYLES" then Err TypeError else Ok 20%Z
  end.

(** The arguments with which [main] calls the builder, dynamic_cmu_arctic.py:904-935. *)
Record call := mkCall {
  c_cmu : string; c_root : string; c_speakers : list string; c_scenes : Z; c_sources : Z; c_moving : Z; c_duration : num;
  c_room : num * num * num; c_center : num * num * num; c_edge : num; c_margin : num * num * num; c_steps : Z; c_rir : Z;
  c_rt60 : num; c_sound : num; c_order : Z; c_seed : Z; c_download : bool; c_overwrite : bool; c_random : bool;
  c_mp4 : bool; c_mp4_3d : bool; c_fps : option num; c_mux : bool; c_images : bool; c_images_3d : bool; c_annotate : bool }.

(** Attributes of the namespace by type, dynamic_cmu_arctic.py:897-935; anything else cannot
    happen with these options. *)
Definition get_int (ns : namespace) (d : string) : result Z := match lookup ns d with Some (VInt z) => Ok z | _ => Err TypeError end.
(** dynamic_cmu_arctic.py:897-935. *)
Definition get_float (ns : namespace) (d : string) : result num := match lookup ns d with Some (VFloat x) => Ok x | _ => Err TypeError end.
(** dynamic_cmu_arctic.py:897-935. *)
Definition get_text (ns : namespace) (d : string) : result string := match lookup ns d with Some (VText s) => Ok s | _ => Err TypeError end.
(** dynamic_cmu_arctic.py:902-905. *)
Definition get_path (ns : namespace) (d : string) : result string := match lookup ns d with Some (VPath s) => Ok s | _ => Err TypeError end.
(** dynamic_cmu_arctic.py:921-934. *)
Definition get_bool (ns : namespace) (d : string) : result bool := match lookup ns d with Some (VBool b) => Ok b | _ => Err TypeError end.
(** dynamic_cmu_arctic.py:907. *)
Definition get_texts (ns : namespace) (d : string) : result (list string) :=
  match lookup ns d with
  | Some (VList l) => mapM (fun v => match v with VText s => Ok s | _ => Err TypeError end) l
  | _ => Err TypeError
  end.
(** dynamic_cmu_arctic.py:928. *)
Definition get_float_or_none (ns : namespace) (d : string) : result (option num) :=
  match lookup ns d with Some (VFloat x) => Ok (Some x) | Some VNone => Ok None | _ => Err TypeError end.

(** [main] up to the call of the builder, dynamic_cmu_arctic.py:896-935. *)
Definition main_call (X : texts) (ns : namespace) : result call :=
  do level <- get_text ns "log_level";
  do _ <- configure_logging level;
  do room_text <- get_text ns "room_size"; do room <- parse_triplet X room_text;
  do center_text <- get_text ns "mic_center"; do center <- parse_triplet X center_text;
  do margin_text <- get_text ns "source_margin"; do margin <- parse_triplet X margin_text;
  do root <- get_path ns "dataset_root";
  do cmu <- get_path ns "cmu_root";
  do speakers <- get_texts ns "speakers";
  do n_scenes <- get_int ns "n_scenes";
  do n_sources <- get_int ns "n_sources";
  do n_moving <- get_int ns "n_moving_sources";
  do duration <- get_float ns "duration_sec";
  do edge <- get_float ns "octa_edge_m";
  do steps <- get_int ns "trajectory_steps";
  do rir <- get_int ns "rir_samples";
  do rt60 <- get_float ns "rt60";
  do sound <- get_float ns "sound_speed";
  do order <- get_int ns "max_order";
  do seed <- get_int ns "seed";
  do download <- get_bool ns "download_cmu";
  do overwrite <- get_bool ns "overwrite_dataset";
  do random <- get_bool ns "randomize_mic_center";
  do mp4 <- get_bool ns "save_layout_mp4";
  do mp4_3d <- get_bool ns "save_layout_mp4_3d";
  do fps <- get_float_or_none ns "layout_video_fps";
  do no_audio <- get_bool ns "layout_video_no_audio";
  do images <- get_bool ns "save_layout_images";
  do images_3d <- get_bool ns "save_layout_images_3d";
  do no_annotate <- get_bool ns "no_annotate_source_indices";
  Ok (mkCall cmu root speakers n_scenes n_sources n_moving duration room center edge margin steps rir rt60 sound order seed
        download overwrite random mp4 mp4_3d fps (negb no_audio) images images_3d (negb no_annotate)).

(** A finite number, dynamic_cmu_arctic.py:439-471. *)
Definition fin (x : num) : option R := match x with Fin r => Some r | _ => None end.
(** dynamic_cmu_arctic.py:439-471. *)
Definition fin3 (x : num * num * num) : option p3 :=
  let '(a, b, c) := x in
  match fin a, fin b, fin c with Some a, Some b, Some c => Some (P3 a b c) | _, _, _ => None end.
(** The arguments of the model of the builder; the options that [main] does not pass have their
    defaults, dynamic_cmu_arctic.py:461-464; the numbers have to be finite. *)
Definition as_build (path : string -> bpath) (c : call) : option (build_args * options) :=
  match fin (c_duration c), fin3 (c_room c), fin3 (c_center c), fin (c_edge c), fin3 (c_margin c), fin (c_rt60 c), fin (c_sound c),
        match c_fps c with None => Some None | Some x => match fin x with Some r => Some (Some r) | None => None end end with
  | Some dur, Some room, Some center, Some edge, Some margin, Some rt60, Some sound, Some fps =>
      Some (mkBA (path (c_root c)) (path (c_cmu c)) (c_speakers c) (c_scenes c)
              (mkSA (c_sources c) (c_moving c) room center edge margin (c_steps c)
                 (mkMotion (rnd64 (35 / 100)) (rnd64 (65 / 100)) (rnd64 (3 / 10)) (rnd64 (8 / 10)) dur) (c_random c))
              (xyz room) (xyz center) (xyz margin) (c_rir c) (c_overwrite c),
            mkOpt rt60 sound (c_order c) (c_mp4 c) (c_mp4_3d c) fps (c_mux c) (c_images c) (c_images_3d c) (c_annotate c))
  | _, _, _, _, _, _, _, _ => None
  end.

(** The end of the process: the exit code of argparse, an exception before the builder is
    called, or the run of the builder, dynamic_cmu_arctic.py:894-937. *)
Inductive ending := Quit (code : Z) | Raised (e : exn) | Built (r : bworld * run (Z * Z)).
(** The world of the command: texts of numbers, paths, the world of the builder with this corpus
    directory, seed and download flag, and what the builder does with numbers that are not
    finite, dynamic_cmu_arctic.py:894-937. *)
Record shell := mkShell {
  sh_texts : texts; sh_path : string -> bpath; sh_env : bpath -> Z -> bool -> env; sh_odd : call -> bworld -> bworld * run (Z * Z) }.
(** [main], dynamic_cmu_arctic.py:894-937. *)
Definition main (sh : shell) (fuel : nat) (argv : list string) (w : bworld) : ending :=
  match parse_builder (sh_texts sh) argv with
  | Exit c => Quit c
  | Parsed ns =>
      match main_call (sh_texts sh) ns with
      | Err e => Raised e
      | Ok c =>
          Built match as_build (sh_path sh) c with
                | Some (b, o) => build_dataset (sh_env sh (sh_path sh (c_cmu c)) (c_seed c) (c_download c)) b o fuel w
                | None => sh_odd sh c w
                end
      end
  end.
