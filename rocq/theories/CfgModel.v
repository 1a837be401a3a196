(** Model of the configuration files of /repo/examples/cli.py and of /repo/src/torchrir/util/cli.py.

    Simplifications: values in a configuration are null, booleans, integers, floats, texts and
    lists (no nested mappings) and keys are texts; reading and writing of the files is an oracle
    (a missing PyYAML package is one of its errors); [str] of a value that is no path, and
    [str] and [name] of a path are oracles; what [torch.manual_seed] and the determinism
    switches do with their arguments is an oracle. *)
From Coq Require Import Ascii String List ZArith Reals Bool.
From Verif Require Import Prelude FloatModel RoomModel CliModel.
From Verif Require DirModel IoModel UtlModel.
Import ListNotations.
Local Notation length := List.length.
Local Open Scope string_scope.
Local Open Scope list_scope.

(** ** The parser *)

(** [add_output_args], util/cli.py:10-56: the options. *)
Definition output_options (plot_default include_plot include_show include_gif : bool) : list opt :=
  [one "--out-dir" "out_dir" TPath] ++
  (if include_plot then flag "--plot" "plot" true :: (if plot_default then [flag "--no-plot" "plot" false] else []) else []) ++
  (if include_show then [flag "--show" "show" true] else []) ++
  (if include_gif then [flag "--gif" "gif" true; one "--gif-fps" "gif_fps" TInt] else []).
(** [add_output_args], util/cli.py:10-56: the defaults. *)
Definition output_defaults (out_dir : string) (plot_default include_plot include_show include_gif : bool) : namespace :=
  [("out_dir", VPath out_dir)] ++
  (if include_plot then [("plot", VBool plot_default)] else []) ++
  (if include_show then [("show", VBool false)] else []) ++
  (if include_gif then [("gif", VBool false); ("gif_fps", VInt (-1))] else []).
(** The options of [_build_parser], examples/cli.py:209-285. *)
Definition example_options : list opt :=
  help_options ++
  [mkO "--mode" "mode" KOne TText (Some ["static"; "dynamic_src"; "dynamic_mic"]) false;
   one "--dataset-dir" "dataset_dir" TPath;
   flag "--download" "download" true; flag "--no-download" "download" false;
   one "--num-sources" "num_sources" TInt; one "--duration" "duration" TFloat; one "--seed" "seed" TInt;
   flag "--deterministic" "deterministic" true;
   mkO "--room" "room" KMany TFloat None false;
   one "--steps" "steps" TInt; one "--order" "order" TInt; one "--tmax" "tmax" TFloat; one "--device" "device" TText] ++
  output_options false true true true ++
  [one "--log-level" "log_level" TText; one "--config-in" "config_in" TPath; one "--config-out" "config_out" TPath].
(** The defaults of [_build_parser], examples/cli.py:209-285. *)
Definition example_defaults : namespace :=
  [("mode", VText "static"); ("dataset_dir", VPath "datasets/cmu_arctic"); ("download", VBool true); ("num_sources", VInt 2);
   ("duration", lit 10 0); ("seed", VInt 0); ("deterministic", VBool false); ("room", VList [lit 6 0; lit 4 0; lit 3 0]);
   ("steps", VInt 16); ("order", VInt 8); ("tmax", lit 4 1); ("device", VText "cpu")] ++
  output_defaults "outputs" false true true true ++
  [("log_level", VText "INFO"); ("config_in", VNone); ("config_out", VNone)].
(** Defaults that are texts go through [type] for the attributes that nothing was said about,
    examples/cli.py:596, 601. *)
Fixpoint convert_defaults (X : texts) (T : list opt) (D told : namespace) : parsed namespace :=
  match T with
  | [] => Parsed []
  | o :: T =>
      pbind (convert_defaults X T D told) (fun r =>
        match lookup told (o_dest o), lookup D (o_dest o) with
        | None, Some (VText s) => match convert X (o_type o) s with Some v => Parsed ((o_dest o, v) :: r) | None => Exit 2 end
        | _, _ => Parsed r
        end)
  end.
(** [parse_known_args] with defaults that may be texts, examples/cli.py:596, 601. *)
Definition parse_known_defaults (X : texts) (T : list opt) (D : namespace) (argv : list string) : parsed (namespace * list string) :=
  pbind (parse_known X T [] argv) (fun p => pbind (convert_defaults X T D (fst p)) (fun c => Parsed (fst p ++ c ++ D, snd p))).
(** [parse_args] with defaults that may be texts, examples/cli.py:601. *)
Definition parse_defaults (X : texts) (T : list opt) (D : namespace) (argv : list string) : parsed namespace :=
  pbind (parse_known_defaults X T D argv) (fun p => match snd p with [] => Parsed (fst p) | _ => Exit 2 end).

(** ** Configuration files *)

(** A configuration, examples/cli.py:55-68. *)
Definition config := list (string * val).
(** What a file holds: a mapping or something else, examples/cli.py:62, 65. *)
Inductive doc := DMap (c : config) | DOther (v : val).
(** The world of the command, examples/cli.py:55-82, 158-168, 594-619. *)
Record host := mkHost {
  h_texts : texts; h_json : string -> result doc; h_yaml : string -> result doc;
  h_name : string -> string; h_text : string -> string; h_str : val -> string;
  h_seed : val -> val -> result unit; h_write : string -> config -> result unit }.
(** [path.suffix.lower() in (".yaml", ".yml")], examples/cli.py:56, 73. *)
Definition is_yaml (h : host) (p : string) : bool :=
  existsb (String.eqb (DirModel.lower (IoModel.suffix (h_name h p)))) [".yaml"; ".yml"].
(** [not v], examples/cli.py:62. *)
Definition falsy (v : val) : bool :=
  match v with
  | VNone => true
  | VInt z => Z.eqb z 0
  | VFloat (Fin r) => Reqb r 0
  | VFloat _ => false
  | VText s => String.eqb s ""
  | VPath _ => false
  | VBool b => negb b
  | VList l => match l with [] => true | _ => false end
  end.
(** [_load_config], examples/cli.py:55-68. *)
Definition load_config (h : host) (p : string) : result config :=
  do d <- (if is_yaml h p
           then do d <- h_yaml h p; Ok (match d with DOther v => if falsy v then DMap [] else d | _ => d end)
           else h_json h p);
  match d with DMap c => Ok c | DOther _ => Err ValueError end.
(** [float(v)] for a value of a configuration, examples/cli.py:91. *)
Definition to_float (X : texts) (v : val) : result num :=
  match v with
  | VFloat x => Ok x
  | VInt z => if Rltb (Rabs (rnd64 (IZR z))) (2 ^ 1024) then Ok (Fin (rnd64 (IZR z))) else Err OverflowError
  | VBool b => Ok (Fin (if b then 1 else 0))
  | VText s => match read_float X s with Some x => Ok x | None => Err ValueError end
  | _ => Err TypeError
  end.
(** [_normalize_config_values] on one entry, examples/cli.py:87-94. *)
Definition normalize_value (X : texts) (k : string) (v : val) : result val :=
  match v with
  | VText s => if existsb (String.eqb k) ["dataset_dir"; "out_dir"] then Ok (VPath s) else Ok v
  | VList l => if String.eqb k "room" then do r <- mapM (to_float X) l; Ok (VList (map VFloat r)) else Ok v
  | _ => Ok v
  end.
(** [_normalize_config_values], examples/cli.py:85-95. *)
Definition normalize_config (X : texts) (c : config) : result config :=
  mapM (fun p => do v <- normalize_value X (fst p) (snd p); Ok (fst p, v)) c.
(** [parser.set_defaults] with the entries as keywords: the key [self] is taken, examples/cli.py:600. *)
Definition set_defaults (c : config) (D : namespace) : result namespace :=
  if existsb (fun p => String.eqb (fst p) "self") c then Err TypeError else Ok (c ++ D).

(** [getattr(args, d)]; every attribute below has a default, examples/cli.py:171-192. *)
Definition attribute (ns : namespace) (d : string) : val := match lookup ns d with Some v => v | None => VNone end.
(** [str(x)], examples/cli.py:174, 185. *)
Definition text_of (h : host) (v : val) : string := match v with VPath p => h_text h p | VText s => s | _ => h_str h v end.
(** The characters of a text, examples/cli.py:180. *)
Definition characters (s : string) : list val := map (fun c => VText (String c EmptyString)) (list_ascii_of_string s).
(** [list(x)], examples/cli.py:180. *)
Definition list_of (v : val) : result (list val) :=
  match v with VList l => Ok l | VText s => Ok (characters s) | _ => Err TypeError end.
(** [_serialize_args], examples/cli.py:171-192. *)
Definition serialize_args (h : host) (ns : namespace) : result config :=
  let a := attribute ns in
  do room <- list_of (a "room");
  Ok [("mode", a "mode"); ("dataset_dir", VText (text_of h (a "dataset_dir"))); ("download", a "download");
      ("num_sources", a "num_sources"); ("duration", a "duration"); ("seed", a "seed"); ("deterministic", a "deterministic");
      ("room", VList room); ("steps", a "steps"); ("order", a "order"); ("tmax", a "tmax"); ("device", a "device");
      ("out_dir", VText (text_of h (a "out_dir"))); ("plot", a "plot"); ("show", a "show"); ("gif", a "gif");
      ("gif_fps", a "gif_fps"); ("log_level", a "log_level")].
(** [args.log_level] as an argument of [LoggingConfig], examples/cli.py:603. *)
Definition level_of (v : val) : UtlModel.level_arg :=
  match v with
  | VInt z => UtlModel.LInt z
  | VBool b => UtlModel.LInt (if b then 1 else 0)
  | VText s => UtlModel.LStr s
  | _ => UtlModel.LOther
  end.

(** How [main] goes on: argparse ends it, an exception (with the configuration that was written
    before it), or one of the three scenarios with these arguments, examples/cli.py:594-619. *)
Inductive start := SQuit (code : Z) | SRaised (e : exn) (written : option (string * config)) | SRun (mode : string) (ns : namespace) (written : option (string * config)).
(** The writing of [--config-out]; a path that is neither null nor a text raises (AttributeError,
    TypeError in the model), examples/cli.py:607-609. *)
Definition write_config (h : host) (ns : namespace) : result (option (string * config)) :=
  match attribute ns "config_out" with
  | VNone => Ok None
  | v => do c <- serialize_args h ns;
         match v with
         | VPath p => do _ <- h_write h p c; Ok (Some (p, c))
         | _ => Err TypeError
         end
  end.
(** [main] from the arguments to the choice of the scenario, examples/cli.py:603-619. *)
Definition start_with (h : host) (ns : namespace) : start :=
  match (do _ <- UtlModel.resolve_level (level_of (attribute ns "log_level"));
         do _ <- h_seed h (attribute ns "seed") (attribute ns "deterministic");
         write_config h ns) with
  | Err e => SRaised e None
  | Ok w => match attribute ns "mode" with
            | VText m => if existsb (String.eqb m) ["static"; "dynamic_src"; "dynamic_mic"] then SRun m ns w else SRaised ValueError w
            | _ => SRaised ValueError w
            end
  end.
(** The defaults that [main] uses, examples/cli.py:597-600. *)
Definition configured (h : host) (pre : namespace) : result namespace :=
  match attribute pre "config_in" with
  | VPath p => do c <- load_config h p; do c' <- normalize_config (h_texts h) c; set_defaults c' example_defaults
  | _ => Ok example_defaults
  end.
(** [main] of examples/cli.py:594-619. *)
Definition start_main (h : host) (argv : list string) : start :=
  match parse_known_defaults (h_texts h) example_options example_defaults argv with
  | Exit c => SQuit c
  | Parsed (pre, _) =>
      match configured h pre with
      | Err e => SRaised e None
      | Ok D => match parse_defaults (h_texts h) example_options D argv with
                | Exit c => SQuit c
                | Parsed ns => start_with h ns
                end
      end
  end.
