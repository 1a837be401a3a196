(** Specification vocabulary for C87: configuration files of the examples. *)
From Coq Require Import Ascii String List ZArith Reals Bool.
From Verif Require Import Prelude FloatModel RoomModel CliModel CliSpec CfgModel.
From Verif Require DirSpec IoSpec UtlModel UtlSpec.
Import ListNotations.
Local Notation length := List.length.
Local Open Scope string_scope.
Local Open Scope list_scope.

(** ** What a configuration file says *)

(** A name for YAML. *)
Definition yaml_name (n : string) : Prop := exists e, IoSpec.extension n e /\ (DirSpec.spells e "yaml" \/ DirSpec.spells e "yml").
(** Python's empty values. *)
Definition nothing (v : val) : Prop :=
  v = VNone \/ v = VBool false \/ v = VInt 0 \/ v = VFloat (Fin 0) \/ v = VText "" \/ v = VList [].
(** The mapping in a file; an empty YAML file is an empty mapping. *)
Definition file_holds (h : host) (p : string) (c : config) : Prop :=
  (yaml_name (h_name h p) /\ (h_yaml h p = Ok (DMap c) \/ exists v, h_yaml h p = Ok (DOther v) /\ nothing v /\ c = [])) \/
  (~ yaml_name (h_name h p) /\ h_json h p = Ok (DMap c)).
(** The number of a value. *)
Inductive number (X : texts) : val -> num -> Prop :=
| number_float x : number X (VFloat x) x
| number_int z : (Rabs (rnd64 (IZR z)) < 2 ^ 1024)%R -> number X (VInt z) (Fin (rnd64 (IZR z)))
| number_true : number X (VBool true) (Fin 1)
| number_false : number X (VBool false) (Fin 0)
| number_text s x : float_text X s x -> number X (VText s) x.
(** The two directories are paths, the room is a list of numbers, all else is as in the file. *)
Inductive cleans (X : texts) (k : string) : val -> val -> Prop :=
| clean_path s : k = "dataset_dir" \/ k = "out_dir" -> cleans X k (VText s) (VPath s)
| clean_room l xs : k = "room" -> Forall2 (number X) l xs -> cleans X k (VList l) (VList (map VFloat xs))
| clean_same v : (k = "dataset_dir" \/ k = "out_dir" -> forall s, v <> VText s) -> (k = "room" -> forall l, v <> VList l) -> cleans X k v v.
(** The configuration asked for on the command line; none if nothing is asked for. *)
Definition configured_by (h : host) (l : list (item * val)) (c : config) : Prop :=
  match last_said l ["--config-in"] with
  | None => c = []
  | Some v => exists p c0, v = VPath p /\ file_holds h p c0 /\
                Forall2 (fun a b => fst b = fst a /\ cleans (h_texts h) (fst a) (snd a) (snd b)) c0 c /\
                ~ In "self" (map fst c)
  end.

(** ** Attributes *)

(** The options that set an attribute. *)
Definition sets (o : opt) (d : string) : Prop := In o example_options /\ o_dest o = d.
(** The value of an attribute that nothing was said about: texts are read like on the command
    line, without the list of choices. *)
Definition default_is (X : texts) (d : string) (v v' : val) : Prop :=
  match v with
  | VText s => ((forall o, ~ sets o d) /\ v' = v) \/
               exists o, sets o d /\ match o_type o with
                                     | TText => v' = VText s
                                     | TPath => v' = VPath s
                                     | TInt => exists z, int_text X s z /\ v' = VInt z
                                     | TFloat => exists x, float_text X s x /\ v' = VFloat x
                                     end
  | _ => v' = v
  end.
(** The entry of a mapping. *)
Fixpoint entry (c : list (string * val)) (d : string) : option val :=
  match c with [] => None | (k, v) :: c => if string_dec k d then Some v else entry c d end.
(** The documented defaults. *)
Definition documented_defaults : list (string * val) :=
  [("mode", VText "static"); ("dataset_dir", VPath "datasets/cmu_arctic"); ("download", VBool true); ("num_sources", VInt 2);
   ("duration", double 10 0); ("seed", VInt 0); ("deterministic", VBool false); ("room", VList [double 6 0; double 4 0; double 3 0]);
   ("steps", VInt 16); ("order", VInt 8); ("tmax", double 4 1); ("device", VText "cpu"); ("out_dir", VPath "outputs");
   ("plot", VBool false); ("show", VBool false); ("gif", VBool false); ("gif_fps", VInt (-1)); ("log_level", VText "INFO")].
(** The options of an attribute by name. *)
Definition spoken : list (string * list string) :=
  [("mode", ["--mode"]); ("dataset_dir", ["--dataset-dir"]); ("download", ["--download"; "--no-download"]); ("num_sources", ["--num-sources"]);
   ("duration", ["--duration"]); ("seed", ["--seed"]); ("deterministic", ["--deterministic"]); ("room", ["--room"]); ("steps", ["--steps"]);
   ("order", ["--order"]); ("tmax", ["--tmax"]); ("device", ["--device"]); ("out_dir", ["--out-dir"]); ("plot", ["--plot"]); ("show", ["--show"]);
   ("gif", ["--gif"]); ("gif_fps", ["--gif-fps"]); ("log_level", ["--log-level"]); ("config_out", ["--config-out"])].
(** The value in force: the last one said, else the one of the configuration, else the
    documented one. *)
Definition in_force (X : texts) (l : list (item * val)) (c : config) (d : string) (v : val) : Prop :=
  exists names, In (d, names) spoken /\
    match last_said l names with
    | Some x => v = x
    | None => match entry c d with
              | Some x => default_is X d x v
              | None => match entry documented_defaults d with Some x => v = x | None => v = VNone end
              end
    end.
(** Every text of the configuration that counts can be read. *)
Definition readable (X : texts) (l : list (item * val)) (c : config) : Prop :=
  forall d names s, In (d, names) spoken \/ (d, names) = ("config_in", ["--config-in"]) -> last_said l names = None -> entry c d = Some (VText s) -> exists v, default_is X d (VText s) v.
(** The saved attributes. *)
Definition saved : list string :=
  ["mode"; "dataset_dir"; "download"; "num_sources"; "duration"; "seed"; "deterministic"; "room"; "steps"; "order"; "tmax"; "device";
   "out_dir"; "plot"; "show"; "gif"; "gif_fps"; "log_level"].
(** ** From the attributes on *)

(** The saved configuration of attributes [a]. *)
Definition saves (h : host) (a : string -> val) (c : config) : Prop :=
  map fst c = saved /\
  forall d v, In (d, v) c -> if in_dec string_dec d ["dataset_dir"; "out_dir"] then v = VText (text_of h (a d))
                             else if string_dec d "room" then exists l, a d = VList l /\ v = VList l
                             else v = a d.
(** What happens to [--config-out]. *)
Inductive writes (h : host) (a : string -> val) : result (option (string * config)) -> Prop :=
| no_write : a "config_out" = VNone -> writes h a (Ok None)
| write_ok p c : a "config_out" = VPath p -> saves h a c -> h_write h p c = Ok tt -> writes h a (Ok (Some (p, c)))
| write_error p c e : a "config_out" = VPath p -> saves h a c -> h_write h p c = Err e -> writes h a (Err e)
| write_room : a "config_out" <> VNone -> (forall l, a "room" <> VList l) -> writes h a (Err TypeError)
| write_path : a "config_out" <> VNone -> (forall p, a "config_out" <> VPath p) -> writes h a (Err TypeError).
(** The log level of the attributes. *)
Definition level_named (v : val) (z : Z) : Prop :=
  v = VInt z \/ (v = VBool true /\ z = 1%Z) \/ (v = VBool false /\ z = 0%Z) \/
  exists s n, v = VText s /\ In (n, z) UtlSpec.standard_levels /\ DirSpec.spells s n.
Definition modes : list string := ["static"; "dynamic_src"; "dynamic_mic"].
(** What the attributes lead to, in this order: log level, seed, saved configuration, mode. *)
Inductive goes (h : host) (a : string -> val) : start -> Prop :=
| goes_level e : (forall z, ~ level_named (a "log_level") z) -> e = (match a "log_level" with VText _ => ValueError | _ => TypeError end) -> goes h a (SRaised e None)
| goes_seed z e : level_named (a "log_level") z -> h_seed h (a "seed") (a "deterministic") = Err e -> goes h a (SRaised e None)
| goes_write z e : level_named (a "log_level") z -> h_seed h (a "seed") (a "deterministic") = Ok tt -> writes h a (Err e) -> goes h a (SRaised e None)
| goes_mode z w : level_named (a "log_level") z -> h_seed h (a "seed") (a "deterministic") = Ok tt -> writes h a (Ok w) ->
    (forall m, In m modes -> a "mode" <> VText m) -> goes h a (SRaised ValueError w)
| goes_run z w m ns : level_named (a "log_level") z -> h_seed h (a "seed") (a "deterministic") = Ok tt -> writes h a (Ok w) ->
    In m modes -> a "mode" = VText m -> (forall d, attribute ns d = a d) -> goes h a (SRun m ns w).
(** The attributes in force. *)
Definition all_in_force (X : texts) (l : list (item * val)) (c : config) (a : string -> val) : Prop :=
  forall d, In d (map fst spoken) -> in_force X l c d (a d).
(** The attribute of a saved configuration, read again. *)
Definition kept (h : host) (d : string) (v : val) : val :=
  if in_dec string_dec d ["dataset_dir"; "out_dir"] then match v with VPath p => VPath (h_text h p) | _ => v end else v.
(** What stands behind an option of the examples. *)
Inductive example_form := Plain (f : form) | OneOf (l : list string) | Decimals.
Definition has_example_form (o : opt) (f : example_form) : Prop :=
  match f with
  | Plain f => has_form o f
  | OneOf l => o_kind o = KOne /\ o_type o = TText /\ o_choices o = Some l
  | Decimals => o_kind o = KMany /\ o_type o = TFloat /\ o_choices o = None
  end.
Definition documented_options : list (string * example_form) :=
  [("-h", Plain Help); ("--help", Plain Help); ("--mode", OneOf modes); ("--dataset-dir", Plain Place); ("--download", Plain (Switch true));
   ("--no-download", Plain (Switch false)); ("--num-sources", Plain Whole); ("--duration", Plain Decimal); ("--seed", Plain Whole);
   ("--deterministic", Plain (Switch true)); ("--room", Decimals); ("--steps", Plain Whole); ("--order", Plain Whole); ("--tmax", Plain Decimal);
   ("--device", Plain Words); ("--out-dir", Plain Place); ("--plot", Plain (Switch true)); ("--show", Plain (Switch true)); ("--gif", Plain (Switch true));
   ("--gif-fps", Plain Whole); ("--log-level", Plain Words); ("--config-in", Plain Place); ("--config-out", Plain Place)].
