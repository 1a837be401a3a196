(** Model of /repo/src/torchrir/util/{device,tensor}.py and /repo/src/torchrir/logging.py.

    Simplifications: strings are ASCII; a device index is a natural number (torch stores eight
    bits); log records, formats and streams are not modelled, only which handlers emit. *)
From Coq Require Import Ascii String List ZArith Bool.
From Verif Require Import Prelude DirModel.
Import ListNotations.
Local Notation length := List.length.

(** ** Devices *)

(** [torch.device]: type and optional index (values handled in util/device.py:12-104). *)
Record tdev := mkDev { kind : string; index : option nat }.
(** Device types known to [torch.device(str)], called at util/device.py:44, 55. *)
Definition known_types : list string :=
  ["cpu"; "cuda"; "ipu"; "xpu"; "mkldnn"; "opengl"; "opencl"; "ideep"; "hip"; "ve"; "fpga"; "maia";
   "xla"; "lazy"; "vulkan"; "mps"; "meta"; "hpu"; "mtia"; "privateuseone"]%string.
(** Value of a decimal numeral, used by the parser of [torch.device(str)], util/device.py:44, 55. *)
Fixpoint numeral (acc : nat) (s : string) : option nat :=
  match s with
  | EmptyString => Some acc
  | String c s' =>
      let n := nat_of_ascii c in
      if (48 <=? n) && (n <=? 57) then numeral (10 * acc + (n - 48)) s' else None
  end.
(** The index part: digits, without superfluous leading zero, util/device.py:44, 55. *)
Definition parse_index (s : string) : option nat :=
  match s with
  | EmptyString => None
  | String "0" EmptyString => Some 0
  | String "0" _ => None
  | _ => numeral 0 s
  end.
(** Text before the first colon, and after it if there is one, util/device.py:44, 55. *)
Fixpoint cut_colon (s : string) : string * option string :=
  match s with
  | EmptyString => (EmptyString, None)
  | String c s' =>
      if Ascii.eqb c ":" then (EmptyString, Some s')
      else let '(a, b) := cut_colon s' in (String c a, b)
  end.
(** [torch.device(str)], called at util/device.py:44, 55: the type must be spelled in lower case. *)
Definition torch_device (s : string) : result tdev :=
  let '(k, i) := cut_colon s in
  if str_in k known_types then
    match i with
    | None => Ok (mkDev k None)
    | Some t => match parse_index t with Some n => Ok (mkDev k (Some n)) | None => Err RuntimeError end
    end
  else Err RuntimeError.

(** What [device] arguments may be, util/device.py:13, 69, 100. *)
Inductive request := RNone | RDev (d : tdev) | RStr (s : string).
(** Availability of backends: [torch.cuda.is_available()] etc., util/device.py:34, 36, 43, 48. *)
Definition machine := string -> bool.
(** util/device.py:26-56. *)
Definition cpu : tdev := mkDev "cpu" None.
(** The loop for ["auto"], util/device.py:33-40. *)
Fixpoint auto_device (m : machine) (prefer : list string) : tdev :=
  match prefer with
  | [] => cpu
  | b :: rest =>
      if String.eqb b "cuda" && m "cuda"%string then mkDev "cuda" None
      else if String.eqb b "mps" && m "mps"%string then mkDev "mps" None
      else if String.eqb b "cpu" then cpu
      else auto_device m rest
  end.
(** [resolve_device], util/device.py:12-55; the flag tells whether a warning is issued. *)
Definition resolve_device (m : machine) (prefer : list string) (r : request) : result (tdev * bool) :=
  match r with
  | RNone => Ok (cpu, false)
  | RDev d => Ok (d, false)
  | RStr s =>
      let dev := lower s in
      if String.eqb dev "auto" then Ok (auto_device m prefer, false)
      else if String.prefix "cuda" dev then
        if m "cuda"%string then do d <- torch_device s; Ok (d, false) else Ok (cpu, true)
      else if String.eqb dev "mps" then
        if m "mps"%string then Ok (mkDev "mps" None, false) else Ok (cpu, true)
      else if String.eqb dev "cpu" then Ok (cpu, false)
      else do d <- torch_device s; Ok (d, false)
  end.
(** Default of [prefer], util/device.py:15, 71. *)
Definition default_prefer : list string := ["cuda"; "mps"; "cpu"]%string.

(** An argument of [DeviceSpec.resolve]: a tensor (its device and dtype) or something else,
    util/device.py:77-82.  Dtypes are any type. *)
Definition first_tensor {D} (values : list (option (tdev * D))) : option (tdev * D) :=
  fold_left (fun acc v => match acc with Some _ => acc | None => v end) values None.
(** [DeviceSpec.resolve], util/device.py:73-95 ([infer_device_dtype], 98-104, calls it with the
    default preference); [f32] is [torch.float32]. *)
Definition spec_resolve {D} (f32 : D) (m : machine) (device : request) (dtype : option D) (prefer : list string)
    (values : list (option (tdev * D))) : result (tdev * D) :=
  let t := first_tensor values in
  do d <- match device with
          | RStr s => if String.eqb (lower s) "auto" then
                        match t with Some (d, _) => Ok d | None => Ok (auto_device m prefer) end
                      else do x <- resolve_device m prefer device; Ok (fst x)
          | RNone => match t with Some (d, _) => Ok d | None => Ok cpu end
          | RDev d => do x <- resolve_device m prefer device; Ok (fst x)
          end;
  Ok (d, match dtype with Some y => y | None => match t with Some (_, y) => y | None => f32 end end).
(** Device and dtype of the outcome of [as_tensor], util/tensor.py:13-29, for a tensor argument
    ([Some]) or other data, whose dtype is inferred by torch ([guess]). *)
Definition as_tensor_place {D} (m : machine) (value : option (tdev * D)) (guess : D) (device : request) (dtype : option D)
    : result (tdev * D) :=
  do dev <- match device with
            | RStr s => do x <- resolve_device m default_prefer (RStr s); Ok (Some (fst x))
            | RDev d => Ok (Some d)
            | RNone => Ok None
            end;
  let '(d0, t0) := match value with Some p => p | None => (cpu, guess) end in
  Ok (match dev with Some d => d | None => d0 end, match dtype with Some t => t | None => t0 end).

(** ** Logging *)

(** A handler: created by setup_logging (logging.py:56-59) or by someone else; its level. *)
Record handler := mkH { by_package : bool; hlevel : Z }.
(** State of one [logging.Logger] (attributes set at logging.py:53-59). *)
Record lg := mkL { level : Z; handlers : list handler; propagate : bool }.
(** All loggers, by dotted name split at the dots; the empty path is the root logger. A logger
    that does not exist yet behaves like one with the default attributes (logging.py:51, 72-75). *)
Definition loggers := list string -> lg.
(** logging.py:51, 72-75. *)
Definition path_eqb (a b : list string) : bool := if list_eq_dec string_dec a b then true else false.
(** logging.py:53-59. *)
Definition set_lg (p : list string) (x : lg) (st : loggers) : loggers := fun q => if path_eqb q p then x else st q.
(** A fresh interpreter: root logger at WARNING without handlers (state met at logging.py:51). *)
Definition fresh_loggers : loggers := fun p => mkL (match p with [] => 30 | _ => 0 end)%Z [] true.

(** Split at the dots (parent search of [logging.getLogger], logging.py:51, 72-75). *)
Fixpoint split_dots (s : string) : list string :=
  match s with
  | EmptyString => [EmptyString]
  | String c s' =>
      if Ascii.eqb c "." then EmptyString :: split_dots s'
      else match split_dots s' with x :: l => String c x :: l | [] => [String c EmptyString] end
  end.
(** [logging.getLogger(name)], logging.py:51, 72-75: the empty name and "root" give the root logger. *)
Definition path_of (name : string) : list string :=
  if String.eqb name "" || String.eqb name "root" then [] else split_dots name.
(** [get_logger], logging.py:63-75: the logger returned. *)
Definition get_logger (name : option string) : list string :=
  match name with
  | None | Some EmptyString => path_of "torchrir"
  | Some n => if String.prefix "torchrir" n then path_of n else path_of ("torchrir." ++ n)
  end.

(** Levels a caller may give, logging.py:21, 26-35. *)
Inductive level_arg := LInt (z : Z) | LStr (s : string) | LOther.
(** Python [str.upper] on ASCII strings, logging.py:32. *)
Definition upper_ascii (c : ascii) : ascii :=
  let n := nat_of_ascii c in
  if ((97 <=? n) && (n <=? 122))%nat then ascii_of_nat (n - 32) else c.
(** logging.py:32. *)
Fixpoint upper (s : string) : string :=
  match s with EmptyString => EmptyString | String c s' => String (upper_ascii c) (upper s') end.
(** [logging._nameToLevel], logging.py:33-35. *)
Definition level_names : list (string * Z) :=
  [("CRITICAL", 50); ("FATAL", 50); ("ERROR", 40); ("WARN", 30); ("WARNING", 30); ("INFO", 20); ("DEBUG", 10);
   ("NOTSET", 0)]%string%Z.
(** [LoggingConfig.resolve_level], logging.py:26-35. *)
Definition resolve_level (a : level_arg) : result Z :=
  match a with
  | LInt z => Ok z
  | LOther => Err TypeError
  | LStr s => match find (fun p => String.eqb (fst p) (upper s)) level_names with
              | Some p => Ok (snd p)
              | None => Err ValueError
              end
  end.
(** [setup_logging(LoggingConfig(level=..., propagate=...), name=...)], logging.py:42-60. *)
Record setup := mkSetup { s_level : level_arg; s_propagate : bool; s_name : string }.
(** logging.py:42-60. *)
Definition setup_logging (c : setup) (st : loggers) : loggers * result unit :=
  match resolve_level (s_level c) with
  | Err e => (st, Err e)
  | Ok l =>
      let p := path_of (s_name c) in
      let hs := match handlers (st p) with [] => [mkH true l] | h => h end in
      (set_lg p (mkL l hs (s_propagate c)) st, Ok tt)
  end.
(** A call history; exceptions are caught by the caller (logging.py:42-75).  [get_logger] changes nothing. *)
Inductive lcall := Setup (c : setup) | Get (name : option string).
(** logging.py:42-75. *)
Definition lact (st : loggers) (c : lcall) : loggers :=
  match c with Setup c => fst (setup_logging c st) | Get _ => st end.
(** logging.py:42-75. *)
Definition lrun (h : list lcall) (st : loggers) : loggers := fold_left lact h st.

(** The logging library (used through logging.py:51-60, 72-75): the chain of a logger and its
    ancestors up to the root. *)
Fixpoint chain (rev_path : list string) : list (list string) :=
  match rev_path with [] => [[]] | _ :: r => rev rev_path :: chain r end.
(** [Logger.getEffectiveLevel], used for loggers of logging.py:51, 72-75. *)
Fixpoint effective (st : loggers) (c : list (list string)) : Z :=
  match c with [] => 0 | p :: c' => if (level (st p) =? 0)%Z then effective st c' else level (st p) end.
(** [Logger.callHandlers]: handlers met until a logger that does not propagate, logging.py:53-59. *)
Fixpoint reached (st : loggers) (c : list (list string)) : list handler :=
  match c with [] => [] | p :: c' => handlers (st p) ++ (if propagate (st p) then reached st c' else []) end.
(** Handlers that emit a record of level [l] logged at logger [p]; [logging.lastResort]
    (level WARNING, not of the package) is used if no handler is met, logging.py:53-59. *)
Definition emitted (st : loggers) (p : list string) (l : Z) : list handler :=
  let c := chain (rev p) in
  if (l <? effective st c)%Z then []
  else filter (fun h => (hlevel h <=? l)%Z) (match reached st c with [] => [mkH false 30] | hs => hs end).
