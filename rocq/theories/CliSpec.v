(** Specification vocabulary for C86: command lines of the builder. *)
From Coq Require Import Ascii String List ZArith Reals Bool.
From Verif Require Import Prelude FloatModel RoomModel BldModel LoopModel CliModel.
Import ListNotations.
Local Notation length := List.length.
Local Open Scope string_scope.
Local Open Scope list_scope.

(** ** Texts and numbers *)

(** [s] starts with [p]. *)
Definition starts (p s : string) : Prop := exists r, s = (p ++ r)%string.
(** [s] contains the character [c]. *)
Definition has (c : ascii) (s : string) : Prop := In c (list_ascii_of_string s).
(** The text of digits and their value. *)
Definition digits_text (ds : list nat) : string := string_of_list_ascii (map (fun d => ascii_of_nat (48 + d)) ds).
Definition decimal (ds : list nat) : Prop := Forall (fun d => (d < 10)%nat) ds.
Fixpoint positional (ds : list nat) : Z :=
  match ds with [] => 0 | d :: r => Z.of_nat d * 10 ^ Z.of_nat (length r) + positional r end%Z.
(** A sign and what it does. *)
Inductive sign : string -> Z -> Prop := no_sign : sign "" 1 | plus_sign : sign "+" 1 | minus_sign : sign "-" (-1).
(** Plain decimals. *)
Definition plain_int (s : string) (z : Z) : Prop :=
  exists sg f ds, sign sg f /\ decimal ds /\ ds <> [] /\ s = (sg ++ digits_text ds)%string /\ (String.length s <= 300)%nat /\ z = (f * positional ds)%Z.
Definition plain_float (s : string) (x : R) : Prop :=
  exists sg f a b, sign sg f /\ decimal a /\ decimal b /\ a ++ b <> [] /\ (String.length s <= 300)%nat /\
    (s = (sg ++ digits_text a ++ "." ++ digits_text b)%string \/ (b = [] /\ s = (sg ++ digits_text a)%string)) /\
    x = rnd64 (IZR (f * positional (a ++ b)) / 10 ^ length b).
(** The number a text stands for. *)
Definition int_text (X : texts) (s : string) (z : Z) : Prop := plain_int s z \/ ((forall z', ~ plain_int s z') /\ t_int X s = Some z).
Definition float_text (X : texts) (s : string) (x : num) : Prop :=
  (exists r, plain_float s r /\ x = Fin r) \/ ((forall r, ~ plain_float s r) /\ t_float X s = Some x).
(** White characters: tabulator, line feed, vertical tab, form feed, carriage return, the four
    separators and the space. *)
Definition white (c : ascii) : Prop := In (nat_of_ascii c) [9; 10; 11; 12; 13; 28; 29; 30; 31; 32]%nat.
(** A text with three numbers between commas; blank parts do not count. *)
Definition blank (s : string) : Prop := forall c, has c s -> white c.
Definition trims (s t : string) : Prop :=
  exists l r, s = (l ++ t ++ r)%string /\ blank l /\ blank r /\
    (forall c u, t = String c u -> ~ white c) /\ (forall u c, t = (u ++ String c "")%string -> ~ white c).
Definition triplet (X : texts) (s : string) (x y z : num) : Prop :=
  exists parts full, s = String.concat "," parts /\ parts <> [] /\ Forall (fun p => ~ has "," p) parts /\
    (* the trimmed parts that are not blank *)
    (exists all, Forall2 trims parts all /\ full = filter (fun t => if string_dec t "" then false else true) all) /\
    exists a b c, full = [a; b; c] /\ float_text X a x /\ float_text X b y /\ float_text X c z.

(** ** What is said on a command line *)

(** A negative number as argparse knows it. *)
Definition minus_number (v : string) : Prop :=
  (exists ds, decimal ds /\ ds <> [] /\ v = ("-" ++ digits_text ds)%string) \/
  (exists a b, decimal a /\ decimal b /\ b <> [] /\ v = ("-" ++ digits_text a ++ "." ++ digits_text b)%string).
(** The word [p] stands for the option [o]: its name or a beginning that no other option has. *)
Definition refers (T : list opt) (p : string) (o : opt) : Prop :=
  In o T /\ (p = o_name o \/
             (starts "--" p /\ ~ has "=" p /\ starts p (o_name o) /\ forall o', In o' T -> starts p (o_name o') -> o' = o)).
(** A word that can stand alone as a value. *)
Definition as_value (T : list opt) (v : string) : Prop :=
  ~ starts "-" v \/ v = "-" \/ minus_number v \/
  (has " " v /\ ~ starts "-h" v /\
   (starts "--" v -> forall p o, In o T -> ~ has "=" p -> v = p \/ (exists e, v = (p ++ "=" ++ e)%string) -> ~ starts p (o_name o))).
(** One thing said: an option, the word used for it, whether its value follows "=", the values. *)
Record item := mkItem { i_opt : opt; i_word : string; i_joined : bool; i_vals : list string }.
Definition words (it : item) : list string :=
  if i_joined it then [(i_word it ++ "=" ++ String.concat "" (i_vals it))%string] else i_word it :: i_vals it.
(** The value that a text has for an option. *)
Definition reads (X : texts) (o : opt) (s : string) (v : val) : Prop :=
  match o_type o with
  | TText => v = VText s
  | TPath => v = VPath s
  | TInt => exists z, int_text X s z /\ v = VInt z
  | TFloat => exists x, float_text X s x /\ v = VFloat x
  end /\ match o_choices o with None => True | Some l => In s l end.
Definition meant (X : texts) (T : list opt) (it : item) (v : val) : Prop :=
  refers T (i_word it) (i_opt it) /\
  match o_kind (i_opt it) with
  | KHelp => False
  | KFlag b => i_joined it = false /\ i_vals it = [] /\ v = VBool b
  | KOne => exists s, i_vals it = [s] /\ (i_joined it = false -> as_value T s) /\ reads X (i_opt it) s v
  | KMany => i_vals it <> [] /\ (if i_joined it then length (i_vals it) = 1%nat else Forall (as_value T) (i_vals it)) /\
             exists vs, v = VList vs /\ Forall2 (reads X (i_opt it)) (i_vals it) vs
  end.
(** A command line says these things, and every required option is among them. *)
Definition said (X : texts) (T : list opt) (argv : list string) (l : list (item * val)) : Prop :=
  argv = flat_map (fun p => words (fst p)) l /\ Forall (fun p => meant X T (fst p) (snd p)) l /\
  forall o, In o T -> o_required o = true -> exists p, In p l /\ i_opt (fst p) = o.
(** What the parsers of the project have in common. *)
Definition table_ok (T : list opt) : Prop :=
  NoDup (map o_name T) /\
  (forall o, In o T -> ~ has "=" (o_name o) /\ ~ has " " (o_name o) /\
     ((exists c r, o_name o = String "-" (String "-" (String c r))) \/ (o_name o = "-h" /\ o_kind o = KHelp))) /\
  (exists o, In o T /\ o_name o = "-h") /\
  exists o1 o2, In o1 T /\ In o2 T /\ starts "--" (o_name o1) /\ starts "--" (o_name o2) /\ o1 <> o2.
(** The last thing said with one of these options. *)
Fixpoint last_said (l : list (item * val)) (names : list string) : option val :=
  match l with
  | [] => None
  | (it, v) :: r => match last_said r names with
                    | Some x => Some x
                    | None => if in_dec string_dec (o_name (i_opt it)) names then Some v else None
                    end
  end.
Definition last_or (l : list (item * val)) (names : list string) (d : val) : val :=
  match last_said l names with Some v => v | None => d end.

(** ** The builder's arguments *)

(** A literal of the source as a double. *)
Definition double (a : Z) (k : nat) : val := VFloat (Fin (rnd64 (IZR a / 10 ^ k))).
Definition fixed_speakers : list string := ["bdl"; "slt"; "clb"; "rms"; "jmk"; "awb"].
(** The builder's arguments and options are those said on the command line, with the defaults of
    the documentation for the rest. *)
Definition as_said (X : texts) (path : string -> bpath) (l : list (item * val)) (b : build_args) (o : options) : Prop :=
  let s := ba_scene b in
  (exists d, last_said l ["--cmu-root"] = Some (VPath d) /\ ba_cmu b = path d) /\
  (exists d, last_or l ["--dataset-root"] (VPath "outputs/cmu_arctic_torchrir_dynamic_dataset") = VPath d /\ ba_root b = path d) /\
  last_or l ["--speakers"] (VList (map VText fixed_speakers)) = VList (map VText (ba_speakers b)) /\
  last_or l ["--n-scenes"] (VInt 10) = VInt (ba_scenes b) /\
  last_or l ["--n-sources"] (VInt 3) = VInt (sa_n s) /\
  last_or l ["--n-moving-sources"] (VInt 1) = VInt (sa_moving s) /\
  last_or l ["--duration-sec"] (double 20 0) = VFloat (Fin (m_dur (sa_motion s))) /\
  (exists t x y z, last_or l ["--room-size"] (VText "8.0,6.0,3.0") = VText t /\ triplet X t (Fin x) (Fin y) (Fin z) /\ ba_room_list b = [x; y; z] /\ sa_room s = P3 x y z) /\
  (exists t x y z, last_or l ["--mic-center"] (VText "4.0,3.0,1.5") = VText t /\ triplet X t (Fin x) (Fin y) (Fin z) /\ ba_center_list b = [x; y; z] /\ sa_center s = P3 x y z) /\
  (exists t x y z, last_or l ["--source-margin"] (VText "0.5,0.5,0.3") = VText t /\ triplet X t (Fin x) (Fin y) (Fin z) /\ ba_margin_list b = [x; y; z] /\ sa_margin s = P3 x y z) /\
  last_or l ["--randomize-mic-center"; "--no-randomize-mic-center"] (VBool true) = VBool (sa_random_center s) /\
  last_or l ["--octa-edge-m"] (double 1 0) = VFloat (Fin (sa_edge s)) /\
  last_or l ["--trajectory-steps"] (VInt 1024) = VInt (sa_steps s) /\
  last_or l ["--rir-samples"] (VInt 4096) = VInt (ba_rir b) /\
  last_or l ["--rt60"] (double 3 1) = VFloat (Fin (o_t60 o)) /\
  last_or l ["--sound-speed"] (double 343 0) = VFloat (Fin (o_c o)) /\
  last_or l ["--max-order"] (VInt 6) = VInt (o_order o) /\
  last_or l ["--overwrite-dataset"] (VBool false) = VBool (ba_overwrite b) /\
  last_or l ["--save-layout-images"; "--no-save-layout-images"] (VBool true) = VBool (o_images o) /\
  last_or l ["--save-layout-images-3d"; "--no-save-layout-images-3d"] (VBool true) = VBool (o_images_3d o) /\
  last_or l ["--save-layout-mp4"; "--no-save-layout-mp4"] (VBool true) = VBool (o_mp4 o) /\
  last_or l ["--save-layout-mp4-3d"; "--no-save-layout-mp4-3d"] (VBool true) = VBool (o_mp4_3d o) /\
  last_or l ["--layout-video-fps"] VNone = match o_fps o with Some r => VFloat (Fin r) | None => VNone end /\
  last_or l ["--layout-video-no-audio"] (VBool false) = VBool (negb (o_mux o)) /\
  last_or l ["--no-annotate-source-indices"] (VBool false) = VBool (negb (o_annotate o)) /\
  sa_motion s = mkMotion (rnd64 (35 / 100)) (rnd64 (65 / 100)) (rnd64 (3 / 10)) (rnd64 (8 / 10)) (m_dur (sa_motion s)).
(** Log levels that stop the program. *)
Definition bad_level (s : string) : Prop := UtlModel.upper s = "BASIC_FORMAT" \/ UtlModel.upper s = "_STYLES".
(** The signature defaults of the builder for a corpus directory, as Python literals. *)
Definition signature_args (cmu root : bpath) : build_args :=
  mkBA root cmu ["bdl"; "slt"; "clb"; "rms"; "jmk"; "awb"] 10
    (mkSA 3 1 (P3 8 6 3) (P3 4 3 (rnd64 (15 / 10))) 1 (P3 (rnd64 (5 / 10)) (rnd64 (5 / 10)) (rnd64 (3 / 10))) 1024
       (mkMotion (rnd64 (35 / 100)) (rnd64 (65 / 100)) (rnd64 (3 / 10)) (rnd64 (8 / 10)) 20) true)
    [8; 6; 3]%R [4; 3; rnd64 (15 / 10)]%R [rnd64 (5 / 10); rnd64 (5 / 10); rnd64 (3 / 10)]%R 4096 false.
Definition signature_options : options := mkOpt (rnd64 (3 / 10)) 343 6 true true None true true true true.
(** [--help] or [-h] in some way. *)
Definition asks_help (T : list opt) (s : string) : Prop := starts "-h" s \/ exists o, refers T s o /\ o_kind o = KHelp.
(** The three texts that [main] reads as triples, with their defaults. *)
Definition triple_options : list (string * string) := [("--room-size", "8.0,6.0,3.0"); ("--mic-center", "4.0,3.0,1.5"); ("--source-margin", "0.5,0.5,0.3")].
(** Every number said is finite. *)
Definition all_finite (X : texts) (l : list (item * val)) : Prop :=
  (forall it v x, In (it, v) l -> v = VFloat x -> exists r, x = Fin r) /\
  (forall n d t x y z, In (n, d) triple_options ->
     last_or l [n] (VText d) = VText t -> triplet X t x y z -> exists a b c, x = Fin a /\ y = Fin b /\ z = Fin c).
(** [main] fails before the builder with [e]. *)
Definition fails (X : texts) (l : list (item * val)) (e : exn) : Prop :=
  exists level, last_or l ["--log-level"] (VText "INFO") = VText level /\
    ((UtlModel.upper level = "BASIC_FORMAT" /\ e = ValueError) \/ (UtlModel.upper level = "_STYLES" /\ e = TypeError) \/
     (~ bad_level level /\ e = ValueError /\
      exists n d t, In (n, d) triple_options /\ last_or l [n] (VText d) = VText t /\ forall x y z, ~ triplet X t x y z)).
(** What stands behind an option: nothing (it switches something on or off), a number, a text, a
    path, or one or more texts. *)
Inductive form := Switch (on : bool) | Whole | Decimal | Words | Place | Names | Help.
Definition has_form (o : opt) (f : form) : Prop :=
  o_choices o = None /\
  match f with
  | Switch b => o_kind o = KFlag b
  | Whole => o_kind o = KOne /\ o_type o = TInt
  | Decimal => o_kind o = KOne /\ o_type o = TFloat
  | Words => o_kind o = KOne /\ o_type o = TText
  | Place => o_kind o = KOne /\ o_type o = TPath
  | Names => o_kind o = KMany /\ o_type o = TText
  | Help => o_kind o = KHelp
  end.
(** The documented options. *)
Definition documented : list (string * form) :=
  [("-h", Help); ("--help", Help); ("--cmu-root", Place); ("--dataset-root", Place); ("--speakers", Names);
   ("--download-cmu", Switch true); ("--no-download-cmu", Switch false); ("--overwrite-dataset", Switch true);
   ("--n-scenes", Whole); ("--n-sources", Whole); ("--n-moving-sources", Whole); ("--trajectory-steps", Whole);
   ("--rir-samples", Whole); ("--max-order", Whole); ("--seed", Whole);
   ("--duration-sec", Decimal); ("--octa-edge-m", Decimal); ("--rt60", Decimal); ("--sound-speed", Decimal); ("--layout-video-fps", Decimal);
   ("--room-size", Words); ("--mic-center", Words); ("--source-margin", Words); ("--log-level", Words);
   ("--randomize-mic-center", Switch true); ("--no-randomize-mic-center", Switch false);
   ("--save-layout-images", Switch true); ("--no-save-layout-images", Switch false);
   ("--save-layout-images-3d", Switch true); ("--no-save-layout-images-3d", Switch false);
   ("--save-layout-mp4", Switch true); ("--no-save-layout-mp4", Switch false);
   ("--save-layout-mp4-3d", Switch true); ("--no-save-layout-mp4-3d", Switch false);
   ("--layout-video-no-audio", Switch true); ("--no-annotate-source-indices", Switch true)].
(** A word that asks for help: an option for it, or [-h], [-hh], ... with letters behind. *)
Definition help_word (T : list opt) (w : string) : Prop :=
  (exists o, refers T w o /\ o_kind o = KHelp) \/
  exists k t, w = (String "-" (string_of_list_ascii (repeat "h"%char (S k))) ++ t)%string /\
    forall c u, t = String c u -> c <> "-"%char /\ c <> "h"%char /\ c <> "="%char.
(** A word that is the beginning of two options and the name of none. *)
Definition vague (T : list opt) (s : string) : Prop :=
  s <> "--" /\ (forall o, In o T -> o_name o <> s) /\
  exists p o1 o2, (s = p \/ exists e, s = (p ++ "=" ++ e)%string) /\ ~ has "=" p /\ starts "--" p /\ (forall o, In o T -> o_name o <> p) /\
    In o1 T /\ In o2 T /\ o1 <> o2 /\ starts p (o_name o1) /\ starts p (o_name o2).
