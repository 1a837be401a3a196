(** Specification vocabulary for the dataset helpers. *)
From Coq Require Import String List ZArith NArith Reals Bool Permutation.
From Verif Require Import Prelude FloatModel RoomModel DsModel.
Import ListNotations.
Local Notation length := List.length.

(** The generator really shuffles and samples without replacement. *)
Definition fair (g : rng) : Prop :=
  (forall k l, Permutation l (shuffle g k l)) /\
  (forall l n, n <= length l -> length (sample g l n) = n /\ exists rest, Permutation l (sample g l n ++ rest)).
(** [ids] goes through the utterances epoch by epoch: each is used once before any is used
    again. *)
Definition by_epochs (all ids : list string) : Prop :=
  exists epochs rest, Forall (Permutation all) epochs /\ concat epochs = ids ++ rest.
(** The number of whole samples in [dur] seconds, the product being rounded to binary64. *)
Definition whole_samples (dur : R) (fs : Z) (n : nat) : Prop :=
  (INR n <= rnd64 (dur * IZR fs) < INR n + 1)%R.
(** What a row for one speaker must be. *)
Definition row_for (c : corpus) (fs : Z) (target : nat) (spk : string) (ids : list string) (row : list R) : Prop :=
  length row = target /\
  exists all segs, utts c spk = Ok all /\ by_epochs all ids /\
    Forall2 (fun u a => audio_of c spk u = Ok (a, fs)) ids segs /\
    row = firstn target (concat segs) /\
    (forall pre a, segs = pre ++ [a] -> pre <> [] -> length (concat pre) < target).

(** Items that share one dtype in which their samples are representable. *)
Definition uniform_dtype (d : dtype) (items : list item) : Prop :=
  forall i, In i items -> it_dtype i = d /\
    match d with Float => True | Int64 => forall x, In x (it_audio i) -> exists z, x = IZR z end.

(** Transcript lines. *)
Definition no_newline (s : ustr) : Prop := forall c, In c s -> c <> 10%N /\ c <> 13%N.
(** The white space characters of Unicode (property White_Space) and the four information
    separators 28 to 31, which Python counts as white space too. *)
Definition white : list N :=
  [9; 10; 11; 12; 13; 28; 29; 30; 31; 32; 133; 160; 5760; 8192; 8193; 8194; 8195; 8196; 8197; 8198; 8199; 8200; 8201; 8202;
   8232; 8233; 8239; 8287; 12288]%N.
Definition blank (s : ustr) : Prop := no_newline s /\ forall c, In c s -> In c white.
Definition is_word (s : ustr) : Prop := s <> [] /\ forall c, In c s -> ~ In c white.
(** Neither starts nor ends with white space. *)
Definition trimmed (s : ustr) : Prop :=
  forall c s', (s = c :: s' \/ s = s' ++ [c]) -> ~ In c white.
Inductive row := Blank (ws : ustr) | Entry (before : ustr) (id text : ustr) (after : ustr).
(** Line ends of Unix, DOS and old Macintosh files. *)
Inductive line_end := Unix | Dos | Mac.
Definition newline (e : line_end) : ustr := match e with Unix => [10%N] | Dos => [13%N; 10%N] | Mac => [13%N] end.
(** [( id "text" )]. *)
Definition cmu_line (id text : ustr) : ustr := [40; 32]%N ++ id ++ [32; 34]%N ++ text ++ [34; 32; 41]%N.
(** [id text]. *)
Definition libri_line (id text : ustr) : ustr := id ++ [32%N] ++ text.
Definition cmu_row (r : row) : ustr :=
  match r with Blank ws => ws | Entry b id text a => b ++ cmu_line id text ++ a end.
Definition libri_row (r : row) : ustr :=
  match r with Blank ws => ws | Entry b id text a => b ++ libri_line id text ++ a end.
Definition cmu_wf (r : row) : Prop :=
  match r with
  | Blank ws => blank ws
  | Entry b id text a => blank b /\ blank a /\ no_newline text /\ is_word id /\ ~ In 34%N id /\ ~ In 40%N id
  end.
Definition libri_wf (r : row) : Prop :=
  match r with
  | Blank ws => blank ws
  | Entry b id text a => blank b /\ blank a /\ no_newline text /\ is_word id /\ trimmed text
  end.
Definition entries (l : list row) : list (ustr * ustr) :=
  flat_map (fun r => match r with Blank _ => [] | Entry _ id text _ => [(id, text)] end) l.
(** A file: rows, each followed by a line end of any kind, except possibly the last. *)
Definition file_of (render : row -> ustr) (l : list (row * line_end)) (last : option row) : ustr :=
  flat_map (fun x => render (fst x) ++ newline (snd x)) l ++ match last with Some r => render r | None => [] end.
Definition rows_of (l : list (row * line_end)) (last : option row) : list row :=
  map fst l ++ match last with Some r => [r] | None => [] end.

(** Answers that agree with a fixed list of sentences per object. *)
Definition agrees (L : nat -> list (string * option string)) (c : op) (a : answer) : Prop :=
  match c, a with
  | Len o, ALen n => n = length (L o)
  | Get o i, AItem _ _ id text =>
      exists j, nth_error (L o) j = Some (id, text) /\ (i = Z.of_nat j \/ i = (Z.of_nat j - Z.of_nat (length (L o)))%Z)
  | _, AErr _ => True
  | _, _ => False
  end.
