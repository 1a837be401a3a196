(** Model of /repo/src/torchrir/datasets/utils.py, collate.py, base.py and of the transcript
    parsers of cmu_arctic.py and librispeech.py.

    Audio is a list of real samples (mono, as the loaders of the package return it); the
    random generator, the disk and the audio decoder are arbitrary functions. *)
From Coq Require Import String List ZArith NArith Reals Bool.
From Verif Require Import Prelude FloatModel RoomModel.
Import ListNotations.
Local Notation length := List.length.

(** * Sources of fixed length, utils.py *)

(** A collection of speakers: [list_speakers] of the general dataset, and for each speaker
    the available utterances and their audio with sample rate, datasets/utils.py:13-100. *)
Record corpus := mkCorpus {
  speakers : list string;
  utts : string -> result (list string);
  audio_of : string -> string -> result (list R * Z) }.
(** The generator: [sample(l, n)] and the k-th call of [shuffle], datasets/utils.py:13-100. *)
Record rng := mkRng { sample : list string -> nat -> list string; shuffle : nat -> list string -> list string }.

(** [choose_speakers], utils.py:13-29 (a negative count makes [random.sample] raise). *)
Definition choose_speakers (c : corpus) (n : Z) (g : rng) : result (list string) :=
  match speakers c with
  | [] => Err RuntimeError
  | _ => if (Z.of_nat (length (speakers c)) <? n)%Z then Err ValueError
         else if (n <? 0)%Z then Err ValueError
         else Ok (sample g (speakers c) (Z.to_nat n))
  end.
(** [int(duration_s * fs)], utils.py:84. *)
Definition target_samples (duration : R) (fs : Z) : Z := truncZ (rnd64 (duration * IZR fs)).

(** What the loop has collected: number of shuffles, rate, segments, ids, datasets/utils.py:13-100. *)
Record got := mkGot { g_shuffles : nat; g_fs : option Z; g_segs : list (list R); g_ids : list string }.
(** The [while] loop, utils.py:75-91, with at most [fuel] rounds ([None]: still running).
    [order] is the current order of the sentences. *)
Fixpoint load_loop (c : corpus) (g : rng) (duration : R) (spk : string) (fuel : nat)
  (order : list string) (idx : nat) (total : Z) (st : got) : option (result got) :=
  match fuel with
  | O => None
  | S fuel =>
      let go := match g_fs st with None => true | Some f => (total <? target_samples duration f)%Z end in
      if negb go then Some (Ok st)
      else
        let '(order, idx, k) :=
          if length order <=? idx then (shuffle g (g_shuffles st) order, 0, S (g_shuffles st)) else (order, idx, g_shuffles st) in
        match nth_error order idx with
        | None => Some (Err IndexError)
        | Some u =>
            match audio_of c spk u with
            | Err e => Some (Err e)
            | Ok (a, rate) =>
                match g_fs st with
                | Some f => if negb (rate =? f)%Z then Some (Err ValueError)
                            else load_loop c g duration spk fuel order (S idx) (total + Z.of_nat (length a))
                                   (mkGot k (Some f) (g_segs st ++ [a]) (g_ids st ++ [u]))
                | None => load_loop c g duration spk fuel order (S idx) (total + Z.of_nat (length a))
                            (mkGot k (Some rate) (g_segs st ++ [a]) (g_ids st ++ [u]))
                end
            end
        end
  end.
(** [torch.cat(segments, dim=0)[:target_samples]], utils.py:93; no segments raise. *)
Definition cut (segs : list (list R)) (target : Z) : result (list R) :=
  match segs with
  | [] => Err RuntimeError
  | _ => Ok (pyslice 0 target (concat segs))
  end.
(** One speaker, utils.py:62-95. *)
Definition load_speaker (c : corpus) (g : rng) (duration : R) (fuel : nat) (k : nat) (fs : option Z) (spk : string) :
  option (result (nat * option Z * list R * list string)) :=
  match utts c spk with
  | Err e => Some (Err e)
  | Ok [] => Some (Err RuntimeError)
  | Ok l =>
      match load_loop c g duration spk fuel (shuffle g k l) 0 0 (mkGot (S k) fs [] []) with
      | None => None
      | Some (Err e) => Some (Err e)
      | Some (Ok st) =>
          match g_fs st with
          | None => Some (Err RuntimeError)
          | Some f => match cut (g_segs st) (target_samples duration f) with
                      | Err e => Some (Err e)
                      | Ok s => Some (Ok (g_shuffles st, Some f, s, g_ids st))
                      end
          end
      end
  end.
(** datasets/utils.py:62-95. *)
Fixpoint load_speakers (c : corpus) (g : rng) (duration : R) (fuel : nat) (k : nat) (fs : option Z) (l : list string) :
  option (result (option Z * list (list R) * list (string * list string))) :=
  match l with
  | [] => Some (Ok (fs, [], []))
  | spk :: l' =>
      match load_speaker c g duration fuel k fs spk with
      | None => None
      | Some (Err e) => Some (Err e)
      | Some (Ok (k1, fs1, s, ids)) =>
          match load_speakers c g duration fuel k1 fs1 l' with
          | None => None
          | Some (Err e) => Some (Err e)
          | Some (Ok (fs2, rows, info)) => Some (Ok (fs2, s :: rows, (spk, ids) :: info))
          end
      end
  end.
(** [torch.stack]: equal lengths, at least one row, datasets/utils.py:97. *)
Definition stack_rows (rows : list (list R)) : result (list (list R)) :=
  match rows with
  | [] => Err RuntimeError
  | r :: _ => if forallb (fun x => length x =? length r) rows then Ok rows else Err RuntimeError
  end.
(** [load_dataset_sources], utils.py:32-100. *)
Definition load_dataset_sources (c : corpus) (n : Z) (duration : R) (g : rng) (fuel : nat) :
  option (result (list (list R) * Z * list (string * list string))) :=
  match choose_speakers c n g with
  | Err e => Some (Err e)
  | Ok chosen =>
      match load_speakers c g duration fuel 0 None chosen with
      | None => None
      | Some (Err e) => Some (Err e)
      | Some (Ok (fs, rows, info)) =>
          match stack_rows rows with
          | Err e => Some (Err e)
          | Ok st => match fs with
                     | None => Some (Err RuntimeError)
                     | Some f => Some (Ok (st, f, info))
                     end
          end
      end
  end.

(** * Collation, collate.py *)

(** [DatasetItem], base.py:21-29. *)
Record item := mkItem { it_dtype : dtype; it_audio : list R; it_rate : Z; it_id : string;
  it_text : option string; it_speaker : option string }.
(** [CollateBatch], collate.py:14-34. *)
Record batch := mkBatch { b_audio : list (list R); b_lengths : list nat; b_rate : Z; b_ids : list string;
  b_texts : list (option string); b_speakers : list (option string); b_metadata : option (list (option unit)) }.
(** Storing a value in a tensor of the given dtype, datasets/collate.py:64-72. *)
Definition store (d : dtype) (x : R) : R := match d with Float => x | Int64 => IZR (truncZ x) end.
(** [row[:len(v)] = v], datasets/collate.py:64-72. *)
Definition assign_prefix (row v : list R) : list R := v ++ skipn (length v) row.
(** [collate_dataset_items], collate.py:37-90 ([DatasetItem] has no [metadata] attribute). *)
Definition collate (items : list item) (pad : R) (keep_metadata : bool) : result batch :=
  match items with
  | [] => Err ValueError
  | i0 :: rest =>
      if negb (forallb (fun i => (it_rate i =? it_rate i0)%Z) rest) then Err ValueError
      else
        let lengths := map (fun i => length (it_audio i)) items in
        let max_len := fold_right Nat.max 0 lengths in
        let d := it_dtype i0 in
        let row := repeat (store d pad) max_len in
        Ok (mkBatch (map (fun i => assign_prefix row (map (store d) (it_audio i))) items)
              lengths (it_rate i0) (map it_id items) (map it_text items) (map it_speaker items)
              (if keep_metadata then Some (map (fun _ => None) items) else None))
  end.

(** * Transcripts *)

(** Python strings are lists of code points, datasets/cmu_arctic.py:131, 197-202, datasets/librispeech.py:110, 195-198. *)
Definition ustr := list N.
(** [str.isspace] for one character (the whole Unicode list used by [str.strip], [str.split]), datasets/cmu_arctic.py:131, 197-202, datasets/librispeech.py:110, 195-198. *)
Definition is_space (c : N) : bool :=
  ((9 <=? c) && (c <=? 13) || (28 <=? c) && (c <=? 32) || (c =? 133) || (c =? 160) || (c =? 5760) ||
   (8192 <=? c) && (c <=? 8202) || (c =? 8232) || (c =? 8233) || (c =? 8239) || (c =? 8287) || (c =? 12288))%N.
(** datasets/cmu_arctic.py:131, 197-202, datasets/librispeech.py:110, 195-198. *)
Fixpoint lstrip (s : ustr) : ustr :=
  match s with c :: s' => if is_space c then lstrip s' else s | [] => [] end.
(** [str.strip()], datasets/cmu_arctic.py:131, 197-202, datasets/librispeech.py:110, 195-198. *)
Definition strip (s : ustr) : ustr := rev (lstrip (rev (lstrip s))).
(** [str.partition(c)]: before, found, after, datasets/cmu_arctic.py:131, 197-202, datasets/librispeech.py:110, 195-198. *)
Fixpoint partition (c : N) (s : ustr) : ustr * bool * ustr :=
  match s with
  | [] => ([], false, [])
  | x :: s' => if (x =? c)%N then ([], true, s') else let '(a, f, b) := partition c s' in (x :: a, f, b)
  end.
(** [str.rsplit(c, 1)[0]]: everything before the last [c] (everything if there is none), datasets/cmu_arctic.py:201. *)
Definition before_last (c : N) (s : ustr) : ustr :=
  let '(_, f, b) := partition c (rev s) in if f then rev b else s.
(** First entry of [str.split()] of a stripped string, datasets/cmu_arctic.py:200. *)
Fixpoint first_word (s : ustr) : ustr :=
  match s with c :: s' => if is_space c then [] else c :: first_word s' | [] => [] end.
(** datasets/cmu_arctic.py:199, 201. *)
Definition quote : N := 34.
(** datasets/cmu_arctic.py:200. *)
Definition paren : N := 40.
(** [_parse_text_line], cmu_arctic.py:197-202. *)
Definition parse_cmu (line : ustr) : result (ustr * ustr) :=
  let '(lft, _, rgt) := partition quote line in
  match strip (filter (fun c => negb (c =? paren)%N) lft) with
  | [] => Err IndexError
  | s => Ok (first_word s, before_last quote rgt)
  end.
(** [_parse_text_line], librispeech.py:195-198. *)
Definition parse_libri (line : ustr) : ustr * ustr :=
  let '(lft, _, rgt) := partition 32 line in (lft, strip rgt).
(** Iteration over a text file with universal newlines (what is yielded, without the newline
    characters, which [strip] removes anyway), datasets/cmu_arctic.py:129-130, datasets/librispeech.py:108-109. *)
Fixpoint lines_aux (s : ustr) (cur : ustr) : list ustr :=
  match s with
  | [] => match cur with [] => [] | _ => [rev cur] end
  | (10%N) :: s' => rev cur :: lines_aux s' []
  | (13%N) :: (10%N) :: s' => rev cur :: lines_aux s' []
  | (13%N) :: s' => rev cur :: lines_aux s' []
  | c :: s' => lines_aux s' (c :: cur)
  end.
(** datasets/cmu_arctic.py:129-130, datasets/librispeech.py:108-109. *)
Definition file_lines (s : ustr) : list ustr := lines_aux s [].
(** [sentences], cmu_arctic.py:126-136. *)
Definition sentences_cmu (text : ustr) : result (list (ustr * ustr)) :=
  mapM parse_cmu (filter (fun l => match l with [] => false | _ => true end) (map strip (file_lines text))).
(** [available_sentences], cmu_arctic.py:138-141; [wav] tells the stems of the wav files. *)
Definition available_cmu (wav : ustr -> bool) (text : ustr) : result (list (ustr * ustr)) :=
  do l <- sentences_cmu text; Ok (filter (fun s => wav (fst s)) l).
(** The loop over one transcript file, librispeech.py:106-123; [flac] tells the files in the
    chapter directory. *)
Definition available_libri (flac : ustr -> bool) (text : ustr) : list (ustr * ustr) :=
  filter (fun s => flac (fst s))
    (map parse_libri (filter (fun l => match l with [] => false | _ => true end) (map strip (file_lines text)))).

(** * Indexing, base.py *)

(** What [available_sentences] and [load_audio] give at the moment of a call, datasets/base.py:35-75. *)
Record disk := mkDisk { d_sentences : result (list (string * option string)); d_audio : string -> result (list R * Z) }.
(** Calls on the dataset object number [o], datasets/base.py:35-75. *)
Inductive op := Len (o : nat) | Get (o : nat) (i : Z) | GetOther (o : nat).
(** datasets/base.py:35-75. *)
Inductive answer := ALen (n : nat) | AItem (a : list R) (rate : Z) (id : string) (text : option string) | AErr (e : exn).
(** Caches of all objects ([_sentences_cache], base.py:35) and number of directory reads. *)
Record caches := mkCaches { cached : nat -> option (list (string * option string)); reads : nat -> nat }.
(** datasets/base.py:35-75. *)
Definition fresh_caches : caches := mkCaches (fun _ => None) (fun _ => 0).
(** datasets/base.py:35-75. *)
Definition set_at {A} (o : nat) (v : A) (f : nat -> A) : nat -> A := fun x => if x =? o then v else f x.
(** [_get_sentences], base.py:72-75. *)
Definition get_sentences (st : caches) (d : disk) (o : nat) : caches * result (list (string * option string)) :=
  match cached st o with
  | Some l => (st, Ok l)
  | None =>
      let n := set_at o (S (reads st o)) (reads st) in
      match d_sentences d with
      | Ok l => (mkCaches (set_at o (Some l) (cached st)) n, Ok l)
      | Err e => (mkCaches (cached st) n, Err e)
      end
  end.
(** [sentences[idx]] with Python's negative indices, datasets/base.py:60. *)
Definition py_index {A} (l : list A) (i : Z) : result A :=
  let j := if (i <? 0)%Z then (i + Z.of_nat (length l))%Z else i in
  if (j <? 0)%Z then Err IndexError
  else match nth_error l (Z.to_nat j) with Some x => Ok x | None => Err IndexError end.
(** [__len__] and [__getitem__], base.py:53-70. *)
Definition perform (st : caches) (d : disk) (c : op) : caches * answer :=
  match c with
  | GetOther _ => (st, AErr TypeError)
  | Len o => match get_sentences st d o with
             | (st', Ok l) => (st', ALen (length l))
             | (st', Err e) => (st', AErr e)
             end
  | Get o i => match get_sentences st d o with
               | (st', Err e) => (st', AErr e)
               | (st', Ok l) =>
                   match py_index l i with
                   | Err e => (st', AErr e)
                   | Ok (id, text) => match d_audio d id with
                                      | Err e => (st', AErr e)
                                      | Ok (a, rate) => (st', AItem a rate id text)
                                      end
                   end
               end
  end.
(** A history of calls, the disk being in any state at each of them, datasets/base.py:35-75. *)
Fixpoint perform_all (st : caches) (h : list (disk * op)) : caches * list answer :=
  match h with
  | [] => (st, [])
  | (d, c) :: h' => let '(st1, a) := perform st d c in let '(st2, l) := perform_all st1 h' in (st2, a :: l)
  end.
