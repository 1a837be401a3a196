(** Model of dataset download and extraction: /repo/src/torchrir/datasets/cmu_arctic.py and
    librispeech.py (the two files have the same code here; line numbers below are those of
    cmu_arctic.py, those of librispeech.py are given in brackets).

    A run is a sequence of file-system steps; the list of all states passed through is kept,
    so that a crash (or an exception that is not an [Exception], like Ctrl-C) is the choice of
    one of them.  The network, the content of archives and I/O errors are arbitrary.
    Simplifications: [mkdir] of the base directory succeeds; the dataset directory is
    represented by the log of the files written into it; a rename is one step. *)
From Coq Require Import String List Arith Bool.
From Verif Require Import Prelude.
Import ListNotations.
Local Notation length := List.length.

(** datasets/cmu_arctic.py:177-194 [datasets/librispeech.py:175-192]. *)
Definition bytes := list nat.
(** datasets/cmu_arctic.py:177-194 [datasets/librispeech.py:175-192]. *)
Definition file := (string * nat)%type.
(** One attempt to fetch the URL: the connection is refused, or a response announces a length
    (or not), delivers chunks, and ends normally or with an exception (of the network or of
    the disk), datasets/cmu_arctic.py:177-194 [datasets/librispeech.py:175-192]. *)
Inductive response := Refuse | Serve (announced : option nat) (chunks : list bytes) (normal_end : bool).
(** Files on disk: the temporary file, the archive and the dataset directory (if it exists),
    plus counters for the attempts made and a flag telling that an extraction is going on, datasets/cmu_arctic.py:104-124, 161-194 [datasets/librispeech.py:132-152, 159-192]. *)
Record world := mkW { part : option bytes; final : option bytes; data : option (list file);
  tries : nat; unpacks : nat; extracting : bool }.
(** What the run meets: response to the k-th attempt; I/O error of the k-th extraction after
    so many files; files in an archive (or an exception for a damaged or unsafe one), datasets/cmu_arctic.py:104-124, 161-194 [datasets/librispeech.py:132-152, 159-192]. *)
Record env := mkE { net : nat -> response; io : nat -> option nat; pack : bytes -> result (list file) }.

(** A piece of program: intermediate states (in order), state at the end, outcome, datasets/cmu_arctic.py:104-124, 161-194 [datasets/librispeech.py:132-152, 159-192]. *)
Definition run := world -> list world * world * result unit.
(** datasets/cmu_arctic.py:104-124, 161-194 [datasets/librispeech.py:132-152, 159-192]. *)
Definition ret : run := fun w => ([], w, Ok tt).
(** datasets/cmu_arctic.py:104-124, 161-194 [datasets/librispeech.py:132-152, 159-192]. *)
Definition fail (e : exn) : run := fun w => ([], w, Err e).
(** datasets/cmu_arctic.py:104-124, 161-194 [datasets/librispeech.py:132-152, 159-192]. *)
Definition step (f : world -> world) : run := fun w => ([w], f w, Ok tt).
(** datasets/cmu_arctic.py:104-124, 161-194 [datasets/librispeech.py:132-152, 159-192]. *)
Definition seq (a b : run) : run := fun w =>
  match a w with
  | (t, w1, Err e) => (t, w1, Err e)
  | (t, w1, Ok _) => match b w1 with (t', w2, r) => (t ++ t', w2, r) end
  end.
(** [try a except (those accepted by [p]): h], datasets/cmu_arctic.py:104-124, 161-194 [datasets/librispeech.py:132-152, 159-192]. *)
Definition catch (a : run) (p : exn -> bool) (h : exn -> run) : run := fun w =>
  match a w with
  | (t, w1, Err e) => if p e then match h e w1 with (t', w2, r) => (t ++ t', w2, r) end else (t, w1, Err e)
  | x => x
  end.
(** datasets/cmu_arctic.py:104-124, 161-194 [datasets/librispeech.py:132-152, 159-192]. *)
Definition cond (c : world -> bool) (a : run) : run := fun w => if c w then a w else ret w.

(** datasets/cmu_arctic.py:104-124, 161-194 [datasets/librispeech.py:132-152, 159-192]. *)
Definition set_part (p : option bytes) (w : world) : world := mkW p (final w) (data w) (tries w) (unpacks w) (extracting w).
(** datasets/cmu_arctic.py:104-124, 161-194 [datasets/librispeech.py:132-152, 159-192]. *)
Definition set_final (p : option bytes) (w : world) : world := mkW (part w) p (data w) (tries w) (unpacks w) (extracting w).
(** datasets/cmu_arctic.py:104-124, 161-194 [datasets/librispeech.py:132-152, 159-192]. *)
Definition some {A} (o : option A) : bool := match o with Some _ => true | None => false end.
(** datasets/cmu_arctic.py:181 [datasets/librispeech.py:179]. *)
Definition count_try (w : world) : world := mkW (part w) (final w) (data w) (S (tries w)) (unpacks w) (extracting w).
(** [f.write(chunk)], datasets/cmu_arctic.py:190 [datasets/librispeech.py:188]. *)
Definition append_part (c : bytes) (w : world) : world :=
  set_part (match part w with Some b => Some (b ++ c) | None => Some c end) w.

(** The loop of [_stream_download], 186-191 [184-189]: an empty chunk is the end of the stream. *)
Fixpoint read_loop (chunks : list bytes) (normal_end : bool) : run :=
  match chunks with
  | [] => if normal_end then ret else fail OSError
  | [] :: _ => ret
  | c :: rest => seq (step (append_part c)) (read_loop rest normal_end)
  end.
(** Number of bytes counted in [downloaded], datasets/cmu_arctic.py:186-191 [datasets/librispeech.py:184-189]. *)
Fixpoint delivered (chunks : list bytes) : bytes :=
  match chunks with [] => [] | [] :: _ => [] | c :: rest => c ++ delivered rest end.
(** [_stream_download], 175-194 [173-192]. *)
Definition stream_download (e : env) : run := fun w =>
  let r := net e (tries w) in
  seq (cond (fun w => some (part w)) (step (set_part None)))
    (seq (fun w => ([], count_try w, Ok tt))
       match r with
       | Refuse => fail OSError
       | Serve announced chunks normal_end =>
           seq (step (set_part (Some [])))
             (seq (read_loop chunks normal_end)
                (let total := match announced with Some n => n | None => 0 end in
                 if (0 <? total) && negb (length (delivered chunks) =? total) then fail OSError
                 else step (fun w => set_part None (set_final (part w) w))))
       end) w.
(** [_download], 161-172 [159-170], with [retries = 1]: two attempts. *)
Definition any_exception (_ : exn) : bool := true.
(** datasets/cmu_arctic.py:168-169 [datasets/librispeech.py:166-167]. *)
Definition unlink_final : run := cond (fun w => some (final w)) (step (set_final None)).
(** datasets/cmu_arctic.py:161-172 [datasets/librispeech.py:159-170]. *)
Definition download (e : env) : run :=
  catch (stream_download e) any_exception
    (fun _ => seq unlink_final
       (catch (stream_download e) any_exception (fun x => seq unlink_final (fail x)))).

(** Extraction of the archive: the archive is read and checked first, then the files are
    written one by one into the dataset directory, datasets/cmu_arctic.py:116-117 [datasets/librispeech.py:144-145]. *)
Definition write_file (f : file) (w : world) : world :=
  mkW (part w) (final w) (Some (match data w with Some l => l ++ [f] | None => [f] end)) (tries w) (unpacks w) (extracting w).
(** datasets/cmu_arctic.py:116-117 [datasets/librispeech.py:144-145]. *)
Definition begin_extract (w : world) : world := mkW (part w) (final w) (data w) (tries w) (S (unpacks w)) true.
(** datasets/cmu_arctic.py:116-117 [datasets/librispeech.py:144-145]. *)
Definition end_extract (w : world) : world := mkW (part w) (final w) (data w) (tries w) (unpacks w) false.
(** datasets/cmu_arctic.py:116-117 [datasets/librispeech.py:144-145]. *)
Fixpoint write_files (l : list file) (fault : option nat) : run :=
  match l with
  | [] => ret
  | f :: l' => match fault with
               | Some O => fail OSError
               | Some (S n) => seq (step (write_file f)) (write_files l' (Some n))
               | None => seq (step (write_file f)) (write_files l' None)
               end
  end.
(** [with tarfile.open(archive_path) as tar: safe_extractall(tar, ...)], 116-117 [144-145]. *)
Definition extract (e : env) : run := fun w =>
  match final w with
  | None => ([], w, Err FileNotFoundError)
  | Some c => match pack e c with
              | Err x => ([], w, Err x)
              | Ok l => let fault := io e (unpacks w) in
                  let '(t, w1, r) := seq (step begin_extract) (write_files l fault) w in
                  (t ++ [w1], end_extract w1, r)
              end
  end.
(** [except (tarfile.ReadError, EOFError, OSError)]: damaged archives are [OSError] here;
    unsafe ones raise [ValueError], which is not caught, datasets/cmu_arctic.py:118 [datasets/librispeech.py:146]. *)
Definition retry_exn (x : exn) : bool := match x with OSError | FileExistsError | FileNotFoundError => true | _ => false end.
(** [_download_and_extract], 104-124 [132-152]. *)
Definition prepare (e : env) : run :=
  seq (cond (fun w => negb (some (final w))) (download e))
    (cond (fun w => negb (some (data w)))
       (catch (extract e) retry_exn
          (fun _ => seq unlink_final (seq (download e) (extract e))))).
(** The constructor, 67-92 [53-88], for valid speaker or subset names
    (the speaker directory of LibriSpeech is checked in addition). *)
Definition construct (e : env) (dl : bool) : run :=
  seq (if dl then prepare e else ret)
    (fun w => if some (data w) then ret w else fail FileNotFoundError w).

(** States in which a crash may leave the disk, and the final state, datasets/cmu_arctic.py:104-124 [datasets/librispeech.py:132-152]. *)
Definition states (x : list world * world * result unit) : list world := let '(t, w, _) := x in t ++ [w].
