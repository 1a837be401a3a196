(** Model of /repo/src/torchrir/datasets/_archive.py on a file system with symbolic links.

    Paths are lists of components from the root directory of the file system.  Simplifications:
    file contents are numbers; permissions, owners, times, devices and disk errors are left
    out; the behaviour of the standard library ([Path.resolve], [os.path.exists],
    [os.makedirs], [tarfile.extractall] without filter) is written out below. *)
From Coq Require Import String List Arith Bool.
From Verif Require Import Prelude.
Import ListNotations.
Local Notation length := List.length.

(** datasets/_archive.py:12-21. *)
Definition path := list string.
(** File-system nodes; a link has an absolute or relative target, datasets/_archive.py:12-21. *)
Inductive node := Dir | File (content : nat) | Link (absolute : bool) (target : list string).
(** datasets/_archive.py:12-21. *)
Definition fsys := path -> option node.
(** datasets/_archive.py:12-21. *)
Definition path_eqb (p q : path) : bool := if list_eq_dec string_dec p q then true else false.
(** Node [n] placed at [p], datasets/_archive.py:12-21. *)
Definition put (fs : fsys) (p : path) (n : node) : fsys := fun q => if path_eqb q p then Some n else fs q.

(** Components that stay where they are, datasets/_archive.py:12-21. *)
Definition here (c : string) : bool := String.eqb c "" || String.eqb c ".".

(** [Path.resolve()] (not strict), _archive.py:12, 17: links are followed, ".." goes up,
    missing components are kept; [None]: too many links. *)
Fixpoint resolve (fs : fsys) (fuel : nat) (cur : path) (comps : list string) : option path :=
  match fuel with
  | O => None
  | S fuel =>
      match comps with
      | [] => Some cur
      | c :: rest =>
          if here c then resolve fs fuel cur rest
          else if String.eqb c ".." then resolve fs fuel (removelast cur) rest
          else match fs (cur ++ [c]) with
               | Some (Link ab t) => resolve fs fuel (if ab then [] else cur) (t ++ rest)
               | _ => resolve fs fuel (cur ++ [c]) rest
               end
      end
  end.
(** Resolution of a name by the operating system: as above, but every component passed
    through must be a directory; the last one may be missing.  [None]: the call fails, datasets/_archive.py:21. *)
Fixpoint locate (fs : fsys) (fuel : nat) (cur : path) (comps : list string) : option path :=
  match fuel with
  | O => None
  | S fuel =>
      match comps with
      | [] => Some cur
      | c :: rest =>
          match fs cur with
          | Some Dir =>
              if here c then locate fs fuel cur rest
              else if String.eqb c ".." then locate fs fuel (removelast cur) rest
              else match fs (cur ++ [c]) with
                   | Some (Link ab t) => locate fs fuel (if ab then [] else cur) (t ++ rest)
                   | Some Dir => locate fs fuel (cur ++ [c]) rest
                   | _ => match rest with [] => Some (cur ++ [c]) | _ => None end
                   end
          | _ => None
          end
      end
  end.
(** [os.path.exists] / [os.path.isdir] of an absolute name, datasets/_archive.py:21. *)
Definition exists_at (fs : fsys) (fuel : nat) (comps : list string) : bool :=
  match locate fs fuel [] comps with
  | Some p => match fs p with Some _ => true | None => false end
  | None => false
  end.
(** datasets/_archive.py:21. *)
Definition isdir_at (fs : fsys) (fuel : nat) (comps : list string) : bool :=
  match locate fs fuel [] comps with
  | Some p => match fs p with Some Dir => true | _ => false end
  | None => false
  end.
(** [os.mkdir]: fails if there is something already, be it a dangling link, datasets/_archive.py:21. *)
Definition mkdir (fs : fsys) (fuel : nat) (comps : list string) : result fsys :=
  match rev comps with
  | [] => Err FileExistsError
  | c :: rhead =>
      match locate fs fuel [] (rev rhead) with
      | Some d => match fs d with
                  | Some Dir => if here c || String.eqb c ".." then Err FileExistsError
                                else match fs (d ++ [c]) with
                                     | None => Ok (put fs (d ++ [c]) Dir)
                                     | Some _ => Err FileExistsError
                                     end
                  | _ => Err OSError
                  end
      | None => Err OSError
      end
  end.
(** [os.makedirs] (the argument is the reversed list of components); the file system is
    returned also when it raises, datasets/_archive.py:21. *)
Fixpoint makedirs (fs : fsys) (fuel : nat) (exist_ok : bool) (rcomps : list string) : fsys * result unit :=
  match rcomps with
  | [] => (fs, Ok tt)
  | tail :: rhead =>
      if String.eqb tail "" then makedirs fs fuel exist_ok rhead
      else
        let ex := exists_at fs fuel (rev rhead) in
        let '(fs1, r1) :=
          if ex then (fs, Ok tt)
          else match makedirs fs fuel exist_ok rhead with
               | (fs1, Err FileExistsError) => (fs1, Ok tt)
               | x => x
               end in
        match r1 with
        | Err e => (fs1, Err e)
        | Ok _ =>
            if negb ex && String.eqb tail "." then (fs1, Ok tt)
            else match mkdir fs1 fuel (rev rcomps) with
                 | Ok fs2 => (fs2, Ok tt)
                 | Err e => if exist_ok && isdir_at fs1 fuel (rev rcomps) then (fs1, Ok tt) else (fs1, Err e)
                 end
        end
  end.

(** Members of a tar archive, datasets/_archive.py:13-19. *)
Inductive kind := KFile (content : nat) | KDir | KSym (absolute : bool) (target : list string) | KHard.
(** datasets/_archive.py:13-19. *)
Record member := mkMember { m_abs : bool; m_name : list string; m_kind : kind }.
(** [os.path.join(root, name)] / [root / name], _archive.py:17. *)
Definition join (root : path) (m : member) : list string := if m_abs m then m_name m else root ++ m_name m.
(** Trailing separators are dropped by [tarfile], datasets/_archive.py:21. *)
Fixpoint drop_here (l : list string) : list string :=
  match l with c :: l' => if String.eqb c "" then drop_here l' else l | [] => [] end.
(** [TarFile._extract_member] for a file or directory member: parent directories are made if
    the parent does not exist, then the member is written at its name (following links), datasets/_archive.py:21. *)
Definition extract_member (fs : fsys) (fuel : nat) (exist_ok : bool) (root : path) (m : member) : fsys * result unit :=
  let target := rev (drop_here (rev (join root m))) in
  let up := removelast target in
  let '(fs1, r) := if exists_at fs fuel up then (fs, Ok tt) else makedirs fs fuel exist_ok (rev up) in
  match r with
  | Err e => (fs1, Err e)
  | Ok _ =>
      match m_kind m with
      | KDir => match mkdir fs1 fuel target with
                | Ok fs2 => (fs2, Ok tt)
                | Err FileExistsError => if isdir_at fs1 fuel target then (fs1, Ok tt) else (fs1, Err FileExistsError)
                | Err e => (fs1, Err e)
                end
      | KFile c => match locate fs1 fuel [] target with
                   | Some p => match fs1 p with
                               | None | Some (File _) => (put fs1 p (File c), Ok tt)
                               | _ => (fs1, Err OSError)
                               end
                   | None => (fs1, Err OSError)
                   end
      | _ => (fs1, Err OSError)                  (* links never get here *)
      end
  end.
(** [tar.extractall(root)], _archive.py:21. *)
Fixpoint extractall (fs : fsys) (fuel : nat) (exist_ok : bool) (root : path) (l : list member) : fsys * result unit :=
  match l with
  | [] => (fs, Ok tt)
  | m :: l' => match extract_member fs fuel exist_ok root m with
               | (fs1, Ok _) => extractall fs1 fuel exist_ok root l'
               | x => x
               end
  end.

(** [os.path.commonpath] of two absolute paths without links, _archive.py:18. *)
Fixpoint commonpath (p q : path) : path :=
  match p, q with
  | a :: p', b :: q' => if String.eqb a b then a :: commonpath p' q' else []
  | _, _ => []
  end.
(** The checks on one member, _archive.py:14-19. *)
Definition check_member (fs : fsys) (fuel : nat) (root : path) (m : member) : result unit :=
  match m_kind m with
  | KSym _ _ | KHard => Err ValueError
  | _ => match resolve fs fuel [] (join root m) with
         | None => Err RuntimeError
         | Some t => if path_eqb (commonpath root t) root then Ok tt else Err ValueError
         end
  end.
(** [safe_extractall], _archive.py:10-21; [pf] and [kf] bound the links followed by Python and
    by the operating system. *)
Definition safe_extractall (fs : fsys) (pf kf : nat) (exist_ok : bool) (dest : list string) (l : list member) : fsys * result unit :=
  match resolve fs pf [] dest with
  | None => (fs, Err RuntimeError)
  | Some root =>
      match mapM (check_member fs pf root) l with
      | Err e => (fs, Err e)
      | Ok _ => extractall fs kf exist_ok root l
      end
  end.
