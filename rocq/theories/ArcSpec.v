(** Specification vocabulary for archive extraction. *)
From Coq Require Import String List Arith Bool.
From Verif Require Import Prelude ArcModel.
Import ListNotations.

(** [p] lies in (or is) the directory [root]. *)
Definition inside (root p : path) : Prop := exists r, p = root ++ r.
(** A file system is a tree: whatever exists is in a directory. *)
Definition tree (fs : fsys) : Prop :=
  fs [] = Some Dir /\ forall p c, fs (p ++ [c]) <> None -> fs p = Some Dir.
Definition no_links (fs : fsys) : Prop := forall p a t, fs p <> Some (Link a t).
Definition is_link (m : member) : Prop := match m_kind m with KSym _ _ | KHard => True | _ => False end.
(** A member whose name goes up at some point. *)
Definition climbs (m : member) : Prop := In ".."%string (m_name m).
(** Path denoted by components when there are no links: "." and empty components do nothing,
    ".." removes the last component. *)
Fixpoint normal (cur : path) (comps : list string) : path :=
  match comps with
  | [] => cur
  | c :: rest =>
      if string_dec c "" then normal cur rest
      else if string_dec c "." then normal cur rest
      else if string_dec c ".." then normal (removelast cur) rest
      else normal (cur ++ [c]) rest
  end.

(** An ordinary component of a name. *)
Definition ordinary (c : string) : Prop := c <> ""%string /\ c <> "."%string /\ c <> ".."%string.
(** A member with the relative name [w], possibly followed by separators. *)
Definition named (m : member) (w : list string) : Prop :=
  m_abs m = false /\ w <> [] /\ Forall ordinary w /\ exists k, m_name m = w ++ repeat ""%string k.
(** [a] is a directory strictly above [w]. *)
Definition above (a w : list string) : Prop := exists r, r <> [] /\ w = a ++ r.
(** Nothing on disk is in the way of member [m] with the name [w]: no file where a directory is
    needed, no directory where a file is to be written. *)
Definition fits (fs : fsys) (root : path) (m : member) (w : list string) : Prop :=
  (forall a, above a w -> forall c, fs (root ++ a) <> Some (File c)) /\
  match m_kind m with
  | KFile _ => fs (root ++ w) <> Some Dir
  | KDir => forall c, fs (root ++ w) <> Some (File c)
  | _ => False
  end.
(** Two members of one archive are not in the way of each other. *)
Definition agree (m1 : member) (w1 : list string) (m2 : member) (w2 : list string) : Prop :=
  match m_kind m1 with
  | KFile _ => ~ above w1 w2 /\ (w1 = w2 -> m_kind m2 <> KDir)
  | _ => True
  end.
