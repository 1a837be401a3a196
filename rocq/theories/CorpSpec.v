(** Specification vocabulary for C74 (listed utterances) and C75 (attribution notice). *)
From Coq Require Import String List ZArith NArith Bool.
From Verif Require Import Prelude DsModel CorpModel.
Import ListNotations.
Local Open Scope list_scope.

(** A usable name of one directory level. *)
Definition plain (w : ustr) : Prop := w <> [] /\ w <> [46%N] /\ ~ In 47%N w.
Definition no_dash (w : ustr) : Prop := ~ In 45%N w.
(** speaker-chapter-rest. *)
Definition dashed (sp ch rest : ustr) : ustr := sp ++ 45%N :: ch ++ 45%N :: rest.
(** The file [n] in a chain of directories below [p]. *)
Definition below (p : path) (l : list ustr) : path := mkPath (p_abs p) (p_parts p ++ l).

(** Names joined by slashes. *)
Fixpoint slashed (l : list ustr) : ustr := match l with [] => [] | [w] => w | w :: l' => w ++ 47%N :: slashed l' end.

(** The same names, with [.] and empty names between them. *)
Inductive padded : list ustr -> list ustr -> Prop :=
| Pad_end : padded [] []
| Pad_name w l l' : padded l l' -> padded (w :: l) (w :: l')
| Pad_dot l l' : padded l l' -> padded ([46%N] :: l) l'
| Pad_empty l l' : padded l l' -> padded ([] :: l) l'.

(** The text consists of these lines, each ended by a newline. *)
Definition consists (text : ustr) (ls : list ustr) : Prop :=
  Forall (fun l => ~ In 10%N l) ls /\ text = flat_map (fun l => l ++ [10%N]) ls.
(** Does the line begin with this label? *)
Fixpoint labelled (label l : ustr) : bool :=
  match label, l with
  | [], _ => true
  | a :: x, b :: y => (a =? b)%N && labelled x y
  | _ :: _, [] => false
  end.
(** The contents of the lines with a label, in order. *)
Definition fields (label : ustr) (ls : list ustr) : list ustr :=
  map (skipn (length label)) (filter (labelled label) ls).
(** What a mapping shows under a key. *)
Definition entry (m : string -> option value) (k : string) (s : ustr) : Prop :=
  m k = Some (VText s) \/ (m k = Some VNone /\ s = u "None").
Definition one_line (s : ustr) : Prop := ~ In 10%N s.
(** The argument presents the mapping [m] in one of the accepted ways. *)
Definition presents (g : given) (m : string -> option value) : Prop := g = GMapping m \/ g = GToDict m \/ g = GDataclass m.
(** The contents of an attribution: six texts, the last one optional. *)
Record facts := mkFacts { f_dataset : ustr; f_source : ustr; f_license : ustr; f_url : ustr; f_credit : ustr; f_subset : option ustr }.
Definition states (m : string -> option value) (f : facts) : Prop :=
  entry m "dataset" (f_dataset f) /\ entry m "source" (f_source f) /\ entry m "license_name" (f_license f) /\
  entry m "license_url" (f_url f) /\ entry m "required_attribution" (f_credit f) /\
  match f_subset f with
  | Some s => m "subset"%string = Some (VText s)
  | None => m "subset"%string = None \/ m "subset"%string = Some VNone
  end.
Definition single_lines (f : facts) : Prop :=
  one_line (f_dataset f) /\ one_line (f_source f) /\ one_line (f_license f) /\ one_line (f_url f) /\ one_line (f_credit f) /\
  match f_subset f with Some s => one_line s | None => True end.
(** A text from which all facts and notes can be read back. *)
Definition tells (text : ustr) (f : facts) (notes : list ustr) : Prop :=
  exists ls, consists text ls /\
    fields (u "Dataset: ") ls = [f_dataset f] /\ fields (u "Source: ") ls = [f_source f] /\
    fields (u "License: ") ls = [f_license f] /\ fields (u "License URL: ") ls = [f_url f] /\
    fields (u "Required attribution: ") ls = [f_credit f] /\
    fields (u "Subset: ") ls = match f_subset f with Some s => [s] | None => [] end /\
    fields (u "- ") ls = notes.
