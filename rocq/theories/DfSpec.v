(** Specification vocabulary for C92: when data sets are fetched. *)
From Coq Require Import String List Arith Bool.
From Verif Require Import Prelude DlModel DfModel.
Import ListNotations.
Local Open Scope string_scope.

(** A data set on request: its kind and arguments. *)
Inductive request := Cmu (speaker : string) | Libri (subset : string) (speaker : option string).
Definition make (e : surroundings) (d : disk) (q : request) (download : bool) : disk * result unit :=
  match q with Cmu s => cmu e d s download | Libri b s => libri e d b s download end.
(** The request names something that exists. *)
Definition known (q : request) : Prop :=
  match q with
  | Cmu s => In s ["aew"; "ahw"; "aup"; "awb"; "axb"; "bdl"; "clb"; "eey"; "fem"; "gka"; "jmk"; "ksp"; "ljm"; "lnh"; "rms"; "rxr"; "slp"; "slt"]
  | Libri b _ => In b ["dev-clean"; "dev-other"; "test-clean"; "test-other"; "train-clean-100"; "train-clean-360"; "train-other-500"]
  end.
(** The archive of a request. *)
Definition archive (q : request) : string :=
  match q with Cmu s => "cmu_us_" ++ s ++ "_arctic.tar.bz2" | Libri b _ => b ++ ".tar.gz" end.
(** The directories that the request needs are there. *)
Definition there (d : disk) (q : request) : Prop :=
  exists l, data (d (archive q)) = Some l /\
    match q with
    | Libri _ (Some s) => s = "" \/ exists f rest, In f l /\ fst f = s ++ "/" ++ rest
    | _ => True
    end.
Definition same (d d' : disk) : Prop := forall k, d' k = d k.
(** The server cannot be reached. *)
Definition no_network (e : surroundings) : Prop := forall k n, net (e k) n = Refuse.
