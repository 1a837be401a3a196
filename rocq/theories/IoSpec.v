(** Specification vocabulary for audio files, formats and backends; independent of the model
    of the code except for the type of actions. *)
From Coq Require Import Ascii String List ZArith Reals Bool.
From Verif Require Import Prelude DirSpec AccumModel IoModel.
Import ListNotations.
Local Open Scope R_scope.
Local Notation length := List.length.

(** [m] is the largest magnitude of the samples, none of which is NaN. *)
Definition loudest (l : list (option R)) (m : R) : Prop :=
  (forall x, In x l -> exists r, x = Some r /\ Rabs r <= m) /\
  (exists r, In (Some r) l /\ Rabs r = m).
(** A rounding as performed by float arithmetic: monotone, odd, idempotent, exact on 1. *)
Record rounding (fl : R -> R) : Prop := {
  fl_mono : forall x y, x <= y -> fl x <= fl y;
  fl_odd : forall x, fl (- x) = - fl x;
  fl_idem : forall x, fl (fl x) = fl x;
  fl_one : fl 1 = 1 }.

(** [e] is the extension of a file name: what follows the last dot, when there is something
    before and after that dot. *)
Fixpoint no_dot (s : string) : Prop :=
  match s with EmptyString => True | String c s' => c <> "."%char /\ no_dot s' end.
Definition extension (name e : string) : Prop :=
  exists stem, name = (stem ++ String "." e)%string /\ stem <> ""%string /\ e <> ""%string /\ no_dot e.
(** The format a caller asks for: the explicit one, else the extension. *)
Definition effective (name : string) (fmt : option string) (f : string) : Prop :=
  match fmt with
  | Some (String c s) => f = String c s
  | _ => extension name f
  end.
(** "wav" or "wave" in any case. *)
Definition is_wav (f : string) : Prop := spells f "wav" \/ spells f "wave".

(** Backends registered after a history (most recent action last): the built-in one and those
    added by hand. *)
Definition registered (h : list action) (b : string) : Prop :=
  b = "soundfile"%string \/ In (Add b) h.
(** [b] is the last backend selected with success, or the built-in one. *)
Definition current (h : list action) (b : string) : Prop :=
  (exists h1 h2, h = h1 ++ Select b :: h2 /\ registered h1 b /\
     forall h3 b' h4, h2 = h3 ++ Select b' :: h4 -> ~ registered (h1 ++ Select b :: h3) b') \/
  (b = "soundfile"%string /\
     forall h3 b' h4, h = h3 ++ Select b' :: h4 -> ~ registered h3 b').
(** The backend a call without or with explicit choice must reach. *)
Definition target (h : list action) (choice : option string) (b : string) : Prop :=
  match choice with
  | Some (String c s) => b = String c s /\ registered h b
  | _ => current h b
  end.
