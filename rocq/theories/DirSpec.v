(** Specification vocabulary for directivities: pattern families, spelling, cosines and the
    physical path of a reflected ray.  Independent of the model of the code. *)
From Coq Require Import String Ascii List ZArith Reals Bool.
From Verif Require Import Prelude.
Import ListNotations.
Local Open Scope R_scope.

(** [spells s name]: [s] reads [name] when upper case letters are read as lower case. *)
Definition reads (c d : ascii) : Prop :=
  c = d \/ ((65 <= nat_of_ascii c <= 90)%nat /\ nat_of_ascii d = (nat_of_ascii c + 32)%nat).
Fixpoint spells (s name : string) : Prop :=
  match s, name with
  | EmptyString, EmptyString => True
  | String c s', String d n' => reads c d /\ spells s' n'
  | _, _ => False
  end.

(** First-order patterns [a + (1 - a) cos]: documented names with their [a]. *)
Definition first_order : list (string * R) :=
  [("omni", 1); ("omnidirectional", 1); ("subcardioid", 3/4); ("subcard", 3/4);
   ("cardioid", 1/2); ("card", 1/2); ("hypercardioid", 1/4); ("hypcard", 1/4);
   ("bidir", 0); ("bidirectional", 0); ("figure8", 0); ("figure-8", 0)]%string.
(** Names of the half-space pattern. *)
Definition half_space : list string := ["homni"; "halfomni"; "half-omni"]%string.

(** Inner product, norm and cosine of the angle between two vectors. *)
Fixpoint dot (a b : list R) : R :=
  match a, b with x :: a', y :: b' => x * y + dot a' b' | _, _ => 0 end.
Definition norm (a : list R) : R := sqrt (dot a a).
Definition cosine (a b : list R) : R := dot a b / (norm a * norm b).

(** Coordinate in the room of a point of the unfolded space: the room is unfolded by
    repeated mirroring, so even cells are translated copies and odd cells mirrored ones. *)
Definition folded (len y : R) : R :=
  let q := floorZ (y / len) in
  if Z.even q then y - IZR q * len else len - (y - IZR q * len).

(** Direction in which the physical ray of image [n] leaves the source, given the unfolded
    direction: axes reflected an odd number of times are reversed. *)
Fixpoint departure (n : list Z) (v : list R) : list R :=
  match n, v with
  | k :: n', x :: v' => (if Z.even k then x else - x) :: departure n' v'
  | _, _ => []
  end.
