(** Specification vocabulary for directional simulations: who points where, and how much of a
    ray is sent or heard. *)
From Coq Require Import String List ZArith Reals Bool.
From Verif Require Import Prelude DirModel DirSpec IsmModel IsmSpec.
Import ListNotations.
Local Open Scope R_scope.

(** Patterns of the sources and of the microphones named by a directivity argument. *)
Inductive patterns : dirspec -> string -> string -> Prop :=
| P_one p : patterns (DName p) p p
| P_two p q : patterns (DTuple [p; q]) p q.
(** Orientations in force: those of the call if there are any, else those of the object. *)
Definition own (e : entity) : option tensor := match e with EObj _ q => q | ETensor _ => None end.
Inductive in_force (srcs mics : entity) : ori_arg -> option tensor -> option tensor -> Prop :=
| F_own : in_force srcs mics ONone (own srcs) (own mics)
| F_one t : in_force srcs mics (OTensor t) (Some t) (Some t)
| F_two a b : in_force srcs mics (OTuple [a; b]) a b.
(** An angle in the plane, azimuth and elevation in space, or a vector. *)
Definition direction (dim : nat) (row : list R) : list R :=
  match dim, row with
  | 2%nat, [a] => [cos a; sin a]
  | 3%nat, [az; el] => [cos el * cos az; cos el * sin az; sin el]
  | _, _ => row
  end.
(** Where entity [i] points: tables have one row per entity or one row for all; in the plane a
    list of other than two numbers is a table of angles. *)
Definition facing (dim : nat) (o : tensor) (i : nat) : list R :=
  match shape o with
  | [] => direction dim (data o)
  | [n] => if ((dim =? 2) && negb (n =? 2))%nat
           then direction dim [nth (if (n =? 1)%nat then 0 else i)%nat (data o) 0]
           else direction dim (data o)
  | [n; d] => direction dim (block ((if (n =? 1)%nat then 0 else i) * d) d (data o))
  | _ => []
  end.
(** Gain of a pattern as a function of the cosine. *)
Inductive beam : string -> (R -> R) -> Prop :=
| B_first s name a : In (name, a) first_order -> spells s name -> beam s (fun x => a + (1 - a) * x)
| B_half s name : In name half_space -> spells s name -> beam s (fun x => if Rlt_dec 0 x then 1 else 0).
(** Gains of entity [i] as a function of the direction looked at. *)
Inductive looks (dim : nat) (p : string) (o : option tensor) (i : nat) : gains -> Prop :=
| L_omni : p = "omni"%string -> looks dim p o i unity
| L_beam t f : p <> "omni"%string -> o = Some t -> beam p f -> / 10 ^ 8 <= norm (facing dim t i) ->
    looks dim p o i (fun v => Some (f (cosine v (facing dim t i)))).
(** The direction from which a ray comes. *)
Definition backwards (g : gains) : gains := fun v => g (map Ropp v).
(** Shapes that say where [n] entities point: one angle, one vector, one azimuth and elevation,
    or a table with a row for each. *)
Inductive tells (n : nat) : nat -> list nat -> Prop :=
| T_angle : tells n 2 []
| T_angle1 : tells n 2 [1%nat]
| T_angles : n <> 2%nat -> tells n 2 [n]
| T_vector dim : tells n dim [dim]
| T_azel : tells n 3 [2%nat]
| T_angle_table : tells n 2 [n; 1%nat]
| T_table dim : tells n dim [n; dim]
| T_azel_table : tells n 3 [n; 2%nat].
(** A side that can be simulated. *)
Inductive steered (n dim : nat) (p : string) (o : option tensor) : Prop :=
| S_omni : p = "omni"%string -> steered n dim p o
| S_beam t f : o = Some t -> beam p f -> tells n dim (shape t) -> steered n dim p o.
