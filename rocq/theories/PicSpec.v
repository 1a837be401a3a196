(** Specification vocabulary for C85: the pictures and films of a built data set. *)
From Coq Require Import Ascii String List ZArith Reals Bool.
From Verif Require Import Prelude BldModel LoopModel LoopSpec.
From Verif Require ScnModel.
Import ListNotations.
Local Notation length := List.length.

(** The picture calls and the film calls made for directory [dir], with what they left behind. *)
Definition pictures (dir : string) (t : list happening) : list (list ScnModel.ev) :=
  flat_map (fun h => match h with Drawn d l => if String.eqb d dir then [l] else [] | _ => [] end) t.
Definition films (dir : string) (t : list happening) : list (list ScnModel.aev) :=
  flat_map (fun h => match h with Filmed d l => if String.eqb d dir then [l] else [] | _ => [] end) t.
(** The directories and files of the data set, without pictures and films. *)
Definition data_only (t : list happening) : list happening :=
  filter (fun h => match h with Drawn _ _ | Filmed _ _ => false | _ => true end) t.
(** The first [v] coordinates of a point. *)
Definition seen (v : nat) (q : p3) : list R := firstn v [px q; py q; pz q].
(** A table holds these points, a track these paths (step by step). *)
Definition holds_points (v : nat) (l : list p3) (p : ScnModel.postab) : Prop :=
  ScnModel.p_n p = length l /\ ScnModel.p_dim p = v /\ forall i q, nth_error l i = Some q -> ScnModel.p_row p i = seen v q.
Definition holds_paths (v n : nat) (l : list (list p3)) (t : ScnModel.trajectory) : Prop :=
  ScnModel.t_steps t = length l /\ ScnModel.t_n t = n /\ ScnModel.t_dim t = v /\
  forall s row i q, nth_error l s = Some row -> nth_error row i = Some q -> ScnModel.t_at t s i = seen v q.
(** The same world with other colours, another disk for pictures and another film maker. *)
Definition repaint (E : env) (pal : list string) (disk : string -> string -> option exn) (clip : string -> ScnModel.request -> option exn) : env :=
  mkEnv (e_ext E) (e_gen E) (e_draw E) (e_gen0 E) (e_sample E) (e_shuffle E) (e_corpus E) (e_save E) pal disk clip (e_undefined E).
(** Options that ask for the same data, whatever pictures and films they ask for. *)
Definition same_data (o o' : options) : Prop := o_t60 o' = o_t60 o /\ o_c o' = o_c o /\ o_order o' = o_order o.
