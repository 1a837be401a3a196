(** Model of the notes drawn on the layouts of a built scene: datasets/dynamic_cmu_arctic.py:355-372,
    668-673, 687, 706 and viz/utils.py:87-116.  Numbers are real (no infinities, no NaN, no negative
    zero); [str.strip] is that of ASCII text. *)
From Coq Require Import Ascii String List ZArith Reals Bool.
From Flocq Require Import Core.
From Verif Require Import Prelude SignalModel FloatModel BldModel LoopModel CliModel.
Import ListNotations.
Local Notation length := List.length.
Local Open Scope R_scope.

(** The hundredths of [f"{x:.2f}"]: the nearest, half to even, dynamic_cmu_arctic.py:363, 370. *)
Definition hundredths (x : R) : nat := Z.to_nat (ZnearestE (Rabs x * 100)).
(** [f"{x:.2f}"], dynamic_cmu_arctic.py:363, 370. *)
Definition fixed2 (x : R) : string :=
  ((if Rltb x 0 then "-" else "") ++ dec (hundredths x / 100) ++ "." ++ padded 2 (hundredths x mod 100))%string.
(** One entry of [moving_speed_items], dynamic_cmu_arctic.py:363. *)
Definition speed_item (i : nat) (v : R) : string := ("S" ++ dec i ++ "=" ++ fixed2 v ++ "m/s")%string.
(** [moving_speed_items] from number [i] on, dynamic_cmu_arctic.py:362-366. *)
Fixpoint speed_items (i : nat) (l : list R) : list string :=
  match l with
  | [] => []
  | v :: l => if Rltb 0 v then speed_item i v :: speed_items (S i) l else speed_items (S i) l
  end.
(** [moving_speed_text], dynamic_cmu_arctic.py:367. *)
Definition speed_text (l : list R) : string :=
  match speed_items 0 l with [] => "none"%string | items => String.concat ", " items end.
(** [_build_layout_annotation_lines], dynamic_cmu_arctic.py:355-372. *)
Definition annotation_lines (scene : string) (start stop : R) (speeds : list R) : list string :=
  [("scene:" ++ scene)%string; ("move:" ++ fixed2 start ++ "-" ++ fixed2 stop ++ " s")%string; ("speed:" ++ speed_text speeds)%string].
(** The notes of a scene, dynamic_cmu_arctic.py:501-502, 668-673. *)
Definition scene_lines (idx : nat) (m : motion) (l : list placed) : list string :=
  annotation_lines (scene_name idx) (m_dur m * m_start m) (m_dur m * m_end m) (map p_vel l).

(** The line feed, viz/utils.py:102. *)
Definition newline : string := String (ascii_of_nat 10) EmptyString.
(** The text [_add_axes_annotation] puts on the axes, viz/utils.py:87-116; [None] if it draws nothing. *)
Definition axes_annotation (lines : option (list string)) : option string :=
  match lines with
  | None => None
  | Some l =>
      match filter (fun s => negb (String.eqb s EmptyString)) (map strip l) with
      | [] => None
      | kept => Some (String.concat newline kept)
      end
  end.
