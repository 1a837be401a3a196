(** Specification vocabulary for C80 (layout of a built data set) and C81 (its audio files). *)
From Coq Require Import Ascii String List ZArith Reals Bool Permutation.
From Verif Require Import Prelude SignalModel SignalSpec DirModel IsmModel RoomModel DsModel DsSpec BldModel BldSpec LoopModel.
Import ListNotations.
Local Notation length := List.length.

(** ** Numbers in names *)
Fixpoint chars (s : string) : list ascii := match s with EmptyString => [] | String c s => c :: chars s end.
Definition digit (c : ascii) : Prop := (48 <= nat_of_ascii c <= 57)%nat.
(** The number written by decimal digits. *)
Definition value (s : string) : nat := fold_left (fun v c => v * 10 + (nat_of_ascii c - 48))%nat (chars s) 0%nat.
(** [s] writes [n] with [w] digits, or with as few as possible if [n] needs more. *)
Definition writes (w n : nat) (s : string) : Prop :=
  Forall digit (chars s) /\ value s = n /\ (w <= length (chars s))%nat /\
  ((w < length (chars s))%nat -> forall c l, chars s = c :: l -> nat_of_ascii c <> 48%nat).

(** ** The log of a run *)
(** The directory below the root in which something happens. *)
Definition place (h : happening) : string :=
  match h with Directory d => d | Written d _ _ => d | Drawn d _ => d | Filmed d _ => d end.
(** The files written, in order. *)
Definition files (t : list happening) : list (string * string) :=
  flat_map (fun h => match h with Written d f _ => [(d, f)] | _ => [] end) t.
(** The files of a finished scene with [n] sources, in the order in which they are written. *)
Definition scene_files (n : nat) : list string :=
  (map source_name (seq 0 n) ++ ["mixture.wav"%string; "metadata.json"%string; "source_info.json"%string])%list.
Definition prefix {A} (l l' : list A) : Prop := exists rest, l' = l ++ rest.
(** The calls of the generator keep the contract of [random.Random]. *)
Definition fair_calls (E : env) : Prop := forall k, fair (mkRng (e_sample E k) (e_shuffle E)).
(** The same call with another number of scenes. *)
Definition with_scenes (b : build_args) (n : Z) : build_args :=
  mkBA (ba_root b) (ba_cmu b) (ba_speakers b) n (ba_scene b) (ba_room_list b) (ba_center_list b) (ba_margin_list b) (ba_rir b) (ba_overwrite b).

(** ** What a scene is made of *)
Local Open Scope R_scope.
(** Positions as a table with one row of coordinates per point. *)
Definition points (l : list p3) : tensor := mkT [length l; 3%nat] (concat (map (fun p => [px p; py p; pz p]) l)).
(** The arguments of the scenes with the triplets as points. *)
Definition scene_of (b : build_args) (room center margin : p3) : scene_args :=
  let s := ba_scene b in
  mkSA (sa_n s) (sa_moving s) room center (sa_edge s) margin (sa_steps s) (sa_motion s) (sa_random_center s).
(** The draws for scene [i]: the generator has served the scenes before it. *)
Definition draws_for (E : env) (s : scene_args) (i : nat) : scene_draws :=
  fst (e_draw E s (Nat.iter i (fun g => snd (e_draw E s g)) (e_gen0 E))).
(** The filter gives numbers for numbers. *)
Definition keeps_numbers (X : externals) : Prop :=
  forall s row out, x_filt X s row = Ok out -> Forall (fun x => x <> None) row -> Forall (fun x => x <> None) out.
(** The numbers [h k s m l] are the responses (step, source, microphone, sample) for these positions,
    each step simulated on its own. *)
Definition responses (X : externals) (r : room) (order samples : Z) (paths : list (list p3)) (mics : list p3)
    (n L : nat) (h : nat -> nat -> nat -> nat -> R) : Prop :=
  forall k, (k < length paths)%nat -> exists T,
    simulate_rir X Cpu r (ETensor (points (nth k paths []))) (ETensor (points mics)) (Some order) None (Some samples) None None None ONone None = Ok T /\
    xshape T = [n; length mics; L] /\
    forall s m l, (s < n)%nat -> (m < length mics)%nat -> (l < L)%nat -> nth ((s * length mics + m) * L + l) (xdata T) None = Some (h k s m l).
(** Sample [j] at microphone [m] of a row of [N] samples heard through the responses [h], where [w]
    says at which sample each step starts. *)
Definition heard (N : nat) (row : list R) (w : list Z) (h : nat -> nat -> nat -> R) (m j : nat) : R :=
  tv_conv (zext N (fun i => nth i row 0)) (active_step w) (fun k => h k m) j.
