(** Model of /repo/src/torchrir/io/metadata.py.

    Simplifications: floating-point tensors are exact ([None] = NaN where it can occur);
    positions and trajectories are real tensors with a dtype flag for the microphones
    ([mean] of an integer tensor raises); the [TypeError] for a trajectory that is not a
    tensor (metadata.py:156-157) is not represented; the file written by
    [save_metadata_json] is external. *)
From Coq Require Import Ascii String List ZArith Reals Bool.
From Verif Require Import Prelude FloatModel DirModel AccumModel RoomModel GeoModel.
Import ListNotations.
Local Open Scope R_scope.
Local Notation length := List.length.

(** Entries of tensors, io/metadata.py:209-220. *)
Inductive scalar := SBool (b : bool) | SInt (z : Z) | SFloat (x : xr).
(** Dictionary keys: strings, the other keys [json] can write, and any other hashable, io/metadata.py:209-220. *)
Inductive pykey := KStr (s : string) | KBasic (x : scalar) | KNone | KOther (id : nat).
(** Python values, by the tests of [_to_serializable], metadata.py:209-220; [POther] is any
    other object (set, dataclass, numpy array, ...). *)
Inductive pyval :=
| PNone | PScalar (x : scalar) | PStr (s : string)
| PTensor (sh : list nat) (l : list scalar) | PPath (s : string)
| PDict (l : list (pykey * pyval)) | PList (l : list pyval) | PTuple (l : list pyval)
| POther (id : nat).

(** [t.tolist()], metadata.py:213: a scalar for a 0-d tensor, else nested lists. *)
Fixpoint tolist (sh : list nat) (l : list scalar) : pyval :=
  match sh with
  | [] => match l with x :: _ => PScalar x | [] => PNone end
  | n :: sh' => PList (map (fun i => tolist sh' (block (i * prodn sh') (prodn sh') l)) (seq 0 n))
  end.
(** [_to_serializable], metadata.py:209-220. *)
Fixpoint to_serializable (v : pyval) : pyval :=
  match v with
  | PTensor sh l => tolist sh l
  | PPath s => PStr s
  | PDict l => PDict (map (fun p => (fst p, to_serializable (snd p))) l)
  | PList l => PList (map to_serializable l)
  | PTuple l => PList (map to_serializable l)
  | _ => v
  end.

(** A real tensor as a Python value, metadata.py:62, 98-126. *)
Definition pyt (t : tensor) : pyval := PTensor (shape t) (map (fun x => SFloat (Some x)) (data t)).
(** An optional tensor, metadata.py:100, 106, 110, 113-114, 119, 126. *)
Definition pyo (t : option tensor) : pyval := match t with Some t => pyt t | None => PNone end.
(** A Python float, metadata.py:58, 99, 101. *)
Definition pyf (x : R) : pyval := PScalar (SFloat (Some x)).

(** Arguments of [build_metadata], metadata.py:28-40. *)
Record md_args := mkMd {
  md_size : tensor; md_c : R; md_beta : option tensor; md_t60 : option R; md_fs : R;
  md_src : tensor; md_src_ori : option tensor;
  md_mic : tensor; md_mic_dtype : dtype; md_mic_ori : option tensor;
  md_rirs_shape : list nat;
  md_src_traj : option tensor; md_mic_traj : option tensor;
  md_timestamps : option tensor; md_signal_len : option Z;
  md_source_info : option pyval; md_extra : option (list (pykey * pyval)) }.

(** [_normalize_traj], metadata.py:151-166. *)
Definition md_normalize_traj (traj : option tensor) (pos : tensor) (dim : nat) : result tensor :=
  match traj with
  | None => match shape pos with
            | [n; d] => if (d =? dim)%nat then Ok (mkT [1%nat; n; d] (data pos)) else Err ValueError
            | _ => Err ValueError
            end
  | Some t => match shape t with
              | [s; d] => if (d =? dim)%nat then Ok (mkT [s; 1%nat; d] (data t)) else Err ValueError
              | [s; n; d] => if (d =? dim)%nat then Ok t else Err ValueError
              | _ => Err ValueError
              end
  end.
(** [t.expand(steps, -1, -1)] of a (1, n, d) tensor, metadata.py:72-75. *)
Definition md_expand (t : tensor) (steps : nat) : tensor :=
  match shape t with
  | [s; n; d] => if ((s =? 1) && (1 <? steps))%nat
                 then mkT [steps; n; d] (concat (repeat (data t) steps)) else t
  | _ => t
  end.
(** First extent, io/metadata.py:71-77. *)
Definition steps_of (t : tensor) : nat := hd 0%nat (shape t).
(** The two trajectories with the same number of steps, metadata.py:65-77. *)
Definition md_trajectories (a : md_args) : result (tensor * tensor * nat) :=
  let dim := numel (md_size a) in
  do s <- md_normalize_traj (md_src_traj a) (md_src a) dim;
  do m <- md_normalize_traj (md_mic_traj a) (md_mic a) dim;
  let steps := Nat.max (steps_of s) (steps_of m) in
  let s := md_expand s steps in
  let m := md_expand m steps in
  if negb (steps_of s =? steps_of m)%nat then Err ValueError else Ok (s, m, steps).

(** [torch.atan2] (zeros are unsigned: atan2(0, x) is pi for negative x), metadata.py:173, 179. *)
Definition atan2 (y x : R) : R :=
  if Rlt_dec 0 x then atan (y / x)
  else if Rlt_dec x 0 then (if Rle_dec 0 y then atan (y / x) + PI else atan (y / x) - PI)
  else if Rlt_dec 0 y then PI / 2 else if Rlt_dec y 0 then - (PI / 2) else 0.
(** Azimuth and elevation of one vector, metadata.py:170-179. *)
Definition azimuth_of (v : list R) : R := atan2 (nth 1 v 0) (nth 0 v 0).
(** io/metadata.py:174-179. *)
Definition elevation_of (v : list R) : R :=
  if (length v <? 3)%nat then 0
  else atan2 (nth 2 v 0) (sqrt (nth 0 v 0 ^ 2 + nth 1 v 0 ^ 2)).
(** Row [i, j] of a 3-D tensor, io/metadata.py:170-172. *)
Definition row (t : tensor) (i j : nat) : list R :=
  map (fun k => tget t [i; j; k]) (seq 0 (nth 2 (shape t) 0%nat)).
(** [_compute_doa], metadata.py:169-180: tensors of shape (T, n_src, n_mic). *)
Definition compute_doa (s m : tensor) : tensor * tensor :=
  let '(T, ns, nm) := (nth 0 (shape s) 0, nth 1 (shape s) 0, nth 1 (shape m) 0)%nat in
  let vec k := map2 Rminus (row s (k / (ns * nm)) (k / nm mod ns)) (row m (k / (ns * nm)) (k mod nm)) in
  let f g := mkT [T; ns; nm] (map (fun k => g (vec k)) (seq 0 (T * ns * nm))) in
  (f azimuth_of, f elevation_of).

(** [torch.linspace(0, b, n)] for n >= 2, metadata.py:92. *)
Definition linspace0 (b : R) (n : nat) : list R :=
  map (fun i => INR i * (b / (INR n - 1))) (seq 0 n).
(** Timestamps, metadata.py:87-92. *)
Definition md_timestamps_out (a : md_args) (steps : nat) : option tensor :=
  match md_timestamps a with
  | Some t => Some t
  | None => match md_signal_len a with
            | Some n => if (1 <? steps)%nat
                        then Some (mkT [steps] (linspace0 (Rmax 0 ((IZR n - 1) / md_fs a)) steps))
                        else None
            | None => None
            end
  end.

(** [geometry_name], metadata.py:186-191. *)
Definition geometry_name (n_mic : nat) : string :=
  if (n_mic =? 1)%nat then "single" else if (n_mic =? 2)%nat then "binaural" else "custom".
(** [pos.mean(dim=0)], metadata.py:192; NaN for an empty array. *)
Definition mean_rows (n d : nat) (t : tensor) : list scalar :=
  map (fun k => SFloat (if (n =? 0)%nat then None
                        else Some (rsum n (fun i => tget t [i; k]) / INR n))) (seq 0 d).
(** [dists[dists > 0].min()], metadata.py:193-198. *)
Definition spacing_of (n d : nat) (t : tensor) : option R :=
  if (n <? 2)%nat then None
  else
    let p i := map (fun k => tget t [i; k]) (seq 0 d) in
    let ds := flat_map (fun i => map (fun j => vnorm (map2 Rminus (p i) (p j))) (seq 0 n)) (seq 0 n) in
    match filter (fun x => Rltb 0 x) ds with
    | [] => None
    | x :: l => Some (fold_left Rmin l x)
    end.
(** [_array_attributes] as a dictionary, metadata.py:116-123, 183-206.  The shape of
    [positions] is (n_mic, dim); integer positions have no mean. *)
Definition array_attributes (a : md_args) : result pyval :=
  match md_mic_dtype a with
  | Int64 => Err RuntimeError
  | Float =>
      match shape (md_mic a) with
      | [n; d] =>
          Ok (PDict [(KStr "geometry", PStr (geometry_name n));
                     (KStr "positions", to_serializable (pyt (md_mic a)));
                     (KStr "orientation", to_serializable (pyo (md_mic_ori a)));
                     (KStr "center", to_serializable (PTensor [d] (mean_rows n d (md_mic a))));
                     (KStr "normal", to_serializable PNone);
                     (KStr "spacing", match spacing_of n d (md_mic a) with Some x => pyf x | None => PNone end)])
      | _ => Err IndexError
      end
  end%string.

(** [build_metadata], metadata.py:28-135. *)
Definition build_metadata (a : md_args) : result pyval :=
  match rev (md_rirs_shape a) with
  | [] => Err IndexError                       (* rirs.shape[-1] *)
  | nsample :: _ =>
      let fs := md_fs a in
      if Reqb fs 0 then Err RuntimeError       (* never: Room requires fs > 0 *)
      else
        do tr <- md_trajectories a;
        let '(s, m, steps) := tr in
        let '(az, el) := compute_doa s m in
        do arr <- array_attributes a;
        Ok (PDict
         ([(KStr "room", PDict [(KStr "size", to_serializable (pyt (md_size a)));
                                (KStr "c", pyf (md_c a));
                                (KStr "beta", to_serializable (pyo (md_beta a)));
                                (KStr "t60", match md_t60 a with Some x => pyf x | None => PNone end);
                                (KStr "fs", pyf fs)]);
           (KStr "sources", PDict [(KStr "positions", to_serializable (pyt (md_src a)));
                                   (KStr "orientation", to_serializable (pyo (md_src_ori a)))]);
           (KStr "mics", PDict [(KStr "positions", to_serializable (pyt (md_mic a)));
                                (KStr "orientation", to_serializable (pyo (md_mic_ori a)))]);
           (KStr "trajectories", PDict [(KStr "sources", to_serializable (pyo (if (1 <? steps)%nat then Some s else None)));
                                        (KStr "mics", to_serializable (pyo (if (1 <? steps)%nat then Some m else None)))]);
           (KStr "array", arr);
           (KStr "time_axis", PDict [(KStr "fs", pyf fs);
                                     (KStr "nsample", PScalar (SInt (Z.of_nat nsample)));
                                     (KStr "t", to_serializable (pyt (mkT [nsample] (map (fun i => INR i / fs) (seq 0 nsample)))))]);
           (KStr "doa", PDict [(KStr "frame", PStr "world"); (KStr "unit", PStr "radians");
                               (KStr "azimuth", to_serializable (pyt az));
                               (KStr "elevation", to_serializable (pyt el))]);
           (KStr "timestamps", to_serializable (pyo (md_timestamps_out a steps)));
           (KStr "rirs_shape", PList (map (fun n => PScalar (SInt (Z.of_nat n))) (md_rirs_shape a)));
           (KStr "dynamic", PScalar (SBool (1 <? steps)%nat))]
          ++ match md_source_info a with Some v => [(KStr "source_info", to_serializable v)] | None => [] end
          ++ match md_extra a with Some (p :: l) => [(KStr "extra", to_serializable (PDict (p :: l)))] | _ => [] end))
  end%string.
