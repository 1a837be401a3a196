(** Model of /repo/src/torchrir/models/{room,scene}.py, of [as_tensor] (util/tensor.py) and
    of /repo/src/torchrir/sim/simulators.py.

    Simplifications: argument types are fixed (the [isinstance] TypeErrors of
    scene.py:150-155 and simulators.py:113 are not represented); devices are not modelled;
    the floating dtypes are one exact dtype [Float]; boolean tensors, strides and in-place
    mutation of stored tensors are not modelled. *)
From Coq Require Import String List ZArith Reals Bool.
From Verif Require Import Prelude SignalModel FloatModel DirModel ImageModel AcousticModel AccumModel IsmModel.
Import ListNotations.
Local Open Scope R_scope.

(** ** Numbers with IEEE special values *)

(** A Python float or a tensor entry as seen by validation code, models/room.py:22-57. *)
Inductive num := Fin (r : R) | PInf | NInf | NaN.
(** [torch.isfinite], models/room.py:33, 53, 178, 220. *)
Definition num_finite (x : num) : bool := match x with Fin _ => true | _ => false end.
(** [x <= 0] with IEEE semantics (False for NaN), models/room.py:35, 38, 40, 44. *)
Definition num_le0 (x : num) : bool :=
  match x with Fin r => Rleb r 0 | NInf => true | PInf | NaN => false end.
(** [x < 0], models/room.py:55. *)
Definition num_lt0 (x : num) : bool :=
  match x with Fin r => Rltb r 0 | NInf => true | PInf | NaN => false end.
(** [x > 1], models/room.py:55. *)
Definition num_gt1 (x : num) : bool :=
  match x with Fin r => Rltb 1 r | PInf => true | NInf | NaN => false end.

(** ** Tensors with a dtype *)

(** models/room.py:22-57. *)
Inductive dtype := Float | Int64.
(** models/room.py:22-57. *)
Record ntensor := mkN { nshape : list nat; ndtype : dtype; ndata : list num }.
(** [t.numel()], used at util/tensor.py:34 and models/room.py:48. *)
Definition nnumel (t : ntensor) : nat := prodn (nshape t).
(** [t.ndim], used at util/tensor.py:34 and models/room.py:182. *)
Definition nndim (t : ntensor) : nat := List.length (nshape t).
(** Buffers have the size of the shape; integer tensors hold integers, models/room.py:22-57. *)
Definition nwf (t : ntensor) : Prop :=
  List.length (ndata t) = nnumel t /\
  (ndtype t = Int64 -> Forall (fun x => exists z, x = Fin (IZR z)) (ndata t)).

(** Conversion of one entry by [Tensor.to(dtype)], util/tensor.py:27: towards zero for
    int64; the integer produced for NaN and infinities is unspecified ([junk]). *)
Definition cast_num (junk : num -> Z) (d : dtype) (x : num) : num :=
  match d, x with
  | Float, _ => x
  | Int64, Fin r => Fin (IZR (truncZ r))
  | Int64, _ => Fin (IZR (junk x))
  end.
(** util/tensor.py:13-29. *)
Definition cast (junk : num -> Z) (d : dtype) (t : ntensor) : ntensor :=
  mkN (nshape t) d (match ndtype t, d with
                    | Int64, Int64 => ndata t
                    | _, _ => map (cast_num junk d) (ndata t)
                    end).

(** Python scalars and nested sequences of scalars (with their rectangular shape), models/room.py:22-57. *)
Inductive pynum := PyInt (z : Z) | PyFloat (x : num).
(** models/room.py:22-57. *)
Inductive value := VTensor (t : ntensor) | VNest (sh : list nat) (l : list pynum).

(** Dtype inferred by [torch.as_tensor] for a sequence, util/tensor.py:29: integers give
    int64, anything with a float (and the empty sequence) the default float dtype. *)
Definition infer_dtype (l : list pynum) : dtype :=
  match l with
  | [] => Float
  | _ => if forallb (fun p => match p with PyInt _ => true | PyFloat _ => false end) l
         then Int64 else Float
  end.
(** Conversion of one Python scalar by [torch.as_tensor], util/tensor.py:29. *)
Definition convert (d : dtype) (p : pynum) : result num :=
  match p, d with
  | PyInt z, _ => Ok (Fin (IZR z))
  | PyFloat x, Float => Ok x
  | PyFloat (Fin r), Int64 => Ok (Fin (IZR (truncZ r)))
  | PyFloat NaN, Int64 => Err ValueError
  | PyFloat _, Int64 => Err OverflowError
  end.
(** [as_tensor(value, dtype=dt)], util/tensor.py:13-29. *)
Definition as_tensor (junk : num -> Z) (v : value) (dt : option dtype) : result ntensor :=
  match v with
  | VTensor t => Ok (match dt with Some d => cast junk d t | None => t end)
  | VNest sh l =>
      let d := match dt with Some d => d | None => infer_dtype l end in
      do xs <- mapM (convert d) l; Ok (mkN sh d xs)
  end.

(** [ensure_dim], util/tensor.py:32-36. *)
Definition nensure_dim (t : ntensor) : result ntensor :=
  if negb (nndim t =? 1)%nat || negb ((nnumel t =? 2) || (nnumel t =? 3))%nat
  then Err ValueError else Ok t.

(** ** Room *)

(** Stored fields of [Room], models/room.py:24-28. *)
Record nroom := mkNRoom {
  nr_size : ntensor; nr_fs : num; nr_c : num; nr_beta : option ntensor; nr_t60 : option num }.

(** Check and conversion of beta in [Room.__post_init__], models/room.py:47-57. *)
Definition check_beta (junk : num -> Z) (size : ntensor) (beta : value) : result ntensor :=
  do b <- as_tensor junk beta (Some (ndtype size));
  let b := mkN [nnumel b] (ndtype b) (ndata b) in
  let expected := if (nnumel size =? 2)%nat then 4%nat else 6%nat in
  if negb (nnumel b =? expected)%nat then Err ValueError
  else if negb (forallb num_finite (ndata b)) then Err ValueError
  else if existsb num_lt0 (ndata b) || existsb num_gt1 (ndata b) then Err ValueError
  else Ok b.

(** [Room.__post_init__], models/room.py:30-57. *)
Definition make_room (junk : num -> Z) (size : ntensor) (fs c : num) (beta : option value)
    (t60 : option num) : result nroom :=
  do size <- nensure_dim size;
  if negb (forallb num_finite (ndata size)) then Err ValueError
  else if existsb num_le0 (ndata size) then Err ValueError
  else if num_le0 fs then Err ValueError
  else if num_le0 c then Err ValueError
  else if (match beta, t60 with Some _, Some _ => true | _, _ => false end) then Err ValueError
  else if (match t60 with Some t => num_le0 t | None => false end) then Err ValueError
  else
    do b <- (match beta with
             | None => Ok None
             | Some v => do b <- check_beta junk size v; Ok (Some b)
             end);
    Ok (mkNRoom size fs c b t60).

(** [Room.shoebox], models/room.py:63-88. *)
Definition shoebox (junk : num -> Z) (size : value) (fs c : num) (beta : option value)
    (t60 : option num) (dt : option dtype) : result nroom :=
  do size <- as_tensor junk size dt;
  do size <- nensure_dim size;
  do b <- (match beta with
           | None => Ok None
           | Some v => do b <- as_tensor junk v dt; Ok (Some (VTensor b))
           end);
  make_room junk size fs c b t60.

(** Keyword arguments of [Room.replace], models/room.py:59-61; [None] keeps the field. *)
Record room_update := mkUpd {
  u_size : option ntensor; u_fs : option num; u_c : option num;
  u_beta : option (option value); u_t60 : option (option num) }.
(** [x] unless the keyword is given, models/room.py:59-61. *)
Definition keep {A} (o : option A) (x : A) : A := match o with Some a => a | None => x end.
(** [Room.replace], models/room.py:59-61 ([dataclasses.replace] runs [__post_init__]). *)
Definition room_replace (junk : num -> Z) (r : nroom) (u : room_update) : result nroom :=
  make_room junk (keep (u_size u) (nr_size r)) (keep (u_fs u) (nr_fs r)) (keep (u_c u) (nr_c r))
    (keep (u_beta u) (option_map VTensor (nr_beta r))) (keep (u_t60 u) (nr_t60 r)).

(** ** Source and MicrophoneArray (the two classes have the same code) *)

(** models/room.py:90-109, 133-152. *)
Record nentity := mkEnt { ne_pos : ntensor; ne_ori : option ntensor }.

(** [_normalize_entity_positions], models/room.py:214-222. *)
Definition normalize_positions (junk : num -> Z) (v : value) : result ntensor :=
  do pos <- as_tensor junk v None;
  let pos := if (nndim pos =? 1)%nat then mkN (1%nat :: nshape pos) (ndtype pos) (ndata pos) else pos in
  let cols := nth 1 (nshape pos) 0%nat in
  if negb (nndim pos =? 2)%nat || negb ((cols =? 2) || (cols =? 3))%nat then Err ValueError
  else if negb (forallb num_finite (ndata pos)) then Err ValueError
  else Ok pos.

(** [_validate_orientation], models/room.py:175-211. *)
Definition validate_orientation (o : ntensor) (n dim : nat) : result unit :=
  let rows := nth 0 (nshape o) 0%nat in
  let cols := nth 1 (nshape o) 0%nat in
  if negb (forallb num_finite (ndata o)) then Err ValueError
  else if (dim =? 2)%nat then
    if (nndim o =? 0)%nat then Ok tt
    else if (nndim o =? 1)%nat then
      if ((nnumel o =? 1) || (nnumel o =? 2) || (nnumel o =? n))%nat then Ok tt else Err ValueError
    else if (nndim o =? 2)%nat then
      if negb (rows =? n)%nat || negb ((cols =? 1) || (cols =? 2))%nat then Err ValueError else Ok tt
    else Err ValueError
  else if (dim =? 3)%nat then
    if (nndim o =? 1)%nat then
      if ((nnumel o =? 2) || (nnumel o =? 3))%nat then Ok tt else Err ValueError
    else if (nndim o =? 2)%nat then
      if negb (rows =? n)%nat || negb ((cols =? 2) || (cols =? 3))%nat then Err ValueError else Ok tt
    else Err ValueError
  else Ok tt.

(** [_normalize_entity_orientation], models/room.py:225-236. *)
Definition normalize_orientation_arg (junk : num -> Z) (o : option value) (n dim : nat)
  : result (option ntensor) :=
  match o with
  | None => Ok None
  | Some v => do t <- as_tensor junk v None; do _ <- validate_orientation t n dim; Ok (Some t)
  end.

(** [Source.__post_init__], [MicrophoneArray.__post_init__], models/room.py:102-109,
    145-152. *)
Definition make_entity (junk : num -> Z) (pos : value) (ori : option value) : result nentity :=
  do pos <- normalize_positions junk pos;
  do o <- normalize_orientation_arg junk ori (nth 0 (nshape pos) 0%nat) (nth 1 (nshape pos) 0%nat);
  Ok (mkEnt pos o).

(** [from_positions], models/room.py:115-129, 158-172. *)
Definition from_positions (junk : num -> Z) (pos : value) (ori : option value) (dt : option dtype)
  : result nentity :=
  do p <- as_tensor junk pos dt;
  do o <- (match ori with
           | None => Ok None
           | Some v => do o <- as_tensor junk v dt; Ok (Some (VTensor o))
           end);
  make_entity junk (VTensor p) o.

(** [replace], models/room.py:111-113, 154-156. *)
Definition entity_replace (junk : num -> Z) (e : nentity) (pos : option value)
    (ori : option (option value)) : result nentity :=
  make_entity junk (keep pos (VTensor (ne_pos e))) (keep ori (option_map VTensor (ne_ori e))).

(** ** Scenes *)

(** [_validate_scene_entities], models/scene.py:149-161. *)
Definition validate_entities (r : nroom) (s m : nentity) : result unit :=
  let dim := nnumel (nr_size r) in
  if negb (nth 1 (nshape (ne_pos s)) 0 =? dim)%nat then Err ValueError
  else if negb (nth 1 (nshape (ne_pos m)) 0 =? dim)%nat then Err ValueError
  else Ok tt.

(** [_validate_traj], models/scene.py:164-184; the result is the number of steps. *)
Definition validate_traj (traj : value) (count dim : nat) : result nat :=
  match traj with
  | VNest _ _ => Err TypeError
  | VTensor t =>
      if negb (forallb num_finite (ndata t)) then Err ValueError
      else if (nndim t =? 2)%nat then
        if negb (count =? 1)%nat then Err ValueError
        else if negb (nth 1 (nshape t) 0 =? dim)%nat then Err ValueError
        else Ok (nth 0 (nshape t) 0%nat)
      else if (nndim t =? 3)%nat then
        if negb (nth 1 (nshape t) 0 =? count)%nat || negb (nth 2 (nshape t) 0 =? dim)%nat
        then Err ValueError
        else Ok (nth 0 (nshape t) 0%nat)
      else Err ValueError
  end.

(** Fields of [StaticScene] and [DynamicScene], models/scene.py:26-28, 50-54. *)
Inductive scene_kind :=
| StaticScene (r : nroom) (s m : nentity)
| DynamicScene (r : nroom) (s m : nentity) (src_traj mic_traj : ntensor).

(** Number of entities, models/scene.py:72-73. *)
Definition ne_count (e : nentity) : nat := nth 0 (nshape (ne_pos e)) 0%nat.

(** Common part of [DynamicScene._validate_internal] and [Scene._validate_internal],
    models/scene.py:71-77, 115-121. *)
Definition validate_trajs (r : nroom) (s m : nentity) (st mt : value) : result unit :=
  do t1 <- validate_traj st (ne_count s) (nnumel (nr_size r));
  do t2 <- validate_traj mt (ne_count m) (nnumel (nr_size r));
  if negb (t1 =? t2)%nat then Err ValueError else Ok tt.

(** [validate], models/scene.py:36-37, 66-77. *)
Definition scene_validate (sc : scene_kind) : result unit :=
  match sc with
  | StaticScene r s m => validate_entities r s m
  | DynamicScene r s m st mt =>
      do _ <- validate_entities r s m; validate_trajs r s m (VTensor st) (VTensor mt)
  end.
(** [StaticScene.__post_init__], models/scene.py:30-31. *)
Definition make_static (r : nroom) (s m : nentity) : result scene_kind :=
  do _ <- scene_validate (StaticScene r s m); Ok (StaticScene r s m).
(** [DynamicScene.__post_init__], models/scene.py:56-61. *)
Definition make_dynamic (junk : num -> Z) (r : nroom) (s m : nentity) (st mt : value)
  : result scene_kind :=
  do st <- as_tensor junk st None;
  do mt <- as_tensor junk mt None;
  let sc := DynamicScene r s m st mt in
  do _ <- scene_validate sc; Ok sc.

(** Fields of the deprecated [Scene], models/scene.py:88-92. *)
Record old_scene := mkOld {
  os_room : nroom; os_src : nentity; os_mic : nentity;
  os_src_traj : option value; os_mic_traj : option value }.
(** [Scene._validate_internal], models/scene.py:103-121. *)
Definition old_validate (o : old_scene) : result unit :=
  do _ <- validate_entities (os_room o) (os_src o) (os_mic o);
  match os_src_traj o, os_mic_traj o with
  | Some st, Some mt => validate_trajs (os_room o) (os_src o) (os_mic o) st mt
  | None, None => Ok tt
  | _, _ => Err ValueError
  end.
(** [Scene.__post_init__], models/scene.py:94-101. *)
Definition make_old (r : nroom) (s m : nentity) (st mt : option value) : result old_scene :=
  let o := mkOld r s m st mt in do _ <- old_validate o; Ok o.
(** [Scene.is_dynamic], models/scene.py:123-124. *)
Definition old_is_dynamic (o : old_scene) : bool :=
  match os_src_traj o, os_mic_traj o with Some _, Some _ => true | _, _ => false end.
(** [to_static_scene], models/scene.py:129-132. *)
Definition to_static_scene (o : old_scene) : result scene_kind :=
  if old_is_dynamic o then Err ValueError else make_static (os_room o) (os_src o) (os_mic o).
(** [to_dynamic_scene], models/scene.py:134-143. *)
Definition to_dynamic_scene (junk : num -> Z) (o : old_scene) : result scene_kind :=
  match os_src_traj o, os_mic_traj o with
  | Some st, Some mt => make_dynamic junk (os_room o) (os_src o) (os_mic o) st mt
  | _, _ => Err ValueError
  end.

(** ** sim/simulators.py *)

(** Fields of [ISMSimulator], simulators.py:35-41 (finite tmax; the device is the argument
    [dev] below). *)
Record simulator := mkSim {
  s_order : Z; s_tmax : option R; s_nsample : option Z; s_dir : option dirspec;
  s_nb : option (list Z); s_dtype : option dtype }.
(** [ISMSimulator.__post_init__], simulators.py:43-51. *)
Definition make_simulator (s : simulator) : result simulator :=
  if (s_order s <? 0)%Z then Err ValueError
  else if (match s_tmax s, s_nsample s with None, None => true | _, _ => false end) then Err ValueError
  else if opt_test (s_tmax s) (fun t => Rleb t 0) then Err ValueError
  else if opt_test (s_nsample s) (fun n => n <=? 0)%Z then Err ValueError
  else Ok s.

(** Scene argument of [simulate], models/scene.py:146. *)
Inductive scene_like := New (sc : scene_kind) | Old (o : old_scene).
(** [_normalize_scene], simulators.py:100-113. *)
Definition normalize_scene (junk : num -> Z) (s : scene_like) : result scene_kind :=
  match s with
  | New sc => Ok sc
  | Old o => if old_is_dynamic o then to_dynamic_scene junk o else to_static_scene o
  end.

(** [_ensure_no_conflict], simulators.py:116-128. *)
Definition conflict {A} (eqb : A -> A -> bool) (a b : option A) : bool :=
  match a, b with Some x, Some y => negb (eqb x y) | _, _ => false end.

(** Entry of a checked tensor, sim/ism/prepare.py:44-52, 87-104. *)
Definition num_val (x : num) : R := match x with Fin r => r | _ => 0 end.
(** Float view of a checked tensor ([as_tensor(x, dtype=dtype)] with a float dtype,
    sim/ism/prepare.py:44-52, 83-104, sim/ism/helpers.py:49). *)
Definition plain (t : ntensor) : tensor := mkT (nshape t) (map num_val (ndata t)).
(** The room as seen by sim/ism; [None] when fs, c or t60 is not finite (then the
    simulation is outside the model). *)
Definition plain_room (r : nroom) : option room :=
  match nr_fs r, nr_c r, nr_t60 r with
  | Fin fs, Fin c, None =>
      Some (mkRoom (plain (nr_size r)) fs c (option_map (fun b => data (plain b)) (nr_beta r)) None)
  | Fin fs, Fin c, Some (Fin t) =>
      Some (mkRoom (plain (nr_size r)) fs c (option_map (fun b => data (plain b)) (nr_beta r)) (Some t))
  | _, _, _ => None
  end.
(** sim/ism/prepare.py:44-52, 87-104. *)
Definition plain_entity (e : nentity) : entity := EObj (plain (ne_pos e)) (option_map plain (ne_ori e)).

(** [ISMSimulator.simulate], simulators.py:53-97.  The working dtype is the simulator's or
    that of the source positions (util/device.py:78-104); with an integer dtype
    [torch.linalg.norm] raises RuntimeError (sim/ism/contributions.py:34) unless an earlier
    check fails, whose class is then not modelled.  Rooms without finite fs, c, t60 are
    not modelled (NotImplementedError marks them). *)
Definition ism_simulate (X : externals) (junk : num -> Z) (dev : device_type) (s : simulator)
    (scene : scene_like) (cfg : option config) : result xtensor :=
  do sc <- normalize_scene junk scene;
  do _ <- scene_validate sc;
  do cfg <- (match cfg with Some c => Ok c | None => default_config end);
  if conflict Z.eqb (Some (s_order s)) (cfg_max_order cfg) then Err ValueError
  else if conflict Reqb (s_tmax s) (cfg_tmax cfg) then Err ValueError
  else
    let run := fun (r : nroom) (d : dtype) (k : room -> result xtensor) =>
      match keep (s_dtype s) d with
      | Int64 => Err RuntimeError
      | Float => match plain_room r with Some r => k r | None => Err NotImplementedError end
      end in
    match sc with
    | DynamicScene r _ _ st mt =>
        run r (ndtype st) (fun r =>
          simulate_dynamic_rir X dev r (plain st) (plain mt) (Some (s_order s)) (s_nb s)
            (s_nsample s) (s_tmax s) (s_dir s) ONone (Some cfg))
    | StaticScene r src mic =>
        run r (ndtype (ne_pos src)) (fun r =>
          simulate_rir X dev r (plain_entity src) (plain_entity mic) (Some (s_order s)) (s_nb s)
            (s_nsample s) (s_tmax s) None (s_dir s) ONone (Some cfg))
    end.
