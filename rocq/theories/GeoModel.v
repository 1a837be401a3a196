(** Model of /repo/src/torchrir/geometry/{arrays,sampling,trajectories}.py.

    Points are lists of reals.  Simplifications: centers, directions and normals are 1-D with
    finite entries (the conversion of sequences by [as_tensor] is in RoomModel.v; here [vec]
    is its result, with its dtype); floating-point tensor arithmetic is exact; devices are not
    modelled.  Python floats and torch.float32 are rounded (Flocq) in the random samplers,
    where rounding decides whether the margins are met. *)
From Coq Require Import String List ZArith Reals Bool.
From Verif Require Import Prelude FloatModel DirModel RoomModel.
Import ListNotations.
Local Open Scope R_scope.
Local Notation length := List.length.

(** ** arrays.py *)

(** A 1-D tensor with its dtype, result of [as_tensor(center, ...)], arrays.py:22, 46, 85,
    142, 162, 260. *)
Record vec := mkV { v_dtype : dtype; v_data : list R }.
(** Number stored when a float is written into a tensor of that dtype, arrays.py:25, 56,
    99, 165, 203, 263, 333. *)
Definition to_dtype (d : dtype) (x : R) : R :=
  match d with Float => x | Int64 => IZR (truncZ x) end.

(** [center + point], arrays.py:26-27, 67, 94, 128, 148, 496. *)
Definition shift (c p : list R) : list R := map2 Rplus c p.
(** [radius * point], arrays.py:94, 128, 148. *)
Definition scale (a : R) (p : list R) : list R := map (Rmult a) p.

(** [binaural_array], arrays.py:14-28. *)
Definition binaural_array (center : vec) (offset : R) : result (list (list R)) :=
  match v_data center with
  | [] => Err IndexError                       (* offset_vec[0] *)
  | c0 :: rest =>
      let o := to_dtype (v_dtype center) offset in
      Ok [map2 Rminus (c0 :: rest) (o :: repeat 0 (length rest));
          map2 Rplus (c0 :: rest) (o :: repeat 0 (length rest))]
  end.

(** [v / torch.linalg.norm(v)], arrays.py:61, 414, 419, 421: [None] when every entry is
    0/0 = NaN. *)
Definition unit_vec (v : list R) : option (list R) :=
  if Req_EM_T (vnorm v) 0 then None else Some (map (fun x => x / vnorm v) v).

(** Unit vector of an axis, arrays.py:51-54. *)
Definition axis_vec (dim axis : nat) : list R :=
  map (fun i => if (i =? axis)%nat then 1 else 0) (seq 0 dim).

(** [linear_array], arrays.py:31-67; [Ok None] is an array whose entries are all NaN
    (zero direction).  [torch.linalg.norm] of an integer tensor raises RuntimeError. *)
Definition linear_array (center : vec) (num : Z) (spacing : R) (axis : Z) (direction : option (list R))
  : result (option (list (list R))) :=
  if (num <=? 0)%Z then Err ValueError
  else if Rleb spacing 0 then Err ValueError
  else
    let dim := length (v_data center) in
    do dir <- (match direction with
               | None => if ((axis <? 0) || (axis >=? Z.of_nat dim))%Z then Err ValueError
                         else Ok (Some (axis_vec dim (Z.to_nat axis)))
               | Some v => if negb (length v =? dim)%nat then Err ValueError
                           else match v_dtype center with
                                | Int64 => Err RuntimeError
                                | Float => Ok (unit_vec v)
                                end
               end);
    Ok (option_map (fun u =>
          map (fun i => shift (v_data center) (scale ((INR i - (IZR num - 1) / 2) * spacing) u))
              (seq 0 (Z.to_nat num))) dir).

(** [torch.linspace(0, 2 pi, num + 1)[:-1]], arrays.py:88-90.  For int64 the end point and
    the results are truncated (ATen linspace). *)
Definition circle_angles (d : dtype) (num : nat) : list R :=
  map (fun i => match d with
                | Float => INR i * (2 * PI / INR num)
                | Int64 => IZR (truncZ (INR i * (IZR (truncZ (2 * PI)) / INR num)))
                end) (seq 0 num).

(** [torch.cross] of 3-D vectors, arrays.py:418, 420. *)
Definition cross (a b : list R) : list R :=
  match a, b with
  | [a1; a2; a3], [b1; b2; b3] => [a2 * b3 - a3 * b2; a3 * b1 - a1 * b3; a1 * b2 - a2 * b1]
  | _, _ => []
  end.
(** [torch.allclose(a, b)] with the default rtol = 1e-5, atol = 1e-8, arrays.py:416. *)
Definition allclose (a b : list R) : bool :=
  forallb (fun p => Rleb (Rabs (fst p - snd p)) (/ 10 ^ 8 + / 10 ^ 5 * Rabs (snd p))) (combine a b).

(** [_basis_from_normal], arrays.py:411-422; [None] when the entries are NaN. *)
Definition basis_from_normal (d : dtype) (normal : list R) : result (option (list R * list R)) :=
  if negb (length normal =? 3)%nat then Err ValueError
  else match d with
  | Int64 => Err RuntimeError
  | Float =>
      Ok (match unit_vec normal with
          | None => None
          | Some n =>
              let ref := if allclose n [1; 0; 0] then [0; 1; 0] else [1; 0; 0] in
              match unit_vec (cross n ref) with
              | None => None
              | Some bx => match unit_vec (cross n bx) with
                           | None => None
                           | Some by_ => Some (bx, by_)
                           end
              end
          end)
  end.

(** Axes of the named planes, arrays.py:102-125. *)
Definition plane_basis (plane : string) : result (list R * list R) :=
  let p := lower plane in
  if String.eqb p "xy" then Ok ([1; 0; 0], [0; 1; 0])
  else if String.eqb p "xz" then Ok ([1; 0; 0], [0; 0; 1])
  else if String.eqb p "yz" then Ok ([0; 1; 0], [0; 0; 1])
  else Err ValueError.

(** [circular_array], arrays.py:70-128. *)
Definition circular_array (center : vec) (num : Z) (radius : R) (plane : string) (normal : option (list R))
  : result (option (list (list R))) :=
  if (num <=? 0)%Z then Err ValueError
  else if Rleb radius 0 then Err ValueError
  else
    let angles := circle_angles (v_dtype center) (Z.to_nat num) in
    let dim := length (v_data center) in
    if (dim =? 2)%nat then
      Ok (Some (map (fun a => shift (v_data center) (scale radius [cos a; sin a])) angles))
    else if negb (dim =? 3)%nat then Err ValueError
    else
      do basis <- (match normal with
                   | Some n => basis_from_normal (v_dtype center) n
                   | None => do b <- plane_basis plane; Ok (Some b)
                   end);
      Ok (option_map (fun b =>
            map (fun a => shift (v_data center)
                   (scale radius (map2 Rplus (scale (cos a) (fst b)) (scale (sin a) (snd b))))) angles) basis).

(** Golden ratio, arrays.py:461, 475. *)
Definition golden : R := (1 + sqrt 5) / 2.
(** [(-1.0, 1.0)], arrays.py:441, 464-465, 468-469, 477-478. *)
Definition signs : list R := [-1; 1].

(** [_polyhedron_vertices], arrays.py:425-485. *)
Definition polyhedron_vertices (kind : string) : result (list (list R)) :=
  let k := lower kind in
  if String.eqb k "tetrahedron" then Ok [[1; 1; 1]; [1; -1; -1]; [-1; 1; -1]; [-1; -1; 1]]
  else if String.eqb k "cube" then
    Ok (flat_map (fun x => flat_map (fun y => map (fun z => [x; y; z]) signs) signs) signs)
  else if String.eqb k "octahedron" then
    Ok [[1; 0; 0]; [-1; 0; 0]; [0; 1; 0]; [0; -1; 0]; [0; 0; 1]; [0; 0; -1]]
  else if String.eqb k "dodecahedron" then
    Ok (flat_map (fun a => flat_map (fun b => [[a; b; b]; [a; b; - b]]) signs) signs ++
        flat_map (fun a => flat_map (fun b =>
          [[0; a * (1 / golden); b * golden]; [a * (1 / golden); b * golden; 0];
           [a * golden; 0; b * (1 / golden)]]) signs) signs)
  else if String.eqb k "icosahedron" then
    Ok (flat_map (fun a => flat_map (fun b =>
          [[0; a; b * golden]; [a; b * golden; 0]; [a * golden; 0; b]]) signs) signs)
  else Err ValueError.

(** [polyhedron_array], arrays.py:131-148. *)
Definition polyhedron_array (center : vec) (kind : string) (radius : R) : result (list (list R)) :=
  if Rleb radius 0 then Err ValueError
  else if negb (length (v_data center) =? 3)%nat then Err ValueError
  else
    do vs <- polyhedron_vertices kind;
    match v_dtype center with
    | Int64 => Err RuntimeError
    | Float => Ok (map (fun v => shift (v_data center) (scale radius (map (fun x => x / vnorm v) v))) vs)
    end.

(** [torch.deg2rad], arrays.py:491-492. *)
Definition deg2rad (x : R) : R := x * (PI / 180).
(** [_spherical_array_from_angles], arrays.py:488-496. *)
Definition spherical_array (center : list R) (radius : R) (theta phi : list R) : list (list R) :=
  map (fun p => let t := deg2rad (fst p) in let f := deg2rad (snd p) in
         shift center [radius * sin t * cos f; radius * sin t * sin f; radius * cos t])
      (combine theta phi).

(** Angles in degrees, arrays.py:165-202. *)
Definition em32_theta : list Z :=
  [69; 90; 111; 90; 32; 55; 90; 125; 148; 125; 90; 55; 21; 58; 121; 159; 69; 90; 111; 90;
   32; 55; 90; 125; 148; 125; 90; 55; 21; 58; 122; 159]%Z.
(** Angles in degrees, arrays.py:203-240. *)
Definition em32_phi : list Z :=
  [0; 32; 0; 328; 0; 45; 69; 45; 0; 315; 291; 315; 91; 90; 90; 89; 180; 212; 180; 148; 180;
   225; 249; 225; 180; 135; 111; 135; 269; 270; 270; 271]%Z.
(** Angles in units of 1e-4 degrees, arrays.py:263-332. *)
Definition em64_theta : list Z :=
  [167656; 219677; 423941; 132817; 226728; 526925; 378060; 433944; 439386; 703132; 332231;
   600257; 564763; 674936; 932735; 484230; 780793; 620685; 387171; 638004; 701946; 962460;
   810992; 1060940; 677533; 917061; 399985; 687726; 608869; 822833; 630247; 897940;
   1375166; 1397604; 1352133; 1603628; 1625770; 1420685; 1611987; 1625770; 1155360; 862594;
   1160164; 953313; 900637; 1114549; 858671; 1308398; 1025775; 1426375; 1170320; 1175631;
   1158884; 896900; 1184478; 939338; 1063875; 810511; 1359764; 1426771; 1206556; 1338834;
   1163591; 1074640]%Z.
(** Angles in units of 1e-4 degrees, arrays.py:333-402. *)
Definition em64_phi : list Z :=
  [1974561; 1157340; 819110; 3133592; 431785; 467324; 3359958; 145398; 2044547; 2065420;
   2473219; 2338170; 2645437; 996669; 1046842; 1209227; 1265130; 1482368; 1626381; 1785498;
   212715; 257834; 478607; 559075; 714285; 784921; 2932210; 2905683; 3181354; 3340042;
   3520227; 0; 1740335; 2127205; 2519179; 1506471; 2408266; 2930625; 3310098; 608266;
   2269135; 2339255; 1936382; 2096696; 1831690; 1637105; 1569524; 1394318; 1359729;
   1023273; 1125511; 831464; 3077078; 3091392; 2782519; 2829735; 2531470; 2600688; 597394;
   142241; 324901; 3340753; 20842; 3350677]%Z.

(** [eigenmike_em32] and [eigenmike_em64], arrays.py:151-246, 249-408. *)
Definition eigenmike (unit_ : R) (theta phi : list Z) (center : vec) (radius az : R) : result (list (list R)) :=
  if Rleb radius 0 then Err ValueError
  else if negb (length (v_data center) =? 3)%nat then Err ValueError
  else Ok (spherical_array (v_data center) radius
             (map (fun z => to_dtype (v_dtype center) (IZR z * unit_)) theta)
             (map (fun z => to_dtype (v_dtype center) (IZR z * unit_) + az) phi)).
(** geometry/arrays.py:151. *)
Definition eigenmike_em32 : vec -> R -> R -> result (list (list R)) := eigenmike 1 em32_theta em32_phi.
(** geometry/arrays.py:249. *)
Definition eigenmike_em64 : vec -> R -> R -> result (list (list R)) := eigenmike (/ 10000) em64_theta em64_phi.

(** ** sampling.py *)

(** Successive results of [random.Random.random()]; [k] is the number of draws so far, geometry/sampling.py:25, 47, 74, 80. *)
Definition stream := nat -> R.
(** [rng.uniform(a, b)]: [a + (b - a) * random()] in Python floats, sampling.py:25, 47, 74, 80. *)
Definition uniform (a b r : R) : R := rnd64 (a + rnd64 (rnd64 (b - a) * r)).
(** [high], sampling.py:22, 69. *)
Definition highs (size : list R) (margin : R) : list R := map (fun s => rnd64 (s - margin)) size.
(** [point], sampling.py:25, 74, drawn from position [k] of the stream. *)
Definition draw_point (rng : stream) (k : nat) (size : list R) (margin : R) : list R :=
  map (fun i => uniform margin (nth i (highs size margin) 0) (rng (k + i)%nat)) (seq 0 (length size)).
(** The points of [sample_positions] before the conversion to float32, sampling.py:24-26. *)
Definition draw_points (rng : stream) (k num : nat) (size : list R) (margin : R) : list (list R) :=
  map (fun j => draw_point rng (k + j * length size)%nat size margin) (seq 0 num).
(** [sample_positions], sampling.py:12-27 (rows; with [num <= 0] the tensor has shape (0,)). *)
Definition sample_positions (rng : stream) (k : nat) (num : Z) (size : list R) (margin : R)
  : list (list R) * nat :=
  let n := Z.to_nat num in
  (map (map rnd32) (draw_points rng k n size margin), (k + n * length size)%nat).

(** Bounds of the height, sampling.py:42-44, 76-78. *)
Definition z_bounds (size : list R) (margin : R) (z_range : R * R) : R * R :=
  (Rmax margin (fst z_range), Rmin (rnd64 (nth 2 size 0 - margin)) (snd z_range)).
(** [sample_positions_with_z_range], sampling.py:30-49. *)
Definition sample_positions_with_z_range (rng : stream) (k : nat) (num : Z) (size : list R)
    (z_range : R * R) (margin : R) : result (list (list R)) :=
  let '(pos, k') := sample_positions rng k num size margin in
  if (length size <? 3)%nat then Ok pos
  else
    let '(z_low, z_high) := z_bounds size margin z_range in
    if Rleb z_high z_low then Ok pos
    else match pos with
    | [] => Err IndexError           (* positions[:, 2] of a tensor of shape (0,) *)
    | _ => Ok (map (fun j => upd_nth 2 (fun _ => rnd32 (uniform z_low z_high (rng (k' + j)%nat)))
                               (nth j pos [])) (seq 0 (Z.to_nat num)))
    end.

(** One attempt, sampling.py:74-80: the point and the new position in the stream. *)
Definition attempt (rng : stream) (k : nat) (size : list R) (z_range : option (R * R)) (margin : R)
  : list R * nat :=
  let p := draw_point rng k size margin in
  let k' := (k + length size)%nat in
  match z_range with
  | Some zr =>
      if (3 <=? length size)%nat then
        let '(z_low, z_high) := z_bounds size margin zr in
        if Rltb z_low z_high then (upd_nth 2 (fun _ => uniform z_low z_high (rng k')) p, S k')
        else (p, k')
      else (p, k')
  | None => (p, k')
  end.
(** Loop of sampling.py:72-83 with [fuel = max_attempts - attempts]; [nrm] is
    [torch.linalg.norm] in float32.  Returns the points and the number of attempts made. *)
Fixpoint attempts (nrm : list R -> R) (rng : stream) (fuel k : nat) (num : Z) (size center : list R)
    (min_distance : R) (z_range : option (R * R)) (margin : R) (coords : list (list R)) (made : nat)
  : list (list R) * nat :=
  match fuel with
  | O => (coords, made)
  | S fuel' =>
      if (Z.of_nat (length coords) <? num)%Z then
        let '(p, k') := attempt rng k size z_range margin in
        let dist := nrm (map2 (fun x c => rnd32 (rnd32 x - c)) p center) in
        attempts nrm rng fuel' k' num size center min_distance z_range margin
          (if Rleb min_distance dist then coords ++ [p] else coords) (S made)
      else (coords, made)
  end.
(** [sample_positions_min_distance], sampling.py:52-86; also returns the number of attempts. *)
Definition sample_positions_min_distance (nrm : list R -> R) (rng : stream) (k : nat) (num : Z)
    (size center : list R) (min_distance : R) (z_range : option (R * R)) (margin : R) (max_attempts : Z)
  : result (list (list R) * nat) :=
  let center := map rnd32 center in
  if negb (length center =? length size)%nat then Err ValueError
  else
    let '(coords, made) := attempts nrm rng (Z.to_nat max_attempts) k num size center min_distance z_range margin [] 0 in
    if (Z.of_nat (length coords) <? num)%Z then Err RuntimeError
    else Ok (map (map rnd32) coords, made).

(** [clamp_positions] on one position, sampling.py:89-95: [torch.full_like] gives the margin
    the dtype of [room_size]. *)
Definition clamp_positions (pos : list R) (size : vec) (margin : R) : list R :=
  map2 (fun x s => Rmax (Rmin x (s - margin)) (to_dtype (v_dtype size) margin)) pos (v_data size).

(** ** trajectories.py *)

(** [linear_trajectory], trajectories.py:9-14; one step divides 0 by 0 ([Ok None]: NaN);
    [torch.stack] of an empty list raises RuntimeError. *)
Definition linear_trajectory (start end_ : list R) (steps : Z) : result (option (list (list R))) :=
  if (steps <=? 0)%Z then Err RuntimeError
  else if (steps =? 1)%Z then Ok None
  else Ok (Some (map (fun t => map2 (fun s e => s + (e - s) * INR t / (IZR steps - 1)) start end_)
                     (seq 0 (Z.to_nat steps)))).
