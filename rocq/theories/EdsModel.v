(** Model of a whole run of the example that builds a data set,
    /repo/examples/build_dynamic_dataset.py:73-93, 283-464: the loop over the scenes, the files
    below the output directory in the order in which they are written, and their contents.

    Loading of the recordings is DsModel.v, the tracks are ExModel.v, the responses IsmModel.v,
    the audio files RefModel.v, the descriptions MetaModel.v, the notice CorpModel.v.
    Simplifications: no pictures ([args.plot] is off); the factory gives the recordings of one
    corpus (what it fetches is DfModel.v); creating the output directory succeeds (writing a file
    may fail); log and its level are left out; tensors of the room and of positions are exact
    except in the samplers; what becomes of positions or responses that are not numbers is left
    open. *)
From Coq Require Import Ascii String List ZArith NArith Reals Bool.
From Verif Require Import Prelude SignalModel FloatModel DirModel IsmModel RoomModel GeoModel IoModel MetaModel.
From Verif Require DsModel CorpModel LoopModel RefModel.
From Verif Require Import ExModel.
Import ListNotations.
Local Notation length := List.length.
Local Open Scope R_scope.

(** ** Runs *)

(** Contents of a file, build_dynamic_dataset.py:326-331, 410-416, 429-460. *)
Inductive item := Notice (text : DsModel.ustr) | Sound (w : wave) (rate : Z) | Json (v : pyval).
(** The files written, in order, and the outcome; [None] is a loop that goes on for ever,
    build_dynamic_dataset.py:326-460. *)
Definition erun (A : Type) : Type := list (string * item) * option (result A).
(** build_dynamic_dataset.py:333-460. *)
Definition eret {A} (a : A) : erun A := ([], Some (Ok a)).
(** build_dynamic_dataset.py:333-460: what is written stays. *)
Definition ebind {A B} (m : erun A) (f : A -> erun B) : erun B :=
  match m with
  | (t, Some (Ok a)) => let '(t', r) := f a in (t ++ t', r)
  | (t, Some (Err e)) => (t, Some (Err e))
  | (t, None) => (t, None)
  end.
(** build_dynamic_dataset.py:299-460. *)
Definition elift {A} (r : result A) : erun A := ([], Some r).

(** The arguments of the program, build_dynamic_dataset.py:194-283. *)
Record eargs := mkE {
  ea_dataset : string; ea_dir : option string; ea_subset : string; ea_download : bool;
  ea_scenes : Z; ea_n : Z; ea_moving : Z; ea_mics : Z; ea_duration : R; ea_seed : Z; ea_room : list R;
  ea_steps : Z; ea_order : Z; ea_tmax : R; ea_device : string; ea_out : string; ea_plot : bool; ea_level : string }.
(** The world around it: the externals of the simulation, the choice of the device, the norm and
    the float32 division of torch, [random.Random(seed)] as the stream of a new generator, its
    calls while recordings are loaded and what it gives after that, the recordings, the outcome of
    writing files, and what is left open for values that are not numbers: responses, file of the
    mixture ([None]) or of a source, description; build_dynamic_dataset.py:299-460. *)
Record eworld := mkW {
  ew_ext : externals; ew_device : string -> result device_type; ew_norm : list R -> R; ew_float : R -> R;
  ew_fresh : Z -> stream; ew_rng : Z -> DsModel.rng; ew_after : Z -> draws; ew_corpus : DsModel.corpus;
  ew_save : string -> option exn;
  ew_blurred : nat -> result xtensor; ew_noise : nat -> option nat -> result wave; ew_note : nat -> result pyval }.

(** Writing one file, build_dynamic_dataset.py:326-331, 410-416, 429-460. *)
Definition save (W : eworld) (file : string) (i : item) : erun unit :=
  match ew_save W file with Some e => ([], Some (Err e)) | None => ([(file, i)], Some (Ok tt)) end.

(** ** The description *)

(** The text of ASCII characters, datasets/attribution.py:27-54. *)
Fixpoint text (s : DsModel.ustr) : string :=
  match s with [] => EmptyString | c :: s => String (ascii_of_N c) (text s) end.
(** [dataset_root], build_dynamic_dataset.py:289-296. *)
Definition dataset_root (a : eargs) : string :=
  match ea_dir a with
  | Some d => d
  | None => if String.eqb (ea_dataset a) "cmu_arctic" then "datasets/cmu_arctic" else "datasets/librispeech"
  end.
(** An integer, build_dynamic_dataset.py:79-88, 420. *)
Definition pyi (z : Z) : pyval := PScalar (SInt z).
(** A truth value, build_dynamic_dataset.py:78, 91. *)
Definition pyb (b : bool) : pyval := PScalar (SBool b).
(** [_serialize_args], build_dynamic_dataset.py:73-93; [args.dataset_dir] is the root by then (296). *)
Definition serialize_args (a : eargs) : pyval :=
  PDict [(KStr "dataset", PStr (ea_dataset a)); (KStr "dataset_dir", PStr (dataset_root a)); (KStr "subset", PStr (ea_subset a));
         (KStr "download", pyb (ea_download a)); (KStr "num_scenes", pyi (ea_scenes a)); (KStr "num_sources", pyi (ea_n a));
         (KStr "num_moving_sources", pyi (ea_moving a)); (KStr "num_mics", pyi (ea_mics a)); (KStr "duration", pyf (ea_duration a));
         (KStr "seed", pyi (ea_seed a)); (KStr "room", PList (map pyf (ea_room a))); (KStr "steps", pyi (ea_steps a));
         (KStr "order", pyi (ea_order a)); (KStr "tmax", pyf (ea_tmax a)); (KStr "device", PStr (ea_device a));
         (KStr "out_dir", PStr (ea_out a)); (KStr "plot", pyb (ea_plot a)); (KStr "log_level", PStr (ea_level a))]%string.
(** [args.subset if args.dataset == "librispeech" else None], build_dynamic_dataset.py:321-323, 450. *)
Definition named_subset (a : eargs) : option string :=
  if String.eqb (ea_dataset a) "librispeech" then Some (ea_subset a) else None.
(** [dataset_attribution.to_dict()], build_dynamic_dataset.py:324, datasets/attribution.py:22-24. *)
Definition license_entry (t : CorpModel.attribution) : pyval :=
  PDict [(KStr "dataset_key", PStr (text (CorpModel.a_key t))); (KStr "dataset", PStr (text (CorpModel.a_dataset t)));
         (KStr "source", PStr (text (CorpModel.a_source t))); (KStr "license_name", PStr (text (CorpModel.a_license t)));
         (KStr "license_url", PStr (text (CorpModel.a_url t))); (KStr "required_attribution", PStr (text (CorpModel.a_credit t)));
         (KStr "attribution_required", pyb (CorpModel.a_required t));
         (KStr "subset", match CorpModel.a_subset t with Some s => PStr (text s) | None => PNone end)]%string.
(** [f"scene_{idx:03d}"], build_dynamic_dataset.py:367, 409, 433, 438. *)
Definition scene_prefix (i : nat) : string := ("scene_" ++ LoopModel.padded 3 i)%string.
(** An entry of [reference_audio], build_dynamic_dataset.py:418-426. *)
Definition ref_value (r : RefModel.ref_entry) : pyval :=
  PDict [(KStr "index", pyi (Z.of_nat (RefModel.re_index r))); (KStr "filename", PStr (RefModel.re_file r));
         (KStr "speaker", PStr (RefModel.re_speaker r)); (KStr "utterances", PList (map PStr (RefModel.re_utterances r)));
         (KStr "kind", PStr (RefModel.re_kind r))]%string.
(** [info], build_dynamic_dataset.py:336, 446. *)
Definition info_value (l : list (string * list string)) : pyval :=
  PList (map (fun p => PTuple [PStr (fst p); PList (map PStr (snd p))]) l).
(** [extra], build_dynamic_dataset.py:447-458. *)
Definition scene_extra (a : eargs) (t : CorpModel.attribution) (modes : list string) (moving : list nat) (refs : list RefModel.ref_entry)
  : list (pykey * pyval) :=
  [(KStr "mode", PStr "dynamic_dataset"); (KStr "dataset", PStr (ea_dataset a));
   (KStr "subset", match named_subset a with Some s => PStr s | None => PNone end); (KStr "dataset_license", license_entry t);
   (KStr "modifications", PList (map (fun n => PStr (text n)) (CorpModel.default_notes true)));
   (KStr "attribution_file", PStr "ATTRIBUTION.txt"); (KStr "motion_modes", PList (map PStr modes));
   (KStr "moving_sources", PList (map (fun i => pyi (Z.of_nat i)) moving));
   (KStr "reference_audio", PList (map ref_value refs)); (KStr "args", serialize_args a)]%string.

(** ** One scene *)

(** A table (n, dim) of positions, build_dynamic_dataset.py:318, 364. *)
Definition table (dim : nat) (l : list (list R)) : tensor := mkT [length l; dim] (concat l).
(** A tensor (steps, n, dim), build_dynamic_dataset.py:352-361. *)
Definition grid (n dim : nat) (l : list (list (list R))) : tensor := mkT [length l; n; dim] (concat (map (@concat R) l)).
(** The tracks if all of them are numbers, build_dynamic_dataset.py:352-361. *)
Definition all_points (rows : list (list xpoint)) : option (list (list (list R))) :=
  if forallb (forallb (fun p : xpoint => match p with Some _ => true | None => false end)) rows
  then Some (map (map (fun p => match p with Some p => p | None => [] end)) rows) else None.
(** What is fixed before the loop, build_dynamic_dataset.py:299-331. *)
Record fixed := mkFixed { fx_device : device_type; fx_room : room; fx_size : list R; fx_center : list R; fx_mics : list (list R);
                          fx_source : CorpModel.attribution }.
(** [steps = max(2, args.steps)], build_dynamic_dataset.py:351. *)
Definition run_steps (a : eargs) : Z := Z.max 2 (ea_steps a).
(** [mic_pos.unsqueeze(0).repeat(steps, 1, 1)], build_dynamic_dataset.py:361. *)
Definition mic_grid (a : eargs) (u : fixed) : tensor :=
  grid (length (fx_mics u)) (length (ea_room a)) (repeat (fx_mics u) (Z.to_nat (run_steps a))).
(** [simulate_dynamic_rir], build_dynamic_dataset.py:394-401. *)
Definition responses (W : eworld) (a : eargs) (u : fixed) (i : nat) (rows : list (list xpoint)) : result xtensor :=
  match all_points rows with
  | Some p => simulate_dynamic_rir (ew_ext W) (fx_device u) (fx_room u) (grid (Z.to_nat (ea_n a)) (length (ea_room a)) p) (mic_grid a u)
                (Some (ea_order a)) None None (Some (ea_tmax a)) None ONone None
  | None => ew_blurred W i
  end.
(** The samples of the mixture ([None]) or of one source, build_dynamic_dataset.py:402-403, 408. *)
Definition heard (W : eworld) (u : fixed) (i : nat) (rirs : xtensor) (signals : tensor) (who : option nat) : result wave :=
  do x <- match who with Some s => RefModel.index0 signals s | None => Ok signals end;
  match LoopModel.all_numbers rirs with
  | Some h => do r <- match who with Some s => RefModel.slice1 h s | None => Ok h end;
              do y <- convolver_convolve (mkConvolver "trajectory" None None None) (fx_device u) x r;
              Ok (RefModel.wave_of y)
  | None => ew_noise W i who
  end.
(** [save_scene_audio] of one file, build_dynamic_dataset.py:410-416, 429-435. *)
Definition save_sound (W : eworld) (file : string) (rate : Z) (w : wave) : erun unit :=
  ebind (elift (save_samples (ew_float W) true 1 w)) (fun w => save W file (Sound w rate)).
(** The loop over the sources, build_dynamic_dataset.py:406-426. *)
Fixpoint references (W : eworld) (u : fixed) (i : nat) (rirs : xtensor) (signals : tensor) (rate : Z) (info : list (string * list string))
    (l : list nat) : erun (list RefModel.ref_entry) :=
  match l with
  | [] => eret []
  | s :: l =>
      let file := RefModel.ref_name (scene_prefix i) s in
      ebind (elift (heard W u i rirs signals (Some s))) (fun w =>
      ebind (save_sound W file rate w) (fun _ =>
      ebind (elift (match nth_error info s with Some p => Ok p | None => Err IndexError end)) (fun p =>
      ebind (references W u i rirs signals rate info l) (fun refs =>
      eret (RefModel.mkRef s file (fst p) (snd p) "convolved" :: refs)))))
  end.
(** [save_scene_metadata], build_dynamic_dataset.py:436-460. *)
Definition description (W : eworld) (a : eargs) (u : fixed) (i : nat) (rows : list (list xpoint)) (rirs : xtensor) (len : nat)
    (info : list (string * list string)) (modes : list string) (moving : list nat) (refs : list RefModel.ref_entry) : result pyval :=
  match all_points rows with
  | Some p =>
      let dim := length (ea_room a) in
      let r := fx_room u in
      build_metadata (mkMd (r_size r) (r_c r) (option_map (fun b => mkT [length b] b) (r_beta r)) (r_t60 r) (r_fs r)
        (table dim (nth 0 p [])) None (table dim (fx_mics u)) Float None (xshape rirs)
        (Some (grid (Z.to_nat (ea_n a)) dim p)) (Some (mic_grid a u)) None (Some (Z.of_nat len))
        (Some (info_value info)) (Some (scene_extra a (fx_source u) modes moving refs)))
  | None => ew_note W i
  end.
(** One round of the loop, build_dynamic_dataset.py:333-460; [fuel] bounds the loading loop. *)
Definition example_scene (W : eworld) (a : eargs) (u : fixed) (fuel i : nat) : erun unit :=
  let seed := (ea_seed a + Z.of_nat i)%Z in
  match DsModel.load_dataset_sources (ew_corpus W) (ea_n a) (ea_duration a) (ew_rng W seed) fuel with
  | None => ([], None)
  | Some (Err e) => elift (Err e)
  | Some (Ok (dry, rate, info)) =>
      let len := length (hd [] dry) in
      let signals := mkT [length dry; len] (concat dry) in
      ebind (elift (source_trajectories (ew_norm W) (ew_after W seed) (ea_n a) (ea_moving a) (fx_size u) (fx_center u) (run_steps a))) (fun r =>
      let '(rows, modes, moving) := r in
      ebind (elift (responses W a u i rows)) (fun rirs =>
      ebind (elift (heard W u i rirs signals None)) (fun y =>
      ebind (references W u i rirs signals rate info (seq 0 (Z.to_nat (ea_n a)))) (fun refs =>
      ebind (save_sound W (scene_prefix i ++ ".wav") rate y) (fun _ =>
      ebind (elift (description W a u i rows rirs len info modes moving refs)) (fun md =>
      save W (scene_prefix i ++ "_metadata.json") (Json md)))))))
  end.
(** The loop, build_dynamic_dataset.py:333-460: [n] scenes from number [i] on. *)
Fixpoint example_scenes (W : eworld) (a : eargs) (u : fixed) (fuel n i : nat) : erun unit :=
  match n with
  | O => eret tt
  | S n => ebind (example_scene W a u fuel i) (fun _ => example_scenes W a u fuel n (S i))
  end.

(** ** The program *)

(** Everything before the first file, build_dynamic_dataset.py:299-325. *)
Definition prepare (W : eworld) (a : eargs) : result fixed :=
  do dev <- ew_device W (ea_device a);
  do r <- example_room (ea_room a) 16000;
  do r <- match plain_room r with Some r => Ok r | None => Err NotImplementedError end;
  let size := room_size (ea_room a) in
  let c := fst (one_point (ew_fresh W (ea_seed a)) 0 size) in
  do m <- mics_at (ea_mics a) c;
  do t <- CorpModel.attribution_for (ea_dataset a) (option_map CorpModel.u (named_subset a));
  Ok (mkFixed dev r size c (map (clamp size) m) t).
(** The notice, build_dynamic_dataset.py:326-331, io/outputs.py:36-79. *)
Definition notice (t : CorpModel.attribution) : DsModel.ustr :=
  (CorpModel.joined (CorpModel.notice_lines (CorpModel.to_dict t) (CorpModel.default_notes true)) ++ [10%N])%list.
(** [main], build_dynamic_dataset.py:283-464. *)
Definition build (W : eworld) (a : eargs) (fuel : nat) : erun unit :=
  ebind (elift (prepare W a)) (fun u =>
  ebind (save W "ATTRIBUTION.txt" (Notice (notice (fx_source u)))) (fun _ =>
  example_scenes W a u fuel (Z.to_nat (ea_scenes a)) 0)).
