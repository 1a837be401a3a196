(** Model of the benchmark program /repo/examples/benchmark_device.py.

    The simulations and the convolution are those of IsmModel.v and SignalModel.v; the readings of
    the clock and the random signal are oracles.  Simplifications: tensor arithmetic is exact; what
    devices other than the processor, CUDA and MPS do is an oracle, and so is the convolution of
    responses that are not all numbers; which log records are shown is in UtlModel.v. *)
From Coq Require Import String List ZArith Reals Bool.
From Verif Require Import Prelude SignalModel FloatModel DirModel IsmModel RoomModel UtlModel CliModel LoopModel.
Import ListNotations.
Local Notation length := List.length.
Local Open Scope R_scope.

(** [Room.shoebox(size=[8.0, 6.0, 3.5], fs=16000, beta=[0.92] * 6)], benchmark_device.py:35, 67. *)
Definition bench_room : room := mkRoom (mkT [3%nat] [8; 6; 7 / 2]) 16000 343 (Some (repeat (92 / 100) 6)) None.
(** A table of points in space, benchmark_device.py:36, 41. *)
Definition points (l : list (list R)) : tensor := mkT [length l; 3%nat] (concat l).
(** The two sources, benchmark_device.py:36. *)
Definition bench_sources : list (list R) := [[1; 3 / 2; 12 / 10]; [4; 5 / 2; 14 / 10]].
(** The loops over the grid, benchmark_device.py:37-40. *)
Definition bench_mics : list (list R) :=
  flat_map (fun x => map (fun y => [x; y; 12 / 10]) [3 / 2; 5 / 2; 7 / 2; 9 / 2]) [2; 3; 4; 5].
(** The number of steps, benchmark_device.py:74. *)
Definition bench_steps : nat := 24.
(** [src_traj], benchmark_device.py:68, 75. *)
Definition bench_still : tensor := mkT [bench_steps; 1%nat; 3%nat] (concat (repeat [1; 3 / 2; 12 / 10] bench_steps)).
(** The moving microphone at step [t], benchmark_device.py:76-79. *)
Definition bench_mic (t : nat) : list R :=
  map2 (fun a b => a + (b - a) * INR t / INR (bench_steps - 1)) [2; 1; 12 / 10] [4; 3; 12 / 10].
(** [mic_traj], benchmark_device.py:78-81. *)
Definition bench_moving : tensor := mkT [bench_steps; 1%nat; 3%nat] (concat (map bench_mic (seq 0 bench_steps))).
(** The literal [0.8], benchmark_device.py:45, 55, 89, 105. *)
Definition bench_tmax : R := rnd64 (8 / 10).

(** The world of a run: filter, machine, readings of the clock in order, random signal for a device, and the cases
    that are not modelled, benchmark_device.py:33-163. *)
Record bench_world := mkBW {
  bw_ext : externals; bw_machine : machine; bw_clock : nat -> R; bw_signal : tdev -> list R;
  bw_noise : tdev -> result unit; bw_other : bool -> tdev -> result unit }.
(** The kind of a device, benchmark_device.py:47-50, 57-60. *)
Definition device_of (d : tdev) : option device_type :=
  if String.eqb (UtlModel.kind d) "cpu" then Some Cpu else if String.eqb (UtlModel.kind d) "cuda" then Some Cuda
  else if String.eqb (UtlModel.kind d) "mps" then Some Mps else None.
(** One static run, benchmark_device.py:44-46, 54-56. *)
Definition static_work (W : bench_world) (d : device_type) : result unit :=
  do _ <- simulate_rir (bw_ext W) d bench_room (EObj (points bench_sources) None) (EObj (points bench_mics) None)
            (Some 12%Z) None None (Some bench_tmax) None None ONone None;
  Ok tt.
(** One dynamic run, benchmark_device.py:84-92, 100-108. *)
Definition dynamic_work (W : bench_world) (t : tdev) (d : device_type) : result unit :=
  do rirs <- simulate_dynamic_rir (bw_ext W) d bench_room bench_still bench_moving
               (Some 10%Z) None None (Some bench_tmax) None ONone None;
  match all_numbers rirs with
  | Some h => do _ <- convolver_convolve (mkConvolver "trajectory" None None None) d (mkT [1%nat; length (bw_signal W t)] (bw_signal W t)) h; Ok tt
  | None => bw_noise W t
  end.
(** One run of a benchmark, benchmark_device.py:44-46, 84-92. *)
Definition work (W : bench_world) (dynamic : bool) (t : tdev) : result unit :=
  match device_of t with
  | Some d => if dynamic then dynamic_work W t d else static_work W d
  | None => bw_other W dynamic t
  end.

(** What happens in a run, in order: a simulation, waiting for a device, a reading of the clock, and
    the records logged, benchmark_device.py:43-163. *)
Inductive event := Worked (d : tdev) | Waited (d : tdev) | Clock (t : R) | Average (dynamic : bool) (k : string) (ms : R) | Skipped | Speedup (x : R).
(** Events and the outcome, benchmark_device.py:33-163. *)
Definition brun (A : Type) : Type := list event * result A.
(** benchmark_device.py:33-163. *)
Definition bret {A} (l : list event) (a : A) : brun A := (l, Ok a).
(** benchmark_device.py:33-163. *)
Definition bbind {A B} (m : brun A) (f : A -> brun B) : brun B :=
  match m with (l, Ok a) => let '(l', r) := f a in (l ++ l', r) | (l, Err e) => (l, Err e) end.
(** benchmark_device.py:44-46. *)
Definition one_run (W : bench_world) (dynamic : bool) (d : tdev) : brun unit :=
  match work W dynamic d with Ok _ => ([Worked d], Ok tt) | Err e => ([], Err e) end.
(** [for _ in range(repeats)], benchmark_device.py:53-56, 99-108. *)
Fixpoint runs (W : bench_world) (dynamic : bool) (d : tdev) (n : nat) : brun unit :=
  match n with O => bret [] tt | S n => bbind (one_run W dynamic d) (fun _ => runs W dynamic d n) end.
(** [torch.cuda.synchronize()] and [torch.mps.synchronize()], benchmark_device.py:47-50, 57-60: without
    an argument torch waits for its current CUDA device, which is number 0, as nobody changes it. *)
Definition wait (d : tdev) : brun unit :=
  bbind (if String.eqb (UtlModel.kind d) "cuda" then bret [Waited (mkDev "cuda" (Some 0%nat))] tt else bret [] tt) (fun _ =>
  if String.eqb (UtlModel.kind d) "mps" then bret [Waited (mkDev "mps" None)] tt else bret [] tt).
(** [time.perf_counter()], the reading number [k], benchmark_device.py:52, 61, 98, 113. *)
Definition clock (W : bench_world) (k : nat) : brun R := bret [Clock (bw_clock W k)] (bw_clock W k).
(** Division of floats, benchmark_device.py:62, 114, 163. *)
Definition divide (x y : R) : result R := if Req_EM_T y 0 then Err ZeroDivisionError else Ok (x / y).
(** [_bench_once] and [_bench_dynamic] whose first reading of the clock is number [k],
    benchmark_device.py:33-62, 65-114. *)
Definition bench (W : bench_world) (dynamic : bool) (d : tdev) (repeats : Z) (k : nat) : brun R :=
  bbind (one_run W dynamic d) (fun _ =>
  bbind (wait d) (fun _ =>
  bbind (clock W k) (fun start =>
  bbind (runs W dynamic d (Z.to_nat repeats)) (fun _ =>
  bbind (wait d) (fun _ =>
  bbind (clock W (S k)) (fun stop =>
  ([], divide (stop - start) (IZR repeats)))))))).
(** [main] after the arguments are read, benchmark_device.py:141-163. *)
Definition bench_main (W : bench_world) (repeats : Z) (gpu : string) (dynamic : bool) (level : string) : brun unit :=
  bbind ([], resolve_level (LStr level)) (fun _ =>
  bbind ([], resolve_device (bw_machine W) default_prefer (RStr "cpu")) (fun c =>
  bbind (bench W dynamic (fst c) repeats 0) (fun cpu_time =>
  bbind (bret [Average dynamic "cpu" (cpu_time * 1000)] tt) (fun _ =>
  bbind ([], resolve_device (bw_machine W) default_prefer (RStr gpu)) (fun g =>
  if String.eqb (UtlModel.kind (fst g)) "cpu" then bret [Skipped] tt else
  bbind (bench W dynamic (fst g) repeats 2) (fun gpu_time =>
  bbind (bret [Average dynamic (UtlModel.kind (fst g)) (gpu_time * 1000)] tt) (fun _ =>
  bbind ([], divide cpu_time gpu_time) (fun x => bret [Speedup x] tt)))))))).
(** The options and their defaults, benchmark_device.py:118-139. *)
Definition bench_options : list opt :=
  help_options ++ [one "--repeats" "repeats" TInt; one "--gpu" "gpu" TText; flag "--dynamic" "dynamic" true; one "--log-level" "log_level" TText].
(** benchmark_device.py:121-138. *)
Definition bench_defaults : namespace := [("repeats", VInt 5); ("gpu", VText "auto"); ("dynamic", VBool false); ("log_level", VText "INFO")]%string.
(** [main], benchmark_device.py:117-163: the exit code of argparse or the run. *)
Definition bench_command (X : texts) (W : bench_world) (argv : list string) : Z + brun unit :=
  match parse X bench_options bench_defaults argv with
  | Exit c => inl c
  | Parsed ns =>
      inr (bbind ([], do r <- get_int ns "repeats"; do g <- get_text ns "gpu"; do d <- get_bool ns "dynamic"; do l <- get_text ns "log_level"; Ok (r, g, d, l))
             (fun x => let '(r, g, d, l) := x in bench_main W r g d l))
  end.
