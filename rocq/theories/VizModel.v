(** Model of /repo/src/torchrir/viz/animation.py (frame selection, frame rate, audio muxing)
    and the trajectory helpers of viz/utils.py.

    Simplifications: drawing is not modelled; trajectories are represented by their number of
    steps (three-dimensional tensors); a path is its name in the directory of the video, other
    directories being written with a slash; renaming and deleting succeed in one step; the
    sound file library and ffmpeg are external and may fail or be interrupted anywhere. *)
From Coq Require Import Ascii String List ZArith Reals Bool.
From Flocq Require Import Core.
From Verif Require Import Prelude FloatModel RoomModel IoModel.
Import ListNotations.
Local Open Scope R_scope.
Local Notation length := List.length.

(** ** Frames *)

(** Overflow of a binary64 result (Python float arithmetic, animation.py:229, 286). *)
Definition to_num (x : R) : num :=
  if Rleb (bpow radix2 1024) x then PInf else if Rleb x (- bpow radix2 1024) then NInf else Fin x.
(** [x / y] for finite Python floats [y <> 0], animation.py:229, 286. *)
Definition fdiv (x y : R) : num := to_num (rnd64 (x / y)).
(** [duration_s] after animation.py:228-229. *)
Definition clip_duration (duration : option num) (signal_len : option Z) (fs : option num) : result (option num) :=
  match duration, signal_len, fs with
  | None, Some n, Some f =>
      match f with
      | Fin r => if Req_EM_T r 0 then Err ZeroDivisionError else Ok (Some (fdiv (rnd64 (IZR n)) r))
      | NaN => Ok (Some NaN)
      | _ => Ok (Some (Fin 0))
      end
  | d, _, _ => Ok d
  end.
(** [x <= 0] and [x > 0] on Python floats, animation.py:284-285. *)
Definition le0 (x : num) : bool := match x with Fin r => Rleb r 0 | NInf => true | _ => false end.
(** viz/animation.py:284-285. *)
Definition gt0 (x : num) : bool := match x with Fin r => Rltb 0 r | PInf => true | _ => false end.
(** [frames = max(1, (T + step - 1) // step)], animation.py:283 (floor division). *)
Definition frame_count (T step : Z) : result Z :=
  if (step =? 0)%Z then Err ZeroDivisionError else Ok (Z.max 1 ((T + step - 1) / step)).
(** [fps_out = max(1, int(round(float(fps))))], animation.py:284-289 (round half to even). *)
Definition frame_rate (fps duration : option num) (frames : Z) : result Z :=
  let chosen := match duration with
                | Some d => if gt0 d then match d with Fin r => fdiv (IZR frames) r | _ => Fin 0 end else Fin 6
                | None => Fin 6
                end in
  let f := match fps with Some x => if le0 x then chosen else x | None => chosen end in
  match f with
  | Fin r => Ok (Z.max 1 (ZnearestE r))
  | NaN => Err ValueError
  | _ => Err OverflowError
  end.
(** Indexing dimension 0 of length [n] ([t[idx]]), animation.py:235-236. *)
Definition in_range (n : nat) (idx : Z) : bool := ((- Z.of_nat n <=? idx) && (idx <? Z.of_nat n))%Z.
(** [_frame], animation.py:231-281: the step shown. *)
Definition frame (t_src t_mic : nat) (step : Z) (i : nat) : result Z :=
  let idx := Z.min (Z.of_nat i * step) (Z.of_nat t_src - 1) in
  if in_range t_src idx then if in_range t_mic idx then Ok idx else Err IndexError else Err IndexError.
(** Step counts after [_traj_steps] and [_trajectory_to_cpu], utils.py:52-71, animation.py:172-177. *)
Definition step_counts (src mic : option nat) : result (nat * nat) :=
  match src, mic with
  | None, None => Err ValueError
  | Some s, Some m => Ok (s, m)
  | Some s, None => Ok (s, s)
  | None, Some m => Ok (m, m)
  end.
(** [_build_scene_animation], animation.py:140-298, followed by saving all frames (67-137): the
    steps shown, in order, and the frame rate. *)
Definition animate (plot_2d plot_3d : bool) (src mic : option nat) (step : Z) (fps duration : option num)
    (signal_len : option Z) (fs : option num) : result (list Z * Z) :=
  if negb plot_2d && negb plot_3d then Err ValueError else
  do tt' <- step_counts src mic;
  do d <- clip_duration duration signal_len fs;
  do frames <- frame_count (Z.of_nat (fst tt')) step;
  do rate <- frame_rate fps d frames;
  do shown <- mapM (frame (fst tt') (snd tt') step) (seq 0 (Z.to_nat frames));
  Ok (shown, rate).
(** Time shown in the title, animation.py:275-277 (finite duration, more than one step). *)
Definition label (steps : nat) (duration : R) (idx : Z) : R :=
  rnd64 (rnd64 (IZR idx / IZR (Z.of_nat steps - 1)) * duration).

(** ** Stereo track *)

(** Choice of channels, animation.py:327-339; [rows] are the samples of all channels. *)
Definition stereo (n : nat) (l r : Z) (rows : list (list R)) : list (list R) :=
  if (n =? 1)%nat then map (fun row => [nth 0 row 0; nth 0 row 0]) rows
  else if ((l <? 0) || (r <? 0) || (Z.of_nat n <=? l) || (Z.of_nat n <=? r))%Z then map (firstn 2) rows
  else map (fun row => [nth (Z.to_nat l) row 0; nth (Z.to_nat r) row 0]) rows.

(** ** Muxing *)

(** viz/animation.py:301-376. *)
Definition bytes := list nat.
(** Files by path, viz/animation.py:301-376. *)
Definition files := string -> option bytes.
(** viz/animation.py:301-376. *)
Definition put (p : string) (c : option bytes) (w : files) : files := fun q => if String.eqb q p then c else w q.
(** viz/animation.py:301-376. *)
Definition here (p : string) (w : files) : bool := match w p with Some _ => true | None => false end.
(** What the run meets: ffmpeg found or not (313); the reader and writer of sound files (318,
    343): contents of the temporary sound file on the way, and failure; ffmpeg (363): contents
    of its output on the way and at the end, exit status or exception. *)
Record tools := mkTools { has_ffmpeg : bool; decode : bytes -> result (nat * list (list R)); encode : list (list R) -> bytes;
  write_steps : list (option bytes); write_fails : option exn;
  mux_steps : list (option bytes); mux_final : option bytes; exit_status : result Z }.

(** A piece of program: states passed through, final state, outcome, viz/animation.py:301-376. *)
Definition prog := files -> list files * files * result unit.
(** viz/animation.py:301-376. *)
Definition ret : prog := fun w => ([], w, Ok tt).
(** viz/animation.py:301-376. *)
Definition fail (e : exn) : prog := fun w => ([], w, Err e).
(** viz/animation.py:301-376. *)
Definition step1 (f : files -> files) : prog := fun w => ([w], f w, Ok tt).
(** viz/animation.py:301-376. *)
Definition andthen (a b : prog) : prog := fun w =>
  match a w with
  | (t, w1, Err e) => (t, w1, Err e)
  | (t, w1, Ok _) => match b w1 with (t', w2, r) => (t ++ t', w2, r) end
  end.
(** viz/animation.py:301-376. *)
Definition when (c : files -> bool) (a : prog) : prog := fun w => if c w then a w else ret w.
(** Successive contents of one file, viz/animation.py:301-376. *)
Fixpoint contents (p : string) (l : list (option bytes)) : prog :=
  match l with [] => ret | c :: l' => andthen (step1 (put p c)) (contents p l') end.

(** [Path.stem], animation.py:341-342. *)
Definition stem (name : string) : string :=
  match last_dot name with Some (String c a, String _ _) => String c a | _ => name end.
(** viz/animation.py:341. *)
Definition tmp_audio (video : string) : string := stem video ++ "_tmp_audio.wav".
(** viz/animation.py:342. *)
Definition tmp_video (video : string) : string := stem video ++ "_tmp_mux.mp4".
(** [tmp_video.replace(video_path)], animation.py:371. *)
Definition replace_video (video : string) : prog := fun w =>
  match w (tmp_video video) with
  | None => fail FileNotFoundError w
  | Some c => step1 (fun w => put (tmp_video video) None (put video (Some c) w)) w
  end.
(** viz/animation.py:373-376. *)
Definition unlink_if (p : string) : prog := when (here p) (step1 (put p None)).
(** [_add_stereo_audio_to_mp4], animation.py:301-376. *)
Definition add_audio (e : tools) (video mixture : string) (l r : Z) : prog := fun w =>
  match w video, w mixture with
  | Some _, Some c =>
      if has_ffmpeg e then
        match decode e c with
        | Err x => fail x w
        | Ok (O, _) => ret w
        | Ok (n, rows) =>
            andthen (contents (tmp_audio video) (write_steps e))
              (andthen (match write_fails e with
                        | Some x => fail x
                        | None => step1 (put (tmp_audio video) (Some (encode e (stereo n l r rows)))) end)
                 (andthen (contents (tmp_video video) (mux_steps e))
                    (andthen (step1 (put (tmp_video video) (mux_final e)))
                       (andthen (match exit_status e with
                                 | Err x => fail x
                                 | Ok 0%Z => replace_video video
                                 | Ok _ => ret end)
                          (andthen (unlink_if (tmp_audio video)) (unlink_if (tmp_video video))))))) w
        end
      else ret w
  | _, _ => ret w
  end.
(** All states passed through, where an interruption may stop the run, and the last one, viz/animation.py:301-376. *)
Definition passed (x : list files * files * result unit) : list files := let '(t, w, _) := x in t ++ [w].
