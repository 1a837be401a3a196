(** Model of /repo/src/torchrir/viz/scene.py and viz/io.py: which shapes the scene plots contain
    and which files are written.

    Simplifications: matplotlib is the list of drawing calls it receives; line styles, titles,
    annotation lines and [show] are left out; corners of the room are exact numbers. *)
From Coq Require Import String List ZArith Reals Bool.
From Verif Require Import Prelude FloatModel DirModel.
Import ListNotations.
Local Open Scope R_scope.
Local Notation length := List.length.

(** ** Data *)

(** Positions (N, dim) and trajectories (T, N, dim), viz/scene.py:220-231, 261-266. *)
Record postab := mkPos { p_n : nat; p_dim : nat; p_row : nat -> list R }.
(** viz/scene.py:261-266. *)
Record trajectory := mkTraj { t_steps : nat; t_n : nat; t_dim : nat; t_at : nat -> nat -> list R }.
(** A tensor given as trajectory: with three dimensions or not, viz/scene.py:261-266. *)
Inductive traj_arg := TTraj (t : trajectory) | TOther.
(** Calls to matplotlib, viz/scene.py:151-362. *)
Inductive cmd :=
| CRect (w h : R)                                                     (* add_patch(Rectangle((0, 0), w, h)) *)
| CEdge (a b : list R)                                                (* black line of the room outline *)
| CLim (axis : nat) (lo hi : R)                                       (* set_xlim, set_ylim, set_zlim *)
| CLine (pts : list (list R)) (label color marker : string)           (* plot *)
| CScatter (pts : list (list R)) (label : string) (color : option string) (marker : string)
| CIndex (at_ : list R) (i : nat)                                     (* text "S<i>" *)
| CLegend.

(** ** Room *)

(** [_room_size], scene.py:140-148, with [ensure_dim], util/tensor.py:32-36. *)
Definition room_size (size : list R) : result (list R) :=
  if ((length size =? 2) || (length size =? 3))%nat then Ok size else Err ValueError.
(** scene.py:191-204: the lines between the corners. *)
Definition edges : list (nat * nat) :=
  [(0, 1); (1, 2); (2, 3); (3, 0); (4, 5); (5, 6); (6, 7); (7, 4); (0, 4); (1, 5); (2, 6); (3, 7)]%nat.
(** scene.py:178-190. *)
Definition corners (x y z : R) : list (list R) :=
  [[0; 0; 0]; [x; 0; 0]; [x; y; 0]; [0; y; 0]; [0; 0; z]; [x; 0; z]; [x; y; z]; [0; y; z]].
(** [_draw_room], [_draw_room_2d], [_draw_room_3d], scene.py:151-217. *)
Definition draw_room (size : list R) : list cmd :=
  match size with
  | [x; y] => [CRect x y; CLim 0 0 x; CLim 1 0 y]
  | [x; y; z] => map (fun e => CEdge (nth (fst e) (corners x y z) []) (nth (snd e) (corners x y z) [])) edges ++
                 [CLim 0 0 x; CLim 1 0 y; CLim 2 0 z]
  | _ => []
  end.

(** ** Entities *)

(** The coordinates handed to matplotlib, scene.py:246-258, 310-330, 359-362. *)
Definition coords (dim : nat) (p : list R) : result (list R) :=
  if (dim =? 2)%nat then Ok [nth 0 p 0; nth 1 p 0]
  else if (dim <? 3)%nat then Err IndexError
  else Ok [nth 0 p 0; nth 1 p 0; nth 2 p 0].
(** [_scatter_positions], scene.py:234-258. *)
Definition scatter (p : postab) (label : string) (color : option string) (marker : string) : result (list cmd) :=
  if (p_n p * p_dim p =? 0)%nat then Ok []
  else do pts <- mapM (fun i => coords (p_dim p) (p_row p i)) (seq 0 (p_n p)); Ok [CScatter pts label color marker].
(** [_is_moving], scene.py:343-348. *)
Definition is_moving (t : trajectory) (p : postab) : bool :=
  existsb (fun s => existsb (fun i => Rltb (/ 10 ^ 6) (vnorm (map2 Rminus (t_at t s i) (p_row p i)))) (seq 0 (t_n t)))
          (seq 0 (t_steps t)).
(** Indices of [traj[::step]], scene.py:311, 321; a step that is not positive raises in torch. *)
Definition strided (n : nat) (step : Z) : result (list nat) :=
  if (step <=? 0)%Z then Err ValueError
  else Ok (map (fun k => k * Z.to_nat step)%nat (seq 0 ((n + Z.to_nat step - 1) / Z.to_nat step))).
(** [palette], scene.py:288-294. *)
Definition palette (pal : list string) : list string :=
  match pal with [] => ["C0"; "C1"; "C2"; "C3"; "C4"; "C5"]%string | _ => pal end.
(** [entity_colors[idx]], scene.py:296-303. *)
Definition entity_color (pal : list string) (color : option string) (uniform : bool) (i : nat) : string :=
  match color with
  | Some c => c
  | None => if uniform then nth 0 (palette pal) ""%string else nth (i mod length (palette pal)) (palette pal) ""%string
  end.
(** One round of the loop of [_plot_entity], scene.py:306-332. *)
Definition plot_item (t : trajectory) (p : postab) (moving : bool) (step : Z) (label marker color : string) (i : nat) : result (list cmd) :=
  let lbl := if (i =? 0)%nat then label else "_nolegend_"%string in
  do line <- (if moving then
                do idx <- strided (t_steps t) step;
                do pts <- mapM (fun s => coords (t_dim t) (t_at t s i)) idx;
                Ok [CLine pts lbl color marker]
              else Ok []);
  do dot <- scatter (mkPos (Nat.min 1 (p_n p - i)) (p_dim p) (fun k => p_row p (i + k))) "_nolegend_" (Some color) marker;
  Ok (line ++ dot).
(** [_plot_entity], scene.py:269-340. *)
Definition plot_entity (pal : list string) (t : trajectory) (p : postab) (step : Z) (label marker : string)
    (color : option string) (uniform : bool) : result (list cmd) :=
  if (t_steps t * t_n t * t_dim t =? 0)%nat then Ok []
  else
    let p := if ((p_n p =? t_n t) && (p_dim p =? t_dim t))%nat then p else mkPos (t_n t) (t_dim t) (t_at t 0) in
    let moving := is_moving t p in
    do items <- mapM (fun i => plot_item t p moving step label marker (entity_color pal color uniform i) i) (seq 0 (t_n t));
    do last <- (if moving then Ok []
                else scatter (mkPos (Nat.min 1 (p_n p)) (p_dim p) (p_row p)) label (Some (entity_color pal color uniform 0)) marker);
    Ok (concat items ++ last).
(** [_annotate_source_indices], scene.py:351-362. *)
Definition annotate (p : postab) : result (list cmd) :=
  if (p_n p * p_dim p =? 0)%nat then Ok []
  else mapM (fun i => do c <- coords (p_dim p) (p_row p i); Ok (CIndex c i)) (seq 0 (p_n p)).

(** ** Scenes *)

(** scene.py:14. *)
Definition mic_color : string := "tab:orange".
(** [plot_scene_static], scene.py:17-58. *)
Definition plot_scene_static (room : list R) (src mic : postab) (indices : bool) : result (list cmd) :=
  do size <- room_size room;
  do a <- scatter src "sources" None "^";
  do b <- scatter mic "mics" (Some mic_color) "o";
  do c <- (if indices then annotate src else Ok []);
  Ok (draw_room size ++ a ++ b ++ c ++ [CLegend]).
(** [_as_trajectory], scene.py:261-266. *)
Definition as_trajectory (a : traj_arg) : result trajectory := match a with TTraj t => Ok t | TOther => Err ValueError end.
(** [... if pos is not None else traj[0]], scene.py:95-96. *)
Definition start_positions (pos : option postab) (t : trajectory) : result postab :=
  match pos with
  | Some p => Ok p
  | None => if (t_steps t =? 0)%nat then Err IndexError else Ok (mkPos (t_n t) (t_dim t) (t_at t 0))
  end.
(** [plot_scene_dynamic], scene.py:61-118. *)
Definition plot_scene_dynamic (pal : list string) (room : list R) (src mic : traj_arg) (step : Z) (src_pos mic_pos : option postab)
    (indices : bool) : result (list cmd) :=
  do size <- room_size room;
  do ts <- as_trajectory src;
  do tm <- as_trajectory mic;
  do ps <- start_positions src_pos ts;
  do pm <- start_positions mic_pos tm;
  do a <- plot_entity pal ts ps step "sources" "^" None false;
  do b <- plot_entity pal tm pm step "mics" "o" (Some mic_color) true;
  do c <- (if indices then annotate ps else Ok []);
  Ok (draw_room size ++ a ++ b ++ c ++ [CLegend]).

(** ** Files, viz/io.py *)

(** [x[:, :k]] and [x[:, :, :k]], io.py:58-59, 78-79. *)
Definition cut_pos (k : nat) (p : postab) : postab := mkPos (p_n p) (Nat.min k (p_dim p)) (fun i => firstn k (p_row p i)).
(** viz/io.py:78-79. *)
Definition cut_traj (k : nat) (t : trajectory) : trajectory :=
  mkTraj (t_steps t) (t_n t) (Nat.min k (t_dim t)) (fun s i => firstn k (t_at t s i)).
(** What is in the file system and the log after a call, io.py:22-347: pictures saved, with their
    drawing, and lines logged. *)
Inductive ev := EMkdir | ESaved (file : string) (drawing : list cmd) | EInfo (file : string) | EWarn.
(** A call that leaves traces before it returns or raises, viz/io.py:22-347. *)
Definition traced (A : Type) : Type := list ev * result A.
(** viz/io.py:22-347. *)
Definition tret {A} (a : A) : traced A := ([], Ok a).
(** viz/io.py:22-347. *)
Definition tbind {A B} (m : traced A) (f : A -> traced B) : traced B :=
  match m with (t, Ok a) => let '(t', r) := f a in (t ++ t', r) | (t, Err e) => (t, Err e) end.
(** viz/io.py:22-347. *)
Definition lift {A} (r : result A) : traced A := ([], r).
(** [_save_axes], utils.py:74-84; [disk] tells whether the picture can be written. *)
Definition save_axes (disk : string -> option exn) (file : string) (c : list cmd) : traced unit :=
  match disk file with Some e => ([], Err e) | None => ([ESaved file c], Ok tt) end.
(** [_traj_steps], utils.py:52-59 ([None]: not given). *)
Definition traj_steps (src mic : option traj_arg) (len : traj_arg -> nat) : nat :=
  match src with Some a => len a | None => match mic with Some a => len a | None => 0 end end.
(** [_trajectory_to_cpu], utils.py:62-71. *)
Definition trajectory_to_cpu (t : option traj_arg) (p : postab) (steps : nat) : result trajectory :=
  match t with
  | None => Ok (mkTraj steps (p_n p) (p_dim p) (fun _ => p_row p))
  | Some TOther => Err ValueError
  | Some (TTraj t) => Ok t
  end.
(** First dimension of a trajectory argument (of another tensor: any number), utils.py:52-59. *)
Definition arg_len (other : nat) (a : traj_arg) : nat := match a with TTraj t => t_steps t | TOther => other end.
(** [f"{prefix}_static_{view}d.png"], io.py:70, 92. *)
Definition view_file (prefix kind : string) (view : nat) : string :=
  (prefix ++ "_" ++ kind ++ "_" ++ (if (view =? 2)%nat then "2" else "3") ++ "d.png")%string.
(** One round of the loop of [render_scene_plots], io.py:50-94; the state are the two
    trajectory variables, which the loop overwrites. *)
Definition render_view (pal : list string) (disk : string -> option exn) (other : nat) (room : list R) (sp mp : postab) (prefix : string) (step : Z)
    (indices : bool) (view : nat) (st : option traj_arg * option traj_arg) :
    traced ((option traj_arg * option traj_arg) * (list string * list string)) :=
  tbind (lift (plot_scene_static (firstn view room) (cut_pos view sp) (cut_pos view mp) indices)) (fun drawing =>
  tbind (save_axes disk (view_file prefix "static" view) drawing) (fun _ =>
  match st with
  | (None, None) => tret (st, ([view_file prefix "static" view], []))
  | (src, mic) =>
      let steps := traj_steps src mic (arg_len other) in
      tbind (lift (trajectory_to_cpu src sp steps)) (fun ts =>
      tbind (lift (trajectory_to_cpu mic mp steps)) (fun tm =>
      tbind (lift (plot_scene_dynamic pal (firstn view room) (TTraj (cut_traj view ts)) (TTraj (cut_traj view tm)) step
                     (Some (cut_pos view sp)) (Some (cut_pos view mp)) indices)) (fun drawing' =>
      tbind (save_axes disk (view_file prefix "dynamic" view) drawing') (fun _ =>
      tret ((Some (TTraj ts), Some (TTraj tm)), ([view_file prefix "static" view], [view_file prefix "dynamic" view]))))))
  end)).
(** The views that are drawn, io.py:50-56. *)
Definition views (dim : nat) (two three : bool) : list nat :=
  (if two && (2 <=? dim)%nat then [2%nat] else []) ++ (if three && (3 <=? dim)%nat then [3%nat] else []).
(** The loop of [render_scene_plots], io.py:50-96. *)
Fixpoint render_views (pal : list string) (disk : string -> option exn) (other : nat) (room : list R) (sp mp : postab) (prefix : string) (step : Z)
    (indices : bool) (vs : list nat) (st : option traj_arg * option traj_arg) : traced (list string * list string) :=
  match vs with
  | [] => tret ([], [])
  | v :: vs' =>
      tbind (render_view pal disk other room sp mp prefix step indices v st) (fun r =>
      let '(st', (a, b)) := r in
      tbind (render_views pal disk other room sp mp prefix step indices vs' st') (fun r' =>
      tret (a ++ fst r', b ++ snd r')))
  end.
(** [render_scene_plots], io.py:22-96 (positions already of two dimensions, utils.py:43-49). *)
Definition render_scene_plots (pal : list string) (disk : string -> option exn) (other : nat) (room : list R) (sp mp : postab)
    (src mic : option traj_arg) (prefix : string) (step : Z) (indices two three : bool) : traced (list string * list string) :=
  tbind ([EMkdir], Ok tt) (fun _ =>
  render_views pal disk other room sp mp prefix step indices (views (length room) two three) (src, mic)).
(** [save_scene_plots], io.py:99-134. *)
Definition save_scene_plots (pal : list string) (disk : string -> option exn) (other : nat) (room : list R) (sp mp : postab)
    (src mic : option traj_arg) (prefix : string) (indices two three : bool) : list ev :=
  match render_scene_plots pal disk other room sp mp src mic prefix 1 indices two three with
  | (t, Ok (a, b)) => t ++ map EInfo (a ++ b)
  | (t, Err _) => t ++ [EWarn]
  end.
(** One picture of [save_scene_layout_images], io.py:293-318, 320-345. *)
Definition layout_image (pal : list string) (disk : string -> option exn) (room : list R) (sp mp : postab)
    (tr : option (trajectory * trajectory)) (indices : bool) (view : nat) (file : string) : traced unit :=
  tbind (lift match tr with
              | Some (ts, tm) => plot_scene_dynamic pal (firstn view room) (TTraj (cut_traj view ts)) (TTraj (cut_traj view tm)) 1
                                   (Some (cut_pos view sp)) (Some (cut_pos view mp)) indices
              | None => plot_scene_static (firstn view room) (cut_pos view sp) (cut_pos view mp) indices
              end) (fun drawing =>
  tbind (save_axes disk file drawing) (fun _ => ([EInfo file], Ok tt))).
(** The trajectories to draw, io.py:284-290. *)
Definition layout_tracks (other : nat) (sp mp : postab) (src mic : option traj_arg) : traced (option (trajectory * trajectory)) :=
  match src, mic with
  | None, None => tret None
  | _, _ => let steps := traj_steps src mic (arg_len other) in
            tbind (lift (trajectory_to_cpu src sp steps)) (fun ts =>
            tbind (lift (trajectory_to_cpu mic mp steps)) (fun tm => tret (Some (ts, tm))))
  end.
(** The [try] block of [save_scene_layout_images], io.py:275-345. *)
Definition layout_body (pal : list string) (disk : string -> option exn) (other : nat) (room : list R) (sp mp : postab)
    (src mic : option traj_arg) (indices two three : bool) : traced unit :=
  tbind ([EMkdir], Ok tt) (fun _ =>
  tbind (layout_tracks other sp mp src mic) (fun tr =>
  tbind (if two && (2 <=? length room)%nat then layout_image pal disk room sp mp tr indices 2 "room_layout_2d.png" else tret tt) (fun _ =>
  if three && (3 <=? length room)%nat then layout_image pal disk room sp mp tr indices 3 "room_layout_3d.png" else tret tt))).
(** [save_scene_layout_images], io.py:261-347. *)
Definition save_scene_layout_images (pal : list string) (disk : string -> option exn) (other : nat) (room : list R) (sp mp : postab)
    (src mic : option traj_arg) (indices two three : bool) : list ev :=
  match layout_body pal disk other room sp mp src mic indices two three with (t, Ok _) => t | (t, Err _) => t ++ [EWarn] end.

(** ** Animations, viz/io.py *)

(** Arguments of one animation that differ between the calls, animation.py:33-137: file, picture
    of the plane, picture of the space, frame rate. *)
Record request := mkReq { q_file : string; q_2d : bool; q_3d : bool; q_fps : option R; q_sound : option string }.
(** What happened: a call of the animation functions, a log line, io.py:137-258. *)
Inductive aev := ARender (q : request) | AInfo (file : string) | AWarn.
(** One call followed by its log line, io.py:154-169, 216-236; [run] is the outcome of the
    animation function (its own behaviour is the subject of C66, C67, C70, C71). *)
Definition rendered (run : request -> option exn) (q : request) : list aev * bool :=
  match run q with Some _ => ([ARender q], false) | None => ([ARender q; AInfo (q_file q)], true) end.
(** The [try] block around at most two calls, io.py:154-189, 216-258. *)
Definition try_renders (run : request -> option exn) (first : request) (second : option request) : list aev :=
  let '(a, ok) := rendered run first in
  if ok then
    match second with
    | None => a
    | Some q => let '(b, ok') := rendered run q in a ++ b ++ (if ok' then [] else [AWarn])
    end
  else a ++ [AWarn].
(** [save_scene_gifs], io.py:137-189. *)
Definition save_scene_gifs (run : request -> option exn) (room_numel : nat) (prefix : string) (gif_fps : Z) : list aev :=
  let fps := if (0 <? gif_fps)%Z then Some (IZR gif_fps) else None in
  try_renders run (mkReq (prefix ++ ".gif") true false fps None)
    (if (room_numel =? 3)%nat then Some (mkReq (prefix ++ "_3d.gif") false true fps None) else None).
(** [save_scene_videos], io.py:192-258. *)
Definition save_scene_videos (run : request -> option exn) (room_numel : nat) (fps : option R) (save_3d : bool)
    (mixture : option string) (mux : bool) : list aev :=
  let sound := if mux then mixture else None in
  try_renders run (mkReq "room_layout_2d.mp4" true false fps sound)
    (if (room_numel =? 3)%nat && save_3d then Some (mkReq "room_layout_3d.mp4" false true fps sound) else None).
