(** Lemmas about the complete simulation functions. *)
From Coq Require Import String List ZArith Reals Lia Lra Bool Permutation.
From Verif Require Import Prelude PreludeFacts SignalModel FloatModel DirModel ImageModel ImageSpec AcousticModel
  AccumModel IsmModel IsmSpec ImageProofs AccumProofs IsmProofs.
Import ListNotations.
Local Open Scope R_scope.
Local Notation length := List.length.

(** Case analysis on the first sub-computation that may raise, on both sides of an equation. *)
Ltac bcase := match goal with
  | |- bind ?r _ = _ => let E := fresh "E" in destruct r eqn:E; cbn [bind]; [|try reflexivity]
  end.
Ltac bcase_in H := match type of H with
  | bind ?r _ = Ok _ => let E := fresh "E" in destruct r eqn:E; cbn [bind] in H; [|discriminate]
  end.

Definition static_closed (dev : device_type) (c : config) (nsample : nat)
    (src mic : list (list R)) (size : list R) (fs cc : R) (n_vec : list (list Z)) (beta : list R)
    (sp mp : string) (sd md : option (list (list R))) : result (list xr) :=
  do gs <- side_of sp sd;
  do gm <- side_of mp md;
  if negb (dirs_fit gs (length src) && dirs_fit gm (length mic)) then Err RuntimeError
  else if (length src * length mic =? 0)%nat then Err RuntimeError
  else Ok (flat_map (fun s => flat_map (fun m =>
        map (pair_response dev c fs cc beta size n_vec (src_gain gs s) (mic_gain gm m)
              (nth s src []) (nth m mic [])) (seq 0 nsample))
        (seq 0 (length mic))) (seq 0 (length src))).

Lemma resolve_config_cases cfg mo tmax dir c N tm d : resolve_config cfg mo tmax dir = Ok (c, N, tm, d) ->
  cfg_validate c = Ok tt /\
  (cfg = Some c \/ cfg = None /\ c = default_config_value) /\
  (mo = Some N \/ mo = None /\ cfg_max_order c = Some N) /\
  tm = match tmax with Some t => Some t | None => cfg_tmax c end.
Proof.
  unfold resolve_config. intros H. bcase_in H. bcase_in H. bcase_in H. injection H as -> <- <- <-.
  destruct a0. split; auto. split.
  - destruct cfg; [injection E as ->; auto|]. right. split; auto. unfold default_config in E.
    destruct (cfg_validate default_config_value); cbn in E; congruence.
  - split; auto. destruct mo; [injection E1 as ->; auto|]. right. split; auto.
    destruct (cfg_max_order c); congruence.
Qed.
Lemma validate_args_pos fs ns tmax N n : validate_args fs ns tmax N = Ok n -> (0 < n)%Z /\ (0 <= N)%Z.
Proof.
  unfold validate_args. intros H. bcase_in H. clear E.
  destruct (Z.leb_spec a 0); [discriminate|]. destruct (Z.ltb_spec N 0); [discriminate|].
  injection H as ->. auto.
Qed.
Lemma indices_nonempty N dim nb l : (0 <= N)%Z -> image_source_indices N dim nb = Ok l -> l <> [].
Proof.
  intros HN H. destruct nb as [nb|].
  - destruct (Nat.eq_dec (length nb) dim) as [Hd|Hd].
    + destruct (Forall_Exists_dec (fun n => (0 <= n)%Z) (fun n => Z_le_dec 0 n) nb) as [F|F].
      * destruct (indices_box N dim nb Hd F) as (l' & E & _ & I). rewrite E in H. injection H as <-.
        intros ->. apply (in_nil (a := map (fun _ => 0%Z) nb)). apply I.
        clear -F. induction F; cbn; constructor; auto; lia.
      * rewrite indices_box_negative in H; [discriminate|auto|].
        eapply Exists_impl; [|exact F]. intros; cbv beta in *; lia.
    + rewrite indices_box_reject in H by auto. discriminate.
  - destruct (indices_order N dim HN) as (l' & E & _ & I). rewrite E in H. injection H as <-.
    intros ->. apply (in_nil (a := repeat 0%Z dim)). apply I. rewrite repeat_length. split; auto.
    clear -HN. induction dim; cbn; auto.
Qed.

(** [simulate_rir] with the image loop replaced by its closed form. *)
Lemma simulate_rir_closed X dev r sources mics max_order nb_img nsample tmax tdiff dir ori cfg :
  r_fs r <> 0 ->
  simulate_rir X dev r sources mics max_order nb_img nsample tmax tdiff dir ori cfg =
  do (cfg, max_order, tmax, dir) <- resolve_config cfg max_order tmax dir;
  do ns <- validate_args (r_fs r) nsample tmax max_order;
  let nsample := Z.to_nat ns in
  do (src_pos, mic_pos, src_ori, mic_ori, size, dim) <- prepare_static r sources mics ori;
  do _ <- validate_pos_shapes src_pos mic_pos dim;
  do beta <- resolve_beta r;
  do beta <- validate_beta beta dim;
  do n_vec <- image_source_indices max_order dim nb_img;
  do (sp, mp) <- split_directivity dir;
  do md <- mic_directions mp mic_ori dim;
  let src := trows src_pos in
  let mic := trows mic_pos in
  do sd <- src_directions sp src_ori dim (length src);
  do rir <- static_closed dev cfg nsample src mic size (r_fs r) (r_c r) n_vec beta sp mp sd md;
  let rows := (length src * length mic)%nat in
  do rir <- (match tdiff, tmax with
             | Some td, Some tm =>
                 if Rlt_dec td tm
                 then apply_diffuse_tail (x_randn X) rows nsample rir r beta td (cfg_seed cfg)
                 else Ok rir
             | _, _ => Ok rir
             end);
  do rir <- apply_rir_hpf (x_design X) (x_filt X) rows nsample rir (r_fs r) cfg;
  Ok (mkX [length src; length mic; nsample] rir).
Proof.
  intros Hfs. unfold simulate_rir.
  bcase. destruct a as [[[c N] tm] d]. bcase. cbv zeta.
  bcase. destruct a0 as [[[[[sp0 mp0] so] mo] size] dim].
  bcase. bcase. bcase. bcase. bcase. destruct a4 as [sp mp]. bcase. bcase.
  apply resolve_config_cases in E as (Ev & _). apply validate_args_pos in E0 as (_ & HN).
  rewrite (static_loop_eq dev c (Z.to_nat a)); [reflexivity| |auto|].
  - apply cfg_validate_ok; auto.
  - eapply indices_nonempty; eauto.
Qed.

(** ** Reading the output *)
Definition xget (t : xtensor) (idx : list nat) : xr := nth (ravel (xshape t) idx) (xdata t) None.
Lemma nth_rows2 {A} (f : nat -> nat -> nat -> A) S M n s m j d :
  (s < S)%nat -> (m < M)%nat -> (j < n)%nat ->
  nth ((s * M + m) * n + j) (flat_map (fun s => flat_map (fun m => map (f s m) (seq 0 n)) (seq 0 M)) (seq 0 S)) d
  = f s m j.
Proof.
  intros Hs Hm Hj. rewrite flat_map_pairs. rewrite nth_flat_rows with (n := n).
  - rewrite nth_map_seq by auto. f_equal.
    + rewrite Nat.add_comm, Nat.div_add, Nat.div_small by lia. lia.
    + rewrite Nat.add_comm, Nat.mod_add, Nat.mod_small by lia. lia.
  - intros. rewrite map_length, seq_length. auto.
  - nia.
  - auto.
Qed.
Lemma length_rows2 {A} (f : nat -> nat -> nat -> A) S M n :
  length (flat_map (fun s => flat_map (fun m => map (f s m) (seq 0 n)) (seq 0 M)) (seq 0 S)) = (S * M * n)%nat.
Proof.
  rewrite flat_map_pairs. apply length_flat_rows. intros. rewrite map_length, seq_length. auto.
Qed.
Lemma xget_rows2 (f : nat -> nat -> nat -> xr) S M n s m j :
  (s < S)%nat -> (m < M)%nat -> (j < n)%nat ->
  xget (mkX [S; M; n] (flat_map (fun s => flat_map (fun m => map (f s m) (seq 0 n)) (seq 0 M)) (seq 0 S))) [s; m; j]
  = f s m j.
Proof.
  intros. unfold xget. cbn [xshape xdata ravel prodn fold_right].
  replace (s * (M * (n * 1)) + (m * (n * 1) + (j * 1 + 0)))%nat with ((s * M + m) * n + j)%nat by nia.
  apply nth_rows2; auto.
Qed.
Lemma trows_2d t S d : shape t = [S; d] -> trows t = map (fun i => block (i * d) d (data t)) (seq 0 S).
Proof. intros H. unfold trows. rewrite H. cbn [last removelast prodn fold_right]. rewrite Nat.mul_1_r. reflexivity. Qed.
Lemma length_trows_2d t S d : shape t = [S; d] -> length (trows t) = S.
Proof. intros H. rewrite (trows_2d t S d H), map_length, seq_length. reflexivity. Qed.

(** ** Omnidirectional, unfiltered simulation *)
Definition entity_pos (e : entity) : tensor := match e with EObj p _ => p | ETensor p => p end.
(** Row [i] of the positions of an entity. *)
Definition position (e : entity) (i : nat) : list R := nth i (trows (unsqueeze1 (entity_pos e))) [].
(** Number of rows. *)
Definition count (e : entity) : nat := nth 0 (shape (unsqueeze1 (entity_pos e))) 0%nat.
(** Admissible room and positions: 2-D or 3-D room, positive sampling rate, one coefficient
    per wall, non-empty (n, dim) positions. *)
Record scene (r : room) (srcs mics : entity) (dim : nat) (beta : list R) : Prop := {
  sc_dim : dim = 2%nat \/ dim = 3%nat;
  sc_size : shape (r_size r) = [dim]; sc_size_wf : wf (r_size r);
  sc_fs : 0 < r_fs r;
  sc_beta : resolve_beta r = Ok beta; sc_beta_len : length beta = (2 * dim)%nat;
  sc_src : shape (unsqueeze1 (entity_pos srcs)) = [count srcs; dim]; sc_src0 : (0 < count srcs)%nat;
  sc_mic : shape (unsqueeze1 (entity_pos mics)) = [count mics; dim]; sc_mic0 : (0 < count mics)%nat }.

Lemma scene_prepare r srcs mics dim beta ori : scene r srcs mics dim beta -> (ori = ONone) ->
  exists so mo, prepare_static r srcs mics ori =
    Ok (unsqueeze1 (entity_pos srcs), unsqueeze1 (entity_pos mics), so, mo, data (r_size r), dim).
Proof.
  intros H ->. unfold prepare_static, prepare_entities.
  assert (Ed : ensure_dim (r_size r) = Ok (r_size r)).
  { unfold ensure_dim, ndim, numel. rewrite (sc_size _ _ _ _ _ H). cbn.
    destruct (sc_dim _ _ _ _ _ H) as [-> | ->]; reflexivity. }
  assert (En : numel (r_size r) = dim).
  { unfold numel. rewrite (sc_size _ _ _ _ _ H). cbn. lia. }
  destruct srcs, mics; cbn [bind]; rewrite Ed; cbn [bind]; rewrite En; eauto.
Qed.
Lemma scene_shapes r srcs mics dim beta : scene r srcs mics dim beta ->
  validate_pos_shapes (unsqueeze1 (entity_pos srcs)) (unsqueeze1 (entity_pos mics)) dim = Ok tt.
Proof.
  intros H. unfold validate_pos_shapes, ndim.
  rewrite (sc_src _ _ _ _ _ H), (sc_mic _ _ _ _ _ H). cbn [List.length nth].
  rewrite !Nat.eqb_refl. reflexivity.
Qed.
Lemma scene_validate_beta r srcs mics dim beta : scene r srcs mics dim beta -> validate_beta beta dim = Ok beta.
Proof.
  intros H. unfold validate_beta. rewrite (sc_beta_len _ _ _ _ _ H).
  destruct (sc_dim _ _ _ _ _ H) as [-> | ->]; reflexivity.
Qed.
(** The value of the whole simulation for omnidirectional entities. *)
Definition omni_rir (dev : device_type) (c : config) (r : room) (beta : list R)
    (images : list (list Z)) (srcs mics : entity) (s m j : nat) : xr :=
  response (Z.to_nat (cfg_fdl c)) (the_kernel dev c) (r_fs r) (r_c r) (beta_pairs beta)
    (data (r_size r)) images unity unity (position srcs s) (position mics m) j.
Lemma simulate_omni X dev r srcs mics N nb n c dim beta images :
  scene r srcs mics dim beta -> cfg_validate c = Ok tt -> cfg_hpf_enable c = false ->
  (0 <= N)%Z -> (0 < n)%nat -> image_source_indices N dim nb = Ok images ->
  simulate_rir X dev r srcs mics (Some N) nb (Some (Z.of_nat n)) None None (Some (DName "omni")) ONone (Some c) =
  Ok (mkX [count srcs; count mics; n]
    (flat_map (fun s => flat_map (fun m => map (omni_rir dev c r beta images srcs mics s m) (seq 0 n))
       (seq 0 (count mics))) (seq 0 (count srcs)))).
Proof.
  intros H Hv Hh HN Hn Hi.
  rewrite simulate_rir_closed by (pose proof (sc_fs _ _ _ _ _ H); lra).
  unfold resolve_config. cbn [bind]. rewrite Hv. cbn [bind].
  unfold validate_args. cbn [bind]. destruct (Z.leb_spec (Z.of_nat n) 0); [lia|].
  destruct (Z.ltb_spec N 0); [lia|]. cbn [bind]. cbv zeta. rewrite Nat2Z.id.
  destruct (scene_prepare r srcs mics dim beta ONone H eq_refl) as (so & mo & Ep). rewrite Ep. cbn [bind].
  rewrite (scene_shapes _ _ _ _ _ H). cbn [bind]. rewrite (sc_beta _ _ _ _ _ H). cbn [bind].
  rewrite (scene_validate_beta _ _ _ _ _ H). cbn [bind]. rewrite Hi. cbn [bind].
  cbn [split_directivity bind]. unfold mic_directions, src_directions.
  change (String.eqb "omni" "omni") with true. cbn [bind].
  unfold static_closed, side_of. change (String.eqb "omni" "omni") with true. cbn [bind dirs_fit andb negb].
  rewrite (length_trows_2d _ _ _ (sc_src _ _ _ _ _ H)), (length_trows_2d _ _ _ (sc_mic _ _ _ _ _ H)).
  pose proof (sc_src0 _ _ _ _ _ H). pose proof (sc_mic0 _ _ _ _ _ H).
  destruct (Nat.eqb_spec (count srcs * count mics) 0); [nia|]. cbn [bind].
  unfold apply_rir_hpf. rewrite Hh. cbn [negb bind]. reflexivity.
Qed.
