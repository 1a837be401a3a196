(** Independence of chunk sizes, prefixes, independence of pairs and of time steps. *)
From Coq Require Import String List ZArith Reals Lia Lra Bool Permutation.
From Verif Require Import Prelude PreludeFacts SignalModel FloatModel DirModel ImageModel ImageSpec AcousticModel
  AccumModel IsmModel IsmSpec ImageProofs AccumProofs IsmProofs SimProofs SimMore.
Import ListNotations.
Local Open Scope R_scope.
Local Notation length := List.length.

(** ** Chunk sizes *)
Definition with_chunks (c : config) (img acc : Z) : config :=
  mkConfig (cfg_fs c) (cfg_max_order c) (cfg_tmax c) (cfg_directivity c) (cfg_device c) (cfg_seed c)
    (cfg_use_lut c) (cfg_mixed_precision c) (cfg_fdl c) (cfg_gran c) img acc (cfg_use_compile c)
    (cfg_hpf_enable c) (cfg_hpf_fc c) (cfg_hpf_n c).
Lemma validate_with_chunks c a b : (0 < a)%Z -> (0 < b)%Z -> (0 < cfg_img_chunk c)%Z -> (0 < cfg_acc_chunk c)%Z ->
  cfg_validate (with_chunks c a b) = cfg_validate c.
Proof.
  intros. unfold cfg_validate, with_chunks; cbn.
  repeat match goal with |- context [(?x <=? 0)%Z] => destruct (Z.leb_spec x 0); [try lia|]; cbn end;
  try reflexivity; try lia.
Qed.
Lemma chunk_invariance X dev r sources mics mo nb ns tmax tdiff dir ori c a b :
  r_fs r <> 0 -> (0 < a)%Z -> (0 < b)%Z -> (0 < cfg_img_chunk c)%Z -> (0 < cfg_acc_chunk c)%Z ->
  simulate_rir X dev r sources mics mo nb ns tmax tdiff dir ori (Some (with_chunks c a b)) =
  simulate_rir X dev r sources mics mo nb ns tmax tdiff dir ori (Some c).
Proof.
  intros. rewrite !simulate_rir_closed by auto. unfold resolve_config. cbn [bind].
  rewrite validate_with_chunks by auto. destruct (cfg_validate c); cbn [bind]; [|reflexivity].
  cbn [with_chunks cfg_max_order cfg_tmax cfg_directivity].
  destruct mo as [N|]; [|destruct (cfg_max_order c) as [N|]; cbn [bind]; [|reflexivity]]; cbn [bind]; reflexivity.
Qed.
(** Closed form of the dynamic simulation. *)
Definition dynamic_closed (dev : device_type) (c : config) (nsample steps : nat)
    (src mic : nat -> list (list R)) (n_src n_mic : nat) (size : list R) (fs cc : R)
    (n_vec : list (list Z)) (beta : list R) (sp mp : string)
    (sd md : option (list (list R))) : result (list xr) :=
  do gs <- side_of sp sd;
  do gm <- side_of mp md;
  if negb (dirs_fit gs n_src && dirs_fit gm n_mic) then Err RuntimeError
  else if (steps * n_src * n_mic =? 0)%nat then Err RuntimeError
  else Ok (flat_map (fun t => flat_map (fun s => flat_map (fun m =>
        map (pair_response dev c fs cc beta size n_vec (src_gain gs s) (mic_gain gm m)
              (nth s (src t) []) (nth m (mic t) [])) (seq 0 nsample))
        (seq 0 n_mic)) (seq 0 n_src)) (seq 0 steps)).
Lemma simulate_dynamic_closed X dev r src_traj mic_traj max_order nb_img nsample tmax dir ori cfg :
  r_fs r <> 0 ->
  simulate_dynamic_rir X dev r src_traj mic_traj max_order nb_img nsample tmax dir ori cfg =
  do (cfg, max_order, tmax, dir) <- resolve_config cfg max_order tmax dir;
  do ns <- validate_args (r_fs r) nsample tmax max_order;
  let nsample := Z.to_nat ns in
  do (src, mic, src_ori, mic_ori, size, dim) <- prepare_dynamic r src_traj mic_traj ori;
  do _ <- validate_traj_shapes src mic dim;
  do beta <- resolve_beta r;
  do beta <- validate_beta beta dim;
  do n_vec <- image_source_indices max_order dim nb_img;
  do (sp, mp) <- split_directivity dir;
  do md <- mic_directions mp mic_ori dim;
  let steps := nth 0 (shape src) 0%nat in
  let n_src := nth 1 (shape src) 0%nat in
  let n_mic := nth 1 (shape mic) 0%nat in
  do sd <- src_directions sp src_ori dim n_src;
  do rirs <- dynamic_closed dev cfg nsample steps (step_rows src) (step_rows mic) n_src n_mic
               size (r_fs r) (r_c r) n_vec beta sp mp sd md;
  do rirs <- apply_rir_hpf (x_design X) (x_filt X) (steps * n_src * n_mic)%nat nsample rirs
               (r_fs r) cfg;
  Ok (mkX [steps; n_src; n_mic; nsample] rirs).
Proof.
  intros Hfs. unfold simulate_dynamic_rir.
  bcase. destruct a as [[[c N] tm] d]. bcase. cbv zeta.
  bcase. destruct a0 as [[[[[sp0 mp0] so] mo] size] dim].
  bcase. bcase. bcase. bcase. bcase. destruct a4 as [sp mp]. bcase. bcase.
  apply resolve_config_cases in E as (Ev & _). apply validate_args_pos in E0 as (_ & HN).
  rewrite dynamic_loop_eq; [reflexivity| |auto|].
  - apply cfg_validate_ok; auto.
  - eapply indices_nonempty; eauto.
Qed.
Lemma chunk_invariance_dynamic X dev r src mic mo nb ns tmax dir ori c a b :
  r_fs r <> 0 -> (0 < a)%Z -> (0 < b)%Z -> (0 < cfg_img_chunk c)%Z -> (0 < cfg_acc_chunk c)%Z ->
  simulate_dynamic_rir X dev r src mic mo nb ns tmax dir ori (Some (with_chunks c a b)) =
  simulate_dynamic_rir X dev r src mic mo nb ns tmax dir ori (Some c).
Proof.
  intros. rewrite !simulate_dynamic_closed by auto. unfold resolve_config. cbn [bind].
  rewrite validate_with_chunks by auto. destruct (cfg_validate c); cbn [bind]; [|reflexivity].
  cbn [with_chunks cfg_max_order cfg_tmax cfg_directivity].
  destruct mo as [N|]; [|destruct (cfg_max_order c) as [N|]; cbn [bind]; [|reflexivity]]; cbn [bind]; reflexivity.
Qed.

(** ** Prefixes *)
Lemma prefix_simulation X dev r sources mics mo nb K k tmax dir ori c T :
  r_fs r <> 0 -> cfg_hpf_enable c = false -> (0 < k <= K)%nat ->
  simulate_rir X dev r sources mics mo nb (Some (Z.of_nat K)) tmax None dir ori (Some c) = Ok T ->
  exists T' S M, simulate_rir X dev r sources mics mo nb (Some (Z.of_nat k)) tmax None dir ori (Some c) = Ok T' /\
    xshape T = [S; M; K] /\ xshape T' = [S; M; k] /\
    forall s m j, (s < S)%nat -> (m < M)%nat -> (j < k)%nat -> xget T' [s; m; j] = xget T [s; m; j].
Proof.
  intros Hfs Hh Hk H. rewrite simulate_rir_closed in H by auto. rewrite simulate_rir_closed by auto.
  bcase_in H. destruct a as [[[c' N] tm] d]. cbn [bind].
  assert (c' = c). { apply resolve_config_cases in E as (_ & [E|[E _]] & _); congruence. } subst c'. clear E.
  unfold validate_args in *. cbn [bind] in *.
  destruct (Z.leb_spec (Z.of_nat K) 0); [discriminate|]. destruct (Z.leb_spec (Z.of_nat k) 0); [lia|].
  destruct (Z.ltb_spec N 0); [discriminate|]. cbn [bind] in *. cbv zeta in *. rewrite Nat2Z.id in *.
  bcase_in H. destruct a as [[[[[sp0 mp0] so] mo'] size] dim]. cbn [bind].
  bcase_in H. bcase_in H. cbn [bind]. bcase_in H. cbn [bind]. bcase_in H. cbn [bind].
  bcase_in H. destruct a3 as [sp mp]. cbn [bind]. bcase_in H. cbn [bind]. bcase_in H. cbn [bind].
  unfold static_closed in *. bcase_in H. bcase_in E7. bcase_in E7. cbn [bind].
  destruct (negb _); [discriminate|]. destruct (_ =? 0)%nat; [discriminate|]. injection E7 as <-.
  cbn [bind] in *. unfold apply_rir_hpf in *. rewrite Hh in *. cbn [negb bind] in *. injection H as <-.
  do 3 eexists. split; [reflexivity|]. cbn [xshape]. split; [reflexivity|]. split; [reflexivity|].
  intros s m j Hs Hm Hj. rewrite !xget_rows2 by lia. reflexivity.
Qed.

(** ** Row-wise filtering *)
Definition filt_length (X : externals) : Prop :=
  forall s row out, x_filt X s row = Ok out -> length out = length row.
Lemma mapM_app {A B} (f : A -> result B) l1 l2 :
  mapM f (l1 ++ l2) = do a <- mapM f l1; do b <- mapM f l2; Ok (a ++ b).
Proof.
  induction l1; cbn [app mapM]; [destruct (mapM f l2); reflexivity|].
  destruct (f a); cbn [bind]; auto. rewrite IHl1. destruct (mapM f l1); cbn [bind]; auto.
  destruct (mapM f l2); cbn [bind]; auto.
Qed.
Lemma mapM_map {A B C} (g : A -> B) (f : B -> result C) l : mapM f (map g l) = mapM (fun x => f (g x)) l.
Proof. induction l; cbn [map mapM]; auto. rewrite IHl. reflexivity. Qed.
Lemma mapM_ext_in {A B} (f g : A -> result B) l : (forall x, In x l -> f x = g x) -> mapM f l = mapM g l.
Proof. induction l; cbn [mapM]; intros H; auto. rewrite H, IHl by (cbn in *; auto). reflexivity. Qed.
Lemma length_concat_rows {A} (l : list (list A)) n : Forall (fun r => length r = n) l -> length (concat l) = (length l * n)%nat.
Proof. induction 1; cbn; auto. rewrite app_length, IHForall. lia. Qed.
Lemma skipn_twice {A} a b (l : list A) : skipn b (skipn a l) = skipn (a + b) l.
Proof. revert l. induction a; intros [|x l]; cbn [skipn Nat.add]; auto. destruct b; auto. Qed.
Lemma block_block {A} a n b k (l : list A) : (b + k <= n)%nat -> block b k (block a n l) = block (a + b) k l.
Proof.
  intros H. unfold block. rewrite skipn_firstn_comm, skipn_twice, firstn_firstn.
  f_equal. lia.
Qed.
Lemma block_app_mid {A} (a b c : list A) : block (length a) (length b) (a ++ b ++ c) = b.
Proof.
  unfold block. rewrite skipn_app, skipn_all, Nat.sub_diag. cbn [app skipn].
  rewrite firstn_app, Nat.sub_diag, firstn_all, firstn_O, app_nil_r. reflexivity.
Qed.
Lemma seq_shift_by a n : seq a n = map (fun i => (a + i)%nat) (seq 0 n).
Proof.
  revert a. induction n; intros a; auto. rewrite seq_S, IHn, (seq_S n 0), map_app. reflexivity.
Qed.
Lemma rows_out X s n rows rir os : filt_length X -> length rir = (rows * n)%nat ->
  forall a k, (a + k <= rows)%nat ->
  mapM (fun i => x_filt X s (block (i * n) n rir)) (seq a k) = Ok os ->
  length os = k /\ Forall (fun r => length r = n) os.
Proof.
  intros HX Hl a k Hk H. pose proof (mapM_length _ _ _ H) as L. rewrite seq_length in L. split; auto.
  apply Forall_forall. intros r Hr. apply In_nth with (d := []) in Hr as (i & Hi & <-).
  pose proof (mapM_nth _ _ _ i 0%nat [] H ltac:(rewrite seq_length; lia)) as E.
  rewrite seq_nth in E by lia. apply HX in E. rewrite E. apply length_block. rewrite Hl. nia.
Qed.
Lemma hpf_rows X rows n rir fs c out : filt_length X -> length rir = (rows * n)%nat ->
  apply_rir_hpf (x_design X) (x_filt X) rows n rir fs c = Ok out ->
  length out = (rows * n)%nat /\
  forall a k, (a + k <= rows)%nat ->
    apply_rir_hpf (x_design X) (x_filt X) k n (block (a * n) (k * n) rir) fs c =
    Ok (block (a * n) (k * n) out).
Proof.
  intros HX Hl H. unfold apply_rir_hpf in *. destruct (negb (cfg_hpf_enable c)).
  - injection H as <-. split; auto.
  - bcase_in H. bcase_in H. injection H as <-.
    destruct (rows_out X a n rows rir a0 HX Hl 0%nat rows ltac:(lia) E0) as [L F].
    split; [rewrite (length_concat_rows _ n); auto; lia|].
    intros b k Hk. cbn [bind].
    assert (Esq : seq 0 rows = seq 0 b ++ seq b k ++ seq (b + k) (rows - b - k)).
    { rewrite <- seq_app. change b with (0 + b)%nat at 2. rewrite <- seq_app. f_equal. lia. }
    rewrite Esq, !mapM_app in E0. bcase_in E0. bcase_in E0.
    bcase_in E2. bcase_in E2. injection E2 as <-. injection E0 as <-.
    destruct (rows_out X a n rows rir a1 HX Hl 0%nat b ltac:(lia) E1) as [L1 F1].
    destruct (rows_out X a n rows rir a3 HX Hl b k ltac:(lia) E3) as [L3 F3].
    rewrite (mapM_ext_in _ (fun i => x_filt X a (block ((b + i) * n) n rir))).
    + rewrite seq_shift_by, mapM_map in E3. rewrite E3. cbn [bind]. f_equal.
      rewrite !concat_app. rewrite <- (block_app_mid (concat a1) (concat a3) (concat a4)) at 1.
      rewrite (length_concat_rows _ n F1), (length_concat_rows _ n F3), L1, L3. reflexivity.
    + intros i Hi. apply in_seq in Hi. rewrite block_block by nia. f_equal. f_equal. lia.
Qed.
Lemma hpf_join X T rows n rir fs c : filt_length X -> length rir = (T * rows * n)%nat -> (0 < T)%nat ->
  (forall t, (t < T)%nat -> exists o,
    apply_rir_hpf (x_design X) (x_filt X) rows n (block (t * (rows * n)) (rows * n) rir) fs c = Ok o) ->
  exists out, apply_rir_hpf (x_design X) (x_filt X) (T * rows) n rir fs c = Ok out.
Proof.
  intros HX Hl HT H. unfold apply_rir_hpf in *. destruct (negb (cfg_hpf_enable c)); eauto.
  destruct (H 0%nat HT) as (o & E). destruct (design_hpf_sos _ _ _ _) as [s|]; [|discriminate].
  cbn [bind] in *. clear E o.
  assert (G : forall k, (k <= T)%nat -> exists os, mapM (fun i => x_filt X s (block (i * n) n rir)) (seq 0 (k * rows)) = Ok os).
  { induction k; intros Hk; [exists []; reflexivity|]. destruct IHk as (os & E); [lia|].
    replace (S k * rows)%nat with (k * rows + rows)%nat by lia. rewrite seq_app, mapM_app, E. cbn [bind Nat.add].
    destruct (H k ltac:(lia)) as (o & E2). bcase_in E2. clear E2.
    rewrite seq_shift_by, mapM_map.
    rewrite (mapM_ext_in _ (fun i => x_filt X s (block (i * n) n (block (k * (rows * n)) (rows * n) rir)))).
    - rewrite E0. cbn [bind]. eauto.
    - intros i Hi. apply in_seq in Hi. rewrite block_block by nia. f_equal. f_equal. lia. }
  destruct (G T ltac:(lia)) as (os & E). rewrite E. cbn [bind]. eauto.
Qed.
