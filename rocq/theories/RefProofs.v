(** Proofs for C89. *)
From Coq Require Import String List ZArith Reals Lia Lra Psatz Bool.
From Verif Require Import Prelude PreludeFacts GeoProofs SignalModel SignalSpec SignalProofs SignalProps ConvMore IoModel IoSpec IoProofs IoProps GeoSampling BldProofs LoopModel LoopNames LoopAudio SegProofs ConvProofs RefModel RefSpec.
Import ListNotations.
Local Open Scope R_scope.
Local Notation length := List.length.

(** ** Saving *)

Lemma out_index t M len f : is_output t M len f -> length (data t) = (M * len)%nat /\
  forall m j, (m < M)%nat -> (j < len)%nat -> nth (m * len + j) (data t) 0 = f m j.
Proof.
  intros (S & W & V). unfold out_shape in S. unfold wf in W. unfold out_view, tget in V. rewrite S in *.
  destruct (Nat.eqb_spec M 1) as [->|N]; cbn [prodn fold_right] in W; (split; [lia|]); intros m j Hm Hj; rewrite <- V by auto; f_equal; cbn [ravel prodn fold_right]; nia.
Qed.
Lemma nth_wave t k : (k < length (data t))%nat -> nth k (w_data (wave_of t)) None = Some (nth k (data t) 0).
Proof.
  intros H. cbn [wave_of w_data]. rewrite (nth_indep _ None (Some 0)) by (rewrite map_length; auto). apply map_nth.
Qed.
Lemma in_wave t x : In x (w_data (wave_of t)) <-> exists k, (k < length (data t))%nat /\ x = Some (nth k (data t) 0).
Proof.
  cbn [wave_of w_data]. rewrite in_map_iff. split.
  - intros (r & <- & H). destruct (In_nth _ _ 0 H) as (k & Hk & <-). eauto.
  - intros (k & Hk & ->). exists (nth k (data t) 0). split; auto. apply nth_In. auto.
Qed.
Lemma split_index M len k : (k < M * len)%nat -> exists m j, (m < M)%nat /\ (j < len)%nat /\ k = (m * len + j)%nat.
Proof.
  intros H. assert (len <> 0)%nat by (intros ->; lia). exists (k / len)%nat, (k mod len)%nat.
  split; [apply Nat.div_lt_upper_bound; lia|]. split; [apply Nat.mod_upper_bound; auto|]. rewrite (Nat.div_mod k len) at 1 by auto. lia.
Qed.
Lemma C47_cases_ref t : (forall x, In x (w_data (wave_of t)) -> x = Some 0) \/ exists m, 0 < m /\ loudest (w_data (wave_of t)) m.
Proof.
  destruct (C47_cases (w_data (wave_of t))) as [N|H]; auto. apply in_wave in N as (k & _ & E). discriminate.
Qed.
Lemma save_file t M len f : is_output t M len f -> exists p w, loudness M len f p /\ save_samples (fun x => x) true 1 (wave_of t) = Ok w /\
  file_of w M len (fun m j => f m j / p).
Proof.
  intros O. destruct (out_index t M len f O) as [L V]. destruct O as (S & W & _).
  assert (Q : exists p, loudness M len f p /\ normalize_audio (fun x => x) true 1 (w_data (wave_of t)) = Ok (map (fun x => Some (x / p)) (data t))).
  { destruct (C47_cases_ref t) as [Z|(m & Hm & Lm)].
    - exists 1. split.
      + right. split; auto. intros m j Hm Hj. rewrite <- V by auto. assert (E : In (Some (nth (m * len + j) (data t) 0)) (w_data (wave_of t))) by (apply in_wave; exists (m * len + j)%nat; split; auto; nia).
        specialize (Z _ E). congruence.
      + unfold normalize_audio. destruct (Rleb_spec 1 0); [lra|]. rewrite max_abs_zero by auto. destruct (Rltb_spec 0 0); [lra|]. cbn [wave_of w_data]. f_equal. apply map_ext. intros x. f_equal. field.
    - exists m. split.
      + left. split; auto. destruct Lm as [A (r & B & C)]. split.
        * intros m' j Hm' Hj. rewrite <- V by auto. destruct (A (Some (nth (m' * len + j) (data t) 0))) as (r' & E & H); [apply in_wave; exists (m' * len + j)%nat; split; auto; nia|]. injection E as <-. auto.
        * apply in_wave in B as (k & Hk & E). rewrite L in Hk. destruct (split_index M len k Hk) as (m' & j & H1 & H2 & ->). exists m', j. split; auto. split; auto. rewrite <- V by auto. injection E as <-. auto.
      + rewrite (normalize_ok (fun x => x) 1 m _ ltac:(lra) Hm Lm). cbn [wave_of w_data]. rewrite map_map. f_equal. apply map_ext. intros x. cbn. f_equal. field. lra. }
  destruct Q as (p & P & E). exists p. unfold save_samples. rewrite E. cbn [bind wave_of w_shape]. eexists. split; [exact P|]. split; [reflexivity|].
  assert (Nv : forall m j, (m < M)%nat -> (j < len)%nat -> nth (m * len + j) (map (fun x => Some (x / p)) (data t)) (None : option R) = Some (f m j / p)).
  { intros m j Hm Hj. rewrite (nth_indep _ None (Some (0 / p))) by (rewrite map_length; nia). rewrite (map_nth (fun x => Some (x / p))). rewrite V by auto. auto. }
  rewrite S. unfold out_shape, file_of. destruct (Nat.eqb_spec M 1) as [->|N].
  - left. split; [lia|]. unfold holds. cbn [w_shape w_data]. split; [auto|]. split; [rewrite map_length; lia|].
    intros m j Hm Hj. specialize (Nv m j Hm Hj). replace (j * 1 + m)%nat with (m * len + j)%nat by nia. auto.
  - destruct (Nat.leb_spec M 8).
    + left. split; [auto|]. unfold holds. cbn [w_shape w_data]. destruct (Nat.eq_dec M 1); [lia|]. split; auto. split; [apply length_transpose|].
      intros m j Hm Hj. rewrite nth_transpose by auto. auto.
    + right. split; [auto|]. unfold holds_sideways. cbn [w_shape w_data]. split; auto. split; [rewrite map_length; lia|]. auto.
Qed.

(** ** Slices *)

Lemma nth_block0 (l : list R) a b i : (i < b)%nat -> nth i (block a b l) 0 = nth (a + i) l 0.
Proof. intros H. apply nth_block. auto. Qed.
Lemma len_block (l : list R) a b : (a + b <= length l)%nat -> length (block a b l) = b.
Proof. apply length_block. Qed.
Lemma signal_alone n T signals s sh : shape signals = [n; T] -> wf signals -> (s < n)%nat ->
  sh = [T] \/ sh = [1%nat; T] -> let x := mkT sh (block (s * T) T (data signals)) in
  wf x /\ forall i k, sig_view x k i = sig_view signals s i.
Proof.
  intros S W Hs Hsh x. unfold wf in W. rewrite S in W. cbn [prodn fold_right] in W.
  assert (Lb : length (block (s * T) T (data signals)) = T) by (apply len_block; nia).
  assert (V : forall i, (i < T)%nat -> nth i (block (s * T) T (data signals)) 0 = tget signals [if (n =? 1)%nat then 0%nat else s; i]).
  { intros i Hi. rewrite nth_block0 by auto. unfold tget. rewrite S. cbn [ravel prodn fold_right]. destruct (Nat.eqb_spec n 1); f_equal; nia. }
  split.
  - unfold wf, x. cbn [shape data]. rewrite Lb. destruct Hsh as [-> | ->]; cbn; lia.
  - intros i k. unfold sig_view. rewrite S. unfold x. cbn [shape]. destruct Hsh as [-> | ->]; unfold zext; destruct (Nat.ltb_spec i T); auto; rewrite <- V by auto; unfold tget; cbn [shape data ravel prodn fold_right Nat.eqb]; f_equal; lia.
Qed.
Lemma static_alone_spec n T M L signals rirs s : static_input n T M L signals rirs -> (s < n)%nat ->
  exists x r t, index0 signals s = Ok x /\ slice0 rirs s = Ok r /\ convolve_rir x r = Ok t /\
    is_output t M (T + L - 1) (fun m j => lin_conv (sig_view signals s) (rir_view rirs s m) j).
Proof.
  intros (S & W & Sr & Wr & HT & HL) Hs. unfold index0, slice0. rewrite S, Sr. cbn [prodn fold_right]. rewrite Nat.mul_1_r.
  destruct (Nat.ltb_spec s n); [|lia]. eexists _, _. replace (M * (L * 1))%nat with (M * L)%nat by lia.
  destruct (signal_alone n T signals s [T] S W Hs ltac:(auto)) as [Wx Vx]. set (x := mkT [T] (block (s * T) T (data signals))) in *.
  unfold wf in Wr. rewrite Sr in Wr. cbn [prodn fold_right] in Wr.
  set (r := mkT [1%nat; M; L] (block (s * (M * L)) (M * L) (data rirs))).
  assert (Lr : length (block (s * (M * L)) (M * L) (data rirs)) = (M * L)%nat) by (apply len_block; nia).
  destruct (C02_static_superposition x r) as (t & E & O).
  - left. reflexivity.
  - right. right. reflexivity.
  - exact Wx.
  - unfold wf, r. cbn [shape data prodn fold_right]. rewrite Lr. lia.
  - exact HT.
  - exact HL.
  - left. reflexivity.
  - exists t. split; [reflexivity|]. split; [reflexivity|]. split; [exact E|].
    change (rir_mics r) with M in O. change (rir_srcs r) with 1%nat in O. change (sig_len x) with T in O. change (rir_len r) with L in O.
    eapply is_output_ext; [exact O|]. intros m j Hm Hj. cbn [rsum]. rewrite Rplus_0_l. unfold lin_conv. apply rsum_ext. intros tau Ht. rewrite Vx. f_equal.
    unfold rir_view. rewrite Sr. unfold r. cbn [shape]. unfold zext. destruct (Nat.ltb_spec (j - tau) L); auto.
    unfold tget. rewrite Sr. cbn [shape data ravel prodn fold_right]. rewrite nth_block0 by nia. f_equal. nia.
Qed.
Lemma static_mix_spec n T M L signals rirs : static_input n T M L signals rirs ->
  exists t, convolve_rir signals rirs = Ok t /\
    is_output t M (T + L - 1) (fun m j => rsum n (fun s => lin_conv (sig_view signals s) (rir_view rirs s m) j)).
Proof.
  intros (S & W & Sr & Wr & HT & HL). destruct (C02_static_superposition signals rirs) as (t & E & O); auto.
  - right. unfold ndim. rewrite S. auto.
  - right. right. unfold ndim. rewrite Sr. auto.
  - unfold sig_len. rewrite S. auto.
  - unfold rir_len. rewrite Sr. auto.
  - right. unfold sig_rows, rir_srcs. rewrite S, Sr. auto.
  - exists t. split; auto. unfold rir_mics, rir_srcs, sig_len, rir_len in O. rewrite S, Sr in O. exact O.
Qed.
Lemma dynamic_alone_spec d n T K M L signals rirs s w : dynamic_input d n T K M L signals rirs -> (s < n)%nat ->
  segment_starts d T K None None = Ok w ->
  exists x r t, index0 signals s = Ok x /\ slice1 rirs s = Ok r /\ convolve_trajectory d x r None None = Ok t /\
    is_output t M (T + L - 1) (fun m j => tv_conv (sig_view signals s) (active_step w) (fun k => dyn_view rirs k s m) j).
Proof.
  intros (S & W & Sr & Wr & HT & HL & HK & HK2) Hs Ew. unfold index0, slice1. rewrite S, Sr. cbn [prodn fold_right]. rewrite Nat.mul_1_r.
  destruct (Nat.ltb_spec s n); [|lia]. eexists _, _. replace (M * (L * 1))%nat with (M * L)%nat by lia.
  destruct (signal_alone n T signals s [1%nat; T] S W Hs ltac:(auto)) as [Wx Vx]. set (x := mkT [1%nat; T] (block (s * T) T (data signals))) in *.
  unfold wf in Wr. rewrite Sr in Wr. cbn [prodn fold_right] in Wr.
  set (rows := map (fun i => block ((i * n + s) * (M * L)) (M * L) (data rirs)) (seq 0 K)). set (r := mkT [K; 1%nat; M; L] (concat rows)).
  assert (Lr : forall q, In q rows -> length q = (M * L)%nat).
  { intros q Hq. apply in_map_iff in Hq as (i & <- & Hi). apply in_seq in Hi. apply len_block. rewrite Wr. apply Nat.le_trans with (((i * n + s) + 1) * (M * L))%nat; [lia|].
    replace (K * (n * (M * (L * 1))))%nat with ((K * n) * (M * L))%nat by ring. apply Nat.mul_le_mono_r. nia. }
  assert (Lrows : length rows = K) by (unfold rows; rewrite map_length, seq_length; auto).
  assert (Ok1 : traj_ok d x r).
  { split; [|split; [|split; [|split; [|split; [|split]]]]].
    - unfold dyn_ranks_ok, sig_rank_ok, dyn_rank_ok, ndim. cbn. split; [auto|]. split; auto.
    - exact Wx.
    - unfold wf, r. cbn [shape data prodn fold_right]. rewrite (length_concat_rows rows (M * L)) by auto. rewrite Lrows. lia.
    - exact HL.
    - left. reflexivity.
    - exact HK.
    - destruct d; exact HK2. }
  destruct (traj_default d x r None Ok1) as (w' & t & _ & Lw & Ew' & E & O).
  change (sig_len x) with T in *. change (dyn_steps r) with K in *. change (dyn_mics r) with M in O. change (dyn_srcs r) with 1%nat in O. change (rir_len r) with L in O.
  assert (w' = w) by (apply Ok_inj; congruence). subst w'.
  exists t. split; [reflexivity|]. split; [reflexivity|]. split; [exact E|].
  eapply is_output_ext; [exact O|]. intros m j Hm Hj. cbn [rsum]. rewrite Rplus_0_l. unfold tv_conv. apply rsum_ext. intros tau Ht. rewrite Vx.
  f_equal. assert (Ha : (active_step w tau < K)%nat) by (rewrite <- Lw; unfold active_step; apply last_started_lt; lia).
  unfold dyn_view. rewrite Sr. unfold r. cbn [shape]. unfold zext. destruct (Nat.ltb_spec (j - tau) L); auto.
  unfold tget. rewrite Sr. cbn [shape data ravel prodn fold_right].
  transitivity (nth (active_step w tau * (M * L) + (m * L + (j - tau))) (concat rows) 0); [f_equal; lia|].
  rewrite nth_concat_rows by (auto; nia). unfold rows. rewrite nth_tab by auto. rewrite nth_block0 by nia. f_equal. ring.
Qed.
Lemma dynamic_mix_spec d n T K M L signals rirs : dynamic_input d n T K M L signals rirs ->
  exists w t, partition_starts w T /\ length w = K /\ segment_starts d T K None None = Ok w /\ convolve_trajectory d signals rirs None None = Ok t /\
    is_output t M (T + L - 1) (fun m j => rsum n (fun s => tv_conv (sig_view signals s) (active_step w) (fun k => dyn_view rirs k s m) j)).
Proof.
  intros (S & W & Sr & Wr & HT & HL & HK & HK2).
  assert (Ok1 : traj_ok d signals rirs).
  { unfold traj_ok, dyn_ranks_ok, sig_rank_ok, dyn_rank_ok, ndim, rir_len, sig_rows, dyn_srcs, dyn_steps. rewrite S, Sr. cbn [length last hd].
    split; [split; [auto|split; [auto|discriminate]]|]. split; auto. split; auto. split; auto. split; auto. split; auto. destruct d; exact HK2. }
  destruct (traj_default d signals rirs None Ok1) as (w & t & P & Lw & Ew & E & O).
  unfold sig_len, dyn_steps, dyn_mics, dyn_srcs, rir_len in *. rewrite ?S, ?Sr in *. cbn [hd last] in *. exists w, t. auto.
Qed.

(** ** Files *)

Lemma files_spec conv alone prefix n M len signals rirs y mix (ref : nat -> recording) :
  conv signals rirs = Ok y -> is_output y M len mix -> (forall m j, mix m j = rsum n (fun s => ref s m j)) ->
  (forall s, (s < n)%nat -> exists x r t, index0 signals s = Ok x /\ alone rirs s = Ok r /\ conv x r = Ok t /\ is_output t M len (ref s)) ->
  exists files, audio_files (fun x => x) conv alone prefix n signals rirs = Ok files /\ scene_audio prefix n M len ref files.
Proof.
  intros Ey Oy Em Hr. unfold audio_files. rewrite Ey. cbn [bind].
  match goal with |- context [mapM ?F _] => set (f := F) end.
  assert (Fs : forall s, (s < n)%nat -> exists p w, f s = Ok (ref_name prefix s, w) /\ loudness M len (ref s) p /\ file_of w M len (fun m j => ref s m j / p)).
  { intros s Hs. destruct (Hr s Hs) as (x & r & t & E1 & E2 & E3 & O). destruct (save_file t M len (ref s) O) as (p & w & P & E & Fw).
    exists p, w. split; auto. unfold f. rewrite E1. cbn [bind]. rewrite E2. cbn [bind]. rewrite E3. cbn [bind]. unfold scene_file. rewrite E. auto. }
  destruct (mapM_total f (seq 0 n)) as (refs & Er).
  { intros s Hs. apply in_seq in Hs. destruct (Fs s ltac:(lia)) as (p & w & E & _). eauto. }
  rewrite Er. cbn [bind]. destruct (save_file y M len mix Oy) as (p & w & P & E & Fw). unfold scene_file at 1. rewrite E. cbn [bind].
  assert (Lr : length refs = n) by (rewrite (mapM_length _ _ _ Er), seq_length; auto).
  eexists. split; [reflexivity|]. constructor.
  - rewrite app_length, Lr. cbn. lia.
  - intros s Hs. destruct (Fs s Hs) as (p' & w' & E' & P' & F'). exists (padded 2 (s + 1)), p', w'. split; [apply padded_writes; lia|]. split; auto.
    rewrite nth_error_app1 by lia.
    pose proof (mapM_nth f _ _ s 0%nat (ref_name prefix s, w') Er ltac:(rewrite seq_length; auto)) as Q. rewrite seq_nth in Q by auto. cbn [Nat.add] in Q.
    rewrite E' in Q. apply Ok_inj in Q. rewrite (nth_error_nth' refs (ref_name prefix s, w')) by lia. rewrite <- Q. reflexivity.
  - exists p, w. split; [rewrite nth_error_app2 by lia; rewrite Lr, Nat.sub_diag; reflexivity|].
    split.
    + destruct P as [(P1 & P2 & m & j & Hm & Hj & Q)|(P1 & P2)]; [left; split; auto; split; [intros; rewrite <- Em; auto|exists m, j; rewrite <- Em; auto]|right; split; auto; intros; rewrite <- Em; auto].
    + unfold file_of, holds, holds_sideways in *. destruct Fw as [(A & B & C & D)|(A & B & C & D)]; [left|right]; (split; [auto|]; split; [auto|]; split; [auto|]; intros m j Hm Hj; rewrite <- Em; auto).
Qed.
Lemma file_sample w M len g m j : file_of w M len g -> (m < M)%nat -> (j < len)%nat -> sample w M len m j = Some (g m j).
Proof.
  intros [(A & _ & _ & D)|(A & _ & _ & D)] Hm Hj; unfold sample; destruct (Nat.leb_spec M 8); try lia; auto.
Qed.
Lemma loudness_pos M len g p : loudness M len g p -> 0 < p.
Proof. intros [[H _]|[-> _]]; lra. Qed.
Lemma loudness_fun M len g p q : loudness M len g p -> loudness M len g q -> p = q.
Proof.
  intros [(A & B & m & j & Hm & Hj & C)|(A & B)] [(A' & B' & m' & j' & Hm' & Hj' & C')|(A' & B')].
  - apply Rle_antisym; [rewrite <- C; auto|rewrite <- C'; auto].
  - rewrite B' in C by auto. rewrite Rabs_R0 in C. lra.
  - rewrite B in C' by auto. rewrite Rabs_R0 in C'. lra.
  - congruence.
Qed.
(** The names of the files, whatever is in them. *)
Lemma scene_file_name fl name t k : scene_file fl name t = Ok k -> fst k = name.
Proof. unfold scene_file. destruct (save_samples _ _ _ _); cbn [bind]; [|discriminate]. intros H. apply Ok_inj in H. subst k. auto. Qed.
Lemma files_names fl conv alone prefix n signals rirs files : audio_files fl conv alone prefix n signals rirs = Ok files ->
  map fst files = map (ref_name prefix) (seq 0 n) ++ [(prefix ++ ".wav")%string].
Proof.
  unfold audio_files. destruct (conv signals rirs) as [y|]; cbn [bind]; [|discriminate].
  match goal with |- context [mapM ?F _] => set (f := F) end.
  assert (Q : forall s k, f s = Ok k -> fst k = ref_name prefix s).
  { intros s k. unfold f. destruct (index0 signals s); cbn [bind]; [|discriminate]. destruct (alone rirs s); cbn [bind]; [|discriminate].
    destruct (conv _ _); cbn [bind]; [|discriminate]. apply scene_file_name. }
  destruct (mapM f (seq 0 n)) as [refs|] eqn:Er; cbn [bind]; [|discriminate].
  assert (Nr : forall l r, mapM f l = Ok r -> map fst r = map (ref_name prefix) l).
  { induction l as [|s l IH]; intros r; cbn [mapM]; [intros H; apply Ok_inj in H; subst r; auto|].
    destruct (f s) as [k|] eqn:Ek; cbn [bind]; [|discriminate]. destruct (mapM f l) as [ks|]; cbn [bind]; [|discriminate].
    intros H. apply Ok_inj in H. subst r. cbn [map]. rewrite (Q s k Ek), (IH ks); auto. }
  destruct (scene_file fl _ y) as [k|] eqn:Ek; cbn [bind]; [|discriminate]. intros H. apply Ok_inj in H. subst files.
  rewrite map_app, (Nr _ _ Er). cbn [map]. rewrite (scene_file_name _ _ _ _ Ek). auto.
Qed.
