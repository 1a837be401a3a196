(** Property theorems C99: recordings in rooms, that is dry signals convolved with simulated responses. *)
From Coq Require Import String List ZArith Reals Lia Lra Bool Permutation.
From Verif Require Import Prelude PreludeFacts SignalModel SignalSpec ConvProofs FloatModel DirModel ImageModel ImageSpec AcousticModel
  AccumModel IsmModel IsmSpec ImageProofs AccumProofs IsmProofs SimProofs SimMore SimArrival KernelProofs ContSpec ContProofs IsmProps ContProps ConvMore AlgProofs LoopModel
  BetaSpec BetaProofs BetaProps RecSpec RecProofs.
Import ListNotations.
Local Open Scope R_scope.
Local Notation length := List.length.
Local Notation lsum_of := ContSpec.rsum.
Local Notation rsum := Prelude.rsum.

(** ** C99 *)
(** A response of fixed length with omnidirectional sources and microphones. *)
Local Notation simulation X dev r srcs mics N n c :=
  (simulate_rir X dev r srcs mics (Some N) None (Some (Z.of_nat n)) None None (Some (DName "omni")) ONone (Some c)).
(** [t] is what comes out when the signal [x] is convolved with the simulated responses [T]. *)
Local Notation recording x T t := (exists h, all_numbers T = Some h /\ convolve_rir x h = Ok t).
Lemma recording_unique x T t t' : recording x T t -> recording x T t' -> t = t'.
Proof. intros (h & A & B) (h' & A' & B'). rewrite A in A'. injection A' as <-. rewrite B in B'. injection B' as <-. reflexivity. Qed.

(** Each microphone records, from each source, one copy of the dry signal for each image: delayed by
    the way from the image, and scaled by the walls met over the distance. *)
Theorem C99_images : forall X dev r srcs mics N n c dim beta T x images,
  scene r srcs mics dim beta -> cfg_hpf_enable c = false -> all_images dim N images -> plays x (count srcs) ->
  simulation X dev r srcs mics N n c = Ok T ->
  exists t, recording x T t /\ is_output t (count mics) (sig_len x + n - 1) (fun m j =>
    rsum (count srcs) (fun s => lsum_of (map (fun v =>
      let d := ray_length (position srcs s) (position mics m) (data (r_size r)) v in
      path_gain (beta_pairs beta) v / d * echo (Z.to_nat (cfg_fdl c)) (the_kernel dev c) n (d * r_fs r / r_c r) (sig_view x s) j) images))).
Proof.
  intros X dev r srcs mics N n c dim beta T x images Hs Hh Im P H.
  destruct (read_value _ _ _ _ _ _ _ _ _ _ _ _ Hs Hh Im H) as (Hv & E).
  destruct (recorded _ _ _ _ _ _ _ _ _ _ _ _ Hs Hh H P _ E) as (h & t & A & C & O). exists t. split; [exists h; auto|].
  destruct O as (O1 & O2 & O3). split; [exact O1|]. split; [exact O2|]. intros m j Hm Hj. rewrite O3 by auto. apply PreludeFacts.rsum_ext. intros s Ss.
  unfold value. rewrite (conv_images (sig_view x s) n (fun v => path_gain (beta_pairs beta) v / ray_length (position srcs s) (position mics m) (data (r_size r)) v)
    (fun v i => shape_at (Z.to_nat (cfg_fdl c)) (the_kernel dev c) i (arrival (r_fs r) (r_c r) (position srcs s) (position mics m) (data (r_size r)) v))).
  reflexivity.
Qed.
(** A microphone hears nothing before the first sound that a source plays has come the straight way. *)
Theorem C99_silence : forall X dev r srcs mics N n c dim beta T x,
  scene r srcs mics dim beta -> cfg_hpf_enable c = false -> 0 < r_c r -> plays x (count srcs) ->
  (forall s, (s < count srcs)%nat -> ImageSpec.inside (position srcs s) (data (r_size r))) -> (forall m, (m < count mics)%nat -> ImageSpec.inside (position mics m) (data (r_size r))) ->
  simulation X dev r srcs mics N n c = Ok T ->
  exists t, recording x T t /\ shape t = out_shape (count mics) (sig_len x + n - 1) /\
    forall start m j, (forall s i, (s < count srcs)%nat -> (i < start s)%nat -> sig_view x s i = 0) -> (m < count mics)%nat -> (j < sig_len x + n - 1)%nat ->
      (forall s, (s < count srcs)%nat -> (Z.of_nat j < Z.of_nat (start s) + floorZ (euclid (position mics m) (position srcs s) * r_fs r / r_c r)%R)%Z) ->
      out_view t m j = 0.
Proof.
  intros X dev r srcs mics N n c dim beta T x Hs Hh Hc P Is Im H.
  destruct (omni_ok_inv _ _ _ _ _ _ _ _ _ _ _ _ Hs Hh H) as (_ & HN & _ & _). destruct (images_exist N dim HN) as (images & Ai).
  destruct (read_value _ _ _ _ _ _ _ _ _ _ _ _ Hs Hh Ai H) as (Hv & E).
  destruct (recorded _ _ _ _ _ _ _ _ _ _ _ _ Hs Hh H P _ E) as (h & t & A & C & (O1 & O2 & O3)). exists t. split; [exists h; auto|]. split; [exact O1|].
  intros start m j Z0 Hm Hj L. rewrite O3 by auto. apply PreludeFacts.rsum_zero. intros s Ss. unfold lin_conv. apply PreludeFacts.rsum_zero. intros i Hi.
  destruct (Nat.lt_ge_cases i (start s)) as [Q|Q]; [rewrite Z0 by auto; ring|]. unfold zext. destruct (Nat.ltb_spec (j - i) n) as [Ji|]; [|ring].
  pose proof (E s m (j - i)%nat Ss Hm Ji) as V. specialize (L s Ss).
  rewrite (C22_silent_before_direct _ _ _ _ _ _ _ _ _ _ _ _ s m (j - i)%nat Hs Hh Hc H Ss Hm Ji (Is s Ss) (Im m Hm)) in V by lia.
  injection V as V. rewrite <- V. ring.
Qed.
(** In a room without reflections, at distances of a whole number of samples, each microphone gets
    the sum of the dry signals, delayed and divided by the distance: nothing else happens to them. *)
Theorem C99_free_field : forall X dev r srcs mics N n c dim T x D,
  scene r srcs mics dim (repeat 0 (2 * dim)) -> cfg_hpf_enable c = false -> plays x (count srcs) ->
  let d s m := ray_length (position srcs s) (position mics m) (data (r_size r)) (repeat 0%Z dim) in
  let lag := ((Z.to_nat (cfg_fdl c) - 1) / 2)%nat in
  (forall s m, (s < count srcs)%nat -> (m < count mics)%nat -> d s m * r_fs r / r_c r = INR (D s m) /\ (D s m + lag < n)%nat) ->
  simulation X dev r srcs mics N n c = Ok T ->
  exists t, recording x T t /\ is_output t (count mics) (sig_len x + n - 1) (fun m j =>
    rsum (count srcs) (fun s => later (D s m + lag) (sig_view x s) j / d s m)).
Proof.
  intros X dev r srcs mics N n c dim T x D Hs Hh P d lag HD H.
  destruct (omni_ok_inv _ _ _ _ _ _ _ _ _ _ _ _ Hs Hh H) as (Hv & _).
  pose proof (ok_fdl _ (cfg_validate_ok _ Hv)) as Ho. pose proof (table_positive dev c Hv) as Tp.
  destruct (recorded _ _ _ _ _ _ _ _ _ _ _ _ Hs Hh H P (fun s m j => / d s m * tap (Z.to_nat (cfg_fdl c)) (the_kernel dev c) (d s m * r_fs r / r_c r) j)) as (h & t & A & C & (O1 & O2 & O3)).
  { intros s m j Ss Sm Sj. pose proof (C24_absorbing_room X dev r srcs mics N n c dim T Hs Hh H s m j Ss Sm Sj) as E. cbv zeta in E. fold (d s m) in E. rewrite E, pulse_value. reflexivity. }
  exists t. split; [exists h; auto|]. split; [exact O1|]. split; [exact O2|]. intros m j Sm Sj. rewrite O3 by auto. apply PreludeFacts.rsum_ext. intros s Ss.
  destruct (HD s m Ss Sm) as (Ed & Ld). rewrite Ed.
  unfold lag. rewrite <- (echo_whole (Z.to_nat (cfg_fdl c)) _ n (D s m) (sig_view x s) Ho Tp Ld). fold (the_kernel dev c). unfold echo, Rdiv.
  unfold lin_conv. rewrite Rmult_comm, <- PreludeFacts.rsum_scal. apply PreludeFacts.rsum_ext. intros i _. unfold zext. destruct (_ <? n)%nat; ring.
Qed.
(** Recordings depend continuously on the walls. *)
Lemma sum_nonneg l : Forall (fun a => 0 <= a) l -> 0 <= fold_right Rplus 0 l.
Proof. induction 1; cbn; lra. Qed.
Theorem C99_walls : forall X dev r r' srcs mics N n c dim beta beta' T T' x images del level,
  scene r srcs mics dim beta -> scene r' srcs mics dim beta' -> same_box r r' -> cfg_hpf_enable c = false -> all_images dim N images -> plays x (count srcs) ->
  Forall (fun b => Rabs b <= 1) beta -> Forall (fun b => Rabs b <= 1) beta' -> 0 <= del -> Forall2 (fun b b' => Rabs (b' - b) <= del) beta beta' ->
  (forall s i, (s < count srcs)%nat -> Rabs (sig_view x s i) <= level s) ->
  simulation X dev r srcs mics N n c = Ok T -> simulation X dev r' srcs mics N n c = Ok T' ->
  exists t t', recording x T t /\ recording x T' t' /\ shape t' = shape t /\
    forall m j, (m < count mics)%nat -> (j < sig_len x + n - 1)%nat ->
      Rabs (out_view t' m j - out_view t m j) <=
        rsum (count srcs) (fun s => level s * (INR n * (del * reflections_over_distance (data (r_size r)) (position srcs s) (position mics m) images))).
Proof.
  intros X dev r r' srcs mics N n c dim beta beta' T T' x images del level Hs Hs' Bx Hh Im P F F' Hd D Lv H H'.
  destruct (read_value _ _ _ _ _ _ _ _ _ _ _ _ Hs Hh Im H) as (Hv & E). destruct (read_value _ _ _ _ _ _ _ _ _ _ _ _ Hs' Hh Im H') as (_ & E').
  destruct (recorded _ _ _ _ _ _ _ _ _ _ _ _ Hs Hh H P _ E) as (h & t & A & C & (O1 & O2 & O3)). destruct (recorded _ _ _ _ _ _ _ _ _ _ _ _ Hs' Hh H' P _ E') as (h' & t' & A' & C' & (O1' & O2' & O3')).
  exists t, t'. split; [exists h; auto|]. split; [exists h'; auto|]. split; [congruence|]. intros m j Hm Hj. rewrite O3, O3' by auto.
  apply (recordings_differ (sig_view x) (count srcs) n (fun s => _) (fun s => _) level); auto.
  - intros s i Ss Si. destruct (C97_lipschitz _ _ _ _ _ _ _ _ _ _ _ _ _ _ _ _ Hs Hs' Bx Hh Im F F' D H H' s m i Ss Hm Si) as (v & v' & V & V' & B).
    rewrite E in V by auto. rewrite E' in V' by auto. injection V as <-. injection V' as <-. exact B.
  - intros s Ss. apply Rmult_le_pos; [exact Hd|]. apply sum_nonneg. apply Forall_forall. intros y Y. apply in_map_iff in Y as (v & <- & _).
    apply Rle_mult_inv_pos; [|unfold ray_length; eapply Rlt_le_trans; [|apply Rmax_r]; apply Rinv_0_lt_compat, pow_lt; lra].
    apply IZR_le. clear. unfold order_of. induction v; cbn; lia.
Qed.
(** Reflections of higher order can be left out of a recording at a known price. *)
Theorem C99_truncation : forall X dev r srcs mics N N' n c dim beta T T' x more B level,
  scene r srcs mics dim beta -> cfg_hpf_enable c = false -> (0 <= N <= N')%Z -> 0 <= B <= 1 -> Forall (fun b => Rabs b <= B) beta -> plays x (count srcs) ->
  NoDup more -> (forall v, In v more <-> length v = dim /\ (N < order_of v <= N')%Z) ->
  (forall s i, (s < count srcs)%nat -> Rabs (sig_view x s i) <= level s) ->
  simulation X dev r srcs mics N n c = Ok T -> simulation X dev r srcs mics N' n c = Ok T' ->
  exists t t', recording x T t /\ recording x T' t' /\ shape t' = shape t /\
    forall m j, (m < count mics)%nat -> (j < sig_len x + n - 1)%nat ->
      Rabs (out_view t' m j - out_view t m j) <=
        rsum (count srcs) (fun s => level s * (INR n * (B ^ (Z.to_nat N + 1) * inverse_distances (data (r_size r)) (position srcs s) (position mics m) more))).
Proof.
  intros X dev r srcs mics N N' n c dim beta T T' x more B level Hs Hh HN HB F P Nd Im Lv H H'.
  destruct (images_exist N dim ltac:(lia)) as (l & Al). destruct (images_exist N' dim ltac:(lia)) as (l' & Al').
  destruct (read_value _ _ _ _ _ _ _ _ _ _ _ _ Hs Hh Al H) as (Hv & E). destruct (read_value _ _ _ _ _ _ _ _ _ _ _ _ Hs Hh Al' H') as (_ & E').
  destruct (recorded _ _ _ _ _ _ _ _ _ _ _ _ Hs Hh H P _ E) as (h & t & A & C & (O1 & O2 & O3)). destruct (recorded _ _ _ _ _ _ _ _ _ _ _ _ Hs Hh H' P _ E') as (h' & t' & A' & C' & (O1' & O2' & O3')).
  exists t, t'. split; [exists h; auto|]. split; [exists h'; auto|]. split; [congruence|]. intros m j Hm Hj. rewrite O3, O3' by auto.
  apply (recordings_differ (sig_view x) (count srcs) n (fun s => _) (fun s => _) level); auto.
  - intros s i Ss Si. destruct (C97_truncation _ _ _ _ _ _ _ _ _ _ _ _ _ _ _ Hs Hh HN HB F Nd Im H H' s m i Ss Hm Si) as (v & v' & V & V' & Bd).
    rewrite E in V by auto. rewrite E' in V' by auto. injection V as <-. injection V' as <-. exact Bd.
  - intros s Ss. apply Rmult_le_pos; [apply pow_le; lra|]. apply sum_nonneg. apply Forall_forall. intros y Y. apply in_map_iff in Y as (v & <- & _).
    apply Rlt_le, Rinv_0_lt_compat. unfold ray_length. eapply Rlt_le_trans; [|apply Rmax_r]; apply Rinv_0_lt_compat, pow_lt; lra.
Qed.
(** A loudspeaker and a microphone that change places give the same recording. *)
Theorem C99_exchange : forall X dev r a b N n c dim beta T x,
  scene r a b dim beta -> wf (entity_pos a) -> wf (entity_pos b) -> cfg_hpf_enable c = false -> count a = 1%nat -> count b = 1%nat -> plays x 1 ->
  simulation X dev r a b N n c = Ok T ->
  exists T' t, simulation X dev r b a N n c = Ok T' /\ recording x T t /\ recording x T' t.
Proof.
  intros X dev r a b N n c dim beta T x Hs Wa Wb Hh Ca Cb P H.
  assert (Hs' : scene r b a dim beta) by (destruct Hs; constructor; auto).
  destruct (C16_reciprocity _ _ _ _ _ _ _ _ _ _ _ _ Hs Wa Wb Hh H) as (T' & H' & _ & _ & R).
  destruct (omni_ok_inv _ _ _ _ _ _ _ _ _ _ _ _ Hs Hh H) as (_ & HN & _ & _). destruct (images_exist N dim HN) as (images & Ai).
  destruct (read_value _ _ _ _ _ _ _ _ _ _ _ _ Hs Hh Ai H) as (Hv & E).
  assert (Pa : plays x (count a)) by (rewrite Ca; exact P). assert (Pb : plays x (count b)) by (rewrite Cb; exact P).
  destruct (recorded _ _ _ _ _ _ _ _ _ _ _ _ Hs Hh H Pa _ E) as (h & t & A & C & O).
  destruct (recorded _ _ _ _ _ _ _ _ _ _ _ _ Hs' Hh H' Pb (fun s m j => value (Z.to_nat (cfg_fdl c)) (the_kernel dev c) (r_fs r) (r_c r) (beta_pairs beta) (data (r_size r)) images
      (position a m) (position b s) j)) as (h' & t' & A' & C' & O').
  { intros s m j Ss Sm Sj. rewrite R by auto. apply E; auto. }
  rewrite Ca, Cb in O, O'. exists T', t. split; [exact H'|]. split; [exists h; auto|]. exists h'. split; [exact A'|]. rewrite C'. f_equal.
  eapply is_output_unique; [exact O'|]. eapply is_output_ext; [exact O|]. intros m j Hm Hj. assert (m = 0%nat) by lia. subst m. apply PreludeFacts.rsum_ext. intros s Ss. assert (s = 0%nat) by lia. subst s. reflexivity.
Qed.

(** In the room with absorbing walls, with a source at distance 5 and one sample per metre, the
    signal 7, -3 comes 6 samples later (5 and half the length of the interpolation filter), as 7/5, -3/5. *)
Definition ex_dry : tensor := mkT [2%nat] [7; -3].
Lemma ex_plays : plays ex_dry 1.
Proof. unfold plays, sig_rank_ok, ndim, wf, sig_len, sig_rows, ex_dry. cbn. intuition lia. Qed.
Example C99_example : forall X, exists T t, simulation X Cpu wit_room (wit_src 0) ex_mic 2%Z 10 ex_cfg = Ok T /\ recording ex_dry T t /\
  shape t = [11%nat] /\ data t = [0; 0; 0; 0; 0; 0; 7 / 5; -3 / 5; 0; 0; 0].
Proof.
  intros X. destruct (images_exist 2 2 ltac:(lia)) as (l & Al). destruct (indices_order 2 2 ltac:(lia)) as (im & Ei & _).
  assert (exists T, simulation X Cpu wit_room (wit_src 0) ex_mic 2%Z 10 ex_cfg = Ok T) as (T & H)
    by (eexists; exact (simulate_omni X Cpu wit_room (wit_src 0) ex_mic 2 None 10 ex_cfg 2 _ im (wit_scene 0) ex_cfg_valid eq_refl ltac:(lia) ltac:(lia) Ei)).
  exists T.
  destruct (C99_free_field X Cpu wit_room (wit_src 0) ex_mic 2%Z 10 ex_cfg 2 T ex_dry (fun _ _ => 5%nat) (wit_scene 0) eq_refl ex_plays) as (t & Rt & (O1 & O2 & O3)).
  { intros s m Ss Sm. change (s < 1)%nat in Ss. change (m < 1)%nat in Sm. assert (s = 0 /\ m = 0)%nat as (-> & ->) by lia. split; [|change (6 < 10)%nat; lia].
    change (ray_length [1 + 3 / 5 * 0; 1 + 4 / 5 * 0] [4; 5] [10; 10] [0; 0]%Z * 1 / 1 = INR 5). rewrite wit_ray by lra. rewrite INR_IZR_INZ. change (Z.of_nat 5) with 5%Z. lra. }
  { exact H. }
  exists t. split; [exact H|]. split; [exact Rt|]. split; [exact O1|].
  assert (V : forall j, (j < 11)%nat -> nth j (data t) 0 = later 6 (sig_view ex_dry 0) j / 5).
  { intros j Hj. specialize (O3 0%nat j ltac:(cbn; lia) ltac:(cbn; lia)). unfold out_view, tget in O3. change (shape t = [11%nat]) in O1. rewrite O1 in O3. cbn [ravel prodn fold_right] in O3. 
    replace (j * 1 + 0)%nat with j in O3 by lia. rewrite O3. change (count (wit_src 0)) with 1%nat. cbn [Prelude.rsum].
    change (0 + later 6 (sig_view ex_dry 0) j / ray_length [1 + 3 / 5 * 0; 1 + 4 / 5 * 0] [4; 5] [10; 10] [0; 0]%Z = later 6 (sig_view ex_dry 0) j / 5). rewrite wit_ray by lra.
    replace (5 - 0) with 5 by ring. ring. }
  unfold wf in O2. change (shape t = [11%nat]) in O1. rewrite O1 in O2. cbn in O2.
  destruct (data t) as [|v0 [|v1 [|v2 [|v3 [|v4 [|v5 [|v6 [|v7 [|v8 [|v9 [|v10 [|]]]]]]]]]]]]; try discriminate O2.
  pose proof (V 0%nat ltac:(lia)) as V0. pose proof (V 1%nat ltac:(lia)) as V1. pose proof (V 2%nat ltac:(lia)) as V2. pose proof (V 3%nat ltac:(lia)) as V3.
  pose proof (V 4%nat ltac:(lia)) as V4. pose proof (V 5%nat ltac:(lia)) as V5. pose proof (V 6%nat ltac:(lia)) as V6. pose proof (V 7%nat ltac:(lia)) as V7.
  pose proof (V 8%nat ltac:(lia)) as V8. pose proof (V 9%nat ltac:(lia)) as V9. pose proof (V 10%nat ltac:(lia)) as V10. clear V.
  unfold later, sig_view, ex_dry, zext, tget in *. cbn in V0, V1, V2, V3, V4, V5, V6, V7, V8, V9, V10.
  repeat (apply (f_equal2 cons); [lra|]). reflexivity.
Qed.
(** Before sample 10 = 5 m * 2 samples per metre nothing is heard in the room of the other examples,
    whatever its walls. *)
Example C99_silence_example : forall X T, simulation X Cpu ex_room ex_src ex_mic 1%Z 20 ex_cfg = Ok T ->
  exists t, recording ex_dry T t /\ forall j, (j < 10)%nat -> out_view t 0 j = 0.
Proof.
  intros X T H.
  destruct (C99_silence X Cpu ex_room ex_src ex_mic 1%Z 20 ex_cfg 2 _ T ex_dry ex_scene eq_refl ltac:(cbn; lra) ex_plays) as (t & Rt & Sh & Z0); auto.
  - intros s Ss. cbn in Ss. assert (s = 0%nat) as -> by lia. repeat constructor; cbn; lra.
  - intros s Ss. cbn in Ss. assert (s = 0%nat) as -> by lia. repeat constructor; cbn; lra.
  - exists t. split; [exact Rt|]. intros j Hj. apply (Z0 (fun _ => 0%nat)); try (cbn; lia).
    intros s Ss. cbn in Ss. assert (s = 0%nat) as -> by lia.
    assert (E : euclid (position ex_mic 0) (position ex_src 0) * r_fs ex_room / r_c ex_room = IZR 10).
    { change (euclid [4; 5] [1; 1] * 2 / 1 = 10). unfold euclid, sqdist. cbn [combine map fold_right fst snd].
      replace ((4 - 1) * (4 - 1) + ((5 - 1) * (5 - 1) + 0)) with (5 * 5) by ring. rewrite sqrt_square by lra. lra. }
    rewrite E, floorZ_IZR. lia.
Qed.
(** All conditions of the bounds hold together. *)
Example C99_bound_example : forall X, exists T T' t t', simulation X Cpu ex_room ex_src ex_mic 0%Z 20 ex_cfg = Ok T /\ simulation X Cpu ex_room ex_src ex_mic 1%Z 20 ex_cfg = Ok T' /\
  recording ex_dry T t /\ recording ex_dry T' t' /\
  forall j, (j < 21)%nat -> Rabs (out_view t' 0 j - out_view t 0 j) <=
    7 * (20 * (/ 2 * inverse_distances [10; 10] [1; 1] [4; 5] [[-1; 0]; [1; 0]; [0; -1]; [0; 1]]%Z)).
Proof.
  intros X. destruct (indices_order 0 2 ltac:(lia)) as (l0 & E0 & _). destruct (indices_order 1 2 ltac:(lia)) as (l1 & E1 & _).
  assert (exists T, simulation X Cpu ex_room ex_src ex_mic 0%Z 20 ex_cfg = Ok T) as (T & H)
    by (eexists; exact (simulate_omni X Cpu ex_room ex_src ex_mic 0 None 20 ex_cfg 2 _ l0 ex_scene ex_cfg_valid eq_refl ltac:(lia) ltac:(lia) E0)).
  assert (exists T, simulation X Cpu ex_room ex_src ex_mic 1%Z 20 ex_cfg = Ok T) as (T' & H')
    by (eexists; exact (simulate_omni X Cpu ex_room ex_src ex_mic 1 None 20 ex_cfg 2 _ l1 ex_scene ex_cfg_valid eq_refl ltac:(lia) ltac:(lia) E1)).
  destruct (C99_truncation X Cpu ex_room ex_src ex_mic 0%Z 1%Z 20 ex_cfg 2 _ T T' ex_dry [[-1; 0]; [1; 0]; [0; -1]; [0; 1]]%Z (/ 2) (fun _ => 7) ex_scene eq_refl) as (t & t' & Rt & Rt' & _ & B).
  - lia.
  - lra.
  - repeat constructor; rewrite Rabs_pos_eq; lra.
  - apply ex_plays.
  - repeat constructor; cbn; intuition discriminate.
  - intros v. split.
    + cbn [In]. intros I. repeat (destruct I as [<-|I]; [split; [reflexivity|unfold order_of; cbn; lia]|]). destruct I.
    + intros (L & O). destruct v as [|p [|q [|]]]; try discriminate L. unfold order_of in O. cbn in O.
      assert (C : (p = -1 /\ q = 0 \/ p = 1 /\ q = 0 \/ p = 0 /\ q = -1 \/ p = 0 /\ q = 1)%Z) by lia. cbn [In]. destruct C as [(-> & ->)|[(-> & ->)|[(-> & ->)|(-> & ->)]]]; tauto.
  - intros s i Ss. unfold sig_view, ex_dry, zext, tget. cbn [shape data]. destruct (Nat.ltb_spec i 2); [|rewrite Rabs_R0; lra].
    assert (i = 0 \/ i = 1)%nat as [->| ->] by lia; cbn; unfold Rabs; destruct (Rcase_abs _); lra.
  - exact H.
  - exact H'.
  - exists T, T', t, t'. split; [exact H|]. split; [exact H'|]. split; [exact Rt|]. split; [exact Rt'|]. intros j Hj. specialize (B 0%nat j ltac:(cbn; lia) ltac:(cbn; lia)).
    eapply Rle_trans; [exact B|]. change (count ex_src) with 1%nat. cbn [Prelude.rsum Z.to_nat Nat.add pow].
    change (data (r_size ex_room)) with [10; 10]. change (position ex_src 0) with [1; 1]. change (position ex_mic 0) with [4; 5]. replace (INR 20) with 20 by (cbn; lra).
    apply Req_le. ring.
Qed.
Print Assumptions C99_images.
Print Assumptions C99_silence.
Print Assumptions C99_free_field.
Print Assumptions C99_walls.
Print Assumptions C99_truncation.
Print Assumptions C99_exchange.
