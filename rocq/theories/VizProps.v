(** C66 (frames), C67 (muxing), C70 (playing time) and C71 (stereo track). *)
From Coq Require Import Ascii String List ZArith Reals Lia Lra Bool.
From Flocq Require Import Core.
From Verif Require Import Prelude PreludeFacts FloatModel FloatProofs RoomModel IoModel IoSpec IoProofs VizModel VizSpec VizProofs.
Import ListNotations.
Local Open Scope R_scope.
Local Notation length := List.length.

(** ** C66 *)

(** For trajectories of the same positive length and a positive step, the frames are the steps
    0, step, 2 step, ... up to the end of the trajectory; the last step of the trajectory is
    shown exactly when [step] divides [T - 1], in particular for the default [step = 1]. *)
Theorem C66_partial : forall p2 p3 T src mic step fps duration n fs shown rate,
  same_length T src mic -> (1 <= T)%nat -> (1 <= step)%Z ->
  animate p2 p3 src mic step fps duration n fs = Ok (shown, rate) ->
  shown <> [] /\ covers T step shown /\ (1 <= rate)%Z /\
  (step = 1%Z -> shown = map Z.of_nat (seq 0 T)).
Proof.
  intros p2 p3 T src mic step fps duration n fs shown rate HT H1 Hs H. unfold animate in H.
  destruct (negb p2 && negb p3); [discriminate|]. rewrite (counts_same _ _ _ HT) in H. cbn [bind fst snd] in H.
  destruct (clip_duration duration n fs) as [d|]; [|discriminate]. cbn [bind] in H.
  destruct (frame_count_spec (Z.of_nat T) step ltac:(lia) Hs) as (k & E & K1 & K2 & K3). rewrite E in H. cbn [bind] in H.
  destruct (frame_rate fps d k) as [q|] eqn:Q; [|discriminate]. cbn [bind] in H.
  rewrite frames_shown in H by auto. cbn [bind] in H. apply GeoSampling.Ok_inj in H. injection H as <- <-.
  split; [|split; [|split]].
  - replace (Z.to_nat k) with (S (Z.to_nat k - 1)) by lia. discriminate.
  - apply shown_covers; auto.
  - eapply rate_min; eauto.
  - intros ->. assert (k = Z.of_nat T) by lia. subst k. rewrite Nat2Z.id. apply map_ext. intros. lia.
Qed.
Example C66_partial_ex : animate true false (Some 7%nat) None 3 (Some (Fin 5)) None None None = Ok ([0; 3; 6]%Z, 5%Z).
Proof.
  unfold animate, frame_count. cbn -[frame_rate frame mapM Z.div]. change ((7 + 3 - 1) / 3)%Z with 3%Z. cbn -[frame_rate frame].
  unfold frame_rate, le0, Rleb. destruct (Rle_dec 5 0); [lra|]. change 5 with (IZR 5). rewrite nearest_IZR. reflexivity.
Qed.

(** The build succeeds for all such trajectories when the frame rate is positive and finite,
    or not given and the duration neither (6 frames per second are used). *)
Theorem C66_total : forall p2 p3 T src mic step fps, same_length T src mic -> (1 <= T)%nat -> (1 <= step)%Z -> p2 = true \/ p3 = true ->
  fps = None \/ (exists f, fps = Some (Fin f) /\ 0 < f) -> exists shown rate, animate p2 p3 src mic step fps None None None = Ok (shown, rate).
Proof.
  intros p2 p3 T src mic step fps HT H1 Hs Hp Hf. unfold animate.
  assert (E0 : negb p2 && negb p3 = false) by (destruct Hp as [-> | ->]; [auto|apply andb_false_r]). rewrite E0.
  rewrite (counts_same _ _ _ HT). cbn [bind fst snd clip_duration].
  destruct (frame_count_spec (Z.of_nat T) step ltac:(lia) Hs) as (k & E & K1 & K2 & K3). rewrite E. cbn [bind].
  rewrite frames_shown by auto.
  destruct Hf as [->|(f & -> & F)]; unfold frame_rate; cbn [bind le0]; eauto.
  unfold Rleb. destruct (Rle_dec f 0); [lra|]. cbn [bind]. eauto.
Qed.
Example C66_total_ex : same_length 4 None (Some 4%nat) /\ ~ same_length 4 (Some 4%nat) (Some 3%nat).
Proof. split; [right; auto|]. intros [[_ [?|?]]|[? _]]; discriminate. Qed.

(** Labels: the time shown never decreases, starts at 0 and reaches the duration at the last step. *)
Theorem C66_labels : forall steps d, (2 <= steps)%nat -> 0 <= d ->
  label steps d 0 = 0 /\ (forall i j, (i <= j)%Z -> label steps d i <= label steps d j) /\
  label steps d (Z.of_nat steps - 1) = rnd64 d.
Proof.
  intros steps d Hs Hd. assert (P : 0 < IZR (Z.of_nat steps - 1)) by (apply IZR_lt; lia). unfold label. split; [|split].
  - unfold Rdiv. rewrite Rmult_0_l, rnd64_0, Rmult_0_l. apply rnd64_0.
  - intros i j Hij. apply rnd64_le. apply Rmult_le_compat_r; auto. apply rnd64_le. unfold Rdiv. apply Rmult_le_compat_r.
    + left. apply Rinv_0_lt_compat. auto.
    + apply IZR_le. auto.
  - unfold Rdiv. rewrite Rinv_r by lra. rewrite (rnd64_IZR 1) by (cbn; lia). rewrite Rmult_1_l. auto.
Qed.
Example C66_labels_ex : label 3 8 1 = 4.
Proof.
  unfold label. change (Z.of_nat 3 - 1)%Z with 2%Z.
  assert (E : rnd64 (1 / 2) = 1 / 2).
  { unfold rnd64. apply round_generic; [apply valid_rnd_N|]. apply generic_format_FLT. exists (Defs.Float radix2 1 (-1)); cbn; try lia.
    unfold F2R. cbn. lra. }
  rewrite E. replace (1 / 2 * 8) with (IZR 4) by lra. apply rnd64_IZR. cbn. lia.
Qed.

(** Steps at the end may be missing: with 5 steps, every third is shown: 0 and 3, never 4. *)
Theorem C66_refuted : exists T step fps shown rate, (1 <= T)%nat /\ (1 <= step)%Z /\
  animate true true (Some T) (Some T) step fps None None None = Ok (shown, rate) /\ ~ In (Z.of_nat T - 1)%Z shown.
Proof.
  exists 5%nat, 3%Z, (Some (Fin 5)), [0; 3]%Z, 5%Z. split; [lia|]. split; [lia|]. split; [|cbn; lia].
  unfold animate, frame_count. cbn -[frame_rate frame mapM Z.div]. change ((5 + 3 - 1) / 3)%Z with 2%Z. cbn -[frame_rate frame].
  unfold frame_rate, le0, Rleb. destruct (Rle_dec 5 0); [lra|]. change 5 with (IZR 5). rewrite nearest_IZR. reflexivity.
Qed.
(** Trajectories of different lengths are accepted and then fail while saving, or lose the end
    of the longer one. *)
Theorem C66_lengths_refuted : forall s m, (m < s)%nat -> (1 <= m)%nat ->
  animate true true (Some s) (Some m) 1 None None None None = Err IndexError /\
  (exists shown rate, animate true true (Some m) (Some s) 1 None None None None = Ok (shown, rate) /\ ~ In (Z.of_nat s - 1)%Z shown).
Proof.
  intros s m Hms Hm. unfold animate. cbn [negb andb step_counts bind fst snd clip_duration].
  assert (FC : forall t, (1 <= t)%nat -> frame_count (Z.of_nat t) 1 = Ok (Z.of_nat t)).
  { intros t Ht. unfold frame_count. cbn [Z.eqb]. rewrite Z.div_1_r, Z.max_r by lia. f_equal. lia. }
  rewrite !FC by lia. cbn [bind]. unfold frame_rate. cbn [bind]. rewrite !Nat2Z.id.
  assert (G : forall t i, (i < t)%nat -> in_range t (Z.of_nat i) = true).
  { intros t i Hi. unfold in_range. rewrite (proj2 (Z.leb_le _ _)), (proj2 (Z.ltb_lt _ _)) by lia. auto. }
  split.
  - replace s with (m + (s - m))%nat at 1 by lia.
    assert (X : forall k a, (a + k = s)%nat -> (a <= m)%nat -> (1 <= k)%nat -> mapM (frame s m 1) (seq a k) = Err IndexError).
    { induction k as [|k IH]; [lia|]. intros a Ha Hle _. cbn [seq mapM]. unfold frame at 1. rewrite Z.mul_1_r, Z.min_l by lia.
      rewrite G by lia. destruct (Nat.eq_dec a m) as [->|Na].
      - unfold in_range. rewrite (proj2 (Z.ltb_ge (Z.of_nat m) (Z.of_nat m))) by lia. rewrite andb_false_r. reflexivity.
      - rewrite G by lia. cbn [bind]. rewrite IH by lia. reflexivity. }
    replace (m + (s - m))%nat with s by lia. rewrite X by lia. reflexivity.
  - exists (map Z.of_nat (seq 0 m)). eexists. split.
    + rewrite (mapM_ok _ Z.of_nat); [cbn [bind]; reflexivity|]. intros i Hi. apply in_seq in Hi. unfold frame.
      rewrite Z.mul_1_r, Z.min_l by lia. rewrite !G by lia. auto.
    + rewrite in_map_iff. intros (i & E & Hi). apply in_seq in Hi. lia.
Qed.
(** Steps that are not positive are not rejected: zero divides by zero, negative ones show
    only the first step. *)
Theorem C66_step_unchecked : forall T step, (1 <= T)%nat -> (step <= 0)%Z ->
  (step = 0%Z -> animate true true (Some T) None step None None None None = Err ZeroDivisionError) /\
  (step <> 0%Z -> exists rate, animate true true (Some T) None step None None None None = Ok ([0%Z], rate)).
Proof.
  intros T step HT Hs. split; [intros ->; reflexivity|]. intros Hn. unfold animate. cbn [negb andb step_counts bind fst snd clip_duration].
  unfold frame_count. rewrite (proj2 (Z.eqb_neq _ _) Hn). cbn [bind].
  assert (D : ((Z.of_nat T + step - 1) / step <= 1)%Z).
  { pose proof (Z.div_mod (Z.of_nat T + step - 1) step Hn). pose proof (Z.mod_neg_bound (Z.of_nat T + step - 1) step ltac:(lia)).
    set (q := ((Z.of_nat T + step - 1) / step)%Z) in *. destruct (Z_le_gt_dec q 1); [auto|]. nia. }
  rewrite Z.max_l by auto. unfold frame_rate. cbn [bind]. change (Z.to_nat 1) with 1%nat. cbn [seq mapM]. unfold frame. cbn [Z.of_nat Z.mul].
  rewrite Z.min_l by lia. assert (G : in_range T 0 = true).
  { unfold in_range. rewrite (proj2 (Z.leb_le _ _)), (proj2 (Z.ltb_lt _ _)) by lia. auto. }
  rewrite G. cbn [bind]. eauto.
Qed.

(** Nothing to draw on and nothing that moves are refused. *)
Theorem C66_refused : forall p2 p3 src mic step fps duration n fs, (p2 = false /\ p3 = false) \/ (src = None /\ mic = None) ->
  animate p2 p3 src mic step fps duration n fs = Err ValueError.
Proof. intros p2 p3 src mic step fps duration n fs [[-> ->]|[-> ->]]; unfold animate; [reflexivity|]. destruct (negb p2 && negb p3); reflexivity. Qed.
Example C66_refused_ex : animate true true None None 1 (Some (Fin 5)) None None None <> animate true true (Some 1%nat) None 1 (Some (Fin 5)) None None None.
Proof.
  rewrite C66_refused by auto. destruct (C66_total true true 1 (Some 1%nat) None 1 (Some (Fin 5))) as (a & b & E).
  - left; auto.
  - lia.
  - lia.
  - auto.
  - right. exists 5. split; [auto|lra].
  - rewrite E. discriminate.
Qed.

(** ** C70 *)

Lemma to_num_fin x : Rabs x < bpow radix2 1024 -> to_num x = Fin x.
Proof.
  intros H. apply Rabs_def2 in H as [H1 H2]. unfold to_num, Rleb. destruct (Rle_dec _ _); [lra|]. destruct (Rle_dec _ _); [lra|]. reflexivity.
Qed.
(** A given duration is used whatever the signal; without one, the duration is that of the
    signal; without either there is none. *)
Theorem C70_duration : forall p2 p3 src mic step fps,
  (forall d n fs, animate p2 p3 src mic step fps (Some d) n fs = animate p2 p3 src mic step fps (Some d) None None) /\
  (forall n f, f <> 0 -> Rabs (rnd64 (rnd64 (IZR n) / f)) < bpow radix2 1024 ->
     animate p2 p3 src mic step fps None (Some n) (Some (Fin f)) =
     animate p2 p3 src mic step fps (Some (Fin (rnd64 (rnd64 (IZR n) / f)))) None None) /\
  (forall n fs, n = None \/ fs = None -> animate p2 p3 src mic step fps None n fs = animate p2 p3 src mic step fps None None None).
Proof.
  intros. unfold animate, clip_duration. split; [|split].
  - intros d n fs. destruct n, fs; reflexivity.
  - intros n f Hf B. destruct (Req_EM_T f 0); [contradiction|]. unfold fdiv. rewrite to_num_fin by exact B. reflexivity.
  - intros n fs [-> | ->]; [reflexivity|]. destruct n; reflexivity.
Qed.
Example C70_duration_ex : exists d, animate true false (Some 7%nat) None 1 None None (Some 32000%Z) (Some (Fin 16000)) =
  animate true false (Some 7%nat) None 1 None (Some d) None None /\ d = Fin 2.
Proof.
  destruct (C70_duration true false (Some 7%nat) None 1 None) as (_ & H & _).
  assert (E : rnd64 (rnd64 (IZR 32000) / 16000) = 2).
  { rewrite (rnd64_IZR 32000) by (cbn; lia). replace (32000 / 16000) with (IZR 2) by lra. apply rnd64_IZR. cbn; lia. }
  specialize (H 32000%Z 16000). rewrite E in H. eexists. split; [apply H|reflexivity]; [lra|].
  rewrite Rabs_right by lra. change 2 with (bpow radix2 1). apply bpow_lt. lia.
Qed.


(** Without explicit rate, the playing time differs from the duration by at most about half a
    frame per second, relative to the rate used (for rates between 1/2 and 2^40). *)
Theorem C70_partial : forall frames d k, 0 < d -> (1 <= frames)%Z -> 1 / 2 < IZR frames / d <= IZR (2 ^ 40) ->
  frame_rate None (Some (Fin d)) frames = Ok k ->
  Rabs (IZR frames / IZR k - d) <= 0.501 * d / IZR k.
Proof.
  intros frames d k Hd Hf [Q1 Q2] H. set (q := IZR frames / d) in *.
  assert (B : bpow radix2 (-1022) <= q).
  { apply Rle_trans with (bpow radix2 (-1)); [apply bpow_le; lia|]. cbn. lra. }
  pose proof (rnd64_upper q B) as U. pose proof (rnd64_lower q B) as L.
  assert (I : 0 < / IZR (2 ^ 53)) by (apply Rinv_0_lt_compat; apply IZR_lt; lia).
  assert (QI : q * / IZR (2 ^ 53) <= / 8192).
  { apply Rle_trans with (IZR (2 ^ 40) * / IZR (2 ^ 53)); [apply Rmult_le_compat_r; lra|].
    replace (IZR (2 ^ 53)) with (IZR (2 ^ 40) * 8192) by (rewrite <- mult_IZR; apply f_equal; reflexivity).
    rewrite Rinv_mult. rewrite <- Rmult_assoc, Rinv_r; [lra|]. apply not_0_IZR. lia. }
  assert (A : Rabs (rnd64 q - q) <= / 8192) by (apply Rabs_le; split; nra).
  unfold frame_rate in H. unfold gt0, Rltb in H. destruct (Rlt_dec 0 d) as [_|N]; [|lra].
  unfold fdiv in H. fold q in H. unfold to_num, Rleb in H.
  destruct (Rle_dec (bpow radix2 1024) (rnd64 q)) as [O|_].
  { exfalso. assert (bpow radix2 42 <= bpow radix2 1024) by (apply bpow_le; lia).
    assert (IZR (2 ^ 40) + 1 < bpow radix2 42) by (cbn; lra).
    assert (rnd64 q <= q + / 8192) by (unfold Rabs in A; destruct (Rcase_abs (rnd64 q - q)); lra). lra. }
  assert (A' : q - / 8192 <= rnd64 q <= q + / 8192) by (unfold Rabs in A; destruct (Rcase_abs (rnd64 q - q)); lra).
  destruct (Rle_dec (rnd64 q) (- bpow radix2 1024)) as [O|_].
  { exfalso. pose proof (bpow_gt_0 radix2 1024). lra. }
  apply GeoSampling.Ok_inj in H.
  pose proof (Znearest_half (fun x => negb (Z.even x)) (rnd64 q)) as Z1. fold ZnearestE in Z1.
  set (z := ZnearestE (rnd64 q)) in *.
  assert (Zb : IZR z - / 2 <= rnd64 q <= IZR z + / 2) by (unfold Rabs in Z1; destruct (Rcase_abs (rnd64 q - IZR z)); lra).
  assert (K : Rabs (q - IZR k) <= 0.501).
  { apply Rabs_le. destruct (Z_lt_le_dec z 1) as [Zl|Zl].
    - rewrite Z.max_l in H by lia. subst k. assert (IZR z <= 0) by (apply IZR_le; lia). lra.
    - rewrite Z.max_r in H by lia. subst k. lra. }
  assert (K1 : 1 <= IZR k) by (apply IZR_le; lia).
  assert (E : IZR frames / IZR k - d = (q - IZR k) * (d / IZR k)) by (unfold q; field; split; lra).
  rewrite E, Rabs_mult, (Rabs_right (d / IZR k)); [|apply Rle_ge; apply Rmult_le_pos; [lra|left; apply Rinv_0_lt_compat; lra]].
  unfold Rdiv at 2. rewrite Rmult_assoc. apply Rmult_le_compat_r; auto. apply Rmult_le_pos; [lra|left; apply Rinv_0_lt_compat; lra].
Qed.
(** It is exact when the duration is a whole number of frames per second. *)
Theorem C70_exact : forall frames d m, 0 < d -> (1 <= m <= 2 ^ 53)%Z -> IZR frames = IZR m * d ->
  frame_rate None (Some (Fin d)) frames = Ok m /\ IZR frames / IZR m = d.
Proof.
  intros frames d m Hd Hm E. assert (M1 : 1 <= IZR m) by (apply IZR_le; lia). split; [|rewrite E; field; lra].
  unfold frame_rate, gt0, Rltb. destruct (Rlt_dec 0 d) as [_|N]; [|lra]. unfold fdiv.
  replace (IZR frames / d) with (IZR m) by (rewrite E; field; lra). rewrite rnd64_IZR by lia.
  assert (B : IZR m < bpow radix2 1024).
  { apply Rle_lt_trans with (IZR (2 ^ 53)); [apply IZR_le; lia|]. apply Rle_lt_trans with (bpow radix2 53); [cbn; lra|apply bpow_lt; lia]. }
  unfold to_num, Rleb. destruct (Rle_dec (bpow radix2 1024) (IZR m)); [lra|]. destruct (Rle_dec (IZR m) (- bpow radix2 1024)); [lra|].
  rewrite nearest_IZR, Z.max_r by lia. auto.
Qed.
Example C70_exact_ex : frame_rate None (Some (Fin 2)) 50 = Ok 25%Z.
Proof. apply (C70_exact 50 2 25); try lra; lia. Qed.
(** A duration so short that the rate overflows is an error of its own kind; it is not checked. *)
Theorem C70_overflow_unchecked : forall frames d, 0 < d -> bpow radix2 1024 <= rnd64 (IZR frames / d) ->
  frame_rate None (Some (Fin d)) frames = Err OverflowError.
Proof.
  intros frames d Hd H. unfold frame_rate, gt0, Rltb. destruct (Rlt_dec 0 d); [|lra]. unfold fdiv, to_num, Rleb. destruct (Rle_dec _ _); [reflexivity|contradiction].
Qed.
Example C70_overflow_ex : frame_rate None (Some (Fin (bpow radix2 (-1074)))) 5 = Err OverflowError.
Proof.
  apply C70_overflow_unchecked; [apply bpow_gt_0|]. unfold rnd64. apply round_ge_generic; [apply FLT_exp_valid; reflexivity|apply valid_rnd_N|apply generic_format_bpow; vm_compute; discriminate|].
  replace (bpow radix2 1024) with (bpow radix2 (-50) / bpow radix2 (-1074)).
  - unfold Rdiv. apply Rmult_le_compat_r; [left; apply Rinv_0_lt_compat, bpow_gt_0|]. apply Rle_trans with (bpow radix2 0); [apply bpow_le; lia|cbn; lra].
  - unfold Rdiv. rewrite <- bpow_opp, <- bpow_plus. reflexivity.
Qed.
(** Slow trajectories are played too fast: three steps of a ten second signal last three
    seconds, and the sound track is cut to that length by the muxer. *)
Theorem C70_refuted : exists frames d k, 0 < d /\ (1 <= frames)%Z /\ frame_rate None (Some (Fin d)) frames = Ok k /\
  IZR frames / IZR k = 3 /\ d = 10.
Proof.
  exists 3%Z, 10, 1%Z. split; [lra|]. split; [lia|]. split; [|split; lra].
  assert (B : bpow radix2 (-1022) <= 3 / 10) by (apply Rle_trans with (bpow radix2 (-2)); [apply bpow_le; lia|cbn; lra]).
  pose proof (rnd64_upper _ B) as U. pose proof (rnd64_lower _ B) as L.
  assert (I : 0 < / IZR (2 ^ 53) < 1 / 10) by (cbn; lra).
  assert (A : 0.2 < rnd64 (3 / 10) < 0.4) by (split; nra).
  unfold frame_rate, gt0, Rltb. destruct (Rlt_dec 0 10) as [_|N]; [|lra]. unfold fdiv, to_num, Rleb.
  assert (1 <= bpow radix2 1024) by (apply (bpow_le radix2 0 1024); lia).
  destruct (Rle_dec (bpow radix2 1024) (rnd64 (3 / 10))); [lra|]. destruct (Rle_dec (rnd64 (3 / 10)) (- bpow radix2 1024)); [lra|].
  assert (E : ZnearestE (rnd64 (3 / 10)) = 0%Z) by (apply Znearest_imp; rewrite Rminus_0_r, Rabs_right; lra).
  rewrite E. reflexivity.
Qed.

(** ** C71 *)

(** Every frame of the track is what a listener should get. *)
Theorem C71_channels : forall n l r rows, (1 <= n)%nat -> Forall (fun row => length row = n) rows ->
  Forall2 (listens n l r) rows (stereo n l r rows).
Proof.
  intros n l r rows Hn F. unfold stereo. destruct (Nat.eqb_spec n 1) as [->|N].
  - induction F as [|row rows H F IH]; constructor; auto. left. split; auto. destruct row as [|x [|y row]]; try discriminate. exists x. auto.
  - destruct ((l <? 0) || (r <? 0) || (Z.of_nat n <=? l) || (Z.of_nat n <=? r))%Z eqn:E.
    + assert (C : ~ ((0 <= l < Z.of_nat n) /\ (0 <= r < Z.of_nat n))%Z).
      { rewrite !orb_true_iff, !Z.ltb_lt, !Z.leb_le in E. lia. }
      induction F as [|row rows H F IH]; constructor; auto. right. right. split; auto. split; auto.
      destruct row as [|x [|y row]]; cbn in H; try lia. exists x, y, row. auto.
    + assert (C : ((0 <= l < Z.of_nat n) /\ (0 <= r < Z.of_nat n))%Z).
      { rewrite !orb_false_iff, !Z.ltb_ge, !Z.leb_gt in E. lia. }
      induction F as [|row rows H F IH]; constructor; auto. right. left. split; auto. split; [tauto|]. split; [tauto|].
      exists (nth (Z.to_nat l) row 0), (nth (Z.to_nat r) row 0). rewrite !(nth_error_nth' row 0) by lia. auto.
Qed.
Example C71_channels_ex : stereo 3 2 0 [[1; 2; 3]; [4; 5; 6]] = [[3; 1]; [6; 4]] /\ stereo 3 0 3 [[1; 2; 3]] = [[1; 2]] /\
  stereo 1 5 7 [[1]; [2]] = [[1; 1]; [2; 2]].
Proof. repeat split. Qed.

(** ** C67 *)

(** Whatever the tools do and wherever the run is interrupted, the video is the original one
    or the complete output of a successful ffmpeg; only the two temporary files change besides. *)
Theorem C67_video : forall mux e video mixture l r w w' v, w video = Some v ->
  (forall c n rows, w mixture = Some c -> decode e c = Ok (n, rows) -> honest mux e v (encode e (stereo n l r rows))) ->
  In w' (passed (add_audio e video mixture l r w)) ->
  (w' video = Some v \/
   exists c n rows, w mixture = Some c /\ decode e c = Ok (n, rows) /\ exit_status e = Ok 0%Z /\
     w' video = Some (mux v (encode e (stereo n l r rows)))) /\
  (forall p, p <> video -> p <> tmp_audio video -> p <> tmp_video video -> w' p = w p).
Proof.
  intros mux e video mixture l r w w' v V Hm Hin. destruct (add_audio_cases e video mixture l r w) as [(o & E & _)|(v' & c & n & rows & V' & C & F & D & N & H)].
  - rewrite E in Hin. cbn in Hin. destruct Hin as [<-|[]]. auto.
  - destruct (add_audio e video mixture l r w) as [[t w1] o]. destruct (H t w1 o eq_refl) as [Ht Ha].
    assert (G : M e video w w').
    { cbn in Hin. apply in_app_or in Hin. destruct Hin as [Hin|[<-|[]]]; [rewrite Forall_forall in Ht; auto|].
      destruct o as [u|x]; cbn in Ha; [|left; tauto]. destruct Ha as (_ & _ & [Ha|[_ Ha]]); [right; auto|left; auto]. }
    destruct G as [[G1 G2]|(X & Y & G1 & G2)].
    + split; auto. left. congruence.
    + split; auto. right. exists c, n, rows. repeat split; auto. rewrite G1. apply (Hm c n rows C D). auto.
Qed.

(** A normal return leaves everything unchanged (nothing to do) or no temporary file, and the
    muxed video if ffmpeg succeeded, the original one if it failed. *)
Theorem C67_return : forall mux e video mixture l r w t w1 v, w video = Some v ->
  (forall c n rows, w mixture = Some c -> decode e c = Ok (n, rows) -> honest mux e v (encode e (stereo n l r rows))) ->
  add_audio e video mixture l r w = (t, w1, Ok tt) ->
  w1 = w \/
  (w1 (tmp_audio video) = None /\ w1 (tmp_video video) = None /\
   ((exists z, exit_status e = Ok z /\ z <> 0%Z /\ w1 video = Some v) \/
    (exists c n rows, w mixture = Some c /\ decode e c = Ok (n, rows) /\ exit_status e = Ok 0%Z /\
       w1 video = Some (mux v (encode e (stereo n l r rows)))))).
Proof.
  intros mux e video mixture l r w t w1 v V Hm E. destruct (add_audio_cases e video mixture l r w) as [(o & E' & _)|(v' & c & n & rows & V' & C & F & D & N & H)].
  - left. congruence.
  - right. destruct (H t w1 (Ok tt) E) as [_ (A & B & G)]. split; auto. split; auto.
    destruct G as [(X & Y & G1 & _)|((z & X & Z0) & G1 & _)].
    + right. exists c, n, rows. repeat split; auto. rewrite G1. apply (Hm c n rows C D). auto.
    + left. exists z. rewrite G1. auto.
Qed.
(** An exception comes from the sound file library, from starting ffmpeg, or from an ffmpeg
    that reports success without output; the video is the original one then. *)
Theorem C67_exception : forall e video mixture l r w t w1 x, add_audio e video mixture l r w = (t, w1, Err x) ->
  w1 video = w video /\
  ((exists c, w mixture = Some c /\ decode e c = Err x) \/ write_fails e = Some x \/ exit_status e = Err x \/
   (x = FileNotFoundError /\ exit_status e = Ok 0%Z /\ mux_final e = None)).
Proof.
  intros e video mixture l r w t w1 x E. destruct (add_audio_cases e video mixture l r w) as [(o & E' & Ho)|(v' & c & n & rows & V' & C & F & D & N & H)].
  - rewrite E' in E. injection E as <- <- ->. split; auto. destruct Ho as [?|(c & y & A & B & ?)]; [discriminate|]. left. exists c. split; congruence.
  - destruct (H t w1 (Err x) E) as [_ [[A _] B]]. split; auto.
Qed.
(** A run with everything going well, and one with a failing ffmpeg. *)
Definition demo (final : option bytes) (status : result Z) : tools :=
  mkTools true (fun _ => Ok (1%nat, [[1]])) (fun _ => [7]%nat) [Some []] None [Some []; Some [8]%nat] final status.
Definition disk : files := fun p => if String.eqb p "a.mp4" then Some [1]%nat else if String.eqb p "mix.wav" then Some [2]%nat else None.
Example C67_ex : let run f s := add_audio (demo f s) "a.mp4" "mix.wav" 0 1 disk in
  let show (x : list files * files * result unit) := let '(t, w, o) := x in
    (length t, w "a.mp4"%string, w "a_tmp_audio.wav"%string, w "a_tmp_mux.mp4"%string, o) in
  show (run (Some [8; 9]%nat) (Ok 0%Z)) = (7%nat, Some [8; 9]%nat, None, None, Ok tt) /\
  show (run (Some [8]%nat) (Ok 1%Z)) = (7%nat, Some [1]%nat, None, None, Ok tt) /\
  show (run None (Ok 0%Z)) = (5%nat, Some [1]%nat, Some [7]%nat, None, Err FileNotFoundError).
Proof. repeat split. Qed.
(** After an exception the temporary sound file may remain. *)
Theorem C67_leftover_unchecked : exists e video mixture w t w1, w (tmp_audio video) = None /\
  add_audio e video mixture 0 1 w = (t, w1, Err OSError) /\ w1 (tmp_audio video) <> None.
Proof.
  exists (demo None (Err OSError)), "a.mp4"%string, "mix.wav"%string, disk. do 2 eexists. split; [reflexivity|]. split; [reflexivity|]. cbn. discriminate.
Qed.
(** A mixture that has the name of the temporary sound file is overwritten and deleted. *)
Theorem C67_mixture_unchecked : exists e video mixture w t w1, w mixture <> None /\ mixture <> video /\
  add_audio e video mixture 0 1 w = (t, w1, Ok tt) /\ w1 mixture = None.
Proof.
  exists (demo (Some [9]%nat) (Ok 0%Z)), "a.mp4"%string, "a_tmp_audio.wav"%string, (put "a_tmp_audio.wav" (Some [3]%nat) disk). do 2 eexists.
  split; [discriminate|]. split; [discriminate|]. split; [reflexivity|]. reflexivity.
Qed.

Print Assumptions C66_partial.
Print Assumptions C66_total.
Print Assumptions C66_refused.
Print Assumptions C70_overflow_unchecked.
Print Assumptions C66_labels.
Print Assumptions C66_refuted.
Print Assumptions C66_lengths_refuted.
Print Assumptions C66_step_unchecked.
Print Assumptions C70_partial.
Print Assumptions C70_exact.
Print Assumptions C70_refuted.
Print Assumptions C71_channels.
Print Assumptions C67_video.
Print Assumptions C67_return.
Print Assumptions C67_exception.
Print Assumptions C67_leftover_unchecked.
Print Assumptions C67_mixture_unchecked.
Print Assumptions C70_duration.
