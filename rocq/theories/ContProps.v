(** C84: how much a response changes when a source or a microphone moves. *)
From Coq Require Import String List ZArith Reals Lia Lra Bool Permutation.
From Verif Require Import Prelude PreludeFacts SignalModel FloatModel DirModel ImageModel ImageSpec AcousticModel
  AccumModel IsmModel IsmSpec ImageProofs AccumProofs IsmProofs SimProofs SimMore SimArrival KernelProofs ContSpec ContProofs IsmProps.
Import ListNotations.
Local Open Scope R_scope.
Local Notation length := List.length.

(** [images] lists all images up to the order [N] once. *)
Definition all_images (dim : nat) (N : Z) (images : list (list Z)) : Prop :=
  NoDup images /\ forall v, In v images <-> length v = dim /\ (order_of v <= N)%Z.

Lemma table_positive dev c : cfg_validate c = Ok tt ->
  forall g, (if lut_enabled (cfg_use_lut c) dev then Some (Z.to_nat (cfg_gran c)) else None) = Some g -> (0 < g)%nat.
Proof.
  intros Hv g E. apply cfg_validate_ok in Hv. pose proof (ok_gran _ Hv). destruct (lut_enabled _ _); [|discriminate]. injection E as <-. lia.
Qed.
Lemma rsum_perm l l' : Permutation l l' -> rsum l = rsum l'.
Proof. unfold rsum. induction 1; cbn; lra. Qed.
Lemma read_value X dev r srcs mics N n c dim beta T images : scene r srcs mics dim beta -> cfg_hpf_enable c = false ->
  all_images dim N images ->
  simulate_rir X dev r srcs mics (Some N) None (Some (Z.of_nat n)) None None (Some (DName "omni")) ONone (Some c) = Ok T ->
  cfg_validate c = Ok tt /\ forall s m j, (s < count srcs)%nat -> (m < count mics)%nat -> (j < n)%nat ->
    xget T [s; m; j] = Some (value (Z.to_nat (cfg_fdl c)) (the_kernel dev c) (r_fs r) (r_c r) (beta_pairs beta) (data (r_size r)) images
      (position srcs s) (position mics m) j).
Proof.
  intros Hsc Hh [Nd Im] H. destruct (omni_ok_inv _ _ _ _ _ _ _ _ _ _ _ _ Hsc Hh H) as (Hv & HN & Hn & l & Hi & _ & _ & E).
  split; auto. intros s m j Hs Hm Hj. rewrite E by auto. unfold omni_rir. rewrite response_value. f_equal.
  destruct (indices_order N dim HN) as (l' & El & Nl & Il). rewrite El in Hi. injection Hi as <-.
  apply rsum_perm, Permutation_map, NoDup_Permutation; auto. intros v. rewrite Il, Im. reflexivity.
Qed.
Lemma scene_length r srcs mics dim beta : scene r srcs mics dim beta -> length (data (r_size r)) = dim.
Proof. intros H. rewrite (sc_size_wf _ _ _ _ _ H), (sc_size _ _ _ _ _ H). cbn. lia. Qed.

(** No sample exceeds the sum of the strengths of all arrivals. *)
Theorem C84_bounded : forall X dev r srcs mics N n c dim beta T images,
  scene r srcs mics dim beta -> cfg_hpf_enable c = false -> all_images dim N images ->
  simulate_rir X dev r srcs mics (Some N) None (Some (Z.of_nat n)) None None (Some (DName "omni")) ONone (Some c) = Ok T ->
  forall s m j, (s < count srcs)%nat -> (m < count mics)%nat -> (j < n)%nat ->
    exists h, xget T [s; m; j] = Some h /\
      Rabs h <= total_strength (beta_pairs beta) (data (r_size r)) images (position srcs s) (position mics m).
Proof.
  intros X dev r srcs mics N n c dim beta T images Hsc Hh Im H s m j Hs Hm Hj.
  destruct (read_value _ _ _ _ _ _ _ _ _ _ _ _ Hsc Hh Im H) as [Hv E]. eexists. split; [apply E; auto|].
  apply value_bounded. apply table_positive; auto.
Qed.
(** The change of every sample is bounded by a multiple of the distance moved, plus one jump of
    the window for every arrival that passes the sample in the middle of its pulse. *)
Theorem C84_change_partial : forall X dev r srcs mics srcs' mics' N n c dim beta T T' images,
  scene r srcs mics dim beta -> scene r srcs' mics' dim beta -> 0 < r_c r ->
  wf (entity_pos srcs) -> wf (entity_pos mics) -> wf (entity_pos srcs') -> wf (entity_pos mics') ->
  cfg_hpf_enable c = false -> all_images dim N images ->
  simulate_rir X dev r srcs mics (Some N) None (Some (Z.of_nat n)) None None (Some (DName "omni")) ONone (Some c) = Ok T ->
  simulate_rir X dev r srcs' mics' (Some N) None (Some (Z.of_nat n)) None None (Some (DName "omni")) ONone (Some c) = Ok T' ->
  forall s m s' m' j, (s < count srcs)%nat -> (m < count mics)%nat -> (s' < count srcs')%nat -> (m' < count mics')%nat -> (j < n)%nat ->
    exists h h', xget T [s; m; j] = Some h /\ xget T' [s'; m'; j] = Some h' /\
      Rabs (h' - h) <= variation (Z.to_nat (cfg_fdl c)) (r_fs r) (r_c r) (beta_pairs beta) (data (r_size r)) images
        (position srcs s) (position mics m) (position srcs' s') (position mics' m') j.
Proof.
  intros X dev r srcs mics srcs' mics' N n c dim beta T T' images Hsc Hsc' Hc W1 W2 W3 W4 Hh Im H H' s m s' m' j Hs Hm Hs' Hm' Hj.
  destruct (read_value _ _ _ _ _ _ _ _ _ _ _ _ Hsc Hh Im H) as [Hv E]. destruct (read_value _ _ _ _ _ _ _ _ _ _ _ _ Hsc' Hh Im H') as [_ E'].
  do 2 eexists. split; [apply E; auto|]. split; [apply E'; auto|].
  pose proof (scene_length _ _ _ _ _ Hsc) as L. unfold the_kernel. apply value_change.
  - apply ok_fdl, cfg_validate_ok; auto.
  - apply table_positive; auto.
  - apply (sc_fs _ _ _ _ _ Hsc).
  - auto.
  - rewrite L. eapply length_position; eauto. apply (sc_src _ _ _ _ _ Hsc).
  - rewrite L. eapply length_position; eauto. apply (sc_mic _ _ _ _ _ Hsc).
  - rewrite L. eapply length_position; eauto. apply (sc_src _ _ _ _ _ Hsc').
  - rewrite L. eapply length_position; eauto. apply (sc_mic _ _ _ _ _ Hsc').
  - intros v Iv. rewrite L. apply Im in Iv. apply Iv.
Qed.
(** Away from positions where an arrival is exactly in the middle of its pulse at sample [j], this
    sample depends continuously on the positions. *)
Theorem C84_continuous_partial : forall X dev r srcs mics N n c dim beta T images s m j eps,
  scene r srcs mics dim beta -> 0 < r_c r -> wf (entity_pos srcs) -> wf (entity_pos mics) ->
  cfg_hpf_enable c = false -> all_images dim N images ->
  simulate_rir X dev r srcs mics (Some N) None (Some (Z.of_nat n)) None None (Some (DName "omni")) ONone (Some c) = Ok T ->
  (s < count srcs)%nat -> (m < count mics)%nat -> (j < n)%nat -> 0 < eps ->
  (forall k, length k = dim -> (order_of k <= N)%Z ->
     arrival (r_fs r) (r_c r) (position srcs s) (position mics m) (data (r_size r)) k <> INR j - INR (Z.to_nat (cfg_fdl c) / 2)) ->
  exists eta, 0 < eta /\ forall srcs' mics' T' s' m', scene r srcs' mics' dim beta -> wf (entity_pos srcs') -> wf (entity_pos mics') ->
    simulate_rir X dev r srcs' mics' (Some N) None (Some (Z.of_nat n)) None None (Some (DName "omni")) ONone (Some c) = Ok T' ->
    (s' < count srcs')%nat -> (m' < count mics')%nat ->
    euclid (position srcs s) (position srcs' s') + euclid (position mics m) (position mics' m') <= eta ->
    exists h h', xget T [s; m; j] = Some h /\ xget T' [s'; m'; j] = Some h' /\ Rabs (h' - h) <= eps.
Proof.
  intros X dev r srcs mics N n c dim beta T images s m j eps Hsc Hc W1 W2 Hh Im H Hs Hm Hj He Hx.
  pose proof (scene_length _ _ _ _ _ Hsc) as L.
  destruct (variation_small (Z.to_nat (cfg_fdl c)) (r_fs r) (r_c r) (beta_pairs beta) (data (r_size r)) images (position srcs s) (position mics m) j eps)
    as (eta & Pe & Ve); auto.
  - apply (sc_fs _ _ _ _ _ Hsc).
  - rewrite L. eapply length_position; eauto. apply (sc_src _ _ _ _ _ Hsc).
  - rewrite L. eapply length_position; eauto. apply (sc_mic _ _ _ _ _ Hsc).
  - intros v Iv. rewrite L. apply Im in Iv. apply Iv.
  - intros v Iv. apply Im in Iv. apply Hx; apply Iv.
  - exists eta. split; auto. intros srcs' mics' T' s' m' Hsc' W3 W4 H' Hs' Hm' Hd.
    destruct (C84_change_partial X dev r srcs mics srcs' mics' N n c dim beta T T' images Hsc Hsc' Hc W1 W2 W3 W4 Hh Im H H' s m s' m' j Hs Hm Hs' Hm' Hj)
      as (h & h' & E & E' & B). exists h, h'. split; auto. split; auto. eapply Rle_trans; [exact B|]. apply Ve; auto.
    + rewrite L. eapply length_position; eauto. apply (sc_src _ _ _ _ _ Hsc').
    + rewrite L. eapply length_position; eauto. apply (sc_mic _ _ _ _ _ Hsc').
Qed.
(** The jump for a filter of [L] taps. *)
Theorem C84_jump : forall L, Nat.Odd L -> (3 <= L)%nat -> jump L = sin (PI / INR (L - 1)) ^ 2.
Proof. exact jump_value. Qed.

(** ** The witness: an absorbing room with the source (1, 1) five samples away from (4, 5) *)
Definition wit_room : room := mkRoom (mkT [2%nat] [10; 10]) 1 1 (Some (repeat 0 4)) None.
Definition wit_src (e : R) : entity := ETensor (mkT [1%nat; 2%nat] [1 + 3 / 5 * e; 1 + 4 / 5 * e]).
Lemma wit_scene e : scene wit_room (wit_src e) ex_mic 2 (repeat 0 (2 * 2)).
Proof. constructor; cbn; auto; try lra; try lia. reflexivity. Qed.
Lemma wit_ray e : 0 <= e <= 1 -> ray_length [1 + 3 / 5 * e; 1 + 4 / 5 * e] [4; 5] [10; 10] [0; 0]%Z = 5 - e.
Proof.
  intros He. unfold ray_length, euclid, sqdist. cbn [image_of reflected combine map fold_right fst snd].
  match goal with |- Rmax (sqrt ?a) _ = _ => replace a with ((5 - e) * (5 - e)) by field end.
  rewrite sqrt_square by lra. apply Rmax_left. cbn [pow]. lra.
Qed.
Lemma wit_moved e : 0 <= e -> euclid [1 + 3 / 5 * 0; 1 + 4 / 5 * 0] [1 + 3 / 5 * e; 1 + 4 / 5 * e] = e.
Proof.
  intros He. unfold euclid, sqdist. cbn [combine map fold_right fst snd].
  match goal with |- sqrt ?a = _ => replace a with (e * e) by field end. apply sqrt_square; auto.
Qed.
(** The response is not a continuous function of the positions: however little the source moves
    towards the microphone, one sample changes by more than a tenth of the jump, for every valid
    configuration without filter. *)
Theorem C84_continuous_refuted : forall X dev c, cfg_validate c = Ok tt -> cfg_hpf_enable c = false ->
  let L := Z.to_nat (cfg_fdl c) in
  let n := (L + 10)%nat in let j := (5 + L / 2)%nat in
  0 < jump L /\
  forall eta, 0 < eta -> exists e T T' h h', euclid (position (wit_src 0) 0) (position (wit_src e) 0) <= eta /\
    simulate_rir X dev wit_room (wit_src 0) ex_mic (Some 0%Z) None (Some (Z.of_nat n)) None None (Some (DName "omni")) ONone (Some c) = Ok T /\
    simulate_rir X dev wit_room (wit_src e) ex_mic (Some 0%Z) None (Some (Z.of_nat n)) None None (Some (DName "omni")) ONone (Some c) = Ok T' /\
    xget T [0; 0; j]%nat = Some h /\ xget T' [0; 0; j]%nat = Some h' /\ Rabs (h' - h) > jump L / 10.
Proof.
  intros X dev c Hv Hh L n j. pose proof (cfg_validate_ok _ Hv) as Hok. assert (HL : Nat.Odd L) by apply (ok_fdl _ Hok).
  pose proof (jump_pos L HL) as HJ. pose proof (jump_nonneg L) as HJ1. split; auto. intros eta Heta. set (e := Rmin eta (jump L)).
  assert (E1 : 0 < e) by (apply Rmin_pos; auto). assert (E2 : e <= jump L) by apply Rmin_r. assert (E3 : e <= eta) by apply Rmin_l.
  assert (Hj : (j < n)%nat).
  { unfold j, n. pose proof (odd_half L HL). rewrite <- half_odd by auto. lia. }
  pose proof (simulate_omni X dev wit_room (wit_src 0) ex_mic 0 None n c 2 _ _ (wit_scene 0) Hv Hh ltac:(lia) ltac:(unfold n; lia) eq_refl) as S0.
  pose proof (simulate_omni X dev wit_room (wit_src e) ex_mic 0 None n c 2 _ _ (wit_scene e) Hv Hh ltac:(lia) ltac:(unfold n; lia) eq_refl) as S1.
  pose proof (C24_absorbing_room X dev _ _ _ _ _ _ _ _ (wit_scene 0) Hh S0 0%nat 0%nat j ltac:(cbn; lia) ltac:(cbn; lia) Hj) as V0.
  pose proof (C24_absorbing_room X dev _ _ _ _ _ _ _ _ (wit_scene e) Hh S1 0%nat 0%nat j ltac:(cbn; lia) ltac:(cbn; lia) Hj) as V1.
  assert (P : forall z, position (wit_src z) 0 = [1 + 3 / 5 * z; 1 + 4 / 5 * z]) by reflexivity.
  assert (Pm : position ex_mic 0 = [4; 5]) by reflexivity.
  cbn [repeat wit_room r_size data r_fs r_c] in V0, V1. rewrite P, Pm, wit_ray, pulse_value in V0, V1 by lra. fold L in V0, V1.
  do 5 eexists. split; [rewrite !P, wit_moved; [exact E3|lra]|]. split; [exact S0|]. split; [exact S1|]. split; [exact V0|]. split; [exact V1|].
  unfold shape_at. replace (INR j - INR (L / 2)) with 5 by (unfold j; rewrite plus_INR; cbn; ring).
  replace ((5 - 0) * 1 / 1) with (IZR 5) by field. rewrite floorZ_IZR.
  replace ((5 - e) * 1 / 1) with (5 - e) by field. rewrite (floorZ_unique (5 - e) 4) by lra.
  replace (Z.of_nat j - 5)%Z with (Z.of_nat (L / 2)) by (unfold j; lia). rewrite window_centre by auto.
  replace (Z.of_nat j - 4)%Z with (Z.of_nat (L / 2) + 1)%Z by (unfold j; lia).
  pose proof (window_range L (Z.of_nat (L / 2) + 1)) as W. assert (EW : window L (Z.of_nat (L / 2) + 1) = 1 - jump L) by (unfold jump; ring).
  rewrite EW in *. unfold the_kernel. replace (5 - 5) with (IZR 0) by ring. rewrite kernel_int by (apply table_positive; auto). cbn [Z.eqb].
  replace (5 - (5 - e)) with e by ring. set (t := kernel _ e). assert (Kt : Rabs t <= 1) by (apply kernel_abs, table_positive; auto). apply Rcomplements.Rabs_le_between in Kt.
  assert (I : 0 < / (5 - e)) by (apply Rinv_0_lt_compat; lra).
  assert (B : / (5 - e) * (t * (1 - jump L)) <= / (5 - e) * (1 - jump L)) by (apply Rmult_le_compat_l; nra).
  assert (C : / (5 - e) * (1 - jump L) <= / 5 - 4 * jump L / 25).
  { apply Rmult_le_reg_l with (5 - e); [lra|]. rewrite <- Rmult_assoc, Rinv_r, Rmult_1_l by lra. nra. }
  rewrite Rabs_left1; [|rewrite Rminus_0_r; lra]. rewrite Rminus_0_r. lra.
Qed.

(** With the default filter of 81 taps the jump is less than a four hundredth of the arrival. *)
Example C84_example : 0 < jump 81 < / 400.
Proof.
  split; [apply jump_pos; exists 40%nat; lia|]. rewrite C84_jump by (try (exists 40%nat; lia); lia).
  replace (INR (81 - 1)) with 80 by (cbn; ring). pose proof PI_RGT_0 as H0. pose proof PI_4 as H4.
  assert (S1 : 0 < sin (PI / 80)) by (apply sin_gt_0; lra).
  assert (S2 : sin (PI / 80) < PI / 80) by (apply sin_lt_x; lra).
  cbn [pow]. nra.
Qed.
(** The source at (1, 1) and the microphone at (4, 5): half a sample after the direct sound the
    response is a continuous function of the positions. *)
Example C84_example_change : forall X T, 
  simulate_rir X Cpu ex_room ex_src ex_mic (Some 0%Z) None (Some 20%Z) None None (Some (DName "omni")) ONone (Some ex_cfg) = Ok T ->
  exists eta, 0 < eta /\ forall mics' T' m', scene ex_room ex_src mics' 2 [/2; /3; /5; /7] -> wf (entity_pos mics') ->
    simulate_rir X Cpu ex_room ex_src mics' (Some 0%Z) None (Some 20%Z) None None (Some (DName "omni")) ONone (Some ex_cfg) = Ok T' ->
    (m' < count mics')%nat -> euclid [4; 5] (position mics' m') <= eta ->
    exists h h', xget T [0; 0; 12]%nat = Some h /\ xget T' [0; m'; 12]%nat = Some h' /\ Rabs (h' - h) <= / 1000.
Proof.
  intros X T H.
  assert (Im : all_images 2 0 [[0; 0]%Z]).
  { destruct (indices_order 0 2 ltac:(lia)) as (l & E & D & I). cbn in E. injection E as <-. split; auto. }
  destruct (C84_continuous_partial X Cpu ex_room ex_src ex_mic 0 20 ex_cfg 2 _ T _ 0 0 12 (/ 1000) ex_scene ltac:(cbn; lra) eq_refl eq_refl eq_refl Im H
    ltac:(cbn; lia) ltac:(cbn; lia) ltac:(lia) ltac:(lra)) as (eta & P & C).
  { intros k Lk Ok. assert (K : In k [[0; 0]%Z]) by (apply Im; auto). destruct K as [<-|[]].
    unfold arrival. cbn [ex_room r_fs r_c r_size data]. change (position ex_src 0) with [1; 1]. change (position ex_mic 0) with [4; 5]. rewrite ex_ray.
    cbn [ex_cfg cfg_fdl Z.to_nat]. change (Pos.to_nat 3 / 2)%nat with 1%nat. cbn. lra. }
  exists eta. split; auto. intros mics' T' m' Sc W H' Hm Hd.
  apply (C ex_src mics' T' 0%nat m' Sc eq_refl W H' ltac:(cbn; lia) Hm).
  change (position ex_src 0) with [1; 1]. change (position ex_mic 0) with [4; 5].
  replace (euclid [1; 1] [1; 1]) with 0; [lra|]. unfold euclid, sqdist. cbn. symmetry. replace (_ + _) with 0 by ring. apply sqrt_0.
Qed.
Print Assumptions C84_bounded.
Print Assumptions C84_change_partial.
Print Assumptions C84_continuous_partial.
Print Assumptions C84_jump.
Print Assumptions C84_continuous_refuted.
