(** Property theorems C100: recordings of sources and microphones that move. *)
From Coq Require Import String List ZArith Reals Lia Lra Bool Permutation.
From Verif Require Import Prelude PreludeFacts SignalModel SignalSpec ConvProofs FloatModel DirModel ImageModel ImageSpec AcousticModel
  AccumModel IsmModel IsmSpec ImageProofs AccumProofs IsmProofs SimProofs SimMore SimLocal SimSteps SimPairs SimArrival KernelProofs ContSpec ContProofs IsmProps ContProps ConvMore AlgProofs LoopModel
  RecSpec RecProofs MovSpec MovProofs.
From Verif Require Import SegProofs.
From Verif Require SignalProps.
Import ListNotations.
Local Open Scope R_scope.
Local Notation length := List.length.
Local Notation lsum_of := ContSpec.rsum.
Local Notation rsum := Prelude.rsum.

(** ** C100 *)
(** Responses of fixed length along trajectories, omnidirectional. *)
Local Notation moving_simulation X dev r src mic N n c :=
  (simulate_dynamic_rir X dev r src mic (Some N) None (Some (Z.of_nat n)) None (Some (DName "omni")) ONone (Some c)).
(** [t] is what comes out when the signal [x] is convolved with the responses along the trajectories. *)
Local Notation moving_recording dc x T ts fs t := (exists h, all_numbers T = Some h /\ convolve_trajectory dc x h ts fs = Ok t).
Local Notation at_step traj t := (ETensor (step_tensor traj t)).

(** Every dry sample goes through the room as it is at the step at which the sample is played: one
    pulse per image of the source at this step. *)
Theorem C100_images : forall X dev r src mic N n c steps ns nm dim beta T images dc x ts fs k,
  moving r src mic steps ns nm dim beta -> cfg_hpf_enable c = false -> filt_length X -> all_images dim N images ->
  moving_simulation X dev r src mic N n c = Ok T -> plays x ns -> played_at dc (sig_len x) steps ts fs k ->
  exists t, moving_recording dc x T ts fs t /\ is_output t nm (sig_len x + n - 1) (fun m j =>
    rsum ns (fun s => rsum (S j) (fun tau => sig_view x s tau * zext n (fun i => lsum_of (map (fun v =>
      let d := ray_length (position (at_step src (k tau)) s) (position (at_step mic (k tau)) m) (data (r_size r)) v in
      path_gain (beta_pairs beta) v / d * tap (Z.to_nat (cfg_fdl c)) (the_kernel dev c) (d * r_fs r / r_c r) i) images)) (j - tau)))).
Proof.
  intros X dev r src mic N n c steps ns nm dim beta T images dc x ts fs k Mv Hh Fl Im H P K.
  destruct (moving_steps _ _ _ _ _ _ _ _ _ _ _ _ _ _ Mv Hh Fl H) as (_ & _ & _ & _ & _ & Each).
  destruct (moving_recorded _ _ _ _ _ _ _ _ _ _ _ _ _ _ Mv Hh Fl H dc x ts fs k P K (fun t s m j =>
    value (Z.to_nat (cfg_fdl c)) (the_kernel dev c) (r_fs r) (r_c r) (beta_pairs beta) (data (r_size r)) images (position (at_step src t) s) (position (at_step mic t) m) j)) as (h & t & A & C & O).
  - intros t s m j Ht Hs Hm Hj. destruct (Each t Ht) as (T0 & S0 & E0). destruct (moving_scene _ _ _ _ _ _ _ _ Mv t) as (Sc & Cs & Cm).
    rewrite E0 by auto. destruct (read_value _ _ _ _ _ _ _ _ _ _ _ _ Sc Hh Im S0) as (_ & E). apply E; rewrite ?Cs, ?Cm; auto.
  - exists t. split; [exists h; auto|]. exact O.
Qed.
(** A schedule exists without timestamps: the steps share the signal evenly. *)
Theorem C100_default : forall dc n steps fs, (0 < steps)%nat -> (Z.of_nat steps <= 2 ^ (ts_prec dc - 2))%Z -> exists k, played_at dc n steps None fs k.
Proof.
  intros dc n steps fs Hs Hl. destruct (SignalProps.C05_default_segments_partition dc n steps Hs Hl fs) as (w & E & L & P).
  exists (active_step w). exists w. split; [exact E|]. split; [exact L|]. split; [exact P|]. apply SignalProps.C04_segment_exists. exact P.
Qed.
(** Nothing is heard at sample [j] if no sound can have come so far from where it was played. *)
Theorem C100_silence : forall X dev r src mic N n c steps ns nm dim beta T dc x ts fs k,
  moving r src mic steps ns nm dim beta -> cfg_hpf_enable c = false -> filt_length X -> 0 < r_c r ->
  (forall t s, (t < steps)%nat -> (s < ns)%nat -> ImageSpec.inside (position (at_step src t) s) (data (r_size r))) ->
  (forall t m, (t < steps)%nat -> (m < nm)%nat -> ImageSpec.inside (position (at_step mic t) m) (data (r_size r))) ->
  moving_simulation X dev r src mic N n c = Ok T -> plays x ns -> played_at dc (sig_len x) steps ts fs k ->
  exists t, moving_recording dc x T ts fs t /\ shape t = out_shape nm (sig_len x + n - 1) /\
    forall m j, (m < nm)%nat -> (j < sig_len x + n - 1)%nat ->
      (forall s tau, (s < ns)%nat -> (tau <= j)%nat -> sig_view x s tau <> 0 ->
         (Z.of_nat j < Z.of_nat tau + floorZ (euclid (position (at_step mic (k tau)) m) (position (at_step src (k tau)) s) * r_fs r / r_c r)%R)%Z) ->
      out_view t m j = 0.
Proof.
  intros X dev r src mic N n c steps ns nm dim beta T dc x ts fs k Mv Hh Fl Hc Is Im H P K.
  destruct (moving_steps _ _ _ _ _ _ _ _ _ _ _ _ _ _ Mv Hh Fl H) as (HN & _ & _ & _ & _ & Each). destruct (images_exist N dim HN) as (images & Ai).
  assert (F : forall t s m j, (t < steps)%nat -> (s < ns)%nat -> (m < nm)%nat -> (j < n)%nat -> xget T [t; s; m; j] = Some
    (value (Z.to_nat (cfg_fdl c)) (the_kernel dev c) (r_fs r) (r_c r) (beta_pairs beta) (data (r_size r)) images (position (at_step src t) s) (position (at_step mic t) m) j)).
  { intros t s m j Ht Hs Hm Hj. destruct (Each t Ht) as (T0 & S0 & E0). destruct (moving_scene _ _ _ _ _ _ _ _ Mv t) as (Sc & Cs & Cm).
    rewrite E0 by auto. destruct (read_value _ _ _ _ _ _ _ _ _ _ _ _ Sc Hh Ai S0) as (_ & E). apply E; rewrite ?Cs, ?Cm; auto. }
  destruct (moving_recorded _ _ _ _ _ _ _ _ _ _ _ _ _ _ Mv Hh Fl H dc x ts fs k P K _ F) as (h & t & A & C & (O1 & O2 & O3)).
  exists t. split; [exists h; auto|]. split; [exact O1|]. intros m j Hm Hj L. rewrite O3 by auto. apply PreludeFacts.rsum_zero. intros s Ss. unfold tv_conv. apply PreludeFacts.rsum_zero. intros tau Ht.
  destruct (Req_dec (sig_view x s tau) 0) as [Z0|Z0]; [rewrite Z0; ring|]. unfold zext. destruct (Nat.ltb_spec (j - tau) n) as [Ji|]; [|ring].
  destruct (Nat.lt_ge_cases tau (sig_len x)) as [Q|Q]; [|exfalso; apply Z0, sig_view_zero; auto].
  assert (Kt : (k tau < steps)%nat). { destruct K as (w & _ & K2 & _ & K4). destruct (K4 tau Q) as (Kt & _). rewrite K2 in Kt. exact Kt. }
  destruct (Each (k tau) Kt) as (T0 & S0 & E0). destruct (moving_scene _ _ _ _ _ _ _ _ Mv (k tau)) as (Sc & Cs & Cm).
  specialize (F (k tau) s m (j - tau)%nat Kt Ss Hm Ji). rewrite E0 in F by auto. specialize (L s tau Ss ltac:(lia) Z0).
  assert (Z1 : xget T0 [s; m; (j - tau)%nat] = Some 0).
  { apply (C22_silent_before_direct _ _ _ _ _ _ _ _ _ _ _ _ s m (j - tau)%nat Sc Hh Hc S0); rewrite ?Cs, ?Cm; auto. lia. }
  rewrite Z1 in F. injection F as F. rewrite <- F. ring.
Qed.
(** In a room without reflections, at distances of a whole number of samples, every dry sample
    arrives once: delayed by and divided by the distance at the step at which it was played. *)
Theorem C100_free_field : forall X dev r src mic N n c steps ns nm dim T dc x ts fs k D,
  moving r src mic steps ns nm dim (repeat 0 (2 * dim)) -> cfg_hpf_enable c = false -> filt_length X ->
  let d t s m := ray_length (position (at_step src t) s) (position (at_step mic t) m) (data (r_size r)) (repeat 0%Z dim) in
  let lag := ((Z.to_nat (cfg_fdl c) - 1) / 2)%nat in
  (forall t s m, (t < steps)%nat -> (s < ns)%nat -> (m < nm)%nat -> d t s m * r_fs r / r_c r = INR (D t s m) /\ (D t s m + lag < n)%nat) ->
  moving_simulation X dev r src mic N n c = Ok T -> plays x ns -> played_at dc (sig_len x) steps ts fs k ->
  exists t, moving_recording dc x T ts fs t /\ is_output t nm (sig_len x + n - 1) (fun m j =>
    rsum ns (fun s => rsum (sig_len x) (fun tau => if (tau + D (k tau) s m + lag =? j)%nat then sig_view x s tau / d (k tau) s m else 0))).
Proof.
  intros X dev r src mic N n c steps ns nm dim T dc x ts fs k D Mv Hh Fl d lag HD H P K.
  destruct (moving_steps _ _ _ _ _ _ _ _ _ _ _ _ _ _ Mv Hh Fl H) as (HN & _ & Hv & _ & _ & Each).
  pose proof (ok_fdl _ (cfg_validate_ok _ Hv)) as Ho. pose proof (table_positive dev c Hv) as Tp.
  destruct (moving_recorded _ _ _ _ _ _ _ _ _ _ _ _ _ _ Mv Hh Fl H dc x ts fs k P K (fun t s m j => / d t s m * if (j =? D t s m + lag)%nat then 1 else 0)) as (h & t & A & C & (O1 & O2 & O3)).
  { intros t s m j Ht Ss Sm Sj. destruct (Each t Ht) as (T0 & S0 & E0). destruct (moving_scene _ _ _ _ _ _ _ _ Mv t) as (Sc & Cs & Cm). rewrite E0 by auto.
    pose proof (C24_absorbing_room X dev r _ _ N n c dim T0 Sc Hh S0 s m j ltac:(rewrite Cs; auto) ltac:(rewrite Cm; auto) Sj) as E. cbv zeta in E. fold (d t s m) in E. destruct (HD t s m Ht Ss Sm) as (Ed & _).
    rewrite E, pulse_value, Ed. do 2 f_equal. exact (tap_whole (Z.to_nat (cfg_fdl c)) _ (D t s m) Ho Tp j). }
  exists t. split; [exists h; auto|]. split; [exact O1|]. split; [exact O2|]. intros m j Sm Sj. rewrite O3 by auto. apply PreludeFacts.rsum_ext. intros s Ss. unfold tv_conv.
  assert (Kt : forall tau, (tau < sig_len x)%nat -> (k tau < steps)%nat). { intros tau Q. destruct K as (w & _ & K2 & _ & K4). destruct (K4 tau Q) as (Kt & _). rewrite K2 in Kt. exact Kt. }
  apply rsum_same.
  - intros tau T1 T2. destruct (HD (k tau) s m (Kt tau T2) Ss Sm) as (_ & Ld). unfold zext, Rdiv.
    destruct (Nat.eqb_spec (tau + D (k tau) s m + lag) j) as [E|E]; destruct (Nat.eqb_spec (j - tau) (D (k tau) s m + lag)); destruct (Nat.ltb_spec (j - tau) n); try lia; ring.
  - intros tau T1 T2. rewrite sig_view_zero by auto. ring.
  - intros tau T1 T2. destruct (Nat.eqb_spec (tau + D (k tau) s m + lag) j); [lia|reflexivity].
Qed.
(** Receding sources leave gaps: if all delays grow from at most [D1] to at least [D2] at sample [p],
    the microphone gets zeros in between, however loud the sources are. *)
Theorem C100_gap : forall X dev r src mic N n c steps ns nm dim T dc x ts fs k D p D1 D2 m,
  moving r src mic steps ns nm dim (repeat 0 (2 * dim)) -> cfg_hpf_enable c = false -> filt_length X ->
  let lag := ((Z.to_nat (cfg_fdl c) - 1) / 2)%nat in
  (forall t s m, (t < steps)%nat -> (s < ns)%nat -> (m < nm)%nat ->
     ray_length (position (at_step src t) s) (position (at_step mic t) m) (data (r_size r)) (repeat 0%Z dim) * r_fs r / r_c r = INR (D t s m) /\ (D t s m + lag < n)%nat) ->
  moving_simulation X dev r src mic N n c = Ok T -> plays x ns -> played_at dc (sig_len x) steps ts fs k -> (m < nm)%nat -> (p < sig_len x)%nat ->
  (forall s tau, (s < ns)%nat -> (tau < sig_len x)%nat -> if (tau <? p)%nat then (D (k tau) s m <= D1)%nat else (D2 <= D (k tau) s m)%nat) ->
  exists t, moving_recording dc x T ts fs t /\ forall j, (p + D1 + lag <= j < p + D2 + lag)%nat -> (j < sig_len x + n - 1)%nat -> out_view t m j = 0.
Proof.
  intros X dev r src mic N n c steps ns nm dim T dc x ts fs k D p D1 D2 m Mv Hh Fl lag HD H P K Sm Hp G.
  destruct (C100_free_field _ _ _ _ _ _ _ _ _ _ _ _ _ _ _ _ _ _ D Mv Hh Fl HD H P K) as (t & Rt & (O1 & O2 & O3)). exists t. split; [exact Rt|]. intros j Hj Lj.
  rewrite O3 by auto. apply PreludeFacts.rsum_zero. intros s Ss. apply PreludeFacts.rsum_zero. intros tau Ht. specialize (G s tau Ss Ht). fold lag.
  destruct (Nat.eqb_spec (tau + D (k tau) s m + lag) j) as [E|]; [exfalso|reflexivity]. destruct (Nat.ltb_spec tau p); lia.
Qed.
(** Trajectories that do not move give the recording of the scene that stands still. *)
Theorem C100_still : forall X dev r src mic N n c steps ns nm dim beta T T0 dc x ts fs k,
  moving r src mic steps ns nm dim beta -> cfg_hpf_enable c = false -> filt_length X ->
  (forall t, (t < steps)%nat -> step_tensor src t = step_tensor src 0 /\ step_tensor mic t = step_tensor mic 0) ->
  moving_simulation X dev r src mic N n c = Ok T -> plays x ns -> played_at dc (sig_len x) steps ts fs k ->
  simulate_rir X dev r (at_step src 0) (at_step mic 0) (Some N) None (Some (Z.of_nat n)) None None (Some (DName "omni")) ONone (Some c) = Ok T0 ->
  exists t h0, moving_recording dc x T ts fs t /\ all_numbers T0 = Some h0 /\ convolve_rir x h0 = Ok t.
Proof.
  intros X dev r src mic N n c steps ns nm dim beta T T0 dc x ts fs k Mv Hh Fl St H P K H0.
  destruct (moving_steps _ _ _ _ _ _ _ _ _ _ _ _ _ _ Mv Hh Fl H) as (HN & _ & _ & _ & _ & Each). destruct (images_exist N dim HN) as (images & Ai).
  destruct (moving_scene _ _ _ _ _ _ _ _ Mv 0) as (Sc & Cs & Cm). destruct (read_value _ _ _ _ _ _ _ _ _ _ _ _ Sc Hh Ai H0) as (_ & E).
  assert (P0 : plays x (count (at_step src 0))) by (rewrite Cs; exact P).
  destruct (recorded _ _ _ _ _ _ _ _ _ _ _ _ Sc Hh H0 P0 _ E) as (h0 & t0 & A0 & C0 & O0). rewrite Cs, Cm in O0.
  destruct (moving_recorded _ _ _ _ _ _ _ _ _ _ _ _ _ _ Mv Hh Fl H dc x ts fs k P K (fun t s m j =>
    value (Z.to_nat (cfg_fdl c)) (the_kernel dev c) (r_fs r) (r_c r) (beta_pairs beta) (data (r_size r)) images (position (at_step src 0) s) (position (at_step mic 0) m) j)) as (h & t & A & C & O).
  - intros t s m j Ht Hs Hm Hj. destruct (Each t Ht) as (T1 & S1 & E1). destruct (St t Ht) as (Q1 & Q2). rewrite Q1, Q2 in S1. rewrite S1 in H0. injection H0 as <-.
    rewrite E1 by auto. apply E; rewrite ?Cs, ?Cm; auto.
  - exists t, h0. split; [exists h; auto|]. split; [exact A0|]. rewrite C0. f_equal. exact (is_output_unique _ _ _ _ _ O0 O).
Qed.

(** A source that jumps from distance 4 to distance 5 (one sample per metre) after the second of four
    samples: sample 7 of the recording is lost. The other way round samples add up there. *)
Definition mv_mics : tensor := mkT [2%nat; 1%nat; 2%nat] [4; 5; 4; 5].
Definition mv_away : tensor := mkT [2%nat; 2%nat] [4; 1; 1; 1].
Definition mv_near : tensor := mkT [2%nat; 2%nat] [1; 1; 4; 1].
Definition mv_dry : tensor := mkT [4%nat] [1; 1; 1; 1].
Lemma mv_ray4 : ray_length [4; 1] [4; 5] [10; 10] [0; 0]%Z = 4.
Proof.
  unfold ray_length, euclid, sqdist. cbn [image_of reflected combine map fold_right fst snd].
  replace ((4 - 4) * (4 - 4) + ((5 - 1) * (5 - 1) + 0)) with (4 * 4) by ring. rewrite sqrt_square by lra. apply Rmax_left. cbn [pow]. lra.
Qed.
Lemma mv_plays : plays mv_dry 1.
Proof. unfold plays, sig_rank_ok, ndim, wf, sig_len, sig_rows, mv_dry. cbn. intuition lia. Qed.
Lemma mv_moving src : src = mv_away \/ src = mv_near -> moving wit_room src mv_mics 2 1 1 2 (repeat 0 (2 * 2)).
Proof. intros [->| ->]; constructor; cbn; auto; try lra; try lia; reflexivity. Qed.
Lemma mv_schedule : exists k, played_at Cpu 4 2 None None k /\ k 0%nat = 0%nat /\ k 1%nat = 0%nat /\ k 2%nat = 1%nat /\ k 3%nat = 1%nat.
Proof.
  assert (Pr : (Z.of_nat 2 <= 2 ^ (ts_prec Cpu - 2))%Z) by (vm_compute; discriminate).
  destruct (SignalProps.C05_default_segments_partition Cpu 4 2 ltac:(lia) Pr None) as (w & E & L & P).
  pose proof (SignalProps.C05_default_segments_exact Cpu 4 2 ltac:(lia) Pr None 2 eq_refl ltac:(vm_compute; discriminate) w E) as X.
  pose proof (X 0%nat ltac:(lia)) as X0. pose proof (X 1%nat ltac:(lia)) as X1. destruct w as [|a [|b [|]]]; try discriminate L. cbn in X0, X1. subst a b.
  exists (active_step [0; 2]%Z). split; [|repeat split; reflexivity]. exists [0; 2]%Z. split; [exact E|]. split; [exact L|]. split; [exact P|]. apply SignalProps.C04_segment_exists, P.
Qed.
Lemma mv_run X src : src = mv_away \/ src = mv_near -> filt_length X -> exists T, moving_simulation X Cpu wit_room src mv_mics 1%Z 10 ex_cfg = Ok T.
Proof.
  intros Hs Fl. pose proof (mv_moving src Hs) as Mv. destruct (indices_order 1 2 ltac:(lia)) as (im & Ei & _).
  apply (C25_static_gives_dynamic X Cpu wit_room src mv_mics _ _ _ _ _ _ _ 2 1 1 2); [cbn; lra|exact Fl|lia|apply Mv|apply Mv|].
  intros t Ht. destruct (moving_scene _ _ _ _ _ _ _ _ Mv t) as (Sc & _). eexists.
  exact (simulate_omni X Cpu wit_room _ _ 1 None 10 ex_cfg 2 _ im Sc ex_cfg_valid eq_refl ltac:(lia) ltac:(lia) Ei).
Qed.
Lemma mv_example X src D0 D1 : (src = mv_away /\ D0 = 4%nat /\ D1 = 5%nat) \/ (src = mv_near /\ D0 = 5%nat /\ D1 = 4%nat) -> filt_length X ->
  exists T t, moving_simulation X Cpu wit_room src mv_mics 1%Z 10 ex_cfg = Ok T /\ moving_recording Cpu mv_dry T None None t /\ shape t = [13%nat] /\
    forall j, (j < 13)%nat -> out_view t 0 j = (if (D0 + 1 =? j)%nat then / INR D0 else 0) + (if (D0 + 2 =? j)%nat then / INR D0 else 0) +
      (if (D1 + 3 =? j)%nat then / INR D1 else 0) + (if (D1 + 4 =? j)%nat then / INR D1 else 0).
Proof.
  intros Hs Fl. assert (Hs' : src = mv_away \/ src = mv_near) by tauto. destruct (mv_run X src Hs' Fl) as (T & H). destruct mv_schedule as (k & K & K0 & K1 & K2 & K3).
  assert (Rl : forall t s m, (t < 2)%nat -> (s < 1)%nat -> (m < 1)%nat -> ray_length (position (at_step src t) s) (position (at_step mv_mics t) m) (data (r_size wit_room)) (repeat 0%Z 2) = INR (if (t =? 0)%nat then D0 else D1)).
  { intros t s m Ht Ss Sm. assert (s = 0 /\ m = 0)%nat as (-> & ->) by lia. assert (t = 0 \/ t = 1)%nat as [-> | ->] by lia; destruct Hs as [(-> & -> & ->)|(-> & -> & ->)]; cbn [Nat.eqb].
    - change (ray_length [4; 1] [4; 5] [10; 10] [0; 0]%Z = INR 4). rewrite mv_ray4. cbn. lra.
    - change (ray_length [1; 1] [4; 5] [10; 10] [0; 0]%Z = INR 5). rewrite ex_ray. cbn. lra.
    - change (ray_length [1; 1] [4; 5] [10; 10] [0; 0]%Z = INR 5). rewrite ex_ray. cbn. lra.
    - change (ray_length [4; 1] [4; 5] [10; 10] [0; 0]%Z = INR 4). rewrite mv_ray4. cbn. lra. }
  destruct (C100_free_field X Cpu wit_room src mv_mics 1%Z 10 ex_cfg 2 1 1 2 T Cpu mv_dry None None k (fun t _ _ => if (t =? 0)%nat then D0 else D1) (mv_moving src Hs') eq_refl Fl) as (t & Rt & (O1 & O2 & O3)).
  { intros t s m Ht Ss Sm. rewrite Rl by auto. split; [cbn [wit_room r_fs r_c]; field|]. change ((Z.to_nat (cfg_fdl ex_cfg) - 1) / 2)%nat with 1%nat.
    destruct Hs as [(_ & -> & ->)|(_ & -> & ->)]; destruct (t =? 0)%nat; lia. }
  { exact H. } { exact mv_plays. } { exact K. }
  exists T, t. split; [exact H|]. split; [exact Rt|]. split; [exact O1|]. intros j Hj. rewrite O3 by (cbn; lia). change ((Z.to_nat (cfg_fdl ex_cfg) - 1) / 2)%nat with 1%nat.
  change (sig_len mv_dry) with 4%nat. cbn [Prelude.rsum]. rewrite K0, K1, K2, K3, !Rl by lia. cbn [Nat.eqb].
  replace (0 + D0 + 1)%nat with (D0 + 1)%nat by lia. replace (1 + D0 + 1)%nat with (D0 + 2)%nat by lia. replace (2 + D1 + 1)%nat with (D1 + 3)%nat by lia. replace (3 + D1 + 1)%nat with (D1 + 4)%nat by lia.
  unfold sig_view, mv_dry, zext, tget. cbn [shape data Nat.ltb Nat.leb ravel prodn fold_right nth Nat.add Nat.mul]. unfold Rdiv. rewrite !Rmult_1_l. repeat destruct (_ =? j)%nat; ring.
Qed.
Example C100_gap_example : forall X, filt_length X -> exists T t, moving_simulation X Cpu wit_room mv_away mv_mics 1%Z 10 ex_cfg = Ok T /\ moving_recording Cpu mv_dry T None None t /\
  out_view t 0 6 = / 4 /\ out_view t 0 7 = 0 /\ out_view t 0 8 = / 5.
Proof.
  intros X Fl. destruct (mv_example X mv_away 4 5 ltac:(auto) Fl) as (T & t & H & Rt & _ & V). exists T, t. split; [exact H|]. split; [exact Rt|].
  rewrite !V by lia. cbn [Nat.eqb Nat.add INR]. repeat split; lra.
Qed.
Example C100_overlap_example : forall X, filt_length X -> exists T t, moving_simulation X Cpu wit_room mv_near mv_mics 1%Z 10 ex_cfg = Ok T /\ moving_recording Cpu mv_dry T None None t /\
  out_view t 0 6 = / 5 /\ out_view t 0 7 = / 5 + / 4 /\ out_view t 0 8 = / 4.
Proof.
  intros X Fl. destruct (mv_example X mv_near 5 4 ltac:(auto) Fl) as (T & t & H & Rt & _ & V). exists T, t. split; [exact H|]. split; [exact Rt|].
  rewrite !V by lia. cbn [Nat.eqb Nat.add INR]. repeat split; lra.
Qed.
Print Assumptions C100_images.
Print Assumptions C100_default.
Print Assumptions C100_silence.
Print Assumptions C100_free_field.
Print Assumptions C100_gap.
Print Assumptions C100_still.
