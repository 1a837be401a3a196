(** Property theorems C01-C11: convolution. *)
From Coq Require Import String List ZArith Reals Lia Lra Bool.
From Flocq Require Import Core.
From Verif Require Import Prelude PreludeFacts FloatModel FloatProofs SignalModel SignalSpec
  SignalProofs TrajProofs SegProofs ConvProofs ConvMore.
Import ListNotations.
Local Open Scope R_scope.

(** ** C01 *)
Theorem C01_fft_convolve_linear : forall x h : tensor,
  wf x -> wf h -> ndim x = 1%nat -> ndim h = 1%nat -> (0 < numel x)%nat -> (0 < numel h)%nat ->
  exists t, fft_convolve x h = Ok t /\ wf t /\ shape t = [(numel x + numel h - 1)%nat] /\
    forall j, (j < numel x + numel h - 1)%nat ->
      tget t [j] = lin_conv (zext (numel x) (fun i => tget x [i]))
                            (zext (numel h) (fun i => tget h [i])) j.
Proof.
  intros x h Wx Wh Nx Nh Hx Hh.
  destruct (fft_convolve_ok x h Hx Hh Wx Wh (conj Nx Nh)) as (t & E & S & W & V).
  exact (ex_intro _ t (conj E (conj W (conj S V)))).
Qed.
Theorem C01_fft_convolve_rejects : forall x h : tensor,
  ~ (ndim x = 1 /\ ndim h = 1)%nat -> fft_convolve x h = Err ValueError.
Proof. exact fft_convolve_rank. Qed.
Example C01_example : exists t, fft_convolve (mkT [3%nat] [1; 2; 3]) (mkT [2%nat] [10; 100]) = Ok t /\
  data t = [10; 120; 230; 300].
Proof.
  destruct (C01_fft_convolve_linear (mkT [3%nat] [1; 2; 3]) (mkT [2%nat] [10; 100]))
    as (t & E & W & S & V); try reflexivity; try (cbn; lia).
  exists t. split; auto. cbn in S. unfold wf in W. rewrite S in W.
  destruct t as [sh d]; cbn in *. subst sh.
  pose proof (V 0%nat ltac:(lia)) as V0. pose proof (V 1%nat ltac:(lia)) as V1.
  pose proof (V 2%nat ltac:(lia)) as V2. pose proof (V 3%nat ltac:(lia)) as V3.
  destruct d as [|a [|b [|c [|e [|? ?]]]]]; try discriminate.
  cbn in *. repeat f_equal; lra.
Qed.
Print Assumptions C01_fft_convolve_linear.
Print Assumptions C01_fft_convolve_rejects.

(** ** C02, C03 *)
Theorem C02_static_superposition : forall signal rirs,
  sig_rank_ok signal -> rir_rank_ok rirs -> wf signal -> wf rirs ->
  (0 < sig_len signal)%nat -> (0 < rir_len rirs)%nat ->
  sig_rows signal = 1%nat \/ sig_rows signal = rir_srcs rirs ->
  exists t, convolve_rir signal rirs = Ok t /\
    is_output t (rir_mics rirs) (sig_len signal + rir_len rirs - 1)
      (fun m j => rsum (rir_srcs rirs) (fun s => lin_conv (sig_view signal s) (rir_view rirs s m) j)).
Proof. exact convolve_rir_correct. Qed.
Print Assumptions C02_static_superposition.

Theorem C03_static_shapes : forall signal rirs,
  wf signal -> wf rirs -> (0 < sig_len signal)%nat \/ ~ sig_rank_ok signal ->
  (0 < rir_len rirs)%nat \/ ~ rir_rank_ok rirs ->
  ((exists t, convolve_rir signal rirs = Ok t) <->
   (sig_rank_ok signal /\ rir_rank_ok rirs /\
    (sig_rows signal = 1%nat \/ sig_rows signal = rir_srcs rirs))) /\
  ((exists t, convolve_rir signal rirs = Ok t) \/ convolve_rir signal rirs = Err ValueError).
Proof.
  intros signal rirs Ws Wr Hn HL.
  assert (D : {sig_rank_ok signal /\ rir_rank_ok rirs /\
      (sig_rows signal = 1%nat \/ sig_rows signal = rir_srcs rirs)} +
     {~ (sig_rank_ok signal /\ rir_rank_ok rirs /\
      (sig_rows signal = 1%nat \/ sig_rows signal = rir_srcs rirs))}).
  { unfold sig_rank_ok, rir_rank_ok.
    destruct (Nat.eq_dec (ndim signal) 1), (Nat.eq_dec (ndim signal) 2),
      (Nat.eq_dec (ndim rirs) 1), (Nat.eq_dec (ndim rirs) 2), (Nat.eq_dec (ndim rirs) 3),
      (Nat.eq_dec (sig_rows signal) 1), (Nat.eq_dec (sig_rows signal) (rir_srcs rirs));
      first [left; tauto | right; tauto]. }
  destruct D as [(H1 & H2 & H3)|D].
  - destruct (convolve_rir_correct signal rirs H1 H2 Ws Wr) as (t & E & _); auto.
    { destruct Hn; auto; contradiction. } { destruct HL; auto; contradiction. }
    rewrite E. split; [|left; eauto]. split; eauto.
  - rewrite (convolve_rir_reject signal rirs D). split; [|auto].
    split; [intros (t & E); discriminate|intros H; contradiction].
Qed.
Example C02_C03_example :
  exists t, convolve_rir (mkT [2%nat; 2%nat] [1; 2; 3; 4]) (mkT [2%nat; 1%nat; 1%nat] [10; 100]) = Ok t /\
    out_view t 0 1 = 420.
Proof.
  destruct (C02_static_superposition (mkT [2%nat; 2%nat] [1; 2; 3; 4]) (mkT [2%nat; 1%nat; 1%nat] [10; 100]))
    as (t & E & S & W & V); try reflexivity; try (cbn; lia);
    try (unfold sig_rank_ok, rir_rank_ok, ndim; cbn; auto; fail).
  exists t. split; auto. rewrite V by (cbn; lia). cbn. lra.
Qed.
Example C03_example_reject :
  convolve_rir (mkT [2%nat; 2%nat] [1; 2; 3; 4]) (mkT [3%nat; 1%nat; 1%nat] [10; 100; 1000]) = Err ValueError.
Proof. reflexivity. Qed.
Print Assumptions C03_static_shapes.

(** ** C04 *)
(** [segment_starts] is the list of segment starts computed from the timestamps (C11) or
    by default (C05); for every such list that is a partition, every sample is filtered
    by the RIR of the segment that contains it. *)
Theorem C04_trajectory_time_varying : forall dev signal rirs ts fs starts k,
  dyn_ranks_ok signal rirs -> wf signal -> wf rirs -> (0 < rir_len rirs)%nat ->
  sig_rows signal = 1%nat \/ sig_rows signal = dyn_srcs rirs ->
  segment_starts dev (sig_len signal) (dyn_steps rirs) ts fs = Ok starts ->
  length starts = dyn_steps rirs ->
  partition_starts starts (sig_len signal) ->
  segment_of starts (sig_len signal) k ->
  exists t, convolve_trajectory dev signal rirs ts fs = Ok t /\
    is_output t (dyn_mics rirs) (sig_len signal + rir_len rirs - 1)
      (fun m j => rsum (dyn_srcs rirs) (fun s =>
         tv_conv (sig_view signal s) k (fun t => dyn_view rirs t s m) j)).
Proof. exact trajectory_correct. Qed.
(** The same for the public entry point: the timestamps and the rate of the object decide. *)
Theorem C04_convolver : forall c dev signal rirs starts k, cv_mode c = "trajectory"%string ->
  dyn_ranks_ok signal rirs -> wf signal -> wf rirs -> (0 < rir_len rirs)%nat ->
  sig_rows signal = 1%nat \/ sig_rows signal = dyn_srcs rirs ->
  segment_starts dev (sig_len signal) (dyn_steps rirs) (cv_timestamps c) (cv_fs c) = Ok starts ->
  length starts = dyn_steps rirs ->
  partition_starts starts (sig_len signal) ->
  segment_of starts (sig_len signal) k ->
  exists t, convolver_convolve c dev signal rirs = Ok t /\
    is_output t (dyn_mics rirs) (sig_len signal + rir_len rirs - 1)
      (fun m j => rsum (dyn_srcs rirs) (fun s =>
         tv_conv (sig_view signal s) k (fun t => dyn_view rirs t s m) j)).
Proof.
  intros c dev signal rirs starts k Hm. unfold convolver_convolve. rewrite Hm. cbn [String.eqb orb negb Ascii.eqb Bool.eqb].
  apply trajectory_correct.
Qed.
Theorem C04_segment_exists : forall w n, partition_starts w n -> segment_of w n (active_step w).
Proof. exact active_step_segment. Qed.
(** Without timestamps no hypothesis on the segmentation is needed. *)
Theorem C04_trajectory_default : forall dev signal rirs fs, traj_ok dev signal rirs ->
  exists w t, partition_starts w (sig_len signal) /\ length w = dyn_steps rirs /\
    segment_starts dev (sig_len signal) (dyn_steps rirs) None fs = Ok w /\
    convolve_trajectory dev signal rirs None fs = Ok t /\
    is_output t (dyn_mics rirs) (sig_len signal + rir_len rirs - 1)
      (fun m j => rsum (dyn_srcs rirs) (fun s =>
         tv_conv (sig_view signal s) (active_step w) (fun t => dyn_view rirs t s m) j)).
Proof. exact traj_default. Qed.
Theorem C04_dynamic_shapes_rejected : forall signal rirs dev ts fs H, ~ dyn_ranks_ok signal rirs ->
  convolve_trajectory dev signal rirs ts fs = Err ValueError /\
  convolve_hop signal rirs H = Err ValueError.
Proof. intros. split; [apply dyn_reject|apply hop_reject]; assumption. Qed.

Definition ex_sig : tensor := mkT [4%nat] [1; 2; 3; 4].
Definition ex_rirs : tensor := mkT [2%nat; 2%nat] [1; 10; 100; 1000].
Lemma ex_traj_ok dev : traj_ok dev ex_sig ex_rirs.
Proof.
  unfold traj_ok, dyn_ranks_ok, sig_rank_ok, dyn_rank_ok, ndim, wf.
  repeat split; cbn; auto; try lia; try (intros; discriminate). destruct dev; cbn; lia.
Qed.
(** The first half of the signal meets the first RIR, the second half the second. *)
Example C04_example : exists t, convolve_trajectory Mps ex_sig ex_rirs None None = Ok t /\
  shape t = [5%nat] /\ out_view t 0 1 = 2 + 10 /\ out_view t 0 2 = 20 + 300 /\ out_view t 0 4 = 4000.
Proof.
  destruct (C04_trajectory_default Mps ex_sig ex_rirs None (ex_traj_ok Mps)) as (w & t & P & L & Es & E & S & W & V).
  exists t. split; auto. split; [exact S|].
  assert (w0 : nth 0 w 0%Z = 0%Z) by apply P.
  assert (w1 : nth 1 w 0%Z = 2%Z).
  { apply (default_exact Mps 4 2 ltac:(lia) ltac:(cbn; lia) None 2) with (t := 1%nat); auto; cbn; lia. }
  assert (A : forall tau, active_step w tau = if (2 <=? tau)%nat then 1%nat else 0%nat).
  { intros tau. unfold active_step. rewrite L. cbn [dyn_steps ex_rirs shape hd last_started].
    rewrite w0, w1. destruct (Z.leb_spec 2 (Z.of_nat tau)), (Nat.leb_spec 2 tau); try lia; auto.
    destruct (0 <=? Z.of_nat tau)%Z; auto. }
  repeat split; rewrite V by (cbn; lia); cbn [dyn_srcs ex_rirs shape rsum];
    unfold tv_conv; cbn [rsum]; rewrite !A; cbn; lra.
Qed.
(** Timestamps 0 and 1 s at 3 samples per second put the boundary at sample 3. *)
Example C04_convolver_example : exists t,
  convolver_convolve (mkConvolver "trajectory" None (Some (mkT [2%nat] [0; 1])) (Some 3)) Cpu ex_sig ex_rirs = Ok t /\
  out_view t 0 2 = 3 + 20 /\ out_view t 0 3 = 30 + 400.
Proof.
  assert (E0 : segment_starts Cpu 4 2 (Some (mkT [2%nat] [0; 1])) (Some 3) = Ok [0; 3]%Z).
  { unfold segment_starts. cbn [ndim shape length numel prodn fold_right Nat.eqb Nat.mul Nat.add andb negb map data ts_round].
    rewrite rnd64_0. replace (Reqb 0 0) with true by (destruct (Reqb_spec 0 0); auto; lra). cbn [negb].
    rewrite (rnd64_IZR 3), (rnd64_IZR 1) by lia. rewrite Rmult_0_l, rnd64_0, Rmult_1_l, (rnd64_IZR 3) by lia.
    rewrite !truncZ_nonneg by lra. rewrite (floorZ_IZR 3), (floorZ_IZR 0). reflexivity. }
  assert (P : partition_starts [0; 3]%Z 4).
  { repeat split; cbn; auto; try lia. intros [|[|[|]]] Ht; cbn in *; lia. }
  destruct (C04_convolver (mkConvolver "trajectory" None (Some (mkT [2%nat] [0; 1])) (Some 3)) Cpu ex_sig ex_rirs [0; 3]%Z
    (active_step [0; 3]%Z) eq_refl (proj1 (ex_traj_ok Cpu)) eq_refl eq_refl ltac:(cbn; lia) (or_introl eq_refl) E0 eq_refl P
    (C04_segment_exists _ _ P)) as (t & E & S & W & V).
  exists t. split; auto.
  repeat split; rewrite V by (cbn; lia); cbn [dyn_srcs ex_rirs shape rsum];
    unfold tv_conv; cbn [rsum]; unfold active_step; cbn; lra.
Qed.
Print Assumptions C04_trajectory_time_varying.
Print Assumptions C04_convolver.
Print Assumptions C04_trajectory_default.
Print Assumptions C04_dynamic_shapes_rejected.

(** ** C05 *)
Theorem C05_default_segments_partition : forall dev n T, (0 < T)%nat ->
  (Z.of_nat T <= 2 ^ (ts_prec dev - 2))%Z ->
  forall fs, exists w, segment_starts dev n T None fs = Ok w /\ length w = T /\ partition_starts w n.
Proof. exact default_partition. Qed.
Theorem C05_default_segments_exact : forall dev n T, (0 < T)%nat ->
  (Z.of_nat T <= 2 ^ (ts_prec dev - 2))%Z ->
  forall fs q, n = (T * q)%nat -> (Z.of_nat n <= 2 ^ ts_prec dev)%Z ->
  forall w, segment_starts dev n T None fs = Ok w ->
  forall t, (t < T)%nat -> nth t w 0%Z = Z.of_nat (t * q).
Proof. exact default_exact. Qed.
Example C05_example : exists w, segment_starts Mps 12 4 None None = Ok w /\
  length w = 4%nat /\ partition_starts w 12 /\ nth 3 w 0%Z = 9%Z.
Proof.
  destruct (C05_default_segments_partition Mps 12 4) with (fs := @None R) as (w & E & L & P);
    [lia|cbn; lia|].
  exists w. split; [exact E|]. split; [exact L|]. split; [exact P|].
  rewrite (C05_default_segments_exact Mps 12 4 ltac:(lia) ltac:(cbn; lia) None 3) by
    (auto; cbn; lia). reflexivity.
Qed.
Print Assumptions C05_default_segments_partition.
Print Assumptions C05_default_segments_exact.

(** ** C06 *)
Theorem C06_hop_coverage : forall signal rirs H, hop_ok signal rirs H -> exists t,
  convolve_hop signal rirs (Z.of_nat H) = Ok t /\
    is_output t (dyn_mics rirs)
      (H * Nat.min ((sig_len signal + H - 1) / H) (dyn_steps rirs) + rir_len rirs - 1)
      (fun m j => rsum (dyn_srcs rirs) (fun s =>
         tv_conv (fun tau => if (tau <? dyn_steps rirs * H)%nat then sig_view signal s tau else 0)
           (fun tau => (tau / H)%nat) (fun t => dyn_view rirs t s m) j)).
Proof. exact hop_default. Qed.
(** The same for the public entry point, which uses the hop it was given and insists on one. *)
Theorem C06_convolver : forall c dev signal rirs H, cv_mode c = "hop"%string -> cv_hop c = Some (Z.of_nat H) ->
  hop_ok signal rirs H -> exists t,
  convolver_convolve c dev signal rirs = Ok t /\
    is_output t (dyn_mics rirs)
      (H * Nat.min ((sig_len signal + H - 1) / H) (dyn_steps rirs) + rir_len rirs - 1)
      (fun m j => rsum (dyn_srcs rirs) (fun s =>
         tv_conv (fun tau => if (tau <? dyn_steps rirs * H)%nat then sig_view signal s tau else 0)
           (fun tau => (tau / H)%nat) (fun t => dyn_view rirs t s m) j)).
Proof.
  intros c dev signal rirs H Hm Hh. unfold convolver_convolve. rewrite Hm, Hh. cbn [String.eqb orb negb Ascii.eqb Bool.eqb].
  apply hop_default.
Qed.
Theorem C06_hop_required : forall c dev signal rirs, cv_mode c = "hop"%string -> cv_hop c = None ->
  convolver_convolve c dev signal rirs = Err ValueError.
Proof. intros c dev signal rirs Hm Hh. unfold convolver_convolve. rewrite Hm, Hh. reflexivity. Qed.
(** Invalid hops: zero raises, a negative one silently returns silence. *)
Theorem C06_hop_zero : forall signal rirs, dyn_ranks_ok signal rirs -> wf signal -> wf rirs ->
  convolve_hop signal rirs 0 = Err ZeroDivisionError.
Proof. exact hop_zero. Qed.
Theorem C06_negative_hop_silent : forall signal rirs H, dyn_ranks_ok signal rirs -> wf signal -> wf rirs ->
  (0 < rir_len rirs)%nat -> (H < 0)%Z ->
  exists t len, convolve_hop signal rirs H = Ok t /\ (rir_len rirs - 1 <= len)%nat /\
    is_output t (dyn_mics rirs) len (fun _ _ => 0).
Proof. exact hop_negative. Qed.
Lemma ex_hop_ok H : (0 < H)%nat -> (Z.of_nat H < 2 ^ 63)%Z -> hop_ok ex_sig ex_rirs H.
Proof.
  intros. unfold hop_ok, dyn_ranks_ok, sig_rank_ok, dyn_rank_ok, ndim, wf.
  repeat split; auto; cbn; auto; try lia; try (intros; discriminate).
Qed.
(** Hop 2 through the public entry point: two samples per RIR. *)
Example C06_convolver_example : exists t,
  convolver_convolve (mkConvolver "hop" (Some 2%Z) None None) Cuda ex_sig ex_rirs = Ok t /\ shape t = [5%nat] /\
  out_view t 0 1 = 2 + 10 /\ out_view t 0 2 = 20 + 300.
Proof.
  destruct (C06_convolver (mkConvolver "hop" (Some 2%Z) None None) Cuda ex_sig ex_rirs 2 eq_refl eq_refl
    (ex_hop_ok 2 ltac:(lia) ltac:(lia))) as (t & E & S & W & V).
  exists t. split; auto. split; [exact S|].
  repeat split; rewrite V by (cbn; lia); cbn; lra.
Qed.
(** Two RIRs and hop 1: the last two samples are dropped. *)
Example C06_example : exists t, convolve_hop ex_sig ex_rirs 1 = Ok t /\ shape t = [3%nat] /\
  out_view t 0 0 = 1 /\ out_view t 0 1 = 10 + 200 /\ out_view t 0 2 = 2000.
Proof.
  destruct (C06_hop_coverage ex_sig ex_rirs 1 (ex_hop_ok 1 ltac:(lia) ltac:(lia))) as (t & E & S & W & V).
  exists t. split; auto. split; [exact S|].
  repeat split; rewrite V by (cbn; lia); cbn; lra.
Qed.
Print Assumptions C06_hop_coverage.
Print Assumptions C06_convolver.
Print Assumptions C06_hop_required.
Print Assumptions C06_hop_zero.
Print Assumptions C06_negative_hop_silent.

(** ** C07 *)
Theorem C07_batched_equals_cpu : forall n ns sig T n_src M L rirs starts chunk,
  length sig = (ns * n)%nat -> length rirs = (T * n_src * M * L)%nat ->
  (ns = 1 \/ ns = n_src)%nat -> (0 < L)%nat -> length starts = T -> partition_starts starts n ->
  (0 < chunk)%nat ->
  conv_traj_batched n ns sig T n_src M L rirs (with_end starts n) chunk
  = conv_traj_cpu n ns sig T n_src M L rirs (with_end starts n).
Proof. exact batched_eq_cpu. Qed.
Example C07_example :
  partition_starts [0; 2; 2; 3]%Z 4 /\
  conv_traj_batched 4 1 [1; 2; 3; 4] 4 1 1 2 [1; 2; 3; 4; 5; 6; 7; 8] (with_end [0; 2; 2; 3]%Z 4) 3
  = conv_traj_cpu 4 1 [1; 2; 3; 4] 4 1 1 2 [1; 2; 3; 4; 5; 6; 7; 8] (with_end [0; 2; 2; 3]%Z 4).
Proof.
  assert (P : partition_starts [0; 2; 2; 3]%Z 4).
  { split; [cbn; lia|]. split; auto. intros k Hk. cbn in Hk.
    destruct k as [|[|[|[|k]]]]; cbn; lia. }
  split; auto. apply C07_batched_equals_cpu; auto; cbn; lia.
Qed.
Print Assumptions C07_batched_equals_cpu.

(** ** C08 *)
Theorem C08_constant_trajectory_is_static : forall dev fs x dyn st,
  traj_ok dev x dyn -> rir_rank_ok st -> wf st -> (0 < sig_len x)%nat -> same_every_step dyn st ->
  convolve_trajectory dev x dyn None fs = convolve_rir x st.
Proof. exact traj_constant. Qed.
Theorem C08_constant_hop_is_static : forall x dyn st H,
  hop_ok x dyn H -> rir_rank_ok st -> wf st ->
  (sig_rows x = 1%nat \/ sig_rows x = rir_srcs st) ->
  (sig_len x <= dyn_steps dyn * H)%nat -> same_every_step dyn st ->
  exists th ts, convolve_hop x dyn (Z.of_nat H) = Ok th /\ convolve_rir x st = Ok ts /\
    forall m, (m < rir_mics st)%nat ->
      (forall j, (j < sig_len x + rir_len st - 1)%nat -> out_view th m j = out_view ts m j) /\
      (forall j, (sig_len x + rir_len st - 1 <= j)%nat ->
         (j < H * ((sig_len x + H - 1) / H) + rir_len st - 1)%nat -> out_view th m j = 0).
Proof. exact hop_constant. Qed.
Example C08_example :
  same_every_step (mkT [3%nat; 2%nat] [5; 7; 5; 7; 5; 7]) (mkT [2%nat] [5; 7]) /\
  convolve_trajectory Cuda ex_sig (mkT [3%nat; 2%nat] [5; 7; 5; 7; 5; 7]) None None
  = convolve_rir ex_sig (mkT [2%nat] [5; 7]).
Proof.
  assert (Sm : same_every_step (mkT [3%nat; 2%nat] [5; 7; 5; 7; 5; 7]) (mkT [2%nat] [5; 7])).
  { repeat split; auto. intros k s m i Hk Hs Hm. cbn in Hk, Hs, Hm.
    unfold dyn_view, rir_view, zext; cbn [shape]. destruct (Nat.ltb_spec i 2); auto.
    unfold tget; cbn [shape data ravel prodn fold_right].
    destruct k as [|[|[|k]]]; try lia; destruct i as [|[|i]]; try lia; reflexivity. }
  split; auto. apply C08_constant_trajectory_is_static; auto; try (cbn; lia);
    try reflexivity; try (left; reflexivity).
  unfold traj_ok, dyn_ranks_ok, sig_rank_ok, dyn_rank_ok, ndim, wf.
  repeat split; cbn; auto; try lia; intros; discriminate.
Qed.
Print Assumptions C08_constant_trajectory_is_static.
Print Assumptions C08_constant_hop_is_static.

(** ** C09 *)
Theorem C09_trajectory_linear : forall dev fs a x b y rirs,
  shape x = shape y -> wf y -> traj_ok dev x rirs ->
  exists tx ty, convolve_trajectory dev x rirs None fs = Ok tx /\
    convolve_trajectory dev y rirs None fs = Ok ty /\
    convolve_trajectory dev (lin_comb a x b y) rirs None fs = Ok (lin_comb a tx b ty).
Proof. exact traj_linear. Qed.
Theorem C09_hop_linear : forall a x b y rirs H, shape x = shape y -> wf y -> hop_ok x rirs H ->
  exists tx ty, convolve_hop x rirs (Z.of_nat H) = Ok tx /\
    convolve_hop y rirs (Z.of_nat H) = Ok ty /\
    convolve_hop (lin_comb a x b y) rirs (Z.of_nat H) = Ok (lin_comb a tx b ty).
Proof. exact hop_linear. Qed.
Theorem C09_trajectory_stems : forall dev fs signal rirs (x1 r1 : nat -> tensor),
  traj_ok dev signal rirs ->
  (forall s, (s < dyn_srcs rirs)%nat -> source_alone signal rirs s (x1 s) (r1 s)) ->
  exists mix (stem : nat -> tensor), convolve_trajectory dev signal rirs None fs = Ok mix /\
    (forall s, (s < dyn_srcs rirs)%nat -> convolve_trajectory dev (x1 s) (r1 s) None fs = Ok (stem s)) /\
    forall m j, (m < dyn_mics rirs)%nat -> (j < sig_len signal + rir_len rirs - 1)%nat ->
      out_view mix m j = rsum (dyn_srcs rirs) (fun s => out_view (stem s) m j).
Proof. exact traj_stems. Qed.
Theorem C09_hop_stems : forall signal rirs H (x1 r1 : nat -> tensor),
  hop_ok signal rirs H ->
  (forall s, (s < dyn_srcs rirs)%nat -> source_alone signal rirs s (x1 s) (r1 s)) ->
  exists mix (stem : nat -> tensor), convolve_hop signal rirs (Z.of_nat H) = Ok mix /\
    (forall s, (s < dyn_srcs rirs)%nat -> convolve_hop (x1 s) (r1 s) (Z.of_nat H) = Ok (stem s)) /\
    forall m j, (m < dyn_mics rirs)%nat ->
      (j < H * Nat.min ((sig_len signal + H - 1) / H) (dyn_steps rirs) + rir_len rirs - 1)%nat ->
      out_view mix m j = rsum (dyn_srcs rirs) (fun s => out_view (stem s) m j).
Proof. exact hop_stems. Qed.
Definition ex_sig2 : tensor := mkT [2%nat; 2%nat] [1; 2; 3; 4].
Definition ex_rirs2 : tensor := mkT [1%nat; 2%nat; 1%nat; 1%nat] [10; 100].
Example C09_example :
  traj_ok Cpu ex_sig2 ex_rirs2 /\ hop_ok ex_sig2 ex_rirs2 2 /\
  forall s, (s < dyn_srcs ex_rirs2)%nat -> source_alone ex_sig2 ex_rirs2 s
     (mkT [1%nat; 2%nat] (block (s * 2) 2 (data ex_sig2)))
     (mkT [1%nat; 1%nat; 1%nat; 1%nat] (block s 1 (data ex_rirs2))).
Proof.
  split; [|split].
  - unfold traj_ok, dyn_ranks_ok, sig_rank_ok, dyn_rank_ok, ndim, wf.
    repeat split; cbn; auto; try lia; intros; discriminate.
  - unfold hop_ok, dyn_ranks_ok, sig_rank_ok, dyn_rank_ok, ndim, wf.
    repeat split; cbn; auto; try lia; intros; discriminate.
  - intros s Hs. cbn in Hs. repeat split.
    + destruct s as [|[|s]]; [reflexivity|reflexivity|lia].
    + destruct s as [|[|s]]; [reflexivity|reflexivity|lia].
    + intros i. destruct s as [|[|s]]; try lia; destruct i as [|[|i]]; reflexivity.
    + intros k m i Hk Hm. cbn in Hk, Hm. replace k with 0%nat by lia. replace m with 0%nat by lia.
      destruct s as [|[|s]]; try lia; destruct i as [|i]; reflexivity.
Qed.
Print Assumptions C09_trajectory_linear.
Print Assumptions C09_hop_linear.
Print Assumptions C09_trajectory_stems.
Print Assumptions C09_hop_stems.

(** ** C10 *)
Theorem C10_trajectory_local : forall dev fs x y rirs m j,
  shape x = shape y -> wf y -> traj_ok dev x rirs ->
  agree_before (rir_len rirs) j x y -> (m < dyn_mics rirs)%nat -> (j < sig_len x + rir_len rirs - 1)%nat ->
  exists tx ty, convolve_trajectory dev x rirs None fs = Ok tx /\
    convolve_trajectory dev y rirs None fs = Ok ty /\ out_view tx m j = out_view ty m j.
Proof. exact traj_local. Qed.
Theorem C10_hop_local : forall x y rirs H m j, shape x = shape y -> wf y -> hop_ok x rirs H ->
  agree_before (rir_len rirs) j x y -> (m < dyn_mics rirs)%nat ->
  (j < H * Nat.min ((sig_len x + H - 1) / H) (dyn_steps rirs) + rir_len rirs - 1)%nat ->
  exists tx ty, convolve_hop x rirs (Z.of_nat H) = Ok tx /\
    convolve_hop y rirs (Z.of_nat H) = Ok ty /\ out_view tx m j = out_view ty m j.
Proof. exact hop_local. Qed.
Theorem C10_static_local : forall x y rirs m j, shape x = shape y -> wf y -> static_ok x rirs ->
  agree_before (rir_len rirs) j x y -> (m < rir_mics rirs)%nat -> (j < sig_len x + rir_len rirs - 1)%nat ->
  exists tx ty, convolve_rir x rirs = Ok tx /\ convolve_rir y rirs = Ok ty /\
    out_view tx m j = out_view ty m j.
Proof. exact static_local. Qed.
(** Signals that differ at samples 0 and 3 still agree at output sample 2. *)
Example C10_example : traj_ok Cpu ex_sig ex_rirs /\
  agree_before (rir_len ex_rirs) 2 ex_sig (mkT [4%nat] [99; 2; 3; 77]) /\
  ~ agree_before (rir_len ex_rirs) 1 ex_sig (mkT [4%nat] [99; 2; 3; 77]).
Proof.
  split; [apply ex_traj_ok|]. split.
  - intros s tau H1 H2. cbn in H2. destruct tau as [|[|[|tau]]]; try lia; reflexivity.
  - intros H. specialize (H 0%nat 0%nat ltac:(lia) ltac:(cbn; lia)). cbn in H. lra.
Qed.
Print Assumptions C10_trajectory_local.
Print Assumptions C10_hop_local.
Print Assumptions C10_static_local.

(** ** C11 *)
Theorem C11_timestamps_rejected : forall d n T ts fs,
  (fs = None \/ ndim ts <> 1%nat \/ numel ts <> T \/
     (exists t0, nth_error (data ts) 0 = Some t0 /\ ts_round d t0 <> 0)) ->
  (0 < T)%nat -> wf ts -> segment_starts d n T (Some ts) fs = Err ValueError.
Proof. exact ts_reject. Qed.
Theorem C11_timestamps_accepted : forall d n T ts fs,
  ndim ts = 1%nat -> numel ts = T -> (0 < T)%nat -> wf ts -> ts_round d (nth 0 (data ts) 0) = 0 ->
  exists w, segment_starts d n T (Some ts) (Some fs) = Ok w /\ length w = T /\
    forall t, (t < T)%nat ->
      nth t w 0%Z = truncZ (ts_round d (ts_round d (tget ts [t]) * ts_round d fs)).
Proof. exact ts_accept. Qed.
(** A sample-aligned timestamp (the double nearest to k/fs) can be assigned sample k-1. *)
Theorem C11_aligned_timestamp_refuted : exists k fs,
  (k < 2000)%nat /\ fs = 16000 /\
  segment_starts Cpu 2000 2 (Some (mkT [2%nat] [0; rnd64 (INR k / fs)])) (Some fs) = Ok [0%Z; (Z.of_nat k - 1)%Z].
Proof.
  exists 1001%nat, 16000. split; [lia|]. split; auto.
  unfold segment_starts. cbn [ndim shape length numel prodn fold_right Nat.eqb Nat.mul Nat.add andb negb map data].
  cbn [ts_round]. rewrite rnd64_0.
  replace (Reqb 0 0) with true by (destruct (Reqb_spec 0 0); auto; lra). cbn [negb].
  rewrite !(rnd64_IZR 16000) by lia. rewrite Rmult_0_l, rnd64_0.
  assert (R2 : rnd64 (rnd64 (INR 1001 / 16000)) = rnd64 (INR 1001 / 16000)).
  { apply round_generic; [typeclasses eauto|]. apply generic_format_round; [|typeclasses eauto].
    apply FLT_exp_valid. reflexivity. }
  rewrite R2, ts_witness. unfold truncZ. destruct (Rle_dec 0 0); [|lra].
  rewrite (floorZ_IZR 0). reflexivity.
Qed.
(** What does hold: the start is the aligned sample or the one just before it. *)
Theorem C11_aligned_timestamp_partial : forall k fs,
  (Z.of_nat k < 2 ^ 51)%Z -> 0 < fs -> rnd64 fs = fs -> bpow radix2 (-1000) <= INR k / fs \/ k = 0%nat ->
  let w := truncZ (rnd64 (rnd64 (INR k / fs) * fs)) in
  w = Z.of_nat k \/ w = (Z.of_nat k - 1)%Z.
Proof. exact ts_aligned_close. Qed.
Theorem C11_unknown_mode_rejected : forall c d signal rirs,
  cv_mode c <> "trajectory"%string -> cv_mode c <> "hop"%string ->
  convolver_convolve c d signal rirs = Err ValueError.
Proof. exact convolver_mode. Qed.
Example C11_example : segment_starts Cpu 10 2 (Some (mkT [2%nat] [1 / 2; 1])) (Some 8) = Err ValueError.
Proof.
  apply C11_timestamps_rejected; [|lia|reflexivity]. right. right. right.
  exists (1 / 2). split; auto. cbn [ts_round].
  rewrite (rnd64_eval (1 / 2) 4503599627370496 (-53)); [|lia| |].
  - intros E. apply Rmult_integral in E as [E|E].
    + apply eq_IZR in E. discriminate.
    + pose proof (bpow_gt_0 radix2 (-53)). lra.
  - change (bpow radix2 (-53 + 52)) with (/ 2). change (bpow radix2 (-53 + 53)) with 1. lra.
  - change (bpow radix2 (- -53)) with (IZR (2 ^ 53)). apply Rabs_def1;
    cbn [Z.pow Z.pow_pos Pos.iter Z.mul Pos.mul]; lra.
Qed.
Print Assumptions C11_timestamps_rejected.
Print Assumptions C11_timestamps_accepted.
Print Assumptions C11_aligned_timestamp_refuted.
Print Assumptions C11_aligned_timestamp_partial.
Print Assumptions C11_unknown_mode_rejected.
