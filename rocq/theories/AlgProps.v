(** Property theorems C95: algebra of convolution and bounds of its loudness. *)
From Coq Require Import String List ZArith Reals Lia Lra Bool.
From Verif Require Import Prelude PreludeFacts FloatModel SignalModel SignalSpec
  SignalProofs TrajProofs SegProofs ConvProofs ConvMore EdgeProofs AlgProofs.
Import ListNotations.
Local Open Scope R_scope.

(** ** C95 *)
Lemma vec_ext (t t' : tensor) n : wf t -> wf t' -> shape t = [n] -> shape t' = [n] ->
  (forall j, (j < n)%nat -> tget t [j] = tget t' [j]) -> t = t'.
Proof.
  destruct t as [s l], t' as [s' l']. unfold wf. cbn [shape data]. intros W W' -> -> H. f_equal.
  cbn in W, W'. apply (nth_ext _ _ 0 0); [lia|]. intros j Hj. specialize (H j ltac:(lia)). unfold tget in H. cbn in H.
  replace (j * 1 + 0)%nat with j in H by lia. exact H.
Qed.
Lemma lin_conv_end x h n L j : (forall i, (n <= i)%nat -> x i = 0) -> (forall i, (L <= i)%nat -> h i = 0) ->
  (n + L - 1 <= j)%nat -> (1 <= n + L)%nat -> lin_conv x h j = 0.
Proof.
  intros Hx Hh Hj H1. apply rsum_zero. intros i Hi. destruct (Nat.le_gt_cases n i); [rewrite Hx by auto; lra|rewrite Hh by lia; lra].
Qed.
Lemma zext_end n f i : (n <= i)%nat -> zext n f i = 0.
Proof. intros H. unfold zext. destruct (Nat.ltb_spec i n); [lia|auto]. Qed.
(** The two operands may change places ... *)
Theorem C95_commutes : forall x h : tensor,
  wf x -> wf h -> ndim x = 1%nat -> ndim h = 1%nat -> (1 <= numel x + numel h)%nat ->
  fft_convolve x h = fft_convolve h x.
Proof.
  intros x h Wx Wh Dx Dh H.
  destruct (fft_convolve_edge x h) as (t & E & W & S & V); auto. destruct (fft_convolve_edge h x) as (t' & E' & W' & S' & V'); auto; [lia|].
  rewrite E, E'. f_equal. replace (numel h + numel x - 1)%nat with (numel x + numel h - 1)%nat in * by lia.
  eapply vec_ext; eauto. intros j Hj. rewrite V, V' by auto. apply lin_conv_comm.
Qed.
(** ... and two filters in a row are one filter, the convolution of the two. *)
Theorem C95_associates : forall x g h xg gh : tensor,
  wf x -> wf g -> wf h -> ndim x = 1%nat -> ndim g = 1%nat -> ndim h = 1%nat ->
  (0 < numel x)%nat -> (0 < numel g)%nat -> (0 < numel h)%nat ->
  fft_convolve x g = Ok xg -> fft_convolve g h = Ok gh ->
  exists t, fft_convolve xg h = Ok t /\ fft_convolve x gh = Ok t.
Proof.
  intros x g h xg gh Wx Wg Wh Dx Dg Dh Nx Ng Nh E1 E2.
  destruct (fft_convolve_edge x g) as (t1 & F1 & W1 & S1 & V1); auto; [lia|]. rewrite E1 in F1. injection F1 as <-.
  destruct (fft_convolve_edge g h) as (t2 & F2 & W2 & S2 & V2); auto; [lia|]. rewrite E2 in F2. injection F2 as <-.
  assert (M1 : numel xg = (numel x + numel g - 1)%nat) by (unfold numel in *; rewrite S1; cbn; lia).
  assert (M2 : numel gh = (numel g + numel h - 1)%nat) by (unfold numel in *; rewrite S2; cbn; lia).
  destruct (fft_convolve_edge xg h) as (t3 & F3 & W3 & S3 & V3); auto; [lia| |].
  { unfold ndim. rewrite S1. auto. }
  destruct (fft_convolve_edge x gh) as (t4 & F4 & W4 & S4 & V4); auto; [lia| |].
  { unfold ndim. rewrite S2. auto. }
  exists t3. split; auto. rewrite F4. f_equal.
  replace (numel x + numel gh - 1)%nat with (numel xg + numel h - 1)%nat in * by lia.
  symmetry. eapply vec_ext; eauto. intros j Hj. rewrite V3, V4 by auto.
  set (X := zext (numel x) (fun i => tget x [i])). set (G := zext (numel g) (fun i => tget g [i])). set (H := zext (numel h) (fun i => tget h [i])).
  transitivity (lin_conv (lin_conv X G) H j).
  - apply lin_conv_ext; auto. intros i Hi. unfold zext at 1. rewrite M1. destruct (Nat.ltb_spec i (numel x + numel g - 1)) as [Q|Q].
    + apply V1; auto.
    + symmetry. apply (lin_conv_end _ _ (numel x) (numel g)); auto; try lia; apply zext_end.
  - rewrite lin_conv_assoc. apply lin_conv_ext; auto. intros i Hi. unfold zext. rewrite M2. destruct (Nat.ltb_spec i (numel g + numel h - 1)) as [Q|Q].
    + symmetry. apply V2; auto.
    + apply (lin_conv_end _ _ (numel g) (numel h)); auto; try lia; apply zext_end.
Qed.
Example C95_associates_example :
  fft_convolve (mkT [1%nat] [5]) (mkT [2%nat] [1; 2]) = fft_convolve (mkT [2%nat] [1; 2]) (mkT [1%nat] [5]).
Proof. apply C95_commutes; try reflexivity. cbn. lia. Qed.

(** A signal that starts [D] samples later gives the same output [D] samples later. *)
Theorem C95_delay : forall D x x' rirs, static_ok x rirs -> static_ok x' rirs ->
  sig_len x' = (D + sig_len x)%nat ->
  (forall s i, sig_view x' s i = if (i <? D)%nat then 0 else sig_view x s (i - D)%nat) ->
  exists t t', convolve_rir x rirs = Ok t /\ convolve_rir x' rirs = Ok t' /\
    forall m j, (m < rir_mics rirs)%nat -> (j < D + sig_len x + rir_len rirs - 1)%nat ->
      out_view t' m j = if (j <? D)%nat then 0 else out_view t m (j - D)%nat.
Proof.
  intros D x x' rirs H H' L V. destruct (static_default x rirs H) as (t & E & _ & _ & O). destruct (static_default x' rirs H') as (t' & E' & _ & _ & O').
  exists t, t'. split; auto. split; auto. intros m j Hm Hj. assert (0 < sig_len x)%nat by apply H. assert (0 < rir_len rirs)%nat by apply H.
  rewrite O' by (auto; lia).
  rewrite (rsum_ext _ _ (fun s => delayed D (lin_conv (sig_view x s) (rir_view rirs s m)) j)).
  2:{ intros s Hs. rewrite <- lin_conv_delayed. apply lin_conv_ext; auto. intros i _. apply V. }
  unfold delayed. destruct (Nat.ltb_spec j D) as [Q|Q]; [apply rsum_zero; auto|]. rewrite O by (auto; lia). reflexivity.
Qed.

(** Convolution is linear in the responses too, statically and along a trajectory. *)
Theorem C95_linear_responses : forall a r b q x, shape r = shape q -> wf q -> static_ok x r ->
  exists tr tq, convolve_rir x r = Ok tr /\ convolve_rir x q = Ok tq /\
    convolve_rir x (lin_comb a r b q) = Ok (lin_comb a tr b tq).
Proof. exact static_linear_rirs. Qed.
Theorem C95_linear_trajectory : forall dev fs a r b q x, shape r = shape q -> wf q -> traj_ok dev x r ->
  exists tr tq, convolve_trajectory dev x r None fs = Ok tr /\ convolve_trajectory dev x q None fs = Ok tq /\
    convolve_trajectory dev x (lin_comb a r b q) None fs = Ok (lin_comb a tr b tq).
Proof. exact traj_linear_rirs. Qed.
Theorem C95_linear_hop : forall a r b q x H, shape r = shape q -> wf q -> hop_ok x r H ->
  exists tr tq, convolve_hop x r (Z.of_nat H) = Ok tr /\ convolve_hop x q (Z.of_nat H) = Ok tq /\
    convolve_hop x (lin_comb a r b q) (Z.of_nat H) = Ok (lin_comb a tr b tq).
Proof. exact hop_linear_rirs. Qed.

(** ** Loudness *)
(** Largest possible sample: peaks of the sources times the absolute sums of the responses. *)
Theorem C95_peak : forall x rirs t X, static_ok x rirs -> convolve_rir x rirs = Ok t ->
  (forall s i, (s < rir_srcs rirs)%nat -> Rabs (sig_view x s i) <= X s) ->
  forall m j, (m < rir_mics rirs)%nat -> (j < sig_len x + rir_len rirs - 1)%nat ->
    Rabs (out_view t m j) <= rsum (rir_srcs rirs) (fun s => X s * rsum (rir_len rirs) (fun i => Rabs (rir_view rirs s m i))).
Proof.
  intros x rirs t X H E HX m j Hm Hj. destruct (static_default x rirs H) as (t' & E' & _ & _ & O). rewrite E in E'. injection E' as <-.
  rewrite O by auto. eapply Rle_trans; [apply rsum_abs|]. apply rsum_le. intros s Hs. apply lin_conv_bound; auto. intros. apply rir_view_zero; auto.
Qed.
(** The bound is reached: for every response there is a signal of samples 1 and -1. *)
Theorem C95_peak_reached : forall rirs m, rir_rank_ok rirs -> wf rirs -> (0 < rir_len rirs)%nat -> rir_srcs rirs = 1%nat -> (m < rir_mics rirs)%nat ->
  exists x t, static_ok x rirs /\ (forall i, Rabs (sig_view x 0 i) <= 1) /\ convolve_rir x rirs = Ok t /\
    out_view t m (rir_len rirs - 1) = rsum (rir_len rirs) (fun i => Rabs (rir_view rirs 0 m i)).
Proof.
  intros rirs m R W L HS Hm. set (n := rir_len rirs) in *.
  set (sg := fun i => if Rle_dec 0 (rir_view rirs 0 m (n - 1 - i)) then 1 else -1).
  exists (mkT [n] (map sg (seq 0 n))).
  assert (OK : static_ok (mkT [n] (map sg (seq 0 n))) rirs).
  { unfold static_ok, sig_rank_ok, wf, sig_len, sig_rows, ndim. cbn [shape data length prodn fold_right].
    rewrite map_length, seq_length. fold n. repeat split; auto; lia. }
  assert (V : forall i, (i < n)%nat -> sig_view (mkT [n] (map sg (seq 0 n))) 0 i = sg i).
  { intros i Hi. unfold sig_view, zext, tget. cbn [shape data ravel prodn fold_right]. destruct (Nat.ltb_spec i n); [|lia].
    replace (i * 1 + 0)%nat with i by lia. rewrite (nth_indep _ 0 (sg 0%nat)) by (rewrite map_length, seq_length; auto). rewrite map_nth, seq_nth by auto. reflexivity. }
  destruct (static_default _ rirs OK) as (t & E & _ & _ & O). exists t. split; auto. split; [|split; auto].
  - intros i. destruct (Nat.lt_ge_cases i n) as [Q|Q].
    + rewrite V by auto. unfold sg. destruct (Rle_dec _ _); [rewrite Rabs_R1|rewrite Rabs_left by lra]; lra.
    + rewrite sig_view_end by (cbn; lia). rewrite Rabs_R0. lra.
  - rewrite O by (auto; unfold sig_len; cbn; fold n; lia). rewrite HS. cbn [rsum]. rewrite Rplus_0_l, lin_conv_rev.
    replace (S (n - 1)) with n by lia. apply rsum_ext. intros i Hi. rewrite V by lia. unfold sg.
    replace (n - 1 - (n - 1 - i))%nat with i by lia. destruct (Rle_dec _ _) as [Q|Q]; [rewrite Rabs_right by lra|rewrite Rabs_left by lra]; lra.
Qed.
(** The output has at most the energy of the signal times the squared absolute sum. *)
Theorem C95_energy : forall x rirs t, static_ok x rirs -> rir_srcs rirs = 1%nat -> convolve_rir x rirs = Ok t ->
  forall m, (m < rir_mics rirs)%nat ->
    rsum (sig_len x + rir_len rirs - 1) (fun j => out_view t m j ^ 2) <=
    (rsum (rir_len rirs) (fun i => Rabs (rir_view rirs 0 m i))) ^ 2 * rsum (sig_len x) (fun i => sig_view x 0 i ^ 2).
Proof.
  intros x rirs t H S E m Hm. destruct (static_default x rirs H) as (t' & E' & _ & _ & O). rewrite E in E'. injection E' as <-.
  rewrite (rsum_ext _ _ (fun j => lin_conv (sig_view x 0) (rir_view rirs 0 m) j ^ 2)).
  2:{ intros j Hj. rewrite O by auto. rewrite S. cbn [rsum]. rewrite Rplus_0_l. reflexivity. }
  apply lin_conv_energy; intros; [apply sig_view_end; auto|apply rir_view_zero; auto].
Qed.
(** Along a trajectory the largest value of every tap over the steps counts ... *)
Theorem C95_peak_trajectory : forall dev fs x rirs t X P, traj_ok dev x rirs -> convolve_trajectory dev x rirs None fs = Ok t ->
  (forall s i, (s < dyn_srcs rirs)%nat -> Rabs (sig_view x s i) <= X s) ->
  (forall k s m i, (k < dyn_steps rirs)%nat -> (s < dyn_srcs rirs)%nat -> (m < dyn_mics rirs)%nat -> Rabs (dyn_view rirs k s m i) <= P s m i) ->
  forall m j, (m < dyn_mics rirs)%nat -> (j < sig_len x + rir_len rirs - 1)%nat ->
    Rabs (out_view t m j) <= rsum (dyn_srcs rirs) (fun s => X s * rsum (rir_len rirs) (P s m)).
Proof.
  intros dev fs x rirs t X P H E HX HP m j Hm Hj. destruct (traj_default dev x rirs fs H) as (w & t' & Pw & Lw & Es & E' & _ & _ & O).
  rewrite E in E'. injection E' as <-. rewrite O by auto. eapply Rle_trans; [apply rsum_abs|]. apply rsum_le. intros s Hs.
  assert (T0 : (0 < dyn_steps rirs)%nat) by apply H.
  apply (tv_conv_bound _ _ _ (sig_len x) (dyn_steps rirs)); auto.
  - intros. apply sig_view_end; auto.
  - intros i Hi. rewrite <- Lw. apply (active_step_segment w (sig_len x)); auto.
  - intros. apply dyn_view_zero; auto.
  - intros i. apply Rle_trans with (Rabs (dyn_view rirs 0 s m i)); [apply Rabs_pos|auto].
Qed.
Theorem C95_peak_hop : forall x rirs H t X P, hop_ok x rirs H -> convolve_hop x rirs (Z.of_nat H) = Ok t ->
  (forall s i, (s < dyn_srcs rirs)%nat -> Rabs (sig_view x s i) <= X s) ->
  (forall k s m i, (k < dyn_steps rirs)%nat -> (s < dyn_srcs rirs)%nat -> (m < dyn_mics rirs)%nat -> Rabs (dyn_view rirs k s m i) <= P s m i) ->
  forall m j, (m < dyn_mics rirs)%nat -> (j < H * Nat.min ((sig_len x + H - 1) / H) (dyn_steps rirs) + rir_len rirs - 1)%nat ->
    Rabs (out_view t m j) <= rsum (dyn_srcs rirs) (fun s => X s * rsum (rir_len rirs) (P s m)).
Proof.
  intros x rirs H t X P K E HX HP m j Hm Hj. destruct (hop_default x rirs H K) as (t' & E' & _ & _ & O).
  rewrite E in E'. injection E' as <-. rewrite O by auto. eapply Rle_trans; [apply rsum_abs|]. apply rsum_le. intros s Hs.
  assert (T0 : (0 < dyn_steps rirs)%nat) by apply K. assert (H0 : (0 < H)%nat) by apply K.
  apply (tv_conv_bound _ _ _ (dyn_steps rirs * H) (dyn_steps rirs)); auto.
  - intros i. destruct (i <? _)%nat; auto. rewrite Rabs_R0. apply Rle_trans with (Rabs (sig_view x s 0)); [apply Rabs_pos|auto].
  - intros i Hi. destruct (Nat.ltb_spec i (dyn_steps rirs * H)); auto; lia.
  - intros i Hi. apply Nat.div_lt_upper_bound; lia.
  - intros. apply dyn_view_zero; auto.
  - intros i. apply Rle_trans with (Rabs (dyn_view rirs 0 s m i)); [apply Rabs_pos|auto].
Qed.
(** ... not the largest absolute sum of a step: responses that never amplify (a sample of delay,
    then none) give twice the peak where the steps meet. *)
Definition meet_rirs : tensor := mkT [2%nat; 2%nat] [0; 1; 1; 0].
Definition meet_sig : tensor := mkT [2%nat] [1; 1].
Theorem C95_steps_amplify_unchecked : forall dev fs, traj_ok dev meet_sig meet_rirs /\
  (forall k, (k < 2)%nat -> rsum 2 (fun i => Rabs (dyn_view meet_rirs k 0 0 i)) = 1) /\
  (forall i, Rabs (sig_view meet_sig 0 i) <= 1) /\
  exists t, convolve_trajectory dev meet_sig meet_rirs None fs = Ok t /\ out_view t 0 1 = 2.
Proof.
  intros dev fs.
  assert (OK : traj_ok dev meet_sig meet_rirs).
  { unfold traj_ok, dyn_ranks_ok, sig_rank_ok, dyn_rank_ok, ndim, wf, sig_rows, dyn_srcs, dyn_steps, rir_len. cbn.
    repeat split; auto; try lia; try (intros; discriminate). destruct dev; cbn; lia. }
  split; auto. split; [|split].
  - intros k Hk. destruct k as [|[|k]]; try lia; cbn; rewrite ?Rabs_R0, ?Rabs_R1; lra.
  - intros i. destruct i as [|[|i]]; cbn; rewrite ?Rabs_R0, ?Rabs_R1; lra.
  - destruct (traj_default dev meet_sig meet_rirs fs OK) as (w & t & (P1 & P2 & P3) & Lw & Es & E & _ & _ & O).
    exists t. split; auto. rewrite O by (cbn; lia).
    change (sig_len meet_sig) with 2%nat in Es. change (dyn_steps meet_rirs) with 2%nat in Es, Lw.
    assert (B : (Z.of_nat 2 <= 2 ^ ts_prec dev)%Z) by (destruct dev; cbn; lia).
    pose proof (default_exact dev 2 2 ltac:(lia) ltac:(destruct dev; cbn; lia) fs 1 eq_refl B w Es) as N.
    destruct w as [|a [|b [|c w]]]; try (cbn in Lw; lia). pose proof (N 0%nat ltac:(lia)) as N0. pose proof (N 1%nat ltac:(lia)) as N1.
    cbn in N0, N1. subst a b. cbn. lra.
Qed.
Print Assumptions C95_associates.
Print Assumptions C95_peak_reached.
Print Assumptions C95_energy.
Print Assumptions C95_peak_hop.
Print Assumptions C95_steps_amplify_unchecked.
(** A response of two taps 3 and -4 can turn samples of size 1 into 7, and into no more. *)
Example C95_peak_example : exists x t, convolve_rir x (mkT [2%nat] [3; -4]%R) = Ok t /\
  (forall i, Rabs (sig_view x 0 i) <= 1) /\ out_view t 0 1 = 7%R.
Proof.
  destruct (C95_peak_reached (mkT [2%nat] [3; -4]%R) 0) as (x & t & _ & B & E & O); try (cbn; lia); try reflexivity.
  - left. reflexivity.
  - exists x, t. split; [auto|]. split; [auto|]. change (rir_len (mkT [2%nat] [3; -4]%R) - 1)%nat with 1%nat in O. rewrite O. cbn.
    rewrite (Rabs_right 3), (Rabs_left (-4)) by lra. lra.
Qed.
