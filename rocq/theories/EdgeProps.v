(** Property theorems C94: convolutions at the edges (empty axes, times beyond the end of
    the signal, times out of order). *)
From Coq Require Import String List ZArith Reals Lia Lra Bool.
From Flocq Require Import Core.
From Verif Require Import Prelude PreludeFacts FloatModel FloatProofs SignalModel SignalSpec
  SignalProofs TrajProofs SegProofs ConvProofs ConvMore EdgeProofs EdgeEnd.
Import ListNotations.
Local Open Scope R_scope.

(** ** C94 *)
(** One empty operand is an ordinary case of linear convolution ... *)
Theorem C94_fft : forall x h : tensor,
  wf x -> wf h -> ndim x = 1%nat -> ndim h = 1%nat -> (1 <= numel x + numel h)%nat ->
  exists t, fft_convolve x h = Ok t /\ wf t /\ shape t = [(numel x + numel h - 1)%nat] /\
    forall j, (j < numel x + numel h - 1)%nat ->
      tget t [j] = lin_conv (zext (numel x) (fun i => tget x [i]))
                            (zext (numel h) (fun i => tget h [i])) j.
Proof. intros. apply fft_convolve_edge; auto. Qed.
(** ... but two empty operands give three samples. *)
Theorem C94_fft_both_empty_unchecked : fft_convolve (mkT [0%nat] []) (mkT [0%nat] []) = Ok (mkT [3%nat] [0; 0; 0]).
Proof. unfold fft_convolve. cbn [ndim shape data length Nat.eqb andb negb]. rewrite fft_convolve_nil. reflexivity. Qed.
(** An empty signal through an RIR of three taps: two zero samples. *)
Example C94_fft_example : exists t, fft_convolve (mkT [0%nat] []) (mkT [3%nat] [1; 2; 3]) = Ok t /\
  shape t = [2%nat] /\ tget t [0%nat] = 0 /\ tget t [1%nat] = 0.
Proof.
  destruct (C94_fft (mkT [0%nat] []) (mkT [3%nat] [1; 2; 3])) as (t & E & W & S & V);
    try reflexivity; try (cbn; lia).
  exists t. split; auto. split; auto. split; rewrite V by (cbn; lia); cbn; lra.
Qed.

(** [convolve_rir] for every length of signal and RIR, including none. *)
Theorem C94_static : forall signal rirs,
  sig_rank_ok signal -> rir_rank_ok rirs -> wf signal -> wf rirs ->
  sig_rows signal = 1%nat \/ sig_rows signal = rir_srcs rirs ->
  ((1 <= sig_len signal + rir_len rirs)%nat ->
    exists t, convolve_rir signal rirs = Ok t /\
    is_output t (rir_mics rirs) (sig_len signal + rir_len rirs - 1)
      (fun m j => rsum (rir_srcs rirs) (fun s => lin_conv (sig_view signal s) (rir_view rirs s m) j))) /\
  ((sig_len signal + rir_len rirs = 0)%nat -> convolve_rir signal rirs = Err RuntimeError).
Proof.
  intros. split; intros.
  - apply convolve_rir_edge; auto.
  - apply static_both_empty; auto; lia.
Qed.
(** Nothing in, silence out. *)
Theorem C94_static_silent : forall signal rirs t,
  sig_rank_ok signal -> rir_rank_ok rirs -> wf signal -> wf rirs ->
  sig_rows signal = 1%nat \/ sig_rows signal = rir_srcs rirs ->
  sig_len signal = 0%nat \/ rir_len rirs = 0%nat -> convolve_rir signal rirs = Ok t ->
  is_output t (rir_mics rirs) (sig_len signal + rir_len rirs - 1) (fun _ _ => 0).
Proof.
  intros signal rirs t H1 H2 H3 H4 H5 H6 E.
  destruct (C94_static signal rirs H1 H2 H3 H4 H5) as (A & B).
  destruct (Nat.eq_dec (sig_len signal + rir_len rirs) 0) as [H0|H0].
  { rewrite B in E by auto. discriminate. }
  destruct (A ltac:(lia)) as (t' & E' & O1 & O2 & O3). rewrite E' in E. injection E as <-.
  split; auto. split; auto. intros m j Hm Hj. rewrite O3 by auto.
  apply rsum_zero. intros s Hs. apply lin_conv_silent.
  destruct H6 as [H6|H6]; [left|right]; intros i.
  - apply sig_view_empty; auto.
  - apply rir_view_empty; auto.
Qed.
Example C94_static_example :
  convolve_rir (mkT [0%nat] []) (mkT [2%nat; 0%nat] []) = Err RuntimeError /\
  exists t, convolve_rir (mkT [0%nat] []) (mkT [2%nat; 3%nat] [1; 2; 3; 4; 5; 6]) = Ok t /\
    shape t = [2%nat; 2%nat].
Proof.
  split.
  - apply (C94_static (mkT [0%nat] []) (mkT [2%nat; 0%nat] [])); try reflexivity;
      unfold sig_rank_ok, rir_rank_ok, ndim; cbn; auto.
  - destruct (C94_static (mkT [0%nat] []) (mkT [2%nat; 3%nat] [1; 2; 3; 4; 5; 6])) as (A & _);
      try reflexivity; unfold sig_rank_ok, rir_rank_ok, ndim; cbn; auto.
    destruct (A ltac:(cbn; lia)) as (t & E & S & _). exists t. split; auto.
Qed.

(** Trajectory mode without timestamps, on every device, again for every length. *)
Theorem C94_trajectory : forall dev signal rirs fs,
  dyn_ranks_ok signal rirs -> wf signal -> wf rirs ->
  sig_rows signal = 1%nat \/ sig_rows signal = dyn_srcs rirs ->
  (Z.of_nat (dyn_steps rirs) <= 2 ^ (ts_prec dev - 2))%Z ->
  (dyn_steps rirs = 0%nat -> convolve_trajectory dev signal rirs None fs = Err ZeroDivisionError) /\
  ((0 < dyn_steps rirs)%nat -> (sig_len signal + rir_len rirs = 0)%nat ->
     convolve_trajectory dev signal rirs None fs = Err RuntimeError) /\
  ((0 < dyn_steps rirs)%nat -> (1 <= sig_len signal + rir_len rirs)%nat ->
     exists w t, partition_starts w (sig_len signal) /\ length w = dyn_steps rirs /\
       segment_starts dev (sig_len signal) (dyn_steps rirs) None fs = Ok w /\
       convolve_trajectory dev signal rirs None fs = Ok t /\
       is_output t (dyn_mics rirs) (sig_len signal + rir_len rirs - 1)
         (fun m j => rsum (dyn_srcs rirs) (fun s =>
            tv_conv (sig_view signal s) (active_step w) (fun t => dyn_view rirs t s m) j))).
Proof.
  intros dev signal rirs fs H1 H2 H3 H4 H5. split; [|split]; intros HT.
  - apply traj_no_steps; auto.
  - intros H0. destruct (default_partition dev (sig_len signal) (dyn_steps rirs) HT H5 fs) as (w & Ew & Lw & Pw).
    assert (Hn : sig_len signal = 0%nat) by lia. assert (HL : rir_len rirs = 0%nat) by lia.
    rewrite Hn in Ew, Pw. eapply traj_both_empty; eauto.
  - intros H0. destruct (default_partition dev (sig_len signal) (dyn_steps rirs) HT H5 fs) as (w & Ew & Lw & Pw).
    destruct (trajectory_edge dev signal rirs None fs w (active_step w)) as (t & Et & Ot); auto.
    { apply active_step_segment; auto. }
    exists w, t. auto.
Qed.
(** No steps and an empty vector of timestamps: IndexError instead of ValueError. *)
Theorem C94_no_timestamps_unchecked : forall dev signal rirs u f,
  dyn_ranks_ok signal rirs -> wf signal -> wf rirs -> dyn_steps rirs = 0%nat -> wf u -> shape u = [0%nat] ->
  convolve_trajectory dev signal rirs (Some u) (Some f) = Err IndexError.
Proof.
  intros dev signal rirs u f H1 H2 H3 H4 H5 H6.
  exact (proj2 (traj_no_steps dev signal rirs None H1 H2 H3 H4) u f H5 H6).
Qed.
Example C94_trajectory_example :
  convolve_trajectory Cuda (mkT [2%nat] [1; 2]) (mkT [0%nat; 3%nat] []) None None = Err ZeroDivisionError /\
  exists t, convolve_trajectory Cuda (mkT [0%nat] []) (mkT [2%nat; 3%nat] [1; 2; 3; 4; 5; 6]) None None = Ok t /\
    shape t = [2%nat] /\ out_view t 0 1 = 0.
Proof.
  assert (D : forall s r, ndim s = 1%nat -> ndim r = 2%nat -> dyn_ranks_ok s r).
  { intros s r E1 E2. unfold dyn_ranks_ok, sig_rank_ok, dyn_rank_ok. rewrite E1, E2.
    repeat split; auto. intros; discriminate. }
  split.
  - apply (C94_trajectory Cuda (mkT [2%nat] [1; 2]) (mkT [0%nat; 3%nat] []) None); try reflexivity; auto. cbn. lia.
  - destruct (C94_trajectory Cuda (mkT [0%nat] []) (mkT [2%nat; 3%nat] [1; 2; 3; 4; 5; 6]) None)
      as (_ & _ & A); try reflexivity; auto; [cbn; lia|].
    destruct (A ltac:(cbn; lia) ltac:(cbn; lia)) as (w & t & _ & _ & _ & E & S & _ & V).
    exists t. split; auto. split; auto. rewrite V by (cbn; lia). cbn. lra.
Qed.

(** The batched path of CUDA and MPS and the loop of the CPU agree for every length. *)
Theorem C94_devices_agree : forall n ns sig T n_src M L rirs starts chunk,
  length sig = (ns * n)%nat -> length rirs = (T * n_src * M * L)%nat ->
  (ns = 1 \/ ns = n_src)%nat -> (1 <= n + L)%nat -> length starts = T -> partition_starts starts n ->
  (0 < chunk)%nat ->
  conv_traj_batched n ns sig T n_src M L rirs (with_end starts n) chunk
  = conv_traj_cpu n ns sig T n_src M L rirs (with_end starts n).
Proof. exact batched_eq_cpu_edge. Qed.

(** Hop mode for every length and number of steps. *)
Theorem C94_hop : forall signal rirs H,
  dyn_ranks_ok signal rirs -> wf signal -> wf rirs ->
  (dyn_srcs rirs <= sig_rows signal)%nat -> (0 < H)%nat ->
  (Z.of_nat (sig_len signal) < 2 ^ 53)%Z -> (Z.of_nat H < 2 ^ 63)%Z ->
  let F := Nat.min ((sig_len signal + H - 1) / H) (dyn_steps rirs) in
  ((F = 0 /\ rir_len rirs = 0)%nat -> convolve_hop signal rirs (Z.of_nat H) = Err RuntimeError) /\
  (~ (F = 0 /\ rir_len rirs = 0)%nat -> exists t, convolve_hop signal rirs (Z.of_nat H) = Ok t /\
    is_output t (dyn_mics rirs) (H * F + rir_len rirs - 1)
      (fun m j => rsum (dyn_srcs rirs) (fun s =>
         tv_conv (fun tau => if (tau <? dyn_steps rirs * H)%nat then sig_view signal s tau else 0)
           (fun tau => (tau / H)%nat) (fun t => dyn_view rirs t s m) j))).
Proof.
  intros signal rirs H H1 H2 H3 H4 H5 H6 H7 F. split.
  - intros (HF & HL). apply hop_both_empty; auto.
    destruct (Nat.eq_dec (dyn_steps rirs) 0); auto. left.
    destruct (Nat.eq_dec (sig_len signal) 0); auto. exfalso.
    assert (1 <= (sig_len signal + H - 1) / H)%nat by (apply Nat.div_le_lower_bound; lia).
    unfold F in HF. lia.
  - intros HF. apply hop_edge; auto. fold F. nia.
Qed.
Example C94_hop_example : exists t,
  convolve_hop (mkT [0%nat] []) (mkT [2%nat; 3%nat] [1; 2; 3; 4; 5; 6]) 4 = Ok t /\ shape t = [2%nat].
Proof.
  destruct (C94_hop (mkT [0%nat] []) (mkT [2%nat; 3%nat] [1; 2; 3; 4; 5; 6]) 4) as (_ & A);
    try reflexivity; try (cbn; lia).
  { unfold dyn_ranks_ok, sig_rank_ok, dyn_rank_ok, ndim. cbn. repeat split; auto; intros; discriminate. }
  destruct (A ltac:(cbn; lia)) as (t & E & S & _). exists t. split; auto.
Qed.

(** Times in order: accepted exactly when the last one is not beyond the end of the signal. *)
Theorem C94_past_end : forall dev signal rirs ts fs starts,
  dyn_ranks_ok signal rirs -> wf signal -> wf rirs ->
  (0 < rir_len rirs)%nat -> (0 < dyn_srcs rirs)%nat -> (0 < dyn_mics rirs)%nat ->
  sig_rows signal = 1%nat \/ sig_rows signal = dyn_srcs rirs ->
  segment_starts dev (sig_len signal) (dyn_steps rirs) ts fs = Ok starts ->
  length starts = dyn_steps rirs -> (0 < length starts)%nat -> nth 0 starts 0%Z = 0%Z ->
  (forall k, (S k < length starts)%nat -> (nth k starts 0 <= nth (S k) starts 0)%Z) ->
  ((last starts 0%Z <= Z.of_nat (sig_len signal))%Z -> exists t, convolve_trajectory dev signal rirs ts fs = Ok t) /\
  ((Z.of_nat (sig_len signal) < last starts 0%Z)%Z -> convolve_trajectory dev signal rirs ts fs = Err RuntimeError).
Proof.
  intros dev signal rirs ts fs starts H1 H2 H3 H4 H5 H6 H7 Est Lst Hp H0 Hmono.
  set (n := sig_len signal) in *.
  assert (Hlast : last starts 0%Z = nth (length starts - 1) starts 0%Z).
  { destruct starts as [|a l]; [cbn in Hp; lia|]. clear. cbn [length]. replace (S (length l) - 1)%nat with (length l) by lia.
    revert a. induction l as [|b l IH]; intros a; auto. exact (IH b). }
  assert (Hs1 : forall k, (k < length starts)%nat -> seg_start starts n k = nth k starts 0%Z).
  { intros k Hk. unfold seg_start. apply app_nth1; auto. }
  split; intros Hn.
  - destruct (trajectory_edge dev signal rirs ts fs starts (active_step starts)) as (t & E & _); auto.
    + fold n. lia.
    + split; auto. split; auto. intros k Hk. fold n. destruct (Nat.eq_dec (S k) (length starts)) as [E|E].
      * rewrite Hs1 by auto. unfold seg_start. rewrite app_nth2 by lia. rewrite E, Nat.sub_diag. cbn.
        rewrite Hlast in Hn. replace (length starts - 1)%nat with k in Hn by lia. auto.
      * rewrite !Hs1 by lia. apply Hmono. lia.
    + apply active_step_segment. split; auto. split; auto. intros k Hk. fold n.
      destruct (Nat.eq_dec (S k) (length starts)) as [E|E].
      * rewrite Hs1 by auto. unfold seg_start. rewrite app_nth2 by lia. rewrite E, Nat.sub_diag. cbn.
        rewrite Hlast in Hn. replace (length starts - 1)%nat with k in Hn by lia. auto.
      * rewrite !Hs1 by lia. apply Hmono. lia.
    + exists t. auto.
  - rewrite Hlast in Hn.
    assert (Hc : exists k, (S k < length starts)%nat /\ (0 <= nth k starts 0 <= Z.of_nat n)%Z /\
       (Z.of_nat n < nth (S k) starts 0)%Z).
    { assert (G : forall d, (d < length starts)%nat -> (Z.of_nat n < nth d starts 0)%Z ->
        exists k, (S k < length starts)%nat /\ (0 <= nth k starts 0 <= Z.of_nat n)%Z /\ (Z.of_nat n < nth (S k) starts 0)%Z).
      { assert (Hpos : forall d, (d < length starts)%nat -> (0 <= nth d starts 0)%Z).
        { induction d; intros Hd; [lia|]. specialize (IHd ltac:(lia)). specialize (Hmono d Hd). lia. }
        induction d; intros Hd Hdn; [lia|].
        destruct (Z_lt_dec (Z.of_nat n) (nth d starts 0%Z)) as [Hx|Hx]; [apply IHd; auto; lia|].
        exists d. split; auto. split; auto. split; [apply Hpos; lia|lia]. }
      apply (G (length starts - 1)%nat); auto. lia. }
    destruct Hc as (k & Hk & Hk1 & Hk2).
    eapply traj_past_end with (k := k); eauto; fold n; try lia.
    + rewrite !Hs1 by lia. lia.
    + rewrite Hs1 by lia. auto.
Qed.

(** Times out of order are not noticed: with RIRs that are all the unit impulse the middle
    sample is counted twice, whatever the signal and the device. *)
Theorem C94_unsorted_unchecked : forall dev a b c,
  convolve_trajectory dev (mkT [3%nat] [a; b; c]) (mkT [3%nat; 1%nat] [1; 1; 1])
    (Some (mkT [3%nat] [0; 2; 1])) (Some 1) = Ok (mkT [3%nat] [a; b + b; c]) /\
  convolve_trajectory dev (mkT [3%nat] [a; b; c]) (mkT [3%nat; 1%nat] [1; 1; 1])
    (Some (mkT [3%nat] [0; 1; 2])) (Some 1) = Ok (mkT [3%nat] [a; b; c]).
Proof.
  assert (G : forall dev p q, (0 <= p < 4)%Z -> (0 <= q < 4)%Z ->
    segment_starts dev 3 3 (Some (mkT [3%nat] [0; IZR p; IZR q])) (Some 1) = Ok [0; p; q]%Z).
  { intros dev p q Hp Hq. unfold segment_starts.
    cbn [ndim shape length numel prodn fold_right Nat.eqb Nat.mul Nat.add andb negb map data].
    assert (Hr : forall z, (0 <= z < 4)%Z -> ts_round dev (IZR z) = IZR z).
    { intros z Hz. destruct dev; cbn [ts_round]; [apply rnd64_IZR|apply rnd64_IZR|apply rnd32_IZR]; lia. }
    rewrite (Hr 0%Z), (Hr 1%Z), (Hr p), (Hr q) by lia.
    replace (Reqb 0 0) with true by (destruct (Reqb_spec 0 0); auto; lra). cbn [negb].
    rewrite !Rmult_1_r, (Hr 0%Z), (Hr p), (Hr q) by lia.
    assert (Ht : forall z, (0 <= z)%Z -> truncZ (IZR z) = z).
    { intros z Hz. rewrite truncZ_nonneg by (apply IZR_le; auto). apply floorZ_IZR. }
    rewrite !Ht by lia. reflexivity. }
  intros dev a b c. split.
  - unfold convolve_trajectory. cbn [ensure_signal ensure_dynamic_rirs shape data bind negb Nat.eqb].
    unfold conv_traj_core. rewrite (G dev 2%Z 1%Z) by lia. cbn [bind with_end app Z.of_nat Pos.of_succ_nat Pos.succ].
    destruct dev; [apply unsorted_cpu|apply unsorted_batched|apply unsorted_batched].
  - destruct (trajectory_edge dev (mkT [3%nat] [a; b; c]) (mkT [3%nat; 1%nat] [1; 1; 1])
      (Some (mkT [3%nat] [0; 1; 2])) (Some 1) [0; 1; 2]%Z (fun tau => tau)) as (t & E & S & W & V); try reflexivity; auto; try (cbn; lia).
    + unfold dyn_ranks_ok, sig_rank_ok, dyn_rank_ok, ndim. cbn. repeat split; auto; intros; discriminate.
    + apply (G dev 1%Z 2%Z); lia.
    + repeat split; cbn; auto; try lia. intros [|[|[|]]] Hk; cbn in *; lia.
    + intros [|[|[|]]] Hk; cbn in *; lia.
    + rewrite E. f_equal. destruct t as [sh d]. cbn in S. subst sh. unfold wf in W. cbn in W.
      pose proof (V 0%nat 0%nat ltac:(cbn; lia) ltac:(cbn; lia)) as V0.
      pose proof (V 0%nat 1%nat ltac:(cbn; lia) ltac:(cbn; lia)) as V1.
      pose proof (V 0%nat 2%nat ltac:(cbn; lia) ltac:(cbn; lia)) as V2.
      destruct d as [|x [|y [|z [|? ?]]]]; try discriminate. cbn in V0, V1, V2. f_equal.
      repeat f_equal; lra.
Qed.
(** Times 0 and 5 s at one sample per second and a signal of three samples. *)
Example C94_past_end_example : segment_starts Cpu 3 2 (Some (mkT [2%nat] [0; 5])) (Some 1) = Ok [0; 5]%Z /\
  convolve_trajectory Cpu (mkT [3%nat] [7; 8; 9]) (mkT [2%nat; 1%nat] [1; 1])
    (Some (mkT [2%nat] [0; 5])) (Some 1) = Err RuntimeError.
Proof.
  assert (G : segment_starts Cpu 3 2 (Some (mkT [2%nat] [0; 5])) (Some 1) = Ok [0; 5]%Z).
  { unfold segment_starts.
    cbn [ndim shape length numel prodn fold_right Nat.eqb Nat.mul Nat.add andb negb map data ts_round].
    rewrite (rnd64_IZR 0), (rnd64_IZR 1), (rnd64_IZR 5) by lia.
    replace (Reqb 0 0) with true by (destruct (Reqb_spec 0 0); auto; lra). cbn [negb].
    rewrite !Rmult_1_r, (rnd64_IZR 0), (rnd64_IZR 5) by lia.
    rewrite !truncZ_nonneg by lra. rewrite (floorZ_IZR 0), (floorZ_IZR 5). reflexivity. }
  split; auto.
  eapply (C94_past_end Cpu (mkT [3%nat] [7; 8; 9]) (mkT [2%nat; 1%nat] [1; 1])); eauto; try reflexivity; cbn; auto; try lia.
  - unfold dyn_ranks_ok, sig_rank_ok, dyn_rank_ok, ndim. cbn. repeat split; auto; intros; discriminate.
  - intros [|k] Hk; cbn; lia.
Qed.
Print Assumptions C94_fft.
Print Assumptions C94_fft_both_empty_unchecked.
Print Assumptions C94_static.
Print Assumptions C94_static_silent.
Print Assumptions C94_trajectory.
Print Assumptions C94_no_timestamps_unchecked.
Print Assumptions C94_devices_agree.
Print Assumptions C94_hop.
Print Assumptions C94_past_end.
Print Assumptions C94_unsorted_unchecked.
