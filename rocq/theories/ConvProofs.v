(** The public convolution entry points: shape normalisation plus loops. *)
From Coq Require Import String List ZArith Reals Lia Lra Bool.
From Flocq Require Import Core.
From Verif Require Import Prelude PreludeFacts FloatModel FloatProofs SignalModel SignalSpec
  DftProofs SignalProofs TrajProofs SegProofs.
Import ListNotations.
Local Open Scope R_scope.

(** Acceptance condition shared by both dynamic modes. *)
Definition dyn_ranks_ok (signal rirs : tensor) : Prop :=
  sig_rank_ok signal /\ dyn_rank_ok rirs /\ (ndim rirs = 3%nat -> sig_rows signal = 1%nat).

Lemma dyn_norm signal rirs sg : dyn_rank_ok rirs -> wf rirs ->
  (ndim rirs = 3%nat -> sig_rows signal = 1%nat) ->
  shape sg = [sig_rows signal; sig_len signal] ->
  exists t', ensure_dynamic_rirs rirs sg = Ok t' /\
  shape t' = [dyn_steps rirs; dyn_srcs rirs; dyn_mics rirs; rir_len rirs] /\ wf t' /\
  forall k s m i, (s < dyn_srcs rirs)%nat -> (m < dyn_mics rirs)%nat -> dyn_view rirs k s m i =
     zext (rir_len rirs) (fun i => nth (((k * dyn_srcs rirs + s) * dyn_mics rirs + m) * rir_len rirs + i)
        (data t') 0) i.
Proof.
  intros Hr Hw H3 Hsg. destruct rirs as [sh d].
  unfold dyn_rank_ok, ndim, wf, dyn_steps, dyn_srcs, dyn_mics, rir_len, dyn_view, tget, ensure_dynamic_rirs in *.
  cbn [shape data] in *. rewrite Hsg.
  destruct sh as [|a [|b [|c [|e [|? ?]]]]]; cbn [length] in Hr; try lia; cbn [shape data last hd].
  - eexists; split; [reflexivity|]. split; auto. cbn [shape data prodn fold_right] in *. split; [lia|].
    intros. unfold zext. destruct (i <? b)%nat; auto.
    cbn [ravel prodn fold_right]. f_equal. replace s with 0%nat by lia. replace m with 0%nat by lia. nia.
  - rewrite (H3 eq_refl). cbn [Nat.eqb negb].
    eexists; split; [reflexivity|]. split; auto. cbn [shape data prodn fold_right] in *. split; [lia|].
    intros. unfold zext. destruct (i <? c)%nat; auto.
    cbn [ravel prodn fold_right]. f_equal. replace s with 0%nat by lia. nia.
  - eexists; split; [reflexivity|]. split; auto. split; [exact Hw|].
    intros. unfold zext. destruct (i <? e)%nat; auto.
    cbn [ravel prodn fold_right]. f_equal. nia.
Qed.

Lemma dyn_reject signal rirs d ts fs : ~ dyn_ranks_ok signal rirs ->
  convolve_trajectory d signal rirs ts fs = Err ValueError.
Proof.
  intros H. unfold convolve_trajectory.
  destruct signal as [ss ds], rirs as [sr dr].
  unfold dyn_ranks_ok, sig_rank_ok, dyn_rank_ok, sig_rows, ndim in H; cbn [shape data] in H.
  unfold ensure_signal, ensure_dynamic_rirs; cbn [shape data].
  destruct ss as [|a [|b [|? ?]]]; cbn [bind shape data]; auto;
  destruct sr as [|c [|d0 [|e [|f [|? ?]]]]]; cbn [bind shape data]; auto;
    try (exfalso; apply H; cbn [length]; lia).
  destruct (Nat.eqb_spec a 1); cbn [negb bind]; auto. exfalso; apply H; cbn [length]; lia.
Qed.
Lemma hop_reject signal rirs h : ~ dyn_ranks_ok signal rirs ->
  convolve_hop signal rirs h = Err ValueError.
Proof.
  intros H. unfold convolve_hop.
  destruct signal as [ss ds], rirs as [sr dr].
  unfold dyn_ranks_ok, sig_rank_ok, dyn_rank_ok, sig_rows, ndim in H; cbn [shape data] in H.
  unfold ensure_signal, ensure_dynamic_rirs; cbn [shape data].
  destruct ss as [|a [|b [|? ?]]]; cbn [bind shape data]; auto;
  destruct sr as [|c [|d0 [|e [|f [|? ?]]]]]; cbn [bind shape data]; auto;
    try (exfalso; apply H; cbn [length]; lia).
  destruct (Nat.eqb_spec a 1); cbn [negb bind]; auto. exfalso; apply H; cbn [length]; lia.
Qed.

Lemma tv_conv_ext x x' k h h' j :
  (forall i, (i <= j)%nat -> x i = x' i) ->
  (forall tau i, (tau <= j)%nat -> (i <= j)%nat -> x' tau = 0 \/ h (k tau) i = h' (k tau) i) ->
  tv_conv x k h j = tv_conv x' k h' j.
Proof.
  intros Hx Hh. apply rsum_ext. intros tau Ht. rewrite Hx by lia.
  destruct (Hh tau (j - tau)%nat ltac:(lia) ltac:(lia)) as [E|E]; rewrite E; lra.
Qed.

Theorem trajectory_edge dev signal rirs ts fs starts k :
  dyn_ranks_ok signal rirs -> wf signal -> wf rirs ->
  (1 <= sig_len signal + rir_len rirs)%nat ->
  sig_rows signal = 1%nat \/ sig_rows signal = dyn_srcs rirs ->
  segment_starts dev (sig_len signal) (dyn_steps rirs) ts fs = Ok starts ->
  length starts = dyn_steps rirs ->
  partition_starts starts (sig_len signal) ->
  segment_of starts (sig_len signal) k ->
  exists t, convolve_trajectory dev signal rirs ts fs = Ok t /\
    is_output t (dyn_mics rirs) (sig_len signal + rir_len rirs - 1)
      (fun m j => rsum (dyn_srcs rirs) (fun s =>
         tv_conv (sig_view signal s) k (fun t => dyn_view rirs t s m) j)).
Proof.
  intros (Rs & Rr & R3) Ws Wr HL Hrows Est Lst Hp Hk.
  destruct (sig_norm signal Rs Ws) as (sg & Es & Ss & Ws' & Vs).
  destruct (dyn_norm signal rirs sg Rr Wr R3 Ss) as (rr & Er & Sr & Wr' & Vr).
  unfold convolve_trajectory. rewrite Es; cbn [bind]. rewrite Er; cbn [bind].
  unfold wf in Ws', Wr'. rewrite Ss in *. rewrite Sr in *. cbn [prodn fold_right] in Ws', Wr'.
  unfold conv_traj_core. rewrite Est; cbn [bind].
  set (ns := sig_rows signal) in *. set (n := sig_len signal) in *.
  set (T := dyn_steps rirs) in *. set (S_ := dyn_srcs rirs) in *.
  set (M := dyn_mics rirs) in *. set (L := rir_len rirs) in *.
  assert (HS : length (data sg) = (ns * n)%nat) by lia.
  assert (HR : length (data rr) = (T * S_ * M * L)%nat) by (rewrite Wr'; ring).
  assert (Hval : forall m j, (m < M)%nat -> 
     rsum T (fun t => step_val n ns (data sg) S_ M L (data rr) starts t m j)
     = rsum S_ (fun s => tv_conv (sig_view signal s) k (fun t => dyn_view rirs t s m) j)).
  { intros m j Hm. rewrite (step_val_tv n ns (data sg) T S_ M L (data rr) starts) with (k := k); auto.
    apply rsum_ext. intros s Hs. apply tv_conv_ext.
    - intros i Hi. unfold xat, srow. rewrite seq_of_block.
      + rewrite Vs by lia. reflexivity.
      + rewrite HS. destruct (Nat.eqb_spec ns 1); nia.
    - intros tau i _ _. right. rewrite Vr by auto. reflexivity. }
  assert (Hfin : forall r, is_output r M (n + L - 1) (fun m j => 
      rsum T (fun t => step_val n ns (data sg) S_ M L (data rr) starts t m j)) ->
    is_output r M (n + L - 1) (fun m j => 
      rsum S_ (fun s => tv_conv (sig_view signal s) k (fun t => dyn_view rirs t s m) j))).
  { intros r (H1 & H2 & H3). split; auto. split; auto. intros. rewrite H3 by auto. auto. }
  destruct dev.
  - destruct (conv_traj_cpu_ok n ns (data sg) T S_ M L (data rr) starts) as (r & E & O); auto.
    exists r; auto.
  - destruct (conv_traj_batched_ok n ns (data sg) T S_ M L (data rr) starts HS HR Hrows HL Lst Hp 8) as (r & E & O);
      [lia|]. exists r; auto.
  - destruct (conv_traj_batched_ok n ns (data sg) T S_ M L (data rr) starts HS HR Hrows HL Lst Hp 8) as (r & E & O);
      [lia|]. exists r; auto.
Qed.

Theorem trajectory_correct dev signal rirs ts fs starts k :
  dyn_ranks_ok signal rirs -> wf signal -> wf rirs ->
  (0 < rir_len rirs)%nat ->
  sig_rows signal = 1%nat \/ sig_rows signal = dyn_srcs rirs ->
  segment_starts dev (sig_len signal) (dyn_steps rirs) ts fs = Ok starts ->
  length starts = dyn_steps rirs ->
  partition_starts starts (sig_len signal) ->
  segment_of starts (sig_len signal) k ->
  exists t, convolve_trajectory dev signal rirs ts fs = Ok t /\
    is_output t (dyn_mics rirs) (sig_len signal + rir_len rirs - 1)
      (fun m j => rsum (dyn_srcs rirs) (fun s =>
         tv_conv (sig_view signal s) k (fun t => dyn_view rirs t s m) j)).
Proof. intros. apply trajectory_edge with (starts := starts); auto. lia. Qed.

(** ** Hop mode *)
Theorem hop_edge signal rirs H :
  dyn_ranks_ok signal rirs -> wf signal -> wf rirs ->
  (1 <= H * Nat.min ((sig_len signal + H - 1) / H) (dyn_steps rirs) + rir_len rirs)%nat ->
  (dyn_srcs rirs <= sig_rows signal)%nat -> (0 < H)%nat ->
  (Z.of_nat (sig_len signal) < 2 ^ 53)%Z -> (Z.of_nat H < 2 ^ 63)%Z ->
  exists t, convolve_hop signal rirs (Z.of_nat H) = Ok t /\
    is_output t (dyn_mics rirs)
      (H * Nat.min ((sig_len signal + H - 1) / H) (dyn_steps rirs) + rir_len rirs - 1)
      (fun m j => rsum (dyn_srcs rirs) (fun s =>
         tv_conv (fun tau => if (tau <? dyn_steps rirs * H)%nat then sig_view signal s tau else 0)
           (fun tau => (tau / H)%nat) (fun t => dyn_view rirs t s m) j)).
Proof.
  intros (Rs & Rr & R3) Ws Wr HL Hrows HH Hb HHb.
  destruct (sig_norm signal Rs Ws) as (sg & Es & Ss & Ws' & Vs).
  destruct (dyn_norm signal rirs sg Rr Wr R3 Ss) as (rr & Er & Sr & Wr' & Vr).
  unfold convolve_hop. rewrite Es; cbn [bind]. rewrite Er; cbn [bind].
  unfold wf in Ws', Wr'. rewrite Ss in *. rewrite Sr in *. cbn [prodn fold_right] in Ws', Wr'.
  unfold conv_hop_core.
  set (ns := sig_rows signal) in *. set (n := sig_len signal) in *.
  set (T := dyn_steps rirs) in *. set (S_ := dyn_srcs rirs) in *.
  set (M := dyn_mics rirs) in *. set (L := rir_len rirs) in *.
  assert (HS : length (data sg) = (ns * n)%nat) by lia.
  assert (HR : length (data rr) = (T * S_ * M * L)%nat) by (rewrite Wr'; ring).
  rewrite hop_frames_ok by lia. cbn [bind].
  set (F := Nat.min ((n + H - 1) / H) T).
  assert (EF : Z.min ((Z.of_nat n + Z.of_nat H - 1) / Z.of_nat H) (Z.of_nat T) = Z.of_nat F).
  { unfold F. rewrite Nat2Z.inj_min, Nat2Z.inj_div. do 2 f_equal. lia. }
  rewrite EF.
  assert (HF1 : forall t, (t < F)%nat -> (t * H < n)%nat /\ (t < T)%nat).
  { intros t Ht. unfold F in Ht. split; [|lia].
    assert (t < (n + H - 1) / H)%nat by lia.
    pose proof (Nat.mul_div_le (n + H - 1) H ltac:(lia)). nia. }
  assert (HF2 : (n <= ((n + H - 1) / H) * H)%nat).
  { pose proof (Nat.div_mod (n + H - 1) H ltac:(lia)).
    pose proof (Nat.mod_upper_bound (n + H - 1) H ltac:(lia)). nia. }
  set (x := fun s => seq_of (srow ns n (data sg) s)).
  set (h := fun t s m => dyn_view rirs t s m).
  assert (Hx : forall s i, (s < S_)%nat -> x s i = sig_view signal s i).
  { intros s i Hs. unfold x, srow. rewrite seq_of_block.
    - rewrite Vs by lia. reflexivity.
    - rewrite HS. destruct (Nat.eqb_spec ns 1); nia. }
  assert (Hx0 : forall s i, (s < S_)%nat -> (n <= i)%nat -> sig_view signal s i = 0).
  { intros s i Hs Hi. rewrite Vs by lia. unfold zext. destruct (Nat.ltb_spec i n); auto; lia. }
  assert (Hval : forall m j, (m < M)%nat ->
    rsum F (fun t => rsum S_ (fun s => seg_contrib (sig_view signal s) (h t s m) (t * H) (t * H + H) j))
    = rsum S_ (fun s => tv_conv (fun tau => if (tau <? T * H)%nat then sig_view signal s tau else 0)
        (fun tau => (tau / H)%nat) (fun t => h t s m) j)).
  { intros m j Hm. rewrite rsum_swap. apply rsum_ext. intros s Hs.
    apply (segs_tv (sig_view signal s) (fun t => h t s m) (fun t => (t * H)%nat) (fun t => (t * H + H)%nat)).
    intros tau Htau.
    pose proof (Nat.div_mod tau H ltac:(lia)). pose proof (Nat.mod_upper_bound tau H ltac:(lia)).
    destruct (Nat.ltb_spec tau (T * H)).
    - destruct (Nat.lt_ge_cases tau n).
      + left. assert ((tau / H < F)%nat).
        { unfold F. apply Nat.min_glb_lt.
          - apply Nat.div_lt_upper_bound; lia.
          - apply Nat.div_lt_upper_bound; lia. }
        repeat split; auto; try lia.
        intros t Ht Hin. apply Nat.div_unique with (r := (tau - t * H)%nat); lia.
      + right. rewrite Hx0 by auto. auto.
    - right. split; auto. right. intros t Ht Hin. specialize (HF1 t Ht). nia. }
  assert (Hlen : (Z.of_nat H * (Z.of_nat F - 1) + Z.of_nat H + Z.of_nat L - 1)%Z = Z.of_nat (H * F + L - 1)).
  { nia. }
  rewrite Hlen, Nat2Z.id, Nat2Z.id.
  match goal with |- exists t, bind (zeros2 _ _) (fun out => bind (foldM ?st ?l out) _) = _ /\ _ =>
    assert (HA : adds M (H * F + L - 1) (fun out => foldM st l out) (fun m j =>
        rsum F (fun t => rsum S_ (fun s => seg_contrib (sig_view signal s) (h t s m) (t * H) (t * H + H) j)))) end.
  2:{ destruct (adds_zeros_output M (H * F + L - 1) _ _ (finish M (H * F + L - 1)) (Z.of_nat (H * F + L - 1)) HA eq_refl)
        as (r & E & O); auto.
      exists r. split; [exact E|]. destruct O as (O1 & O2 & O3). split; auto. split; auto.
      intros m j Hm Hj. rewrite O3 by auto. apply Hval; auto. }
  apply (adds_fold_seq M (H * F + L - 1) _ (fun t m j => rsum S_ (fun s => seg_contrib (sig_view signal s) (h t s m) (t * H) (t * H + H) j))).
  intros t Ht. specialize (HF1 t Ht).
  apply (adds_fold_seq M (H * F + L - 1) _ (fun s m j => seg_contrib (sig_view signal s) (h t s m) (t * H) (t * H + H) j)).
  intros s Hs. replace (ns <=? s)%nat with false by (symmetry; apply Nat.leb_gt; lia).
  assert (Erow : block (s * n) n (data sg) = srow ns n (data sg) s).
  { unfold srow. destruct (Nat.eqb_spec ns 1); auto. replace s with 0%nat by lia. auto. }
  assert (Lrow : length (srow ns n (data sg) s) = n).
  { apply length_block. rewrite HS. destruct (Nat.eqb_spec ns 1); nia. }
  rewrite Erow.
  replace (Z.of_nat t * Z.of_nat H)%Z with (Z.of_nat (t * H)) by lia.
  replace (Z.of_nat (t * H) + Z.of_nat H)%Z with (Z.of_nat (t * H + H)) by lia.
  rewrite pyslice_nat by lia. replace (t * H + H - t * H)%nat with H by lia.
  set (fr := block (t * H) H (srow ns n (data sg) s)).
  assert (Lfr : length fr = Nat.min H (n - t * H)).
  { unfold fr, block. rewrite firstn_length, skipn_length. lia. }
  destruct (Nat.eqb_spec (length fr) 0); [lia|].
  apply (adds_rows M _ (fun m r => _)). intros m Hm r Hr.
  set (rir := block _ L (data rr)).
  assert (Brir : ((((t * S_ + s) * M + m) * L) + L <= length (data rr))%nat).
  { rewrite HR. apply row_bound; auto.
    assert ((t + 1) * S_ <= T * S_)%nat by (apply Nat.mul_le_mono_r; lia). lia. }
  assert (Lrir : length rir = L) by (apply length_block; auto).
  assert (Lc : length (fft_convolve_data fr rir) = (length fr + L - 1)%nat).
  { rewrite length_fft_convolve_data; lia. }
  destruct (slice_add_ok r (t * H) (fft_convolve_data fr rir) (t * H + length (fft_convolve_data fr rir)))
    as (r' & E & Lr' & G); auto.
  { rewrite Hr, Lc. assert ((t + 1) * H <= F * H)%nat by (apply Nat.mul_le_mono_r; lia). lia. }
  exists r'. split; [rewrite <- E; f_equal; lia|]. split; [lia|].
  intros j Hj. rewrite G. f_equal. unfold seg_contrib. destruct (t * H <=? j)%nat; auto.
  rewrite fft_convolve_data_nth by lia. apply lin_conv_ext; intros i Hi.
  - unfold zext. replace (t * H + H - t * H)%nat with H by lia.
    rewrite <- Hx by auto. unfold x, seq_of, fr.
    destruct (Nat.ltb_spec i H).
    + apply nth_block; auto.
    + apply nth_overflow. unfold fr in Lfr. rewrite Lfr. lia.
  - unfold rir. rewrite seq_of_block by auto. unfold h. rewrite Vr by auto. reflexivity.
Qed.

Theorem hop_correct signal rirs H :
  dyn_ranks_ok signal rirs -> wf signal -> wf rirs ->
  (0 < rir_len rirs)%nat -> (0 < sig_len signal)%nat -> (0 < dyn_steps rirs)%nat ->
  (dyn_srcs rirs <= sig_rows signal)%nat -> (0 < H)%nat ->
  (Z.of_nat (sig_len signal) < 2 ^ 53)%Z -> (Z.of_nat H < 2 ^ 63)%Z ->
  exists t, convolve_hop signal rirs (Z.of_nat H) = Ok t /\
    is_output t (dyn_mics rirs)
      (H * Nat.min ((sig_len signal + H - 1) / H) (dyn_steps rirs) + rir_len rirs - 1)
      (fun m j => rsum (dyn_srcs rirs) (fun s =>
         tv_conv (fun tau => if (tau <? dyn_steps rirs * H)%nat then sig_view signal s tau else 0)
           (fun tau => (tau / H)%nat) (fun t => dyn_view rirs t s m) j)).
Proof. intros. apply hop_edge; auto. lia. Qed.

Lemma hop_zero signal rirs : dyn_ranks_ok signal rirs -> wf signal -> wf rirs ->
  convolve_hop signal rirs 0 = Err ZeroDivisionError.
Proof.
  intros (Rs & Rr & R3) Ws Wr.
  destruct (sig_norm signal Rs Ws) as (sg & Es & Ss & Ws' & Vs).
  destruct (dyn_norm signal rirs sg Rr Wr R3 Ss) as (rr & Er & Sr & Wr' & Vr).
  unfold convolve_hop. rewrite Es; cbn [bind]. rewrite Er; cbn [bind]. rewrite Ss, Sr. reflexivity.
Qed.

(** A negative hop is accepted and yields silence. *)
Lemma hop_negative signal rirs H : dyn_ranks_ok signal rirs -> wf signal -> wf rirs ->
  (0 < rir_len rirs)%nat -> (H < 0)%Z ->
  exists t len, convolve_hop signal rirs H = Ok t /\ (rir_len rirs - 1 <= len)%nat /\
    is_output t (dyn_mics rirs) len (fun _ _ => 0).
Proof.
  intros (Rs & Rr & R3) Ws Wr HL HH.
  destruct (sig_norm signal Rs Ws) as (sg & Es & Ss & Ws' & Vs).
  destruct (dyn_norm signal rirs sg Rr Wr R3 Ss) as (rr & Er & Sr & Wr' & Vr).
  unfold convolve_hop. rewrite Es; cbn [bind]. rewrite Er; cbn [bind]. rewrite Ss, Sr.
  unfold conv_hop_core. destruct (hop_frames_neg (sig_len signal) H HH) as (f & -> & Hf).
  cbn [bind]. set (F := Z.min f _). assert (HF : (F <= 0)%Z) by lia.
  replace (Z.to_nat F) with 0%nat by lia. cbn [seq foldM].
  set (len := Z.to_nat (H * (F - 1) + H + Z.of_nat (rir_len rirs) - 1)).
  assert (Hl : (H * (F - 1) + H + Z.of_nat (rir_len rirs) - 1)%Z = Z.of_nat len) by (unfold len; nia).
  rewrite Hl. exists (finish (dyn_mics rirs) len (repeat (repeat 0 len) (dyn_mics rirs))), len.
  split; [|split].
  - unfold zeros2. destruct (Z.ltb_spec (Z.of_nat len) 0); [lia|]. cbn [bind].
    rewrite Nat2Z.id. reflexivity.
  - assert (0 <= H * F)%Z by nia. lia.
  - destruct (zeros2_ok (dyn_mics rirs) len) as (b & E & V & G).
    unfold zeros2 in E. destruct (Z.ltb_spec (Z.of_nat len) 0); [lia|]. rewrite Nat2Z.id in E.
    injection E as <-. apply finish_output; auto.
Qed.

(** ** Mode selection *)
Lemma convolver_mode c d signal rirs :
  cv_mode c <> "trajectory"%string -> cv_mode c <> "hop"%string ->
  convolver_convolve c d signal rirs = Err ValueError.
Proof.
  intros H1 H2. unfold convolver_convolve.
  apply String.eqb_neq in H1, H2. rewrite H1, H2. reflexivity.
Qed.

(** ** Timestamps *)
Lemma ts_reject d n T ts fs :
  (fs = None \/ ndim ts <> 1%nat \/ numel ts <> T \/
     (exists t0, nth_error (data ts) 0 = Some t0 /\ ts_round d t0 <> 0)) ->
  (0 < T)%nat -> wf ts ->
  segment_starts d n T (Some ts) fs = Err ValueError.
Proof.
  intros H HT Hw. unfold segment_starts. destruct fs as [fs|]; auto.
  destruct (Nat.eqb_spec (ndim ts) 1) as [E1|E1]; cbn [andb negb]; auto.
  destruct (Nat.eqb_spec (numel ts) T) as [E2|E2]; cbn [andb negb]; auto.
  destruct H as [H|[H|[H|(t0 & H & Hne)]]]; try congruence.
  destruct (data ts); try discriminate. injection H as ->. cbn [map].
  destruct (Reqb_spec (ts_round d t0) 0); [contradiction|]. reflexivity.
Qed.
Lemma ts_accept d n T ts fs : ndim ts = 1%nat -> numel ts = T -> (0 < T)%nat -> wf ts ->
  ts_round d (nth 0 (data ts) 0) = 0 ->
  exists w, segment_starts d n T (Some ts) (Some fs) = Ok w /\ length w = T /\
    forall t, (t < T)%nat ->
      nth t w 0%Z = truncZ (ts_round d (ts_round d (tget ts [t]) * ts_round d fs)).
Proof.
  intros E1 E2 HT Hw H0. unfold segment_starts. rewrite E1, E2, !Nat.eqb_refl. cbn [andb negb].
  unfold wf, numel in *.
  destruct ts as [sh da]; cbn [shape data] in *.
  destruct da as [|t0 da]; cbn [length] in *; [lia|].
  change (map (ts_round d) (t0 :: da)) with (ts_round d t0 :: map (ts_round d) da).
  cbv iota beta zeta. cbn [nth] in H0. destruct (Reqb_spec (ts_round d t0) 0); [|contradiction]. cbv iota beta delta [negb].
  eexists; split; [reflexivity|]. split.
  - rewrite map_length. cbn [length]. rewrite map_length. lia.
  - intros t Ht. change (ts_round d t0 :: map (ts_round d) da) with (map (ts_round d) (t0 :: da)).
    rewrite map_map.
    rewrite nth_indep with (d' := truncZ (ts_round d (ts_round d 0 * ts_round d fs)))
      by (rewrite map_length; cbn [length]; lia).
    rewrite (map_nth (fun x => truncZ (ts_round d (ts_round d x * ts_round d fs)))).
    do 5 f_equal. unfold tget; cbn [shape data].
    unfold ndim in E1; cbn [shape] in E1.
    destruct sh as [|a [|? ?]]; try discriminate. cbn [ravel prodn fold_right]. f_equal. lia.
Qed.

(** A sample-aligned timestamp is assigned its own sample or the one before. *)
Lemma ts_aligned_close k fs :
  (Z.of_nat k < 2 ^ 51)%Z -> 0 < fs -> rnd64 fs = fs -> bpow radix2 (-1000) <= INR k / fs \/ k = 0%nat ->
  let w := truncZ (rnd64 (rnd64 (INR k / fs) * fs)) in
  w = Z.of_nat k \/ w = (Z.of_nat k - 1)%Z.
Proof.
  intros Hk Hfs Efs Hs. cbv zeta. destruct (Nat.eq_dec k 0) as [->|Hk0].
  { simpl INR. unfold Rdiv. rewrite Rmult_0_l, rnd64_0, Rmult_0_l, rnd64_0.
    left. rewrite truncZ_nonneg by lra. apply (floorZ_IZR 0). }
  destruct Hs as [Hs|]; [|lia].
  assert (K1 : 1 <= INR k) by (replace 1 with (INR 1) by auto; apply le_INR; lia).
  set (q := INR k / fs) in *. assert (Eq : q * fs = INR k) by (unfold q; field; lra).
  set (u := / IZR (2 ^ 53)).
  assert (Hu : 0 < u) by (apply Rinv_0_lt_compat; apply IZR_lt; reflexivity).
  assert (Hu4 : u <= / 4) by (apply Rinv_le_contravar; [lra|apply IZR_le; discriminate]).
  assert (Hq0 : 0 < q) by (pose proof (bpow_gt_0 radix2 (-1000)); lra).
  assert (A1 : rnd64 q <= q * (1 + u)) by (apply rnd64_upper; eapply Rle_trans; [apply bpow_le|exact Hs]; lia).
  assert (A2 : q * (1 - u) <= rnd64 q) by (apply rnd64_lower; eapply Rle_trans; [apply bpow_le|exact Hs]; lia).
  set (p := rnd64 q * fs).
  assert (P1 : p <= INR k * (1 + u)) by (unfold p; rewrite <- Eq; nra).
  assert (P2 : INR k * (1 - u) <= p) by (unfold p; rewrite <- Eq; nra).
  assert (Hp : bpow radix2 (-1022) <= p).
  { apply Rle_trans with (bpow radix2 (-1)); [apply bpow_le; lia|]. change (bpow radix2 (-1)) with (/ 2). nra. }
  pose proof (rnd64_upper p Hp) as R1. pose proof (rnd64_lower p Hp) as R2. fold u in R1, R2.
  assert (Ku : INR k * (4 * u) < 1).
  { unfold u. apply Rmult_lt_reg_r with (IZR (2 ^ 53)); [apply IZR_lt; reflexivity|].
    replace (INR k * (4 * / IZR (2 ^ 53)) * IZR (2 ^ 53)) with (INR k * 4)
      by (field; apply IZR_neq; discriminate).
    rewrite Rmult_1_l, INR_IZR_INZ, <- mult_IZR. apply IZR_lt.
    change (2 ^ 53)%Z with (2 ^ 51 * 4)%Z. lia. }
  assert (B1 : rnd64 p < INR k + 1) by nra.
  assert (B2 : INR k - 1 <= rnd64 p) by nra.
  rewrite truncZ_nonneg by nra.
  assert (C1 : (floorZ (rnd64 p) < Z.of_nat k + 1)%Z)
    by (apply floorZ_lt; rewrite plus_IZR, <- INR_IZR_INZ; auto).
  assert (C2 : (Z.of_nat k - 1 <= floorZ (rnd64 p))%Z)
    by (apply floorZ_ge; rewrite minus_IZR, <- INR_IZR_INZ; auto).
  lia.
Qed.
