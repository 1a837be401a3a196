(** Correctness of trajectory-mode and hop-mode convolution. *)
From Coq Require Import List ZArith Reals Lia Lra Bool.
From Coquelicot Require Import Complex.
From Flocq Require Import Core.
From Verif Require Import Prelude PreludeFacts FloatModel SignalModel SignalSpec DftProofs SignalProofs.
Import ListNotations.
Local Open Scope R_scope.

(** ** One segment's contribution *)
Definition seg_contrib (x h : nat -> R) (a b j : nat) : R :=
  if (a <=? j)%nat then lin_conv (zext (b - a) (fun i => x (a + i)%nat)) h (j - a) else 0.

Lemma seg_contrib_sum x h a b j : 
  seg_contrib x h a b j
  = rsum (S j) (fun tau => if ((a <=? tau) && (tau <? b))%nat then x tau * h (j - tau)%nat else 0).
Proof.
  unfold seg_contrib. destruct (Nat.leb_spec a j).
  - rewrite (rsum_split (S j) a) by lia. rewrite rsum_zero.
    + rewrite Rplus_0_l. unfold lin_conv. replace (S j - a)%nat with (S (j - a)) by lia.
      apply rsum_ext. intros i Hi. unfold zext.
      replace (a <=? a + i)%nat with true by (symmetry; apply Nat.leb_le; lia). cbn [andb].
      destruct (Nat.ltb_spec i (b - a)), (Nat.ltb_spec (a + i) b); try lia.
      * do 2 f_equal. lia.
      * lra.
    + intros i Hi. replace (a <=? i)%nat with false by (symmetry; apply Nat.leb_gt; lia). auto.
  - symmetry. apply rsum_zero. intros i Hi.
    replace (a <=? i)%nat with false by (symmetry; apply Nat.leb_gt; lia). auto.
Qed.

(** A family of segments, at most one of which contains any sample. *)
Lemma segs_tv x (h : nat -> nat -> R) (a b : nat -> nat) T k j y :
  (forall tau, (tau <= j)%nat ->
     ((k tau < T)%nat /\ (a (k tau) <= tau < b (k tau))%nat /\ y tau = x tau /\
       forall t, (t < T)%nat -> (a t <= tau < b t)%nat -> t = k tau)
     \/ (y tau = 0 /\ (x tau = 0 \/ forall t, (t < T)%nat -> ~ (a t <= tau < b t)%nat))) ->
  rsum T (fun t => seg_contrib x (h t) (a t) (b t) j) = tv_conv y k h j.
Proof.
  intros H. unfold tv_conv.
  rewrite (rsum_ext T _ (fun t => rsum (S j) (fun tau =>
    if ((a t <=? tau) && (tau <? b t))%nat then x tau * h t (j - tau)%nat else 0)))
    by (intros; apply seg_contrib_sum).
  rewrite rsum_swap. apply rsum_ext. intros tau Htau.
  destruct (H tau ltac:(lia)) as [(Hk & Hin & Hy & Hu) | (Hy & Hz)].
  - rewrite (rsum_single T (k tau)); auto.
    + replace (a (k tau) <=? tau)%nat with true by (symmetry; apply Nat.leb_le; lia).
      replace (tau <? b (k tau))%nat with true by (symmetry; apply Nat.ltb_lt; lia).
      simpl. rewrite Hy. auto.
    + intros t Ht Hne. destruct (Nat.leb_spec (a t) tau), (Nat.ltb_spec tau (b t)); simpl; auto.
      exfalso. apply Hne, Hu; auto.
  - rewrite Hy, Rmult_0_l. apply rsum_zero. intros t Ht.
    destruct (Nat.leb_spec (a t) tau), (Nat.ltb_spec tau (b t)); simpl; auto.
    destruct Hz as [Hz|Hz]; [rewrite Hz; lra|]. exfalso. apply (Hz t); auto.
Qed.

(** ** Segment starts as natural numbers *)
Section Starts.
  Variables (starts : list Z) (n : nat).
  Hypothesis Hp : partition_starts starts n.
  Let T := length starts.
  Let w := with_end starts n.
  Definition Wn (k : nat) : nat := Z.to_nat (nth k (with_end starts n) 0%Z).

  Lemma w_len_T : length w = S T.
  Proof. unfold w, with_end, T. rewrite app_length. simpl. lia. Qed.
  Lemma w_mono_Z k : (k < T)%nat -> (nth k w 0 <= nth (S k) w 0)%Z.
  Proof. intros. destruct Hp as (_ & _ & H0). apply H0; auto. Qed.
  Lemma w_0 : nth 0 w 0%Z = 0%Z.
  Proof.
    destruct Hp as (H0 & H1 & _). unfold w, with_end. rewrite app_nth1 by auto. auto.
  Qed.
  Lemma w_T : nth T w 0%Z = Z.of_nat n.
  Proof. unfold w, with_end, T. rewrite app_nth2, Nat.sub_diag; auto. Qed.
  Lemma w_le_Z k k' : (k <= k')%nat -> (k' <= T)%nat -> (nth k w 0 <= nth k' w 0)%Z.
  Proof.
    induction 1; intros; [lia|]. etransitivity; [apply IHle; lia|]. apply w_mono_Z; lia.
  Qed.
  Lemma w_nonneg k : (k <= T)%nat -> (0 <= nth k w 0)%Z.
  Proof. intros. pose proof (w_le_Z 0 k ltac:(lia) H). rewrite w_0 in H0. auto. Qed.
  Lemma Wn_Z k : (k <= T)%nat -> nth k w 0%Z = Z.of_nat (Wn k).
  Proof. intros. unfold Wn. rewrite Z2Nat.id; auto. apply w_nonneg; auto. Qed.
  Lemma Wn_0 : Wn 0 = 0%nat.
  Proof. unfold Wn. fold w. rewrite w_0. auto. Qed.
  Lemma Wn_T : Wn T = n.
  Proof. unfold Wn. fold w. rewrite w_T. apply Nat2Z.id. Qed.
  Lemma Wn_le k k' : (k <= k')%nat -> (k' <= T)%nat -> (Wn k <= Wn k')%nat.
  Proof. intros. pose proof (w_le_Z k k' H H0). rewrite !Wn_Z in H1 by lia. lia. Qed.
  Lemma Wn_le_n k : (k <= T)%nat -> (Wn k <= n)%nat.
  Proof. intros. rewrite <- Wn_T. apply Wn_le; auto. Qed.
  Lemma length_seg_lens : length (seg_lens w) = T.
  Proof. unfold seg_lens. rewrite length_tabulate, w_len_T. lia. Qed.
  Lemma nth_seg_lens t : (t < T)%nat -> nth t (seg_lens w) 0%Z = Z.of_nat (Wn (S t) - Wn t).
  Proof.
    intros. unfold seg_lens. rewrite nth_tabulate by (rewrite w_len_T; lia).
    rewrite !Wn_Z by lia. pose proof (Wn_le t (S t)). lia.
  Qed.
  Lemma T_pos : (0 < T)%nat.
  Proof. apply Hp. Qed.

  Lemma starts_tv x h k j :
    segment_of starts n k -> (forall tau, (n <= tau)%nat -> x tau = 0) ->
    rsum T (fun t => seg_contrib x (h t) (Wn t) (Wn (S t)) j) = tv_conv x k h j.
  Proof.
    intros Hk Hx. apply segs_tv. intros tau Htau.
    destruct (Nat.lt_ge_cases tau n) as [Hlt|Hge].
    - left. destruct (Hk tau Hlt) as (H1 & H2).
      unfold seg_start in H2.
      change (starts ++ [Z.of_nat n]) with w in H2. fold T in H1. rewrite !Wn_Z in H2 by lia.
      repeat split; auto; try lia.
      intros t Ht Hin. destruct (Nat.lt_trichotomy t (k tau)) as [Hc|[Hc|Hc]]; auto.
      + pose proof (Wn_le (S t) (k tau)). lia.
      + pose proof (Wn_le (S (k tau)) t). lia.
    - right. rewrite Hx by auto. auto.
  Qed.
End Starts.

(** ** Maxima *)
Lemma fold_max_spec l x : (forall y, In y (x :: l) -> (y <= fold_left Z.max l x)%Z) /\
  In (fold_left Z.max l x) (x :: l).
Proof.
  revert x. induction l; intros x.
  - simpl. split; auto. intros y [->|[]]. lia.
  - simpl fold_left. destruct (IHl (Z.max x a)) as (H1 & H2). split.
    + intros y [->|[->|H]].
      * transitivity (Z.max y a); [lia|]. apply H1; left; auto.
      * transitivity (Z.max x y); [lia|]. apply H1; left; auto.
      * apply H1. right; auto.
    + destruct H2 as [H2|H2]; [|right; right; auto].
      rewrite <- H2. destruct (Z.max_spec x a) as [[_ E]|[_ E]]; rewrite E.
      * right; left; auto.
      * left; auto.
Qed.
Lemma max_item_ok l : (0 < length l)%nat -> exists mx, max_item l = Ok mx /\
  (forall y, In y l -> (y <= mx)%Z) /\ In mx l.
Proof.
  destruct l; simpl; intros; [lia|]. eexists; split; [reflexivity|].
  apply (fold_max_spec l z).
Qed.

(** ** Segment filling *)
Definition srow (ns n : nat) (sig : list R) (s : nat) : list R :=
  block ((if (ns =? 1)%nat then 0 else s) * n) n sig.

Lemma srow_len ns n sig n_src s : length sig = (ns * n)%nat ->
  (ns = 1 \/ ns = n_src)%nat -> (s < n_src)%nat -> length (srow ns n sig s) = n.
Proof.
  intros H1 H2 Hs. apply length_block. rewrite H1.
  destruct (Nat.eqb_spec ns 1); subst; try lia. destruct H2; [lia|]. subst. nia.
Qed.

Lemma fill_segment_ok n ns sig n_src mx a b :
  length sig = (ns * n)%nat -> (ns = 1 \/ ns = n_src)%nat ->
  (a <= b)%nat -> (b <= n)%nat -> (b - a <= mx)%nat ->
  exists rows, fill_segment n ns sig n_src mx (Z.of_nat a) (Z.of_nat b) = Ok rows /\
   forall s, (s < n_src)%nat ->
     nth s rows [] = block a (b - a) (srow ns n sig s) ++ repeat 0 (mx - (b - a)).
Proof.
  intros Hsig Hns Hab Hbn Hmx. unfold fill_segment.
  destruct (Z.ltb_spec (Z.of_nat a) (Z.of_nat b)).
  - replace (negb ((ns =? 1)%nat || (ns =? n_src)%nat)) with false.
    2:{ destruct (Nat.eqb_spec ns 1), (Nat.eqb_spec ns n_src); simpl; auto; lia. }
    rewrite (mapM_Ok_map _ (fun s => block a (b - a) (srow ns n sig s) ++ repeat 0 (mx - (b - a)))).
    + eexists; split; [reflexivity|]. intros s Hs.
      rewrite nth_indep with (d' := block a (b - a) (srow ns n sig 0) ++ repeat 0 (mx - (b - a)))
        by (rewrite map_length, seq_length; auto).
      rewrite (map_nth (fun s => block a (b - a) (srow ns n sig s) ++ repeat 0 (mx - (b - a)))).
      rewrite seq_nth by auto. reflexivity.
    + intros s Hs. apply in_seq in Hs. cbv zeta.
      rewrite pyslice_nat by auto. fold (srow ns n sig s).
      pose proof (srow_len ns n sig n_src s Hsig Hns ltac:(lia)) as Hr.
      rewrite length_block by lia.
      replace (slice_bound mx (Z.of_nat b - Z.of_nat a)) with (b - a)%nat.
      * rewrite Nat.eqb_refl. auto.
      * replace (Z.of_nat b - Z.of_nat a)%Z with (Z.of_nat (b - a)) by lia.
        rewrite slice_bound_nat. lia.
  - eexists; split; [reflexivity|]. intros s Hs. rewrite nth_repeat_lt by auto.
    replace (b - a)%nat with 0%nat by lia. rewrite Nat.sub_0_r. reflexivity.
Qed.

Lemma seq_of_pad l k i : seq_of (l ++ repeat 0 k) i = seq_of l i.
Proof.
  unfold seq_of. destruct (Nat.lt_ge_cases i (length l)).
  - rewrite app_nth1; auto.
  - rewrite app_nth2 by lia. rewrite nth_repeat_any by exact 0. rewrite nth_overflow; auto.
Qed.

(** ** CPU trajectory loop *)
Section Traj.
  Variables (n ns : nat) (sig : list R) (T n_src M L : nat) (rirs : list R) (starts : list Z).
  Hypothesis Hsig : length sig = (ns * n)%nat.
  Hypothesis Hrir : length rirs = (T * n_src * M * L)%nat.
  Hypothesis Hns : (ns = 1 \/ ns = n_src)%nat.
  Hypothesis HL : (1 <= n + L)%nat.
  Hypothesis HT : length starts = T.
  Hypothesis Hp : partition_starts starts n.
  Let w := with_end starts n.
  Let W := Wn starts n.
  Definition xat (s : nat) : nat -> R := seq_of (srow ns n sig s).
  Definition hat (t s m : nat) : nat -> R :=
    zext L (fun i => nth (((t * n_src + s) * M + m) * L + i) rirs 0).

  Lemma rir_block_ok t s m : (t < T)%nat -> (s < n_src)%nat -> (m < M)%nat ->
    ((((t * n_src + s) * M + m) * L) + L <= length rirs)%nat.
  Proof.
    intros. rewrite Hrir. apply row_bound; auto.
    assert ((t + 1) * n_src <= T * n_src)%nat by (apply Nat.mul_le_mono_r; lia). lia.
  Qed.

  Lemma piece_seq t s j h : (t < T)%nat -> (s < n_src)%nat ->
    (if (W t <=? j)%nat
     then lin_conv (seq_of (block (W t) (W (S t) - W t) (srow ns n sig s))) h (j - W t) else 0)
    = seg_contrib (xat s) h (W t) (W (S t)) j.
  Proof.
    intros Ht Hs. unfold seg_contrib. destruct (W t <=? j)%nat; auto.
    apply lin_conv_ext; auto. intros i Hi.
    rewrite seq_of_block.
    - reflexivity.
    - rewrite (srow_len ns n sig n_src s) by auto.
      pose proof (Wn_le starts n Hp t (S t)). pose proof (Wn_le_n starts n Hp (S t)).
      unfold W. lia.
  Qed.

  Definition step_val (t m j : nat) : R :=
    rsum n_src (fun s => seg_contrib (xat s) (hat t s m) (W t) (W (S t)) j).

  Theorem conv_traj_cpu_ok :
    exists r, conv_traj_cpu n ns sig T n_src M L rirs w = Ok r /\
      is_output r M (n + L - 1) (fun m j => rsum T (fun t => step_val t m j)).
  Proof.
    assert (HT0 : (0 < T)%nat) by (rewrite <- HT; apply (T_pos starts n Hp)).
    assert (HW : forall t, (t < T)%nat -> (W t <= W (S t))%nat /\ (W (S t) <= n)%nat).
    { intros t Ht. split; [apply Wn_le|apply Wn_le_n]; auto; lia. }
    assert (HlenT : length (seg_lens w) = T) by (unfold w; rewrite length_seg_lens; auto).
    assert (Hlens : forall t, (t < T)%nat -> nth t (seg_lens w) 0%Z = Z.of_nat (W (S t) - W t)).
    { intros. apply nth_seg_lens; auto; lia. }
    assert (Hw : forall t, (t <= T)%nat -> nth t w 0%Z = Z.of_nat (W t)).
    { intros. apply Wn_Z; auto; lia. }
    unfold conv_traj_cpu.
    destruct (max_item_ok (seg_lens w)) as (mx & Emx & Hmx & Hin); [lia|].
    rewrite Emx. cbn [bind].
    assert (Hmx0 : (0 <= mx)%Z).
    { specialize (Hmx (nth 0 (seg_lens w) 0%Z)). rewrite Hlens in Hmx by auto.
      specialize (Hmx ltac:(rewrite <- Hlens by auto; apply nth_In; lia)). lia. }
    destruct (Z.ltb_spec mx 0); [lia|].
    set (fill := fun t => fill_segment n ns sig n_src (Z.to_nat mx) (nth t w 0%Z) (nth (S t) w 0%Z)).
    assert (Hfill : forall t, (t < T)%nat -> exists rows, fill t = Ok rows /\
       forall s, (s < n_src)%nat -> nth s rows [] =
          block (W t) (W (S t) - W t) (srow ns n sig s) ++ repeat 0 (Z.to_nat mx - (W (S t) - W t))).
    { intros t Ht. unfold fill. rewrite !Hw by lia. destruct (HW t Ht).
      apply fill_segment_ok; auto.
      specialize (Hmx (nth t (seg_lens w) 0%Z) ltac:(apply nth_In; lia)).
      rewrite Hlens in Hmx by auto. lia. }
    assert (Hseg : exists segs, mapM fill (seq 0 T) = Ok segs /\
       forall t s, (t < T)%nat -> (s < n_src)%nat -> nth s (nth t segs []) [] =
          block (W t) (W (S t) - W t) (srow ns n sig s) ++ repeat 0 (Z.to_nat mx - (W (S t) - W t))).
    { rewrite (mapM_Ok_map fill (fun t => match fill t with Ok r => r | Err _ => [] end)).
      - eexists; split; [reflexivity|]. intros t s Ht Hs.
        rewrite nth_indep with (d' := match fill 0%nat with Ok r => r | Err _ => [] end)
          by (rewrite map_length, seq_length; auto).
        rewrite (map_nth (fun t => match fill t with Ok r => r | Err _ => [] end)), seq_nth by auto.
        simpl (0 + t)%nat. destruct (Hfill t Ht) as (rows & -> & Hr). auto.
      - intros t Ht. apply in_seq in Ht. destruct (Hfill t ltac:(lia)) as (rows & -> & _). auto. }
    destruct Hseg as (segs & Esegs & Hsegs). rewrite Esegs. cbn [bind].
    apply adds_zeros_output with (len := (n + L - 1)%nat)
      (f := fun out => foldM _ _ out) (t := finish M (Z.to_nat (Z.of_nat n + Z.of_nat L - 1))).
    2:{ lia. }
    2:{ intros. f_equal. lia. }
    apply (adds_fold_seq M (n + L - 1) _ step_val). intros t Ht.
    rewrite Hlens, Hw by lia. destruct (HW t Ht) as (HW1 & HW2).
    destruct (Z.eqb_spec (Z.of_nat (W (S t) - W t)) 0).
    - eapply adds_ext; [reflexivity| |apply adds_id]. intros m j Hm Hj. cbv beta.
      symmetry. unfold step_val. apply rsum_zero. intros s Hs.
      rewrite seg_contrib_sum. apply rsum_zero. intros tau Htau.
      destruct (Nat.leb_spec (W t) tau), (Nat.ltb_spec tau (W (S t))); simpl; auto; lia.
    - apply (adds_fold_seq M (n + L - 1) _ (fun s m j => seg_contrib (xat s) (hat t s m) (W t) (W (S t)) j)).
      intros s Hs. apply (adds_rows M _ (fun m r => _)). intros m Hm r Hr.
      rewrite Hsegs by auto.
      set (pc := block (W t) (W (S t) - W t) (srow ns n sig s)).
      assert (Lpc : length pc = (W (S t) - W t)%nat).
      { apply length_block. rewrite (srow_len ns n sig n_src s) by auto. lia. }
      assert (Efr : pyslice 0 (Z.of_nat (W (S t) - W t)) (pc ++ repeat 0 (Z.to_nat mx - (W (S t) - W t))) = pc).
      { rewrite pyslice_0. unfold block. simpl skipn.
        rewrite <- Lpc, firstn_app, Nat.sub_diag, firstn_all. simpl. apply app_nil_r. }
      rewrite Efr.
      set (rir := block _ L rirs).
      assert (Lrir : length rir = L) by (apply length_block, rir_block_ok; auto).
      assert (Lc : length (fft_convolve_data pc rir) = (W (S t) - W t + L - 1)%nat).
      { rewrite length_fft_convolve_data; lia. }
      destruct (slice_add_ok r (W t) (fft_convolve_data pc rir) (W t + (W (S t) - W t + L - 1)))
        as (r' & E & Lr' & G); try lia.
      exists r'. split; [|split; [lia|]].
      + rewrite <- E. f_equal. lia.
      + intros j Hj. rewrite G. f_equal. rewrite <- (piece_seq t s j (hat t s m)) by auto.
        destruct (W t <=? j)%nat; auto. rewrite fft_convolve_data_nth by lia.
        apply lin_conv_ext; auto. intros i Hi. unfold rir.
        rewrite seq_of_block by (apply rir_block_ok; auto). reflexivity.
  Qed.
  
  (** ** Batched loop *)
  Lemma chunk_sum c K f : 
    rsum K (fun i => rsum (Nat.min (i * c + c) T - i * c) (fun k => f (i * c + k)%nat))
    = rsum (Nat.min (K * c) T) f.
  Proof.
    induction K; simpl rsum; auto. rewrite IHK.
    destruct (Nat.le_gt_cases (K * c) T).
    - rewrite (Nat.min_l (K * c) T) by auto.
      rewrite (rsum_split (Nat.min (S K * c) T) (K * c)) by lia.
      f_equal. f_equal. lia.
    - rewrite !Nat.min_r by lia. replace (T - K * c)%nat with 0%nat by lia. simpl. lra.
  Qed.

  Lemma max_eq_0_step t0 len mx : (t0 + len <= T)%nat ->
    (forall y, In y (block t0 len (seg_lens w)) -> (y <= mx)%Z) ->
    forall i, (i < len)%nat -> (Z.of_nat (W (S (t0 + i)) - W (t0 + i)) <= mx)%Z.
  Proof.
    intros H Hmx i Hi.
    assert (HlenT : length (seg_lens w) = T) by (unfold w; rewrite length_seg_lens; auto).
    specialize (Hmx (nth i (block t0 len (seg_lens w)) 0%Z)
       ltac:(apply nth_In; rewrite length_block; lia)).
    rewrite nth_block in Hmx by auto. unfold w in Hmx.
    rewrite nth_seg_lens in Hmx by (auto; lia). auto.
  Qed.

  Theorem conv_traj_batched_ok chunk : (0 < chunk)%nat ->
    exists r, conv_traj_batched n ns sig T n_src M L rirs w chunk = Ok r /\
      is_output r M (n + L - 1) (fun m j => rsum T (fun t => step_val t m j)).
  Proof.
    intros Hc.
    assert (HW : forall t, (t < T)%nat -> (W t <= W (S t))%nat /\ (W (S t) <= n)%nat).
    { intros t Ht. split; [apply Wn_le|apply Wn_le_n]; auto; lia. }
    assert (HlenT : length (seg_lens w) = T) by (unfold w; rewrite length_seg_lens; auto).
    assert (Hlens : forall t, (t < T)%nat -> nth t (seg_lens w) 0%Z = Z.of_nat (W (S t) - W t)).
    { intros. apply nth_seg_lens; auto; lia. }
    assert (Hw : forall t, (t <= T)%nat -> nth t w 0%Z = Z.of_nat (W t)).
    { intros. apply Wn_Z; auto; lia. }
    unfold conv_traj_batched.
    apply adds_zeros_output with (len := (n + L - 1)%nat)
      (f := fun out => foldM _ _ out) (t := finish M (Z.to_nat (Z.of_nat n + Z.of_nat L - 1))).
    2:{ lia. }
    2:{ intros. f_equal. lia. }
    set (K := ((T + chunk - 1) / chunk)%nat).
    assert (HK : (T <= K * chunk)%nat).
    { unfold K. pose proof (Nat.div_mod (T + chunk - 1) chunk ltac:(lia)).
      pose proof (Nat.mod_upper_bound (T + chunk - 1) chunk ltac:(lia)). nia. }
    assert (HK1 : forall i, (i < K)%nat -> (i * chunk < T)%nat).
    { intros i Hi. unfold K in Hi.
      pose proof (Nat.mul_div_le (T + chunk - 1) chunk ltac:(lia)).
      assert ((i + 1) * chunk <= K * chunk)%nat by (apply Nat.mul_le_mono_r; unfold K; lia).
      unfold K in *. nia. }
    eapply adds_ext; [reflexivity| |apply (adds_fold M (n + L - 1) _
      (fun t0 m j => rsum (Nat.min (t0 + chunk) T - t0) (fun k => step_val (t0 + k) m j)))].
    { intros m j Hm Hj. cbv beta. unfold py_range_step. fold K. rewrite map_map.
      rewrite lsum_seq, (chunk_sum chunk K (fun t => step_val t m j)). rewrite Nat.min_r by auto. auto. }
    intros t0 Ht0. unfold py_range_step in Ht0. apply in_map_iff in Ht0 as (i & <- & Hi).
    apply in_seq in Hi. fold K in Hi. specialize (HK1 i ltac:(lia)).
    set (t0 := (i * chunk)%nat) in *. set (t1 := Nat.min (t0 + chunk) T).
    assert (Ht1 : (t1 <= T)%nat) by (unfold t1; lia).
    assert (Ht01 : (t0 < t1)%nat) by (unfold t1; lia).
    destruct (max_item_ok (block t0 (t1 - t0) (seg_lens w))) as (mx & Emx & Hmx & Hin).
    { rewrite length_block; lia. }
    rewrite Emx. cbn [bind].
    assert (Hsl : forall k, (k < t1 - t0)%nat -> (Z.of_nat (W (S (t0 + k)) - W (t0 + k)) <= mx)%Z).
    { apply max_eq_0_step; auto. lia. }
    assert (Hz : forall t m j, (W (S t) - W t = 0)%nat -> step_val t m j = 0).
    { intros t m j Hz. apply rsum_zero. intros s Hs. rewrite seg_contrib_sum. apply rsum_zero.
      intros tau Htau.
      destruct (Nat.leb_spec (W t) tau), (Nat.ltb_spec tau (W (S t))); simpl; auto; lia. }
    destruct (Z.eqb_spec mx 0).
    { eapply adds_ext; [reflexivity| |apply adds_id]. intros m j Hm Hj. cbv beta.
      symmetry. apply rsum_zero. intros k Hk. apply Hz. specialize (Hsl k Hk). lia. }
    assert (Hmx0 : (0 < mx)%Z) by (specialize (Hsl 0%nat ltac:(lia)); lia).
    destruct (Z.ltb_spec mx 0); [lia|].
    set (fill := fun t => fill_segment n ns sig n_src (Z.to_nat mx) (nth t w 0%Z) (nth (S t) w 0%Z)).
    assert (Hfill : forall k, (k < t1 - t0)%nat -> exists rows, fill (t0 + k)%nat = Ok rows /\
       forall s, (s < n_src)%nat -> nth s rows [] =
          block (W (t0 + k)) (W (S (t0 + k)) - W (t0 + k)) (srow ns n sig s)
          ++ repeat 0 (Z.to_nat mx - (W (S (t0 + k)) - W (t0 + k)))).
    { intros k Hk. unfold fill. rewrite !Hw by lia. destruct (HW (t0 + k)%nat ltac:(lia)).
      apply fill_segment_ok; auto. specialize (Hsl k Hk). lia. }
    assert (Hseg : exists segs, mapM fill (seq t0 (t1 - t0)) = Ok segs /\
       forall k s, (k < t1 - t0)%nat -> (s < n_src)%nat -> nth s (nth k segs []) [] =
          block (W (t0 + k)) (W (S (t0 + k)) - W (t0 + k)) (srow ns n sig s)
          ++ repeat 0 (Z.to_nat mx - (W (S (t0 + k)) - W (t0 + k)))).
    { rewrite (mapM_Ok_map fill (fun t => match fill t with Ok r => r | Err _ => [] end)).
      - eexists; split; [reflexivity|]. intros k s Hk Hs.
        rewrite nth_indep with (d' := match fill 0%nat with Ok r => r | Err _ => [] end)
          by (rewrite map_length, seq_length; auto).
        rewrite (map_nth (fun t => match fill t with Ok r => r | Err _ => [] end)), seq_nth by auto.
        destruct (Hfill k Hk) as (rows & -> & Hr). auto.
      - intros t Ht. apply in_seq in Ht. destruct (Hfill (t - t0)%nat ltac:(lia)) as (rows & E & _).
        replace (t0 + (t - t0))%nat with t in E by lia. rewrite E. auto. }
    destruct Hseg as (segs & Esegs & Hsegs). rewrite Esegs. cbn [bind].
    set (clen := (mx + Z.of_nat L - 1)%Z). set (fl := fft_len clen).
    assert (Hfl : (clen <= Z.of_nat fl)%Z) by (apply fft_len_ge; unfold clen; lia).
    apply (adds_fold_seq M (n + L - 1) _ (fun k m j => step_val (t0 + k) m j)).
    intros k Hk. rewrite nth_block by auto. rewrite Hlens, Hw by lia.
    set (t := (t0 + k)%nat) in *. destruct (HW t ltac:(unfold t; lia)) as (HW1 & HW2).
    specialize (Hsl k Hk). fold t in Hsl.
    destruct (Z.eqb_spec (Z.of_nat (W (S t) - W t)) 0).
    { eapply adds_ext; [reflexivity| |apply adds_id]. intros m j Hm Hj. cbv beta.
      symmetry. apply Hz. lia. }
    apply (adds_rows M _ (fun m r => _)). intros m Hm r Hr.
    set (cs := tabulate _ _).
    assert (Lp : length (pyslice 0 clen (repeat 0 fl)) = Z.to_nat clen).
    { replace clen with (Z.of_nat (Z.to_nat clen)) at 1 by (unfold clen; lia).
      rewrite pyslice_0. rewrite length_block; [lia|]. rewrite repeat_length.
      unfold clen in *. lia. }
    assert (Lcs : length cs = Z.to_nat clen) by (unfold cs; rewrite length_tabulate; exact Lp).
    assert (Hcs : forall j, (j < Z.to_nat clen)%nat -> nth j cs 0 =
       rsum n_src (fun s => lin_conv (seq_of (block (W t) (W (S t) - W t) (srow ns n sig s))) (hat t s m) j)).
    { intros j Hj. unfold cs at 1. rewrite nth_tabulate by (rewrite Lp; auto).
      apply rsum_ext. intros s Hs. rewrite Hsegs by auto.
      replace clen with (Z.of_nat (Z.to_nat clen)) at 1 by (unfold clen; lia).
      rewrite pyslice_0. rewrite nth_block by lia. simpl (0 + j)%nat.
      fold t. set (pc := block (W t) (W (S t) - W t) (srow ns n sig s)).
      assert (Lpc : length pc = (W (S t) - W t)%nat).
      { apply length_block. rewrite (srow_len ns n sig n_src s) by auto. lia. }
      set (rir := block _ L rirs).
      assert (Lrir : length rir = L) by (apply length_block, rir_block_ok; auto; unfold t; lia).
      assert (Lpad : length (pc ++ repeat 0 (Z.to_nat mx - (W (S t) - W t))) = Z.to_nat mx).
      { rewrite app_length, repeat_length. lia. }
      rewrite irfft_prod_linear.
      - unfold lin_conv. apply rsum_ext. intros u Hu. f_equal.
        + apply (seq_of_pad pc).
        + change (nth (j - u) rir 0) with (seq_of rir (j - u)). unfold rir.
          rewrite seq_of_block by (apply rir_block_ok; auto; unfold t; lia). reflexivity.
      - rewrite Lpad, Lrir. unfold clen in *. lia.
      - unfold clen in *. lia. }
    assert (Ep : pyslice 0 (Z.of_nat (W (S t) - W t) + Z.of_nat L - 1) cs
                 = block 0 (W (S t) - W t + L - 1) cs).
    { replace (Z.of_nat (W (S t) - W t) + Z.of_nat L - 1)%Z with (Z.of_nat (W (S t) - W t + L - 1)) by lia.
      apply pyslice_0. }
    rewrite Ep.
    assert (Lb : length (block 0 (W (S t) - W t + L - 1) cs) = (W (S t) - W t + L - 1)%nat).
    { apply length_block. rewrite Lcs. unfold clen. lia. }
    destruct (slice_add_ok r (W t) (block 0 (W (S t) - W t + L - 1) cs) (W t + (W (S t) - W t + L - 1)))
      as (r' & E & Lr' & G); try lia.
    exists r'. split; [|split; [lia|]].
    - rewrite <- E. f_equal. lia.
    - intros j Hj. rewrite G. f_equal. unfold step_val.
      rewrite (rsum_ext n_src _ (fun s => if (W t <=? j)%nat then
         lin_conv (seq_of (block (W t) (W (S t) - W t) (srow ns n sig s))) (hat t s m) (j - W t) else 0)).
      2:{ intros s Hs. symmetry. apply piece_seq; auto. unfold t; lia. }
      destruct (Nat.leb_spec (W t) j).
      + destruct (Nat.lt_ge_cases (j - W t) (W (S t) - W t + L - 1)).
        * rewrite nth_block by auto. simpl (0 + _)%nat. apply Hcs. unfold clen. lia.
        * rewrite nth_overflow by lia. symmetry. apply rsum_zero. intros s Hs.
          apply rsum_zero. intros u Hu. unfold seq_of, hat, zext.
          destruct (Nat.ltb_spec (j - W t - u) L); [|lra].
          rewrite nth_overflow; [lra|].
          rewrite length_block; [lia|]. rewrite (srow_len ns n sig n_src s) by auto. lia.
      + symmetry. apply rsum_zero. auto.
  Qed.

  Lemma step_val_tv k m j : segment_of starts n k ->
    rsum T (fun t => step_val t m j)
    = rsum n_src (fun s => tv_conv (xat s) k (fun t => hat t s m) j).
  Proof.
    intros Hk. unfold step_val. rewrite rsum_swap. apply rsum_ext. intros s Hs.
    rewrite <- HT. apply (starts_tv starts n Hp (xat s) (fun t => hat t s m)); auto.
    intros tau Htau. unfold xat, seq_of. apply nth_overflow.
    rewrite (srow_len ns n sig n_src s); auto.
  Qed.
End Traj.
