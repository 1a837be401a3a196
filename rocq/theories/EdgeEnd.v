(** A trajectory segment that reaches past the end of the signal is refused
    (signal/dynamic.py:130-222). *)
From Coq Require Import String List ZArith Reals Lia Lra Bool.
From Coquelicot Require Import Complex.
From Verif Require Import Prelude PreludeFacts FloatModel SignalModel SignalSpec
  DftProofs SignalProofs TrajProofs SegProofs ConvProofs.
Import ListNotations.
Local Open Scope R_scope.

(** The only exception is RuntimeError. *)
Definition rt {A} (r : result A) : Prop := match r with Err e => e = RuntimeError | Ok _ => True end.
Lemma rt_bind {A B} (r : result A) (f : A -> result B) :
  rt r -> (forall a, rt (f a)) -> rt (bind r f).
Proof. destruct r; cbn; auto. Qed.
Lemma rt_mapM {A B} (f : A -> result B) l : (forall x, rt (f x)) -> rt (mapM f l).
Proof. intros H. induction l; cbn; auto. apply rt_bind; auto. intros. apply rt_bind; cbn; auto. Qed.

(** [step] keeps the buffer valid and raises nothing but RuntimeError. *)
Definition keeps (M len : nat) (f : list (list R) -> result (list (list R))) : Prop :=
  forall b, valid M len b -> match f b with Ok b' => valid M len b' | Err e => e = RuntimeError end.

Lemma keeps_fold {A} M len (f : list (list R) -> A -> result (list (list R))) l :
  (forall x, In x l -> keeps M len (fun b => f b x)) -> keeps M len (fun b => foldM f l b).
Proof.
  induction l; intros H b Hb; cbn [foldM]; auto.
  pose proof (H a (or_introl eq_refl) b Hb) as H0. cbn beta in H0.
  destruct (f b a); cbn [bind]; auto. apply IHl; auto. intros x Hx. apply H. right; auto.
Qed.
Lemma fold_refused {A} M len (f : list (list R) -> A -> result (list (list R))) l x0 b :
  (forall x, In x l -> keeps M len (fun b => f b x)) -> In x0 l ->
  (forall b, valid M len b -> f b x0 = Err RuntimeError) -> valid M len b ->
  foldM f l b = Err RuntimeError.
Proof.
  intros Hk Hin Hf. revert b. induction l as [|a l IH]; intros b Hb; [destruct Hin|].
  cbn [foldM]. destruct Hin as [->|Hin].
  - rewrite Hf by auto. reflexivity.
  - pose proof (Hk a (or_introl eq_refl) b Hb) as H0. cbn beta in H0.
    destruct (f b a); cbn [bind]; [|subst; auto]. apply IH; auto. intros x Hx. apply Hk. right; auto.
Qed.

Lemma add_into_length dst v : match add_into dst v with
  | Ok r => length r = length dst | Err e => e = RuntimeError end.
Proof.
  unfold add_into. destruct (Nat.eqb_spec (length v) (length dst)).
  - rewrite length_map2. lia.
  - destruct (length v =? 1)%nat; auto. apply map_length.
Qed.
Lemma slice_add_length row a b v : match slice_add row a b v with
  | Ok r => length r = length row | Err e => e = RuntimeError end.
Proof.
  unfold slice_add. set (a' := slice_bound _ a). set (b' := slice_bound _ b).
  pose proof (add_into_length (firstn (b' - a') (skipn a' row)) v) as H.
  destruct (add_into _ v) as [mid|]; cbn [bind]; auto.
  rewrite firstn_length, skipn_length in H.
  rewrite !app_length, firstn_length, skipn_length, H.
  assert (a' <= length row)%nat by (unfold a', slice_bound; destruct (Z.ltb_spec a 0); lia). lia.
Qed.
Lemma keeps_row M len m f : (m < M)%nat ->
  (forall r, match f r with Ok r' => length r' = length r | Err e => e = RuntimeError end) ->
  keeps M len (fun b => upd_row b m f).
Proof.
  intros Hm Hf b Hb. unfold upd_row. specialize (Hf (nth m b [])). destruct (f (nth m b [])); cbn [bind]; auto.
  apply valid_upd; auto. rewrite Hf. apply Hb; auto.
Qed.
Lemma keeps_id M len : keeps M len (fun b => Ok b).
Proof. intros b Hb. auto. Qed.
Lemma keeps_if M len (c : bool) f g : keeps M len f -> keeps M len g ->
  keeps M len (fun b => if c then f b else g b).
Proof. destruct c; auto. Qed.

(** One cell too many on the right-hand side. *)
Lemma slice_add_refused row (a b : Z) v : (0 <= a)%Z ->
  (Z.of_nat (length row) - a < Z.of_nat (length v))%Z -> (2 <= length v)%nat ->
  slice_add row a b v = Err RuntimeError.
Proof.
  intros Ha Hl Hv. unfold slice_add. set (a' := slice_bound _ a). set (b' := slice_bound _ b).
  assert (Eb : (b' <= length row)%nat) by (unfold b', slice_bound; destruct (Z.ltb_spec b 0); lia).
  assert (Ea : a' = Z.to_nat (Z.min a (Z.of_nat (length row)))).
  { unfold a', slice_bound. destruct (Z.ltb_spec a 0); lia. }
  unfold add_into. rewrite firstn_length, skipn_length.
  destruct (Nat.eqb_spec (length v) (Nat.min (b' - a') (length row - a'))); [lia|].
  destruct (Nat.eqb_spec (length v) 1); [lia|]. reflexivity.
Qed.

Lemma rt_fill n ns sig n_src mx a b : rt (fill_segment n ns sig n_src mx a b).
Proof.
  unfold fill_segment. destruct (a <? b)%Z; cbn; auto. destruct (negb _); cbn; auto.
  apply rt_mapM. intros s. destruct (_ =? _)%nat; cbn; auto. destruct (_ =? 1)%nat; cbn; auto.
Qed.

Lemma fill_length n ns sig n_src mx a b rows : fill_segment n ns sig n_src mx a b = Ok rows ->
  (forall s, (s < n_src)%nat -> length (nth s rows []) = mx).
Proof.
  intros E s Hs. unfold fill_segment in E. destruct (a <? b)%Z.
  2:{ injection E as <-. rewrite (nth_indep _ [] (repeat 0 mx)) by (rewrite repeat_length; auto).
      rewrite nth_repeat. apply repeat_length. }
  destruct (negb ((ns =? 1)%nat || (ns =? n_src)%nat)); [discriminate|].
  pose proof (mapM_nth _ _ _ s 0%nat [] E ltac:(rewrite seq_length; auto)) as En.
  rewrite seq_nth in En by auto. cbn [plus] in En.
  assert (Hw : (slice_bound mx (b - a) <= mx)%nat)
    by (unfold slice_bound; destruct (Z.ltb_spec (b - a) 0); lia).
  destruct (Nat.eqb_spec (length (pyslice a b (block ((if (ns =? 1)%nat then 0 else s) * n) n sig)))
     (slice_bound mx (b - a))) as [Ep|_].
  - apply (f_equal (fun r => match r with Ok l => length l | Err _ => mx end)) in En.
    rewrite <- En, app_length, repeat_length, Ep. lia.
  - destruct (length (pyslice a b (block ((if (ns =? 1)%nat then 0 else s) * n) n sig)) =? 1)%nat; [|discriminate].
    apply (f_equal (fun r => match r with Ok l => length l | Err _ => mx end)) in En.
    rewrite <- En, app_length, !repeat_length. lia.
Qed.

(** A segment that passes the end can only have been filled by repeating the last sample. *)
Lemma fill_past_end n ns sig n_src mx a b rows :
  fill_segment n ns sig n_src mx a b = Ok rows -> (0 < n_src)%nat -> length sig = (ns * n)%nat ->
  (0 <= a < b)%Z -> (Z.of_nat n < b)%Z -> (b - a <= Z.of_nat mx)%Z -> (a + 2 <= b)%Z.
Proof.
  intros E Hs Hsig Hab Hn Hm. unfold fill_segment in E.
  destruct (Z.ltb_spec a b); [|lia].
  assert (Hns : (0 < ns)%nat).
  { destruct (Nat.eqb_spec ns 1), (Nat.eqb_spec ns n_src); cbn [orb negb] in E; try discriminate; lia. }
  destruct (negb ((ns =? 1)%nat || (ns =? n_src)%nat)); [discriminate|].
  pose proof (mapM_nth _ _ _ 0%nat 0%nat [] E ltac:(rewrite seq_length; auto)) as En.
  rewrite seq_nth in En by auto. cbn [plus] in En.
  set (row := block ((if (ns =? 1)%nat then 0 else 0) * n) n sig) in En.
  assert (Hrow : length row = n).
  { unfold row. apply length_block. destruct (ns =? 1)%nat; nia. }
  assert (Hp : (length (pyslice a b row) <= n - Z.to_nat a)%nat).
  { unfold pyslice. rewrite firstn_length, skipn_length, Hrow. unfold slice_bound.
    destruct (Z.ltb_spec a 0); lia. }
  assert (Hw : slice_bound mx (b - a) = Z.to_nat (b - a))
    by (unfold slice_bound; destruct (Z.ltb_spec (b - a) 0); lia).
  rewrite Hw in En.
  destruct (Nat.eqb_spec (length (pyslice a b row)) (Z.to_nat (b - a))); [lia|].
  destruct (Nat.eqb_spec (length (pyslice a b row)) 1); [lia|discriminate].
Qed.

Lemma valid_repeat M len : valid M len (repeat (repeat 0 len) M).
Proof.
  split; [apply repeat_length|]. intros m Hm.
  rewrite (nth_indep _ [] (repeat 0 len)) by (rewrite repeat_length; auto).
  rewrite nth_repeat. apply repeat_length.
Qed.
Lemma zeros2_cases M len :
  zeros2 M len = Err RuntimeError \/
  ((0 <= len)%Z /\ exists b, zeros2 M len = Ok b /\ valid M (Z.to_nat len) b).
Proof.
  unfold zeros2. destruct (Z.ltb_spec len 0); auto. right. split; auto.
  eexists; split; [reflexivity|]. apply valid_repeat.
Qed.
Lemma pyslice_0_length {A} (l : list A) (k : Z) : (0 <= k <= Z.of_nat (length l))%Z ->
  length (pyslice 0 k l) = Z.to_nat k.
Proof.
  intros H. replace k with (Z.of_nat (Z.to_nat k)) at 1 by lia. rewrite pyslice_0.
  unfold block. cbn [skipn]. rewrite firstn_length. lia.
Qed.

Lemma nth_lens w t : (S t < length w)%nat -> nth t (seg_lens w) 0%Z = (nth (S t) w 0 - nth t w 0)%Z.
Proof. intros H. unfold seg_lens. rewrite nth_tabulate by lia. auto. Qed.
Lemma seg_lens_length w : length (seg_lens w) = (length w - 1)%nat.
Proof. unfold seg_lens. apply length_tabulate. Qed.

Section PastEnd.
  Variables (n ns : nat) (sig : list R) (T n_src M L : nat) (rirs : list R) (w : list Z) (k : nat).
  Hypothesis Hsig : length sig = (ns * n)%nat.
  Hypothesis Hrir : length rirs = (T * n_src * M * L)%nat.
  Hypothesis HL : (0 < L)%nat.
  Hypothesis HS : (0 < n_src)%nat.
  Hypothesis HM : (0 < M)%nat.
  Hypothesis Hw : length w = S T.
  Hypothesis Hk : (k < T)%nat.
  Hypothesis Hs0 : (0 <= nth k w 0 < nth (S k) w 0)%Z.
  Hypothesis Hend : (Z.of_nat n < nth (S k) w 0)%Z.

  Theorem cpu_past_end : conv_traj_cpu n ns sig T n_src M L rirs w = Err RuntimeError.
  Proof.
    unfold conv_traj_cpu.
    destruct (max_item_ok (seg_lens w)) as (mx & Emx & Hmx & _); [rewrite seg_lens_length; lia|].
    rewrite Emx. cbn [bind].
    assert (Hk2 : (nth (S k) w 0 - nth k w 0 <= mx)%Z).
    { rewrite <- nth_lens by lia. apply Hmx. apply nth_In. rewrite seg_lens_length; lia. }
    destruct (Z.ltb_spec mx 0); [lia|].
    match goal with |- bind (mapM ?f ?l) _ = _ => pose proof (rt_mapM f l) as Hrt; destruct (mapM f l) as [segs|e] eqn:Eseg end.
    2:{ cbn [bind]. f_equal. apply Hrt. intros. apply rt_fill. }
    clear Hrt. cbn [bind].
    pose proof (mapM_nth _ _ _ k 0%nat [] Eseg ltac:(rewrite seq_length; auto)) as En.
    rewrite seq_nth in En by auto. cbn [plus] in En.
    pose proof (fill_past_end _ _ _ _ _ _ _ _ En HS Hsig Hs0 Hend ltac:(lia)) as H2.
    pose proof (fill_length _ _ _ _ _ _ _ _ En 0%nat HS) as Hlen.
    destruct (zeros2_cases M (Z.of_nat n + Z.of_nat L - 1)) as [E0|(H0 & b0 & E0 & V0)]; rewrite E0; cbn [bind]; auto.
    rewrite (fold_refused M (Z.to_nat (Z.of_nat n + Z.of_nat L - 1)) _ _ k); auto.
    - intros t Ht. apply in_seq in Ht. apply keeps_if; [apply keeps_id|].
      apply keeps_fold. intros s Hs. apply keeps_fold. intros m Hm. apply in_seq in Hm.
      apply keeps_row; [lia|]. intros r. apply slice_add_length.
    - apply in_seq. lia.
    - intros b Vb. rewrite nth_lens by lia. destruct (Z.eqb_spec (nth (S k) w 0 - nth k w 0)%Z 0); [lia|].
      apply (fold_refused M (Z.to_nat (Z.of_nat n + Z.of_nat L - 1)) _ _ 0%nat); auto.
      + intros s Hs. apply keeps_fold. intros m Hm. apply in_seq in Hm.
        apply keeps_row; [lia|]. intros r. apply slice_add_length.
      + apply in_seq. lia.
      + clear b Vb. intros b Vb.
        apply (fold_refused M (Z.to_nat (Z.of_nat n + Z.of_nat L - 1)) _ _ 0%nat); auto.
        * intros m Hm. apply in_seq in Hm. apply keeps_row; [lia|]. intros r. apply slice_add_length.
        * apply in_seq. lia.
        * clear b Vb. intros b (Vb1 & Vb2). unfold upd_row.
          set (fr := pyslice 0 _ (nth 0 (nth k segs []) [])). set (rir := block _ L rirs).
          assert (Lf : length fr = Z.to_nat (nth (S k) w 0 - nth k w 0)%Z)
            by (unfold fr; apply pyslice_0_length; lia).
          assert (Lr : length rir = L).
          { unfold rir. apply length_block. rewrite Hrir. apply row_bound; try lia.
            assert ((k + 1) * n_src <= T * n_src)%nat by (apply Nat.mul_le_mono_r; lia). lia. }
          rewrite slice_add_refused; auto; [lia| |].
          -- rewrite Vb2 by auto. rewrite length_fft_convolve_data by lia. lia.
          -- rewrite length_fft_convolve_data by lia. lia.
  Qed.

  Theorem batched_past_end chunk : (0 < chunk)%nat ->
    conv_traj_batched n ns sig T n_src M L rirs w chunk = Err RuntimeError.
  Proof.
    intros Hc. unfold conv_traj_batched.
    destruct (zeros2_cases M (Z.of_nat n + Z.of_nat L - 1)) as [E0|(H0 & b0 & E0 & V0)]; rewrite E0; cbn [bind]; auto.
    set (len := Z.to_nat (Z.of_nat n + Z.of_nat L - 1)) in *.
    set (k0 := ((k / chunk) * chunk)%nat).
    pose proof (Nat.div_mod k chunk ltac:(lia)) as Hdm.
    pose proof (Nat.mod_upper_bound k chunk ltac:(lia)) as Hub.
    assert (Hk0 : (k0 <= k < k0 + chunk)%nat) by (unfold k0; nia).
    rewrite (fold_refused M len _ _ k0); auto.
    - intros t0 Ht0 b Vb.
      set (t1 := Nat.min (t0 + chunk) T).
      destruct (max_item _) as [mx|] eqn:Emx; cbn [bind].
      2:{ unfold max_item in Emx. destruct (block _ _ _); congruence. }
      destruct (mx =? 0)%Z; [exact Vb|]. destruct (mx <? 0)%Z; [reflexivity|].
      match goal with |- match bind (mapM ?f ?l) _ with _ => _ end =>
        pose proof (rt_mapM f l) as Hrt; destruct (mapM f l) as [segs|e] eqn:Eseg end.
      2:{ cbn [bind]. apply Hrt. intros. apply rt_fill. }
      cbn [bind]. revert b Vb.
      match goal with |- forall b, valid M len b -> match foldM ?f ?l b with _ => _ end =>
        change (keeps M len (fun b => foldM f l b)) end.
      apply keeps_fold. intros idx Hidx. apply keeps_if; [apply keeps_id|].
      apply keeps_fold. intros m Hm. apply in_seq in Hm.
      apply keeps_row; [lia|]. intros r. apply slice_add_length.
    - unfold py_range_step. apply in_map_iff. exists (k / chunk)%nat. split; auto.
      apply in_seq. split; [lia|]. cbn [plus].
      apply Nat.div_le_lower_bound with (b := chunk) (q := S (k / chunk)); [lia|]. nia.
    - intros b Vb. set (t1 := Nat.min (k0 + chunk) T).
      assert (Ht1 : (k < t1)%nat) by (unfold t1; lia).
      set (idx := (k - k0)%nat).
      assert (Hlens : nth idx (block k0 (t1 - k0) (seg_lens w)) 0%Z = (nth (S k) w 0 - nth k w 0)%Z).
      { rewrite nth_block by (unfold idx; lia). rewrite <- nth_lens by lia. f_equal. unfold idx; lia. }
      assert (Lb : length (block k0 (t1 - k0) (seg_lens w)) = (t1 - k0)%nat).
      { apply length_block. rewrite seg_lens_length. unfold t1. lia. }
      destruct (max_item_ok (block k0 (t1 - k0) (seg_lens w))) as (mx & Emx & Hmx & _); [lia|].
      rewrite Emx. cbn [bind].
      assert (Hk2 : (nth (S k) w 0 - nth k w 0 <= mx)%Z).
      { rewrite <- Hlens. apply Hmx. apply nth_In. rewrite Lb. unfold idx; lia. }
      destruct (Z.eqb_spec mx 0); [lia|]. destruct (Z.ltb_spec mx 0); [lia|].
      match goal with |- bind (mapM ?f ?l) _ = _ =>
        pose proof (rt_mapM f l) as Hrt; destruct (mapM f l) as [segs|e] eqn:Eseg end.
      2:{ cbn [bind]. f_equal. apply Hrt. intros. apply rt_fill. }
      clear Hrt. cbn [bind].
      pose proof (mapM_nth _ _ _ idx 0%nat [] Eseg ltac:(rewrite seq_length; unfold idx; lia)) as En.
      rewrite seq_nth in En by (unfold idx; lia).
      replace (k0 + idx)%nat with k in En by (unfold idx; lia).
      pose proof (fill_past_end _ _ _ _ _ _ _ _ En HS Hsig Hs0 Hend ltac:(lia)) as H2.
      apply (fold_refused M len _ _ idx); auto.
      + intros i Hi. apply keeps_if; [apply keeps_id|].
        apply keeps_fold. intros m Hm. apply in_seq in Hm.
        apply keeps_row; [lia|]. intros r. apply slice_add_length.
      + apply in_seq. unfold idx. lia.
      + clear b Vb. intros b Vb. rewrite Hlens.
        destruct (Z.eqb_spec (nth (S k) w 0 - nth k w 0)%Z 0); [lia|].
        replace (k0 + idx)%nat with k by (unfold idx; lia).
        apply (fold_refused M len _ _ 0%nat); auto.
        * intros m Hm. apply in_seq in Hm. apply keeps_row; [lia|]. intros r. apply slice_add_length.
        * apply in_seq. lia.
        * clear b Vb. intros b (Vb1 & Vb2). unfold upd_row.
          pose proof (fft_len_ge (mx + Z.of_nat L - 1)%Z ltac:(lia)) as Hfl.
          assert (Lv : forall v : nat -> R, length (pyslice 0 (nth (S k) w 0 - nth k w 0 + Z.of_nat L - 1)%Z
             (tabulate (length (pyslice 0 (mx + Z.of_nat L - 1)%Z (repeat 0 (fft_len (mx + Z.of_nat L - 1)%Z)))) v))
             = Z.to_nat (nth (S k) w 0 - nth k w 0 + Z.of_nat L - 1)%Z).
          { intros v. apply pyslice_0_length. rewrite length_tabulate.
            rewrite pyslice_0_length by (rewrite repeat_length; lia). lia. }
          rewrite slice_add_refused; auto; [lia| |].
          -- rewrite Vb2 by auto. rewrite Lv. unfold len. lia.
          -- rewrite Lv. lia.
  Qed.
End PastEnd.

Theorem traj_past_end dev signal rirs ts fs starts k :
  dyn_ranks_ok signal rirs -> wf signal -> wf rirs ->
  (0 < rir_len rirs)%nat -> (0 < dyn_srcs rirs)%nat -> (0 < dyn_mics rirs)%nat ->
  segment_starts dev (sig_len signal) (dyn_steps rirs) ts fs = Ok starts ->
  length starts = dyn_steps rirs -> (k < length starts)%nat ->
  (0 <= seg_start starts (sig_len signal) k < seg_start starts (sig_len signal) (S k))%Z ->
  (Z.of_nat (sig_len signal) < seg_start starts (sig_len signal) (S k))%Z ->
  convolve_trajectory dev signal rirs ts fs = Err RuntimeError.
Proof.
  intros (Rs & Rr & R3) Ws Wr HL HS HM Est Lst Hk H0 H1.
  destruct (sig_norm signal Rs Ws) as (sg & Es & Ss & Ws' & _).
  destruct (dyn_norm signal rirs sg Rr Wr R3 Ss) as (rr & Er & Sr & Wr' & _).
  unfold convolve_trajectory. rewrite Es; cbn [bind]. rewrite Er; cbn [bind].
  unfold wf in Ws', Wr'. rewrite Ss in *. rewrite Sr in *. cbn [prodn fold_right] in Ws', Wr'.
  unfold conv_traj_core. rewrite Est; cbn [bind].
  assert (HSg : length (data sg) = (sig_rows signal * sig_len signal)%nat) by lia.
  assert (HR : length (data rr) = (dyn_steps rirs * dyn_srcs rirs * dyn_mics rirs * rir_len rirs)%nat)
    by (rewrite Wr'; ring).
  assert (Hw : length (with_end starts (sig_len signal)) = S (dyn_steps rirs))
    by (unfold with_end; rewrite app_length; cbn; lia).
  unfold seg_start in H0, H1. fold (with_end starts (sig_len signal)) in H0, H1.
  destruct dev; [eapply cpu_past_end|eapply batched_past_end|eapply batched_past_end]; eauto; lia.
Qed.
