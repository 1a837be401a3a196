(** Correctness of the convolution loops of the model. *)
From Coq Require Import List ZArith Reals Lia Lra Bool.
From Coquelicot Require Import Complex.
From Verif Require Import Prelude PreludeFacts FloatModel SignalModel SignalSpec DftProofs.
Import ListNotations.
Local Open Scope R_scope.

(** ** Buffers of [M] rows and [len] columns *)
Definition valid (M len : nat) (b : list (list R)) : Prop :=
  length b = M /\ forall m, (m < M)%nat -> length (nth m b []) = len.
Definition bget (b : list (list R)) (m j : nat) : R := nth j (nth m b []) 0.

(** [f] succeeds on every valid buffer and adds [c] to it. *)
Definition adds (M len : nat) (f : list (list R) -> result (list (list R))) (c : nat -> nat -> R) :=
  forall b, valid M len b -> exists b', f b = Ok b' /\ valid M len b' /\
    forall m j, (m < M)%nat -> (j < len)%nat -> bget b' m j = bget b m j + c m j.

Lemma adds_ext M len f g c d :
  (forall b, f b = g b) ->
  (forall m j, (m < M)%nat -> (j < len)%nat -> c m j = d m j) ->
  adds M len f c -> adds M len g d.
Proof.
  intros Hf Hc H b Hb. destruct (H b Hb) as (b' & E & Hv & Hg).
  exists b'. rewrite <- Hf. repeat split; auto; try apply Hv.
  intros. rewrite <- Hc by auto. auto.
Qed.
Lemma adds_id M len : adds M len (fun b => Ok b) (fun _ _ => 0).
Proof. intros b Hb. exists b. repeat split; auto; try apply Hb. intros; lra. Qed.
Lemma adds_fold {A} M len (step : list (list R) -> A -> result (list (list R))) c l :
  (forall x, In x l -> adds M len (fun b => step b x) (c x)) ->
  adds M len (fun b => foldM step l b) (fun m j => lsum (map (fun x => c x m j) l)).
Proof.
  induction l as [|a l IH]; simpl; intros H.
  - apply adds_id.
  - intros b Hb. destruct (H a (or_introl eq_refl) b Hb) as (b1 & E1 & V1 & G1).
    destruct (IH (fun x Hx => H x (or_intror Hx)) b1 V1) as (b2 & E2 & V2 & G2).
    exists b2. rewrite E1. simpl. rewrite E2. repeat split; auto; try apply V2.
    intros. rewrite G2, G1 by auto. lra.
Qed.
Lemma adds_fold_seq M len step c n :
  (forall x, (x < n)%nat -> adds M len (fun b => step b x) (c x)) ->
  adds M len (fun b => foldM step (seq 0 n) b) (fun m j => rsum n (fun x => c x m j)).
Proof.
  intros H. apply (adds_ext M len (fun b => foldM step (seq 0 n) b) _ (fun m j => lsum (map (fun x => c x m j) (seq 0 n)))); auto.
  - intros. apply lsum_seq.
  - apply adds_fold. intros x Hx. apply in_seq in Hx. apply H; lia.
Qed.

Lemma valid_upd M len b m r : valid M len b -> length r = len ->
  valid M len (upd_nth m (fun _ => r) b).
Proof.
  intros [H1 H2] Hr. split.
  - rewrite length_upd_nth; auto.
  - intros m' Hm'. destruct (Nat.eq_dec m m').
    + subst. rewrite nth_upd_nth_eq by lia. auto.
    + rewrite nth_upd_nth_neq by auto. auto.
Qed.
Lemma bget_upd b m r m' j : (m' < length b)%nat ->
  bget (upd_nth m (fun _ => r) b) m' j = if (m' =? m)%nat then nth j r 0 else bget b m' j.
Proof.
  intros H. unfold bget. destruct (Nat.eqb_spec m' m).
  - subst. rewrite nth_upd_nth_eq by auto. auto.
  - rewrite nth_upd_nth_neq by auto. auto.
Qed.

(** A row update that adds [v j] to row [m]. *)
Lemma adds_row M len m f v :
  (m < M)%nat ->
  (forall r, length r = len -> exists r', f r = Ok r' /\ length r' = len /\
     forall j, (j < len)%nat -> nth j r' 0 = nth j r 0 + v j) ->
  adds M len (fun b => upd_row b m f) (fun m' j => if (m' =? m)%nat then v j else 0).
Proof.
  intros Hm Hf b Hb. destruct (Hf (nth m b [])) as (r' & E & L & G).
  { apply Hb; auto. }
  unfold upd_row. rewrite E. simpl. eexists. split; [reflexivity|].
  split; [apply valid_upd; auto|].
  intros m' j Hm' Hj. rewrite bget_upd by (destruct Hb; lia).
  destruct (Nat.eqb_spec m' m).
  - subst. rewrite G by auto. reflexivity.
  - lra.
Qed.

(** Adding to each of the [M] rows in turn. *)
Lemma adds_rows M len f v :
  (forall m, (m < M)%nat -> forall r, length r = len -> exists r', f m r = Ok r' /\ length r' = len /\
     forall j, (j < len)%nat -> nth j r' 0 = nth j r 0 + v m j) ->
  adds M len (fun b => foldM (fun b m => upd_row b m (f m)) (seq 0 M) b) v.
Proof.
  intros H.
  eapply adds_ext; [| |apply adds_fold_seq with (step := fun b m => upd_row b m (f m))
     (c := fun m m' j => if (m' =? m)%nat then v m j else 0)].
  - auto.
  - intros m j Hm Hj. cbv beta. rewrite (rsum_single M m); auto.
    + rewrite Nat.eqb_refl. auto.
    + intros i Hi Hne. destruct (Nat.eqb_spec m i); auto; congruence.
  - intros m Hm. apply adds_row; auto.
Qed.

Lemma add_into_ok dst v : length v = length dst ->
  exists r, add_into dst v = Ok r /\ length r = length dst /\
    forall j, (j < length dst)%nat -> nth j r 0 = nth j dst 0 + nth j v 0.
Proof.
  intros H. unfold add_into. rewrite H, Nat.eqb_refl.
  eexists; split; [reflexivity|]. split.
  - rewrite length_map2. lia.
  - intros. rewrite nth_map2 with (da := 0) (db := 0); auto; lia.
Qed.

Lemma slice_add_ok row a v b : (a + length v <= length row)%nat -> b = (a + length v)%nat ->
  exists r, slice_add row (Z.of_nat a) (Z.of_nat b) v = Ok r /\
    length r = length row /\
    forall j, nth j r 0 = nth j row 0 + (if (a <=? j)%nat then nth (j - a) v 0 else 0).
Proof.
  intros H Hb. subst b. unfold slice_add. rewrite !slice_bound_nat.
  rewrite !Nat.min_l by lia. replace (a + length v - a)%nat with (length v) by lia.
  destruct (add_into_ok (firstn (length v) (skipn a row)) v) as (mid & E & L & G).
  { rewrite firstn_length, skipn_length. lia. }
  rewrite E. simpl. eexists; split; [reflexivity|].
  assert (Lm : length mid = length v) by (rewrite L, firstn_length, skipn_length; lia).
  assert (Lf : length (firstn a row) = a) by (rewrite firstn_length; lia).
  split.
  - rewrite !app_length, Lf, Lm, skipn_length. lia.
  - intros j. destruct (Nat.leb_spec a j).
    + rewrite app_nth2 by lia. rewrite Lf.
      destruct (Nat.lt_ge_cases (j - a) (length v)).
      * rewrite app_nth1 by lia. rewrite G by (rewrite firstn_length, skipn_length; lia).
        rewrite nth_firstn_lt, nth_skipn by lia. do 2 f_equal. lia.
      * rewrite app_nth2 by lia. rewrite nth_skipn, Lm.
        rewrite (nth_overflow v) by lia.
        replace (a + length v + (j - a - length v))%nat with j by lia. lra.
    + rewrite app_nth1 by lia. rewrite nth_firstn_lt by lia. lra.
Qed.

Lemma zeros2_ok rows len : exists b, zeros2 rows (Z.of_nat len) = Ok b /\ valid rows len b /\
  forall m j, bget b m j = 0.
Proof.
  unfold zeros2. destruct (Z.ltb_spec (Z.of_nat len) 0); [lia|].
  rewrite Nat2Z.id. eexists; split; [reflexivity|]. split; [split|].
  - apply repeat_length.
  - intros. rewrite nth_repeat_lt by auto. apply repeat_length.
  - intros. unfold bget. destruct (Nat.lt_ge_cases m rows).
    + rewrite nth_repeat_lt by auto. apply nth_repeat_any; auto. exact 0.
    + rewrite nth_overflow with (l := repeat _ _) by (rewrite repeat_length; auto).
      destruct j; auto.
Qed.

(** ** From the buffer to the returned tensor *)
Lemma length_concat_rows (b : list (list R)) len :
  (forall r, In r b -> length r = len) -> length (concat b) = (length b * len)%nat.
Proof.
  induction b; simpl; intros; auto. rewrite app_length, IHb, H; auto.
Qed.
Lemma nth_concat_rows (b : list (list R)) len m j :
  (forall r, In r b -> length r = len) -> (m < length b)%nat -> (j < len)%nat ->
  nth (m * len + j) (concat b) 0 = nth j (nth m b []) 0.
Proof.
  revert m; induction b; simpl; intros m H Hm Hj; [lia|].
  destruct m; simpl.
  - rewrite app_nth1; auto. rewrite H; auto.
  - rewrite app_nth2 by (rewrite H by auto; lia).
    rewrite H by auto. replace (len + m * len + j - len)%nat with (m * len + j)%nat by lia.
    apply IHb; auto; lia.
Qed.

Lemma valid_In M len b : valid M len b -> forall r, In r b -> length r = len.
Proof.
  intros [H1 H2] r Hr. apply (In_nth _ _ []) in Hr as (i & Hi & <-). apply H2; lia.
Qed.

Lemma finish_output M len b f :
  valid M len b -> (forall m j, (m < M)%nat -> (j < len)%nat -> bget b m j = f m j) ->
  is_output (finish M len b) M len f.
Proof.
  intros Hb Hf. pose proof (valid_In _ _ _ Hb) as HIn. destruct Hb as [Hl Hr].
  unfold finish, is_output, out_shape.
  destruct (Nat.eqb_spec M 1) as [->|HM]; cbn [shape data].
  - repeat split; auto.
    + unfold wf; cbn [shape data prodn fold_right]. rewrite (length_concat_rows b len), Hl; auto. lia.
    + intros m j Hm Hj. unfold out_view, tget; cbn [shape data ravel prodn fold_right].
      replace (j * 1 + 0)%nat with (0 * len + j)%nat by lia.
      rewrite nth_concat_rows; auto; try lia.
      replace m with 0%nat by lia. rewrite <- Hf by lia. auto.
  - repeat split; auto.
    + unfold wf; cbn [shape data prodn fold_right]. rewrite (length_concat_rows b len), Hl; auto. lia.
    + intros m j Hm Hj. unfold out_view, tget; cbn [shape data ravel prodn fold_right].
      replace (m * (len * 1) + (j * 1 + 0))%nat with (m * len + j)%nat by lia.
      rewrite nth_concat_rows; auto; try lia. rewrite <- Hf by auto. auto.
Qed.

Lemma adds_zeros_output M len f c t len' :
  adds M len f c -> len' = Z.of_nat len ->
  (forall out, t out = finish M len out) ->
  exists r, bind (zeros2 M len') (fun out => bind (f out) (fun out => Ok (t out))) = Ok r
     /\ is_output r M len c.
Proof.
  intros Hf -> Ht. destruct (zeros2_ok M len) as (b0 & E0 & V0 & G0).
  rewrite E0. simpl. destruct (Hf b0 V0) as (b1 & E1 & V1 & G1).
  rewrite E1. simpl. eexists; split; [reflexivity|]. rewrite Ht.
  apply finish_output; auto. intros. rewrite G1, G0 by auto. lra.
Qed.

(** ** Linear convolution facts *)
Lemma lin_conv_ext x x' h h' j :
  (forall i, (i <= j)%nat -> x i = x' i) -> (forall i, (i <= j)%nat -> h i = h' i) ->
  lin_conv x h j = lin_conv x' h' j.
Proof. intros Hx Hh. apply rsum_ext. intros. rewrite Hx, Hh by lia. auto. Qed.

Lemma fft_convolve_data_nth x h j :
  (1 <= length x + length h)%nat ->
  nth j (fft_convolve_data x h) 0 = lin_conv (seq_of x) (seq_of h) j.
Proof.
  intros Hx. destruct (Nat.lt_ge_cases j (length x + length h - 1)).
  - apply fft_convolve_data_correct; auto.
  - rewrite nth_overflow by (rewrite length_fft_convolve_data; lia).
    symmetry. apply rsum_zero. intros i Hi. unfold seq_of.
    destruct (Nat.lt_ge_cases i (length x)).
    + rewrite (nth_overflow h) by lia. lra.
    + rewrite (nth_overflow x) by lia. lra.
Qed.

Lemma seq_of_block off len l i : (off + len <= length l)%nat ->
  seq_of (block off len l) i = zext len (fun i => nth (off + i) l 0) i.
Proof.
  intros H. unfold seq_of, zext. destruct (Nat.ltb_spec i len).
  - apply nth_block; auto.
  - apply nth_overflow. rewrite length_block; auto.
Qed.

Lemma fft_convolve_ok x h : (0 < numel x)%nat -> (0 < numel h)%nat -> wf x -> wf h ->
  (ndim x = 1 /\ ndim h = 1)%nat ->
  exists t, fft_convolve x h = Ok t /\ shape t = [(numel x + numel h - 1)%nat] /\ wf t /\
    forall j, (j < numel x + numel h - 1)%nat ->
      tget t [j] = lin_conv (fun i => zext (numel x) (fun i => tget x [i]) i)
                            (fun i => zext (numel h) (fun i => tget h [i]) i) j.
Proof.
  intros Hx Hh Wx Wh [Nx Nh].
  destruct x as [sx dx], h as [sh dh]. unfold ndim, numel, wf in *; cbn [shape data] in *.
  destruct sx as [|nx [|? ?]]; try discriminate.
  destruct sh as [|nh [|? ?]]; try discriminate.
  cbn [prodn fold_right] in *.
  unfold fft_convolve, ndim; cbn [shape data length Nat.eqb andb negb].
  eexists; split; [reflexivity|]. cbn [shape data].
  rewrite length_fft_convolve_data by lia. split; [f_equal; lia|]. split.
  - unfold wf. cbn [shape data prodn fold_right]. lia.
  - intros j Hj. unfold tget at 1. cbn [shape data ravel].
    rewrite fft_convolve_data_nth by lia.
    cbn [prodn fold_right]. replace (j * 1 + 0)%nat with j by lia.
    apply lin_conv_ext; intros i Hi; unfold seq_of, zext, tget; cbn [shape data ravel prodn fold_right].
    + replace (i * 1 + 0)%nat with i by lia.
      destruct (Nat.ltb_spec i (nx * 1)); auto. apply nth_overflow. lia.
    + replace (i * 1 + 0)%nat with i by lia.
      destruct (Nat.ltb_spec i (nh * 1)); auto. apply nth_overflow. lia.
Qed.
Lemma fft_convolve_rank x h : ~ (ndim x = 1 /\ ndim h = 1)%nat -> fft_convolve x h = Err ValueError.
Proof.
  intros H. unfold fft_convolve.
  destruct (Nat.eqb_spec (ndim x) 1), (Nat.eqb_spec (ndim h) 1); simpl; auto. tauto.
Qed.

(** ** [convolve_rir] *)
Lemma sig_norm t : sig_rank_ok t -> wf t -> exists t', ensure_signal t = Ok t' /\
  shape t' = [sig_rows t; sig_len t] /\ wf t' /\
  forall s i, (s < sig_rows t)%nat \/ sig_rows t = 1%nat -> sig_view t s i =
     zext (sig_len t) (fun i => nth ((if (sig_rows t =? 1)%nat then 0 else s) * sig_len t + i) (data t') 0) i.
Proof.
  intros Hr Hw. destruct t as [sh d]. unfold sig_rank_ok, ndim, wf, sig_rows, sig_len, sig_view, tget in *.
  cbn [shape data] in *.
  destruct sh as [|n [|m [|? ?]]]; cbn [length] in Hr; try lia; cbn [ensure_signal shape data].
  - eexists; split; [reflexivity|]. split; auto. cbn [shape data prodn fold_right] in *. split; [lia|].
    intros. cbn [Nat.eqb]. unfold zext. destruct (i <? n)%nat; auto.
    cbn [ravel prodn fold_right]. f_equal. lia.
  - eexists; split; [reflexivity|]. split; auto. cbn [shape data prodn fold_right] in *. split; [lia|].
    intros. unfold zext. destruct (i <? m)%nat; auto.
    cbn [ravel prodn fold_right]. f_equal. destruct (n =? 1)%nat; lia.
Qed.

Lemma rir_norm t : rir_rank_ok t -> wf t -> exists t', ensure_static_rirs t = Ok t' /\
  shape t' = [rir_srcs t; rir_mics t; rir_len t] /\ wf t' /\
  forall s m i, (s < rir_srcs t)%nat -> (m < rir_mics t)%nat -> rir_view t s m i =
     zext (rir_len t) (fun i => nth ((s * rir_mics t + m) * rir_len t + i) (data t') 0) i.
Proof.
  intros Hr Hw. destruct t as [sh d]. unfold rir_rank_ok, ndim, wf, rir_srcs, rir_mics, rir_len, rir_view, tget in *.
  cbn [shape data] in *.
  destruct sh as [|a [|b [|c [|? ?]]]]; cbn [length] in Hr; try lia; cbn [ensure_static_rirs shape data last].
  - eexists; split; [reflexivity|]. split; auto. cbn [shape data prodn fold_right] in *. split; [lia|].
    intros. unfold zext. destruct (i <? a)%nat; auto.
    cbn [ravel prodn fold_right]. f_equal. replace s with 0%nat by lia. replace m with 0%nat by lia. lia.
  - eexists; split; [reflexivity|]. split; auto. cbn [shape data prodn fold_right] in *. split; [lia|].
    intros. unfold zext. destruct (i <? b)%nat; auto.
    cbn [ravel prodn fold_right]. f_equal. replace s with 0%nat by lia. lia.
  - eexists; split; [reflexivity|]. split; auto. split; [exact Hw|].
    intros. unfold zext. destruct (i <? c)%nat; auto.
    cbn [ravel prodn fold_right]. f_equal. lia.
Qed.

Lemma row_bound s m M L n : (s < n)%nat -> (m < M)%nat -> ((s * M + m) * L + L <= n * M * L)%nat.
Proof.
  intros Hs Hm. replace ((s * M + m) * L + L)%nat with ((s * M + m + 1) * L)%nat by lia.
  apply Nat.mul_le_mono_r. assert ((s + 1) * M <= n * M)%nat by (apply Nat.mul_le_mono_r; lia). lia.
Qed.
Lemma row_bound1 s L n : (s < n)%nat -> (s * L + L <= n * L)%nat.
Proof. intros. nia. Qed.

Theorem convolve_rir_edge signal rirs :
  sig_rank_ok signal -> rir_rank_ok rirs -> wf signal -> wf rirs ->
  (1 <= sig_len signal + rir_len rirs)%nat ->
  sig_rows signal = 1%nat \/ sig_rows signal = rir_srcs rirs ->
  exists t, convolve_rir signal rirs = Ok t /\
    is_output t (rir_mics rirs) (sig_len signal + rir_len rirs - 1)
      (fun m j => rsum (rir_srcs rirs) (fun s => lin_conv (sig_view signal s) (rir_view rirs s m) j)).
Proof.
  intros Rs Rr Ws Wr HL Hrows.
  destruct (sig_norm signal Rs Ws) as (sg & Es & Ss & Ws' & Vs).
  destruct (rir_norm rirs Rr Wr) as (rr & Er & Sr & Wr' & Vr).
  unfold convolve_rir. rewrite Es; simpl bind. rewrite Er; simpl bind.
  unfold wf in Ws', Wr'. rewrite Ss in *. rewrite Sr in *.
  set (ns := sig_rows signal) in *. set (n := sig_len signal) in *.
  set (S_ := rir_srcs rirs) in *. set (M := rir_mics rirs) in *. set (L := rir_len rirs) in *.
  cbn [prodn fold_right] in Ws', Wr'.
  replace (negb ((ns =? 1)%nat || (ns =? S_)%nat)) with false.
  2:{ destruct (Nat.eqb_spec ns 1), (Nat.eqb_spec ns S_); simpl; auto; lia. }
  set (ex := ((ns =? 1)%nat && (1 <? S_)%nat)%bool).
  apply adds_zeros_output with (len := (n + L - 1)%nat)
     (f := fun out => foldM _ _ out) (t := finish M (Z.to_nat (Z.of_nat n + Z.of_nat L - 1))); auto.
  2:{ lia. }
  2:{ intros. f_equal. lia. }
  apply (adds_fold_seq M (n + L - 1) _ (fun s m j => lin_conv (sig_view signal s) (rir_view rirs s m) j)).
  intros s Hs. apply (adds_rows M _ (fun m r => _)).
  intros m Hm r Hr.
  set (row := block ((if ex then 0 else s) * n) n (data sg)).
  set (rir := block ((s * M + m) * L) L (data rr)).
  assert (Bs : ((if ex then 0 else s) * n + n <= length (data sg))%nat).
  { rewrite Ws'. unfold ex. destruct (Nat.eqb_spec ns 1), (Nat.ltb_spec 1 S_); simpl; try nia. }
  assert (Br : ((s * M + m) * L + L <= length (data rr))%nat).
  { rewrite Wr'. pose proof (row_bound s m M L S_ Hs Hm). nia. }
  assert (Lrow : length row = n) by (apply length_block; auto).
  assert (Lrir : length rir = L) by (apply length_block; auto).
  destruct (add_into_ok r (fft_convolve_data row rir)) as (r' & E & L' & G).
  { rewrite length_fft_convolve_data; lia. }
  exists r'. split; auto. split; [lia|]. intros j Hj. rewrite G by lia. f_equal.
  rewrite fft_convolve_data_nth by lia.
  apply lin_conv_ext; intros i Hi.
  - unfold row. rewrite seq_of_block by auto. rewrite Vs by lia.
    unfold zext. destruct (i <? n)%nat; auto. f_equal. f_equal. f_equal.
    unfold ex. destruct (Nat.eqb_spec ns 1), (Nat.ltb_spec 1 S_); simpl; auto. lia.
  - unfold rir. rewrite seq_of_block by auto. rewrite Vr by auto. reflexivity.
Qed.

Theorem convolve_rir_correct signal rirs :
  sig_rank_ok signal -> rir_rank_ok rirs -> wf signal -> wf rirs ->
  (0 < sig_len signal)%nat -> (0 < rir_len rirs)%nat ->
  sig_rows signal = 1%nat \/ sig_rows signal = rir_srcs rirs ->
  exists t, convolve_rir signal rirs = Ok t /\
    is_output t (rir_mics rirs) (sig_len signal + rir_len rirs - 1)
      (fun m j => rsum (rir_srcs rirs) (fun s => lin_conv (sig_view signal s) (rir_view rirs s m) j)).
Proof. intros. apply convolve_rir_edge; auto. lia. Qed.

Theorem convolve_rir_reject signal rirs :
  ~ (sig_rank_ok signal /\ rir_rank_ok rirs /\
     (sig_rows signal = 1%nat \/ sig_rows signal = rir_srcs rirs)) ->
  convolve_rir signal rirs = Err ValueError.
Proof.
  intros H. unfold convolve_rir.
  destruct signal as [ss ds], rirs as [sr dr].
  unfold sig_rank_ok, rir_rank_ok, sig_rows, rir_srcs, ndim in H; cbn [shape data] in H.
  unfold ensure_signal, ensure_static_rirs; cbn [shape data].
  destruct ss as [|a [|b [|? ?]]]; simpl; auto;
  destruct sr as [|c [|d [|e [|? ?]]]]; simpl; auto; try (exfalso; apply H; simpl; lia).
  - destruct (Nat.eqb_spec a 1); simpl; auto. exfalso; apply H; simpl; lia.
  - destruct (Nat.eqb_spec a 1); simpl; auto. exfalso; apply H; simpl; lia.
  - destruct (Nat.eqb_spec a 1), (Nat.eqb_spec a c); simpl; auto; exfalso; apply H; simpl; lia.
Qed.
