(** Lemmas for C95: algebra of convolution and bounds of its loudness. *)
From Coq Require Import List ZArith Reals Lia Lra Bool.
From Verif Require Import Prelude PreludeFacts FloatModel SignalModel SignalSpec SignalProofs
  TrajProofs SegProofs ConvProofs ConvMore EdgeProofs.
Import ListNotations.
Local Open Scope R_scope.

(** ** Sums *)
Lemma rsum_rev n f : rsum n f = rsum n (fun i => f (n - 1 - i)%nat).
Proof.
  revert f. induction n as [|n IH]; intros f; [reflexivity|].
  rewrite rsum_S_l. cbn [rsum]. replace (S n - 1 - n)%nat with 0%nat by lia. rewrite Rplus_comm. f_equal.
  rewrite IH. apply rsum_ext. intros i Hi. f_equal. lia.
Qed.
Lemma rsum_S n f : rsum (S n) f = rsum n f + f n.
Proof. reflexivity. Qed.
Lemma rsum_triangle n F :
  rsum n (fun t => rsum (S t) (fun u => F t u)) = rsum n (fun u => rsum (n - u) (fun v => F (u + v)%nat u)).
Proof.
  induction n as [|n IH]; [reflexivity|]. rewrite !(rsum_S n), IH. clear IH.
  replace (S n - n)%nat with 1%nat by lia. rewrite (rsum_S 0). cbn [rsum].
  rewrite (rsum_ext n (fun u => rsum (S n - u) (fun v => F (u + v)%nat u))
                      (fun u => rsum (n - u) (fun v => F (u + v)%nat u) + F n u)).
  - rewrite rsum_plus, Nat.add_0_r. change (rsum n (F n)) with (rsum n (fun u => F n u)). lra.
  - intros u Hu. replace (S n - u)%nat with (S (n - u)) by lia. cbn [rsum]. do 2 f_equal. lia.
Qed.
Lemma rsum_abs n f : Rabs (rsum n f) <= rsum n (fun i => Rabs (f i)).
Proof.
  induction n as [|n IH]; cbn [rsum]; [rewrite Rabs_R0; lra|]. eapply Rle_trans; [apply Rabs_triang|]. lra.
Qed.
Lemma rsum_cut n L f : (forall i, 0 <= f i) -> (forall i, (L <= i)%nat -> f i = 0) -> rsum n f <= rsum L f.
Proof.
  intros Hp Hz. destruct (Nat.le_gt_cases n L) as [H|H].
  - rewrite (rsum_split L n) by auto. assert (P : 0 <= rsum (L - n) (fun i => f (n + i)%nat)) by (apply rsum_nonneg; auto). lra.
  - rewrite (rsum_split n L) by lia. rewrite (rsum_zero (n - L)); [lra|]. intros i Hi. apply Hz. lia.
Qed.
Lemma weighted n a b : (forall i, 0 <= a i) ->
  (rsum n (fun i => a i * b i)) ^ 2 <= rsum n a * rsum n (fun i => a i * b i ^ 2).
Proof.
  intros Ha.
  assert (Q : forall n c, 0 <= rsum n (fun i => a i * b i ^ 2) - 2 * c * rsum n (fun i => a i * b i) + c ^ 2 * rsum n a).
  { clear n. intros n c. induction n as [|n IH]; cbn [rsum]; [lra|].
    pose proof (Ha n). pose proof (Rmult_le_pos (a n) ((b n - c) ^ 2) (Ha n) (pow2_ge_0 _)). nra. }
  induction n as [|n IH]; cbn [rsum]; [lra|].
  specialize (Q n (b n)). pose proof (Ha n) as P.
  pose proof (Rmult_le_pos (a n) _ P Q). nra.
Qed.

(** ** Convolution of sequences *)
Lemma lin_conv_rev x h j : lin_conv x h j = rsum (S j) (fun i => x (j - i)%nat * h i).
Proof.
  unfold lin_conv. rewrite rsum_rev. apply rsum_ext. intros i Hi.
  replace (S j - 1 - i)%nat with (j - i)%nat by lia. do 2 f_equal. lia.
Qed.
Lemma lin_conv_comm x h j : lin_conv x h j = lin_conv h x j.
Proof. rewrite lin_conv_rev. apply rsum_ext. intros. apply Rmult_comm. Qed.
Lemma tv_conv_rev x k h j : tv_conv x k h j = rsum (S j) (fun i => x (j - i)%nat * h (k (j - i)%nat) i).
Proof.
  unfold tv_conv. rewrite rsum_rev. apply rsum_ext. intros i Hi.
  replace (S j - 1 - i)%nat with (j - i)%nat by lia. do 2 f_equal. lia.
Qed.
Lemma lin_conv_assoc x g h j : lin_conv (lin_conv x g) h j = lin_conv x (lin_conv g h) j.
Proof.
  unfold lin_conv.
  rewrite (rsum_ext (S j) _ (fun t => rsum (S t) (fun u => x u * g (t - u)%nat * h (j - t)%nat))).
  2:{ intros t Ht. rewrite <- rsum_scal_r. apply rsum_ext. intros. lra. }
  rewrite (rsum_triangle (S j) (fun t u => x u * g (t - u)%nat * h (j - t)%nat)).
  apply rsum_ext. intros u Hu. rewrite <- rsum_scal. replace (S j - u)%nat with (S (j - u)) by lia.
  apply rsum_ext. intros v Hv. replace (u + v - u)%nat with v by lia. replace (j - (u + v))%nat with (j - u - v)%nat by lia. lra.
Qed.
Definition delayed (D : nat) (x : nat -> R) (i : nat) : R := if (i <? D)%nat then 0 else x (i - D)%nat.
Lemma lin_conv_delayed D x h j : lin_conv (delayed D x) h j = delayed D (lin_conv x h) j.
Proof.
  unfold delayed at 2. destruct (Nat.ltb_spec j D) as [H|H].
  - apply rsum_zero. intros i Hi. unfold delayed. destruct (Nat.ltb_spec i D); [lra|lia].
  - unfold lin_conv. rewrite (rsum_split (S j) D) by lia. rewrite (rsum_zero D).
    2:{ intros i Hi. unfold delayed. destruct (Nat.ltb_spec i D); [lra|lia]. }
    rewrite Rplus_0_l. replace (S j - D)%nat with (S (j - D)) by lia. apply rsum_ext. intros i Hi.
    unfold delayed. destruct (Nat.ltb_spec (D + i) D); [lia|]. replace (D + i - D)%nat with i by lia. do 2 f_equal. lia.
Qed.
Lemma lin_conv_bound x h L X j : (forall i, Rabs (x i) <= X) -> (forall i, (L <= i)%nat -> h i = 0) ->
  Rabs (lin_conv x h j) <= X * rsum L (fun i => Rabs (h i)).
Proof.
  intros Hx Hz. rewrite lin_conv_rev. eapply Rle_trans; [apply rsum_abs|].
  assert (0 <= X) by (apply Rle_trans with (Rabs (x 0%nat)); [apply Rabs_pos|apply Hx]).
  apply Rle_trans with (rsum (S j) (fun i => X * Rabs (h i))).
  - apply rsum_le. intros i Hi. rewrite Rabs_mult. apply Rmult_le_compat_r; [apply Rabs_pos|apply Hx].
  - rewrite rsum_scal. apply Rmult_le_compat_l; auto. apply (rsum_cut (S j) L (fun i => Rabs (h i))); intros; [apply Rabs_pos|].
    rewrite Hz by auto. apply Rabs_R0.
Qed.
Lemma tv_conv_bound x k h n T L X P j : (forall i, Rabs (x i) <= X) -> (forall i, (n <= i)%nat -> x i = 0) ->
  (forall i, (i < n)%nat -> (k i < T)%nat) -> (forall t i, (L <= i)%nat -> h t i = 0) ->
  (forall t i, (t < T)%nat -> (i < L)%nat -> Rabs (h t i) <= P i) -> (forall i, 0 <= P i) ->
  Rabs (tv_conv x k h j) <= X * rsum L P.
Proof.
  intros Hx Hn Hk Hz HP H0. rewrite tv_conv_rev. eapply Rle_trans; [apply rsum_abs|].
  assert (0 <= X) by (apply Rle_trans with (Rabs (x 0%nat)); [apply Rabs_pos|apply Hx]).
  apply Rle_trans with (rsum (S j) (fun i => X * (if (i <? L)%nat then P i else 0))).
  - apply rsum_le. intros i Hi. rewrite Rabs_mult.
    destruct (Nat.ltb_spec i L) as [Li|Li].
    2:{ rewrite Hz by auto. rewrite Rabs_R0. lra. }
    destruct (Nat.lt_ge_cases (j - i) n) as [Q|Q].
    + apply Rmult_le_compat; auto using Rabs_pos.
    + rewrite Hn by auto. rewrite Rabs_R0, Rmult_0_l. apply Rmult_le_pos; auto.
  - rewrite rsum_scal. apply Rmult_le_compat_l; auto. rewrite <- (rsum_ext L (fun i => if (i <? L)%nat then P i else 0) P).
    + apply rsum_cut; intros i; [destruct (i <? L)%nat; auto; lra|]. intros Hi. destruct (Nat.ltb_spec i L); auto; lia.
    + intros i Hi. destruct (Nat.ltb_spec i L); auto; lia.
Qed.
Lemma lin_conv_energy x h n L N : (forall i, (n <= i)%nat -> x i = 0) -> (forall i, (L <= i)%nat -> h i = 0) ->
  rsum N (fun j => lin_conv x h j ^ 2) <= (rsum L (fun i => Rabs (h i))) ^ 2 * rsum n (fun i => x i ^ 2).
Proof.
  intros Hx Hh. set (A := rsum L (fun i => Rabs (h i))).
  assert (HA : 0 <= A) by (apply rsum_nonneg; intros; apply Rabs_pos).
  assert (HE : forall M, rsum M (fun i => x i ^ 2) <= rsum n (fun i => x i ^ 2)).
  { intros M. apply (rsum_cut M n (fun i => x i ^ 2)); intros; [apply pow2_ge_0|]. rewrite Hx by auto. ring. }
  apply Rle_trans with (rsum N (fun j => A * rsum (S j) (fun u => x u ^ 2 * Rabs (h (j - u)%nat)))).
  - apply rsum_le. intros j Hj.
    apply Rle_trans with ((rsum (S j) (fun i => Rabs (h i) * Rabs (x (j - i)%nat))) ^ 2).
    { rewrite lin_conv_rev, <- (pow2_abs (rsum _ _)). apply pow_incr. split; [apply Rabs_pos|].
      eapply Rle_trans; [apply rsum_abs|]. apply rsum_le. intros i Hi. rewrite Rabs_mult. lra. }
    eapply Rle_trans; [apply weighted; intros; apply Rabs_pos|].
    replace (rsum (S j) (fun u => x u ^ 2 * Rabs (h (j - u)%nat))) with (rsum (S j) (fun i => Rabs (h i) * Rabs (x (j - i)%nat) ^ 2)).
    + apply Rmult_le_compat_r.
      * apply rsum_nonneg. intros. apply Rmult_le_pos; [apply Rabs_pos|apply pow2_ge_0].
      * apply (rsum_cut (S j) L (fun i => Rabs (h i))); intros; [apply Rabs_pos|]. rewrite Hh by auto. apply Rabs_R0.
    + rewrite rsum_rev. apply rsum_ext. intros i Hi. rewrite pow2_abs. replace (S j - 1 - i)%nat with (j - i)%nat by lia.
      replace (j - (j - i))%nat with i by lia. lra.
  - rewrite rsum_scal. replace (A ^ 2 * rsum n (fun i => x i ^ 2)) with (A * (A * rsum n (fun i => x i ^ 2))) by ring.
    apply Rmult_le_compat_l; auto.
    rewrite (rsum_triangle N (fun j u => x u ^ 2 * Rabs (h (j - u)%nat))).
    apply Rle_trans with (rsum N (fun u => x u ^ 2 * A)).
    + apply rsum_le. intros u Hu. rewrite rsum_scal. apply Rmult_le_compat_l; [apply pow2_ge_0|].
      rewrite (rsum_ext (N - u) _ (fun i => Rabs (h i))) by (intros; do 2 f_equal; lia).
      apply (rsum_cut (N - u) L (fun i => Rabs (h i))); intros; [apply Rabs_pos|]. rewrite Hh by auto. apply Rabs_R0.
    + rewrite rsum_scal_r, Rmult_comm. apply Rmult_le_compat_l; auto.
Qed.

(** ** Views *)
Lemma sig_view_end t s i : (sig_len t <= i)%nat -> sig_view t s i = 0.
Proof.
  unfold sig_len, sig_view. destruct (shape t) as [|a [|b [|? ?]]]; auto; intros H; unfold zext;
    match goal with |- context [(?x <? ?y)%nat] => destruct (Nat.ltb_spec x y) end; auto; lia.
Qed.
Lemma rir_view_lin a x b y s m i : wf x -> wf y -> shape x = shape y ->
  rir_view (lin_comb a x b y) s m i = a * rir_view x s m i + b * rir_view y s m i.
Proof.
  intros Hx Hy Hs. unfold rir_view. cbn [shape lin_comb]. rewrite <- Hs.
  pose proof (fun idx => tget_lin_comb a x b y idx Hx Hy Hs) as Ht.
  destruct (shape x) as [|n [|k [|l [|? ?]]]]; unfold zext; try lra;
    rewrite !Ht; match goal with |- context [(?u <? ?v)%nat] => destruct (u <? v)%nat end; lra.
Qed.
Lemma dyn_view_lin a x b y k s m i : wf x -> wf y -> shape x = shape y ->
  dyn_view (lin_comb a x b y) k s m i = a * dyn_view x k s m i + b * dyn_view y k s m i.
Proof.
  intros Hx Hy Hs. unfold dyn_view. cbn [shape lin_comb]. rewrite <- Hs.
  pose proof (fun idx => tget_lin_comb a x b y idx Hx Hy Hs) as Ht.
  destruct (shape x) as [|n [|p [|l [|q [|? ?]]]]]; unfold zext; try lra;
    rewrite !Ht; match goal with |- context [(?u <? ?v)%nat] => destruct (u <? v)%nat end; lra.
Qed.
Lemma tv_conv_lin_h a b x k g h z j : (forall t i, z t i = a * g t i + b * h t i) ->
  tv_conv x k z j = a * tv_conv x k g j + b * tv_conv x k h j.
Proof. intros H. unfold tv_conv. rewrite <- !rsum_scal, <- rsum_plus. apply rsum_ext. intros. rewrite H. lra. Qed.
Lemma same_shape_rirs x y : shape x = shape y ->
  dyn_steps x = dyn_steps y /\ dyn_srcs x = dyn_srcs y /\ dyn_mics x = dyn_mics y /\ rir_len x = rir_len y /\
  rir_srcs x = rir_srcs y /\ rir_mics x = rir_mics y.
Proof. intros H. unfold dyn_steps, dyn_srcs, dyn_mics, rir_len, rir_srcs, rir_mics. rewrite H. auto 10. Qed.
Lemma ranks_same s x y : shape x = shape y -> dyn_ranks_ok s x -> dyn_ranks_ok s y.
Proof. intros H. unfold dyn_ranks_ok, dyn_rank_ok, ndim. rewrite H. auto. Qed.
Lemma static_default signal rirs : static_ok signal rirs -> exists t, convolve_rir signal rirs = Ok t /\
  is_output t (rir_mics rirs) (sig_len signal + rir_len rirs - 1)
    (fun m j => rsum (rir_srcs rirs) (fun s => lin_conv (sig_view signal s) (rir_view rirs s m) j)).
Proof. intros (H1 & H2 & H3 & H4 & H5 & H6 & H7). apply convolve_rir_correct; auto. Qed.

Theorem static_linear_rirs a r b q x : shape r = shape q -> wf q -> static_ok x r ->
  exists tr tq, convolve_rir x r = Ok tr /\ convolve_rir x q = Ok tq /\
    convolve_rir x (lin_comb a r b q) = Ok (lin_comb a tr b tq).
Proof.
  intros Hs Wq Hr. assert (Wr : wf r) by apply Hr. destruct (same_shape_rirs r q Hs) as (E1 & E2 & E3 & E4 & E5 & E6).
  assert (Hq : static_ok x q).
  { destruct Hr as (H1 & H2 & H3 & H4 & H5 & H6 & H7). unfold rir_rank_ok, ndim in *. rewrite Hs in H2.
    repeat split; unfold rir_rank_ok, ndim; auto; congruence. }
  assert (Hz : static_ok x (lin_comb a r b q)).
  { destruct Hr as (H1 & H2 & H3 & H4 & H5 & H6 & H7). repeat split; auto. apply wf_lin_comb; auto. }
  destruct (static_default x r Hr) as (tr & Er & Or). destruct (static_default x q Hq) as (tq & Eq & Oq).
  destruct (static_default x _ Hz) as (tz & Ez & Oz). rewrite <- E4, <- E5, <- E6 in Oq.
  exists tr, tq. split; auto. split; auto. rewrite Ez. f_equal. eapply is_output_unique; [exact Oz|].
  eapply is_output_ext; [apply (is_output_lin a tr b tq _ _ _ _ Or Oq)|].
  intros m j Hm Hj. cbv beta. change (rir_srcs (lin_comb a r b q)) with (rir_srcs r).
  rewrite <- !rsum_scal, <- rsum_plus. apply rsum_ext. intros s Hss.
  unfold lin_conv. rewrite <- !rsum_scal, <- rsum_plus. apply rsum_ext. intros. rewrite rir_view_lin by auto. lra.
Qed.
Theorem traj_linear_rirs dev fs a r b q x : shape r = shape q -> wf q -> traj_ok dev x r ->
  exists tr tq, convolve_trajectory dev x r None fs = Ok tr /\ convolve_trajectory dev x q None fs = Ok tq /\
    convolve_trajectory dev x (lin_comb a r b q) None fs = Ok (lin_comb a tr b tq).
Proof.
  intros Hs Wq Hr. assert (Wr : wf r) by apply Hr. destruct (same_shape_rirs r q Hs) as (E1 & E2 & E3 & E4 & E5 & E6).
  assert (Hq : traj_ok dev x q).
  { destruct Hr as (H1 & H2 & H3 & H4 & H5 & H6 & H7). split; [eapply ranks_same; eauto|].
    rewrite <- E1, <- E2, <- E4. auto 10. }
  assert (Hz : traj_ok dev x (lin_comb a r b q)).
  { destruct Hr as (H1 & H2 & H3 & H4 & H5 & H6 & H7). split; [apply (ranks_same x r); auto|].
    split; auto. split; [apply wf_lin_comb; auto|]. auto. }
  destruct (traj_default dev x r fs Hr) as (w & tr & P & L & Es & Er & Or).
  destruct (traj_default dev x q fs Hq) as (w1 & tq & P1 & L1 & Es1 & Eq & Oq).
  destruct (traj_default dev x _ fs Hz) as (w2 & tz & P2 & L2 & Es2 & Ez & Oz).
  rewrite <- E1 in Es1. rewrite <- E2, <- E3, <- E4 in Oq. change (dyn_steps (lin_comb a r b q)) with (dyn_steps r) in Es2.
  assert (w1 = w) by congruence. assert (w2 = w) by congruence. subst w1 w2.
  exists tr, tq. split; auto. split; auto. rewrite Ez. f_equal. eapply is_output_unique; [exact Oz|].
  eapply is_output_ext; [apply (is_output_lin a tr b tq _ _ _ _ Or Oq)|].
  intros m j Hm Hj. cbv beta. change (dyn_srcs (lin_comb a r b q)) with (dyn_srcs r).
  rewrite <- !rsum_scal, <- rsum_plus. apply rsum_ext. intros s Hss. symmetry. apply tv_conv_lin_h. intros. apply dyn_view_lin; auto.
Qed.
Theorem hop_linear_rirs a r b q x H : shape r = shape q -> wf q -> hop_ok x r H ->
  exists tr tq, convolve_hop x r (Z.of_nat H) = Ok tr /\ convolve_hop x q (Z.of_nat H) = Ok tq /\
    convolve_hop x (lin_comb a r b q) (Z.of_nat H) = Ok (lin_comb a tr b tq).
Proof.
  intros Hs Wq Hr. assert (Wr : wf r) by apply Hr. destruct (same_shape_rirs r q Hs) as (E1 & E2 & E3 & E4 & E5 & E6).
  assert (Hq : hop_ok x q H).
  { destruct Hr as (H1 & H2 & H3 & H4 & H5 & H6 & H7 & H8 & H9 & H10). split; [eapply ranks_same; eauto|].
    rewrite <- E1, <- E2, <- E4. auto 12. }
  assert (Hz : hop_ok x (lin_comb a r b q) H).
  { destruct Hr as (H1 & H2 & H3 & H4 & H5 & H6 & H7 & H8 & H9 & H10). split; [apply (ranks_same x r); auto|].
    split; auto. split; [apply wf_lin_comb; auto|]. auto 12. }
  destruct (hop_default x r H Hr) as (tr & Er & Or). destruct (hop_default x q H Hq) as (tq & Eq & Oq).
  destruct (hop_default x _ H Hz) as (tz & Ez & Oz).
  rewrite <- E1, <- E2, <- E3, <- E4 in Oq.
  exists tr, tq. split; auto. split; auto. rewrite Ez. f_equal. eapply is_output_unique; [exact Oz|].
  eapply is_output_ext; [apply (is_output_lin a tr b tq _ _ _ _ Or Oq)|].
  intros m j Hm Hj. cbv beta. change (dyn_srcs (lin_comb a r b q)) with (dyn_srcs r). change (dyn_steps (lin_comb a r b q)) with (dyn_steps r).
  rewrite <- !rsum_scal, <- rsum_plus. apply rsum_ext. intros s Hss. symmetry. apply tv_conv_lin_h. intros. apply dyn_view_lin; auto.
Qed.
