(** Consequences of the convolution theorems: uniqueness, linearity, locality. *)
From Coq Require Import String List ZArith Reals Lia Lra Bool.
From Flocq Require Import Core.
From Verif Require Import Prelude PreludeFacts FloatModel FloatProofs SignalModel SignalSpec
  DftProofs SignalProofs TrajProofs SegProofs ConvProofs.
Import ListNotations.
Local Open Scope R_scope.

(** ** The active step *)
Lemma last_started_spec w T tau : (0 < T)%nat -> (nth 0 w 0 <= Z.of_nat tau)%Z ->
  (last_started w T tau < T)%nat /\ (nth (last_started w T tau) w 0 <= Z.of_nat tau)%Z /\
  forall t, (last_started w T tau < t < T)%nat -> (Z.of_nat tau < nth t w 0)%Z.
Proof.
  induction T; intros HT H0; [lia|]. cbn [last_started].
  destruct (Z.leb_spec (nth T w 0%Z) (Z.of_nat tau)).
  - repeat split; auto; lia.
  - destruct (Nat.eq_dec T 0) as [->|HT0]; [lia|].
    destruct (IHT ltac:(lia) H0) as (H1 & H2 & H3). repeat split; auto; try lia.
    intros t Ht. destruct (Nat.eq_dec t T); subst; auto. apply H3; lia.
Qed.
Lemma active_step_segment w n : partition_starts w n -> segment_of w n (active_step w).
Proof.
  intros (HT & H0 & Hm) tau Htau. unfold active_step.
  destruct (last_started_spec w (length w) tau HT ltac:(lia)) as (H1 & H2 & H3).
  split; auto. unfold seg_start. rewrite app_nth1 by auto. split; auto.
  destruct (Nat.eq_dec (S (last_started w (length w) tau)) (length w)) as [E|E].
  - rewrite app_nth2 by lia. rewrite E, Nat.sub_diag. cbn [nth]. lia.
  - rewrite app_nth1 by lia. apply H3. lia.
Qed.

(** ** Outputs are determined by their values *)
Lemma is_output_ext t M len f g : is_output t M len f ->
  (forall m j, (m < M)%nat -> (j < len)%nat -> f m j = g m j) -> is_output t M len g.
Proof. intros (H1 & H2 & H3) He. split; auto. split; auto. intros. rewrite H3, He; auto. Qed.

Lemma is_output_unique t t' M len f : is_output t M len f -> is_output t' M len f -> t = t'.
Proof.
  intros (S1 & W1 & V1) (S2 & W2 & V2).
  destruct t as [s d], t' as [s' d']. cbn [shape data] in *. subst s s'. f_equal.
  unfold wf in *. cbn [shape data] in *.
  apply nth_ext_R; [congruence|]. intros i Hi.
  unfold out_shape in *. unfold out_view, tget in *. cbn [shape data] in *.
  destruct (Nat.eqb_spec M 1) as [->|HM]; cbn [prodn fold_right ravel] in *.
  - specialize (V1 0%nat i ltac:(lia) ltac:(lia)). specialize (V2 0%nat i ltac:(lia) ltac:(lia)).
    replace (i * 1 + 0)%nat with i in * by lia. congruence.
  - assert (Hlen : (0 < len)%nat) by nia.
    pose proof (Nat.div_mod i len ltac:(lia)) as Hd.
    pose proof (Nat.mod_upper_bound i len ltac:(lia)) as Hmod.
    assert (Hq : (i / len < M)%nat) by (apply Nat.div_lt_upper_bound; nia).
    specialize (V1 (i / len)%nat (i mod len)%nat Hq Hmod).
    specialize (V2 (i / len)%nat (i mod len)%nat Hq Hmod).
    replace (i / len * (len * 1) + (i mod len * 1 + 0))%nat with i in * by lia. congruence.
Qed.

(** ** Linear combinations *)
Lemma nth_lin_comb a x b y i : length (data x) = length (data y) ->
  nth i (data (lin_comb a x b y)) 0 = a * nth i (data x) 0 + b * nth i (data y) 0.
Proof.
  intros H. unfold lin_comb; cbn [data]. destruct (Nat.lt_ge_cases i (length (data x))).
  - rewrite nth_map2 with (da := 0) (db := 0); auto; lia.
  - rewrite !nth_overflow; try lia; try lra. rewrite length_map2. lia.
Qed.
Lemma wf_lin_comb a x b y : wf x -> wf y -> shape x = shape y -> wf (lin_comb a x b y).
Proof.
  unfold wf. intros Hx Hy Hs. cbn [shape data lin_comb]. rewrite length_map2, Hx, Hy, Hs. lia.
Qed.
Lemma tget_lin_comb a x b y i : wf x -> wf y -> shape x = shape y ->
  tget (lin_comb a x b y) i = a * tget x i + b * tget y i.
Proof.
  intros Hx Hy Hs. unfold tget. rewrite nth_lin_comb by (unfold wf in *; congruence).
  cbn [shape lin_comb]. rewrite <- Hs. auto.
Qed.
Lemma sig_view_lin a x b y s i : wf x -> wf y -> shape x = shape y ->
  sig_view (lin_comb a x b y) s i = a * sig_view x s i + b * sig_view y s i.
Proof.
  intros Hx Hy Hs. unfold sig_view. cbn [shape lin_comb]. rewrite <- Hs.
  pose proof (fun idx => tget_lin_comb a x b y idx Hx Hy Hs) as Ht.
  destruct (shape x) as [|n [|m [|? ?]]]; unfold zext; [lra| | |lra];
    rewrite !Ht; match goal with |- context [(?u <? ?v)%nat] => destruct (u <? v)%nat end; lra.
Qed.
Lemma out_view_lin a x b y m j : wf x -> wf y -> shape x = shape y ->
  out_view (lin_comb a x b y) m j = a * out_view x m j + b * out_view y m j.
Proof.
  intros Hx Hy Hs. unfold out_view. cbn [shape lin_comb]. rewrite <- Hs.
  pose proof (fun idx => tget_lin_comb a x b y idx Hx Hy Hs) as Ht.
  destruct (shape x) as [|n [|? ?]]; apply Ht.
Qed.
Lemma is_output_lin a tx b ty M len f g :
  is_output tx M len f -> is_output ty M len g ->
  is_output (lin_comb a tx b ty) M len (fun m j => a * f m j + b * g m j).
Proof.
  intros (S1 & W1 & V1) (S2 & W2 & V2).
  assert (Hs : shape tx = shape ty) by congruence.
  split; [exact S1|]. split; [apply wf_lin_comb; auto|].
  intros m j Hm Hj. rewrite out_view_lin, V1, V2; auto.
Qed.
Lemma tv_conv_lin a x b y z k h j :
  (forall i, z i = a * x i + b * y i) -> tv_conv z k h j = a * tv_conv x k h j + b * tv_conv y k h j.
Proof.
  intros H. unfold tv_conv. rewrite <- !rsum_scal, <- rsum_plus. apply rsum_ext.
  intros. rewrite H. lra.
Qed.
Lemma lin_conv_lin a x b y z h j :
  (forall i, z i = a * x i + b * y i) -> lin_conv z h j = a * lin_conv x h j + b * lin_conv y h j.
Proof.
  intros H. unfold lin_conv. rewrite <- !rsum_scal, <- rsum_plus. apply rsum_ext.
  intros. rewrite H. lra.
Qed.

Lemma same_shape_views x y : shape x = shape y ->
  sig_rows x = sig_rows y /\ sig_len x = sig_len y /\ (sig_rank_ok x -> sig_rank_ok y).
Proof. intros H. unfold sig_rows, sig_len, sig_rank_ok, ndim. rewrite H. auto. Qed.

(** Preconditions of trajectory mode gathered. *)
Definition traj_ok (dev : device_type) (signal rirs : tensor) : Prop :=
  dyn_ranks_ok signal rirs /\ wf signal /\ wf rirs /\ (0 < rir_len rirs)%nat /\
  (sig_rows signal = 1%nat \/ sig_rows signal = dyn_srcs rirs) /\
  (0 < dyn_steps rirs)%nat /\ (Z.of_nat (dyn_steps rirs) <= 2 ^ (ts_prec dev - 2))%Z.
Definition hop_ok (signal rirs : tensor) (H : nat) : Prop :=
  dyn_ranks_ok signal rirs /\ wf signal /\ wf rirs /\ (0 < rir_len rirs)%nat /\
  (0 < sig_len signal)%nat /\ (0 < dyn_steps rirs)%nat /\
  (dyn_srcs rirs <= sig_rows signal)%nat /\ (0 < H)%nat /\
  (Z.of_nat (sig_len signal) < 2 ^ 53)%Z /\ (Z.of_nat H < 2 ^ 63)%Z.
Definition static_ok (signal rirs : tensor) : Prop :=
  sig_rank_ok signal /\ rir_rank_ok rirs /\ wf signal /\ wf rirs /\
  (0 < sig_len signal)%nat /\ (0 < rir_len rirs)%nat /\
  (sig_rows signal = 1%nat \/ sig_rows signal = rir_srcs rirs).

Lemma traj_default dev signal rirs fs : traj_ok dev signal rirs ->
  exists w t, partition_starts w (sig_len signal) /\ length w = dyn_steps rirs /\
    segment_starts dev (sig_len signal) (dyn_steps rirs) None fs = Ok w /\
    convolve_trajectory dev signal rirs None fs = Ok t /\
    is_output t (dyn_mics rirs) (sig_len signal + rir_len rirs - 1)
      (fun m j => rsum (dyn_srcs rirs) (fun s =>
         tv_conv (sig_view signal s) (active_step w) (fun t => dyn_view rirs t s m) j)).
Proof.
  intros (H1 & H2 & H3 & H4 & H5 & H6 & H7).
  destruct (default_partition dev (sig_len signal) (dyn_steps rirs) H6 H7 fs) as (w & Ew & Lw & Pw).
  destruct (trajectory_correct dev signal rirs None fs w (active_step w)) as (t & Et & Ot); auto.
  { apply active_step_segment; auto. }
  exists w, t. auto.
Qed.

Lemma hop_default signal rirs H : hop_ok signal rirs H -> exists t,
  convolve_hop signal rirs (Z.of_nat H) = Ok t /\
    is_output t (dyn_mics rirs)
      (H * Nat.min ((sig_len signal + H - 1) / H) (dyn_steps rirs) + rir_len rirs - 1)
      (fun m j => rsum (dyn_srcs rirs) (fun s =>
         tv_conv (fun tau => if (tau <? dyn_steps rirs * H)%nat then sig_view signal s tau else 0)
           (fun tau => (tau / H)%nat) (fun t => dyn_view rirs t s m) j)).
Proof. intros (H1 & H2 & H3 & H4 & H5 & H6 & H7 & H8 & H9 & H10). apply hop_correct; auto. Qed.

Lemma ok_transfer x y : shape x = shape y -> wf y -> forall rirs,
  (dyn_ranks_ok x rirs -> dyn_ranks_ok y rirs).
Proof.
  intros Hs Hw rirs (A & B & C). destruct (same_shape_views x y Hs) as (E1 & E2 & E3).
  split; auto. split; auto. rewrite <- E1. auto.
Qed.
Lemma traj_ok_same dev x y rirs : shape x = shape y -> wf y -> traj_ok dev x rirs -> traj_ok dev y rirs.
Proof.
  intros Hs Hw (H1 & H2 & H3 & H4 & H5 & H6 & H7). destruct (same_shape_views x y Hs) as (E1 & E2 & E3).
  split; [apply (ok_transfer x y); auto|]. rewrite <- E1. auto 10.
Qed.
Lemma hop_ok_same x y rirs H : shape x = shape y -> wf y -> hop_ok x rirs H -> hop_ok y rirs H.
Proof.
  intros Hs Hw (H1 & H2 & H3 & H4 & H5 & H6 & H7 & H8 & H9 & H10).
  destruct (same_shape_views x y Hs) as (E1 & E2 & E3).
  split; [apply (ok_transfer x y); auto|]. rewrite <- E1, <- E2. auto 12.
Qed.

Theorem traj_linear dev fs a x b y rirs : shape x = shape y -> wf y -> traj_ok dev x rirs ->
  exists tx ty, convolve_trajectory dev x rirs None fs = Ok tx /\
    convolve_trajectory dev y rirs None fs = Ok ty /\
    convolve_trajectory dev (lin_comb a x b y) rirs None fs = Ok (lin_comb a tx b ty).
Proof.
  intros Hs Wy Hx. assert (Wx : wf x) by apply Hx.
  pose proof (traj_ok_same dev x y rirs Hs Wy Hx) as Hy.
  assert (Hz : traj_ok dev (lin_comb a x b y) rirs).
  { apply (traj_ok_same dev x); auto. apply wf_lin_comb; auto. }
  destruct (traj_default dev x rirs fs Hx) as (w & tx & P & L & Es & Ex & Ox).
  destruct (traj_default dev y rirs fs Hy) as (w1 & ty & P1 & L1 & Es1 & Ey & Oy).
  destruct (traj_default dev _ rirs fs Hz) as (w2 & tz & P2 & L2 & Es2 & Ez & Oz).
  destruct (same_shape_views x y Hs) as (E1 & E2 & E3).
  assert (E2z : sig_len (lin_comb a x b y) = sig_len x) by reflexivity.
  rewrite <- E2 in *. rewrite E2z in *. 
  assert (w1 = w) by congruence. assert (w2 = w) by congruence. subst w1 w2.
  exists tx, ty. split; auto. split; auto. rewrite Ez. f_equal.
  eapply is_output_unique; [exact Oz|].
  eapply is_output_ext; [apply (is_output_lin a tx b ty _ _ _ _ Ox Oy)|].
  intros m j Hm Hj. cbv beta. rewrite <- !rsum_scal, <- rsum_plus. apply rsum_ext. intros s Hss.
  symmetry. apply tv_conv_lin. intros. apply sig_view_lin; auto.
Qed.

Theorem hop_linear a x b y rirs H : shape x = shape y -> wf y -> hop_ok x rirs H ->
  exists tx ty, convolve_hop x rirs (Z.of_nat H) = Ok tx /\
    convolve_hop y rirs (Z.of_nat H) = Ok ty /\
    convolve_hop (lin_comb a x b y) rirs (Z.of_nat H) = Ok (lin_comb a tx b ty).
Proof.
  intros Hs Wy Hx. assert (Wx : wf x) by apply Hx.
  pose proof (hop_ok_same x y rirs H Hs Wy Hx) as Hy.
  assert (Hz : hop_ok (lin_comb a x b y) rirs H).
  { apply (hop_ok_same x); auto. apply wf_lin_comb; auto. }
  destruct (hop_default x rirs H Hx) as (tx & Ex & Ox).
  destruct (hop_default y rirs H Hy) as (ty & Ey & Oy).
  destruct (hop_default _ rirs H Hz) as (tz & Ez & Oz).
  destruct (same_shape_views x y Hs) as (E1 & E2 & E3).
  assert (E2z : sig_len (lin_comb a x b y) = sig_len x) by reflexivity.
  rewrite <- E2 in *. rewrite E2z in *.
  exists tx, ty. split; auto. split; auto. rewrite Ez. f_equal.
  eapply is_output_unique; [exact Oz|].
  eapply is_output_ext; [apply (is_output_lin a tx b ty _ _ _ _ Ox Oy)|].
  intros m j Hm Hj. cbv beta. rewrite <- !rsum_scal, <- rsum_plus. apply rsum_ext. intros s Hss.
  symmetry. apply tv_conv_lin. intros. rewrite sig_view_lin by auto. destruct (i <? _)%nat; lra.
Qed.

(** ** Locality *)
Lemma dyn_view_zero rirs k s m i : (rir_len rirs <= i)%nat -> dyn_view rirs k s m i = 0.
Proof.
  unfold rir_len, dyn_view. destruct (shape rirs) as [|a [|b [|c [|e [|? ?]]]]]; cbn [last]; auto; intros H;
    unfold zext; match goal with |- context [(?x <? ?y)%nat] => destruct (Nat.ltb_spec x y) end; auto; lia.
Qed.
Lemma rir_view_zero rirs s m i : (rir_len rirs <= i)%nat -> rir_view rirs s m i = 0.
Proof.
  unfold rir_len, rir_view. destruct (shape rirs) as [|a [|b [|c [|? ?]]]]; cbn [last]; auto; intros H;
    unfold zext; match goal with |- context [(?x <? ?y)%nat] => destruct (Nat.ltb_spec x y) end; auto; lia.
Qed.

Theorem traj_local dev fs x y rirs m j : shape x = shape y -> wf y -> traj_ok dev x rirs ->
  agree_before (rir_len rirs) j x y -> (m < dyn_mics rirs)%nat -> (j < sig_len x + rir_len rirs - 1)%nat ->
  exists tx ty, convolve_trajectory dev x rirs None fs = Ok tx /\
    convolve_trajectory dev y rirs None fs = Ok ty /\ out_view tx m j = out_view ty m j.
Proof.
  intros Hs Wy Hx Ha Hm Hj. pose proof (traj_ok_same dev x y rirs Hs Wy Hx) as Hy.
  destruct (traj_default dev x rirs fs Hx) as (w & tx & P & L & Es & Ex & (_ & _ & Vx)).
  destruct (traj_default dev y rirs fs Hy) as (w1 & ty & P1 & L1 & Es1 & Ey & (_ & _ & Vy)).
  destruct (same_shape_views x y Hs) as (E1 & E2 & E3). rewrite <- E2 in *.
  assert (w1 = w) by congruence. subst w1.
  exists tx, ty. split; auto. split; auto. rewrite Vx, Vy by auto.
  apply rsum_ext. intros s Hss. apply rsum_ext. intros tau Ht.
  destruct (Nat.lt_ge_cases (j - tau) (rir_len rirs)).
  - rewrite Ha by lia. auto.
  - rewrite dyn_view_zero by auto. lra.
Qed.
Theorem hop_local x y rirs H m j : shape x = shape y -> wf y -> hop_ok x rirs H ->
  agree_before (rir_len rirs) j x y -> (m < dyn_mics rirs)%nat ->
  (j < H * Nat.min ((sig_len x + H - 1) / H) (dyn_steps rirs) + rir_len rirs - 1)%nat ->
  exists tx ty, convolve_hop x rirs (Z.of_nat H) = Ok tx /\
    convolve_hop y rirs (Z.of_nat H) = Ok ty /\ out_view tx m j = out_view ty m j.
Proof.
  intros Hs Wy Hx Ha Hm Hj. pose proof (hop_ok_same x y rirs H Hs Wy Hx) as Hy.
  destruct (hop_default x rirs H Hx) as (tx & Ex & (_ & _ & Vx)).
  destruct (hop_default y rirs H Hy) as (ty & Ey & (_ & _ & Vy)).
  destruct (same_shape_views x y Hs) as (E1 & E2 & E3). rewrite <- E2 in *.
  exists tx, ty. split; auto. split; auto. rewrite Vx, Vy by auto.
  apply rsum_ext. intros s Hss. apply rsum_ext. intros tau Ht.
  destruct (Nat.lt_ge_cases (j - tau) (rir_len rirs)).
  - rewrite Ha by lia. auto.
  - rewrite dyn_view_zero by auto. lra.
Qed.
Theorem static_local x y rirs m j : shape x = shape y -> wf y -> static_ok x rirs ->
  agree_before (rir_len rirs) j x y -> (m < rir_mics rirs)%nat -> (j < sig_len x + rir_len rirs - 1)%nat ->
  exists tx ty, convolve_rir x rirs = Ok tx /\ convolve_rir y rirs = Ok ty /\
    out_view tx m j = out_view ty m j.
Proof.
  intros Hs Wy (H1 & H2 & H3 & H4 & H5 & H6 & H7) Ha Hm Hj.
  destruct (same_shape_views x y Hs) as (E1 & E2 & E3).
  destruct (convolve_rir_correct x rirs H1 H2 H3 H4 H5 H6 H7) as (tx & Ex & (_ & _ & Vx)).
  rewrite E1 in H7. rewrite E2 in H5.
  destruct (convolve_rir_correct y rirs (E3 H1) H2 Wy H4 H5 H6 H7) as (ty & Ey & (_ & _ & Vy)).
  rewrite <- E2 in *.
  exists tx, ty. split; auto. split; auto. rewrite Vx, Vy by auto.
  apply rsum_ext. intros s Hss. apply rsum_ext. intros tau Ht.
  destruct (Nat.lt_ge_cases (j - tau) (rir_len rirs)).
  - rewrite Ha by lia. auto.
  - rewrite rir_view_zero by auto. lra.
Qed.

(** ** Constant RIRs *)
Lemma sig_view_zero x s i : (sig_len x <= i)%nat -> sig_view x s i = 0.
Proof.
  unfold sig_len, sig_view. destruct (shape x) as [|a [|b [|? ?]]]; auto; intros H;
    unfold zext; match goal with |- context [(?x <? ?y)%nat] => destruct (Nat.ltb_spec x y) end; auto; lia.
Qed.
Theorem traj_constant dev fs x dyn st : traj_ok dev x dyn -> rir_rank_ok st -> wf st ->
  (0 < sig_len x)%nat -> same_every_step dyn st ->
  convolve_trajectory dev x dyn None fs = convolve_rir x st.
Proof.
  intros Hx Rst Wst Hn (C1 & C2 & C3 & C4).
  destruct (traj_default dev x dyn fs Hx) as (w & tx & P & L & Es & Ex & Ox).
  destruct Hx as ((G1 & G2 & G3) & H2 & H3 & H4 & H5 & H6 & H7).
  rewrite C3 in H4. rewrite C1 in H5.
  destruct (convolve_rir_correct x st G1 Rst H2 Wst Hn H4 H5) as (ty & Ey & Oy).
  rewrite Ex, Ey. f_equal. eapply is_output_unique; [|exact Oy].
  rewrite <- C2, <- C3. eapply is_output_ext; [exact Ox|]. intros m j Hm Hj. cbv beta.
  rewrite C1. apply rsum_ext. intros s Hs. apply rsum_ext. intros tau Ht.
  destruct (Nat.lt_ge_cases tau (sig_len x)).
  - f_equal. apply C4; auto; try lia.
    rewrite <- L. apply (active_step_segment w _ P); auto.
  - rewrite sig_view_zero by auto. lra.
Qed.
Theorem hop_constant x dyn st H : hop_ok x dyn H -> rir_rank_ok st -> wf st ->
  (sig_rows x = 1%nat \/ sig_rows x = rir_srcs st) ->
  (sig_len x <= dyn_steps dyn * H)%nat -> same_every_step dyn st ->
  exists th ts, convolve_hop x dyn (Z.of_nat H) = Ok th /\ convolve_rir x st = Ok ts /\
    forall m, (m < rir_mics st)%nat ->
      (forall j, (j < sig_len x + rir_len st - 1)%nat -> out_view th m j = out_view ts m j) /\
      (forall j, (sig_len x + rir_len st - 1 <= j)%nat ->
         (j < H * ((sig_len x + H - 1) / H) + rir_len st - 1)%nat -> out_view th m j = 0).
Proof.
  intros Hx Rst Wst Hr Hcov (C1 & C2 & C3 & C4).
  destruct (hop_default x dyn H Hx) as (th & Eh & (_ & _ & Vh)).
  destruct Hx as ((G1 & G2 & G3) & H2 & H3 & H4 & H5 & H6 & H7 & H8 & H9 & H10).
  destruct (convolve_rir_correct x st) as (ts & Es & (_ & _ & Vs)); auto.
  { rewrite <- C3; auto. }
  exists th, ts. split; auto. split; auto.
  rewrite C2, C3 in Vh.
  assert (Hceil : ((sig_len x + H - 1) / H <= dyn_steps dyn)%nat).
  { apply Nat.lt_succ_r. apply Nat.div_lt_upper_bound; [lia|]. nia. }
  rewrite Nat.min_l in Vh by auto.
  assert (Hc2 : (sig_len x <= H * ((sig_len x + H - 1) / H))%nat).
  { pose proof (Nat.div_mod (sig_len x + H - 1) H ltac:(lia)).
    pose proof (Nat.mod_upper_bound (sig_len x + H - 1) H ltac:(lia)). lia. }
  intros m Hm. split.
  - intros j Hj. rewrite Vh, Vs by (auto; lia). rewrite C1. apply rsum_ext. intros s Hss.
    apply rsum_ext. intros tau Ht.
    destruct (Nat.lt_ge_cases tau (sig_len x)).
    + destruct (Nat.ltb_spec tau (dyn_steps dyn * H)); [|lia].
      f_equal. apply C4; auto. apply Nat.div_lt_upper_bound; lia.
    + rewrite sig_view_zero by auto. destruct (tau <? _)%nat; lra.
  - intros j Hj1 Hj2. rewrite Vh by auto. apply rsum_zero. intros s Hss. apply rsum_zero. intros tau Ht.
    destruct (Nat.lt_ge_cases tau (sig_len x)).
    + rewrite dyn_view_zero; [lra|]. lia.
    + rewrite sig_view_zero by auto. destruct (tau <? _)%nat; lra.
Qed.

(** ** Stems *)
Lemma source_alone_props signal rirs s x1 r1 : source_alone signal rirs s x1 r1 ->
  sig_len x1 = sig_len signal /\ dyn_steps r1 = dyn_steps rirs /\ dyn_mics r1 = dyn_mics rirs /\
  rir_len r1 = rir_len rirs /\ dyn_srcs r1 = 1%nat /\ sig_rows x1 = 1%nat.
Proof.
  intros (W1 & W2 & S1 & S2 & _ & _).
  unfold sig_len, dyn_steps, dyn_mics, rir_len, dyn_srcs, sig_rows in *. rewrite S1, S2. cbn. auto 10.
Qed.
Theorem traj_stems dev fs signal rirs (x1 r1 : nat -> tensor) :
  traj_ok dev signal rirs ->
  (forall s, (s < dyn_srcs rirs)%nat -> source_alone signal rirs s (x1 s) (r1 s)) ->
  exists mix (stem : nat -> tensor), convolve_trajectory dev signal rirs None fs = Ok mix /\
    (forall s, (s < dyn_srcs rirs)%nat -> convolve_trajectory dev (x1 s) (r1 s) None fs = Ok (stem s)) /\
    forall m j, (m < dyn_mics rirs)%nat -> (j < sig_len signal + rir_len rirs - 1)%nat ->
      out_view mix m j = rsum (dyn_srcs rirs) (fun s => out_view (stem s) m j).
Proof.
  intros Hx Hst.
  destruct (traj_default dev signal rirs fs Hx) as (w & mix & P & L & Es & Ex & (_ & _ & Vx)).
  exists mix, (fun s => match convolve_trajectory dev (x1 s) (r1 s) None fs with Ok t => t | Err _ => mix end).
  split; auto.
  assert (Hs : forall s, (s < dyn_srcs rirs)%nat -> exists t,
    convolve_trajectory dev (x1 s) (r1 s) None fs = Ok t /\
    forall m j, (m < dyn_mics rirs)%nat -> (j < sig_len signal + rir_len rirs - 1)%nat ->
      out_view t m j = tv_conv (sig_view signal s) (active_step w) (fun t => dyn_view rirs t s m) j).
  { intros s Hs. specialize (Hst s Hs). destruct (source_alone_props _ _ _ _ _ Hst) as (Q1 & Q2 & Q3 & Q4 & Q5 & Q6).
    destruct Hst as (W1 & W2 & S1 & S2 & X1 & R1).
    destruct Hx as (H1 & H2 & H3 & H4 & H5 & H6 & H7).
    assert (Hok : traj_ok dev (x1 s) (r1 s)).
    { split; [split; [|split]|].
      - right. unfold ndim. rewrite S1. auto.
      - right. right. unfold ndim. rewrite S2. auto.
      - auto.
      - rewrite Q2, Q4, Q5, Q6. auto 10. }
    destruct (traj_default dev _ _ fs Hok) as (w1 & t & P1 & L1 & Es1 & E1 & (_ & _ & V1)).
    rewrite Q1, Q2, Q3, Q4, Q5 in *. assert (w1 = w) by congruence. subst w1.
    exists t. split; auto. intros m j Hm Hj. rewrite V1 by auto. simpl rsum. rewrite Rplus_0_l.
    apply rsum_ext. intros tau Ht. rewrite X1.
    destruct (Nat.lt_ge_cases tau (sig_len signal)).
    - f_equal. apply R1; auto. rewrite <- L. apply (active_step_segment w _ P); auto.
    - rewrite sig_view_zero by auto. lra. }
  split.
  - intros s Hss. destruct (Hs s Hss) as (t & E & _). rewrite E. auto.
  - intros m j Hm Hj. rewrite Vx by auto. apply rsum_ext. intros s Hss.
    destruct (Hs s Hss) as (t & E & V). rewrite E. rewrite V by auto. auto.
Qed.
Theorem hop_stems signal rirs H (x1 r1 : nat -> tensor) :
  hop_ok signal rirs H ->
  (forall s, (s < dyn_srcs rirs)%nat -> source_alone signal rirs s (x1 s) (r1 s)) ->
  exists mix (stem : nat -> tensor), convolve_hop signal rirs (Z.of_nat H) = Ok mix /\
    (forall s, (s < dyn_srcs rirs)%nat -> convolve_hop (x1 s) (r1 s) (Z.of_nat H) = Ok (stem s)) /\
    forall m j, (m < dyn_mics rirs)%nat ->
      (j < H * Nat.min ((sig_len signal + H - 1) / H) (dyn_steps rirs) + rir_len rirs - 1)%nat ->
      out_view mix m j = rsum (dyn_srcs rirs) (fun s => out_view (stem s) m j).
Proof.
  intros Hx Hst.
  destruct (hop_default signal rirs H Hx) as (mix & Ex & (_ & _ & Vx)).
  exists mix, (fun s => match convolve_hop (x1 s) (r1 s) (Z.of_nat H) with Ok t => t | Err _ => mix end).
  split; auto.
  assert (Hs : forall s, (s < dyn_srcs rirs)%nat -> exists t,
    convolve_hop (x1 s) (r1 s) (Z.of_nat H) = Ok t /\
    forall m j, (m < dyn_mics rirs)%nat ->
      (j < H * Nat.min ((sig_len signal + H - 1) / H) (dyn_steps rirs) + rir_len rirs - 1)%nat ->
      out_view t m j = tv_conv (fun tau => if (tau <? dyn_steps rirs * H)%nat then sig_view signal s tau else 0)
         (fun tau => (tau / H)%nat) (fun t => dyn_view rirs t s m) j).
  { intros s Hs. specialize (Hst s Hs). destruct (source_alone_props _ _ _ _ _ Hst) as (Q1 & Q2 & Q3 & Q4 & Q5 & Q6).
    destruct Hst as (W1 & W2 & S1 & S2 & X1 & R1).
    destruct Hx as (H1 & H2 & H3 & H4 & H5 & H6 & H7 & H8 & H9 & H10).
    assert (Hok : hop_ok (x1 s) (r1 s) H).
    { split; [split; [|split]|].
      - right. unfold ndim. rewrite S1. auto.
      - right. right. unfold ndim. rewrite S2. auto.
      - auto.
      - rewrite Q1, Q2, Q4, Q5, Q6. auto 12. }
    destruct (hop_default _ _ H Hok) as (t & E1 & (_ & _ & V1)).
    rewrite Q1, Q2, Q3, Q4, Q5 in *.
    exists t. split; auto. intros m j Hm Hj. rewrite V1 by auto. simpl rsum at 1. rewrite Rplus_0_l.
    apply rsum_ext. intros tau Ht. destruct (Nat.ltb_spec tau (dyn_steps rirs * H)); [|lra].
    rewrite X1. f_equal. apply R1; auto. apply Nat.div_lt_upper_bound; lia. }
  split.
  - intros s Hss. destruct (Hs s Hss) as (t & E & _). rewrite E. auto.
  - intros m j Hm Hj. rewrite Vx by auto. apply rsum_ext. intros s Hss.
    destruct (Hs s Hss) as (t & E & V). rewrite E. rewrite V by auto. auto.
Qed.

(** CUDA/MPS and CPU compute the same (same rounding of the segment starts assumed equal). *)
Theorem batched_eq_cpu_edge n ns sig T n_src M L rirs starts chunk :
  length sig = (ns * n)%nat -> length rirs = (T * n_src * M * L)%nat ->
  (ns = 1 \/ ns = n_src)%nat -> (1 <= n + L)%nat -> length starts = T -> partition_starts starts n ->
  (0 < chunk)%nat ->
  conv_traj_batched n ns sig T n_src M L rirs (with_end starts n) chunk
  = conv_traj_cpu n ns sig T n_src M L rirs (with_end starts n).
Proof.
  intros H1 H2 H3 H4 H5 H6 H7.
  destruct (conv_traj_cpu_ok n ns sig T n_src M L rirs starts) as (r & E & O); auto.
  destruct (conv_traj_batched_ok n ns sig T n_src M L rirs starts H1 H2 H3 H4 H5 H6 chunk H7) as (r' & E' & O').
  rewrite E, E'. f_equal. eapply is_output_unique; eauto.
Qed.
Theorem batched_eq_cpu n ns sig T n_src M L rirs starts chunk :
  length sig = (ns * n)%nat -> length rirs = (T * n_src * M * L)%nat ->
  (ns = 1 \/ ns = n_src)%nat -> (0 < L)%nat -> length starts = T -> partition_starts starts n ->
  (0 < chunk)%nat ->
  conv_traj_batched n ns sig T n_src M L rirs (with_end starts n) chunk
  = conv_traj_cpu n ns sig T n_src M L rirs (with_end starts n).
Proof. intros. apply batched_eq_cpu_edge; auto. lia. Qed.

(** ** binary64 evaluation of a concrete quotient *)
Lemma rnd64_eval x m e : (-1074 <= e)%Z -> bpow radix2 (e + 52) <= x < bpow radix2 (e + 53) ->
  Rabs (x * bpow radix2 (- e) - IZR m) < / 2 -> rnd64 x = IZR m * bpow radix2 e.
Proof.
  intros He Hx Hm. unfold rnd64, round. 
  assert (Hmag : mag radix2 x = (e + 53)%Z :> Z).
  { apply mag_unique. rewrite Rabs_pos_eq by (pose proof (bpow_ge_0 radix2 (e + 52)); lra).
    replace (e + 53 - 1)%Z with (e + 52)%Z by lia. auto. }
  assert (Hc : cexp radix2 fexp64 x = e).
  { unfold cexp, fexp64, FLT_exp. rewrite Hmag. lia. }
  unfold scaled_mantissa. rewrite Hc. rewrite (Znearest_imp _ _ m) by auto. reflexivity.
Qed.

Lemma ts_witness : truncZ (rnd64 (rnd64 (INR 1001 / 16000) * 16000)) = 1000%Z.
Proof.
  replace (INR 1001) with 1001 by (rewrite INR_IZR_INZ; reflexivity).
  rewrite (rnd64_eval (1001 / 16000) 4508103226997866 (-56)); [|lia| |].
  2:{ change (bpow radix2 (-56 + 52)) with (/ 16). change (bpow radix2 (-56 + 53)) with (/ 8). lra. }
  2:{ change (bpow radix2 (- -56)) with (IZR (2 ^ 56)).
      apply Rabs_def1; cbn [Z.pow Z.pow_pos Pos.iter Z.mul Pos.mul]; lra. }
  rewrite (rnd64_eval _ 8804889115230207 (-43)); [|lia| |].
  - rewrite truncZ_nonneg.
    + apply floorZ_unique. change (bpow radix2 (-43)) with (/ IZR (2 ^ 43)).
      cbn [Z.pow Z.pow_pos Pos.iter Z.mul Pos.mul]. lra.
    + change (bpow radix2 (-43)) with (/ IZR (2 ^ 43)).
      cbn [Z.pow Z.pow_pos Pos.iter Z.mul Pos.mul]. lra.
  - change (bpow radix2 (-43 + 52)) with 512. change (bpow radix2 (-43 + 53)) with 1024.
    change (bpow radix2 (-56)) with (/ IZR (2 ^ 56)).
    cbn [Z.pow Z.pow_pos Pos.iter Z.mul Pos.mul]. lra.
  - change (bpow radix2 (- -43)) with (IZR (2 ^ 43)).
    change (bpow radix2 (-56)) with (/ IZR (2 ^ 56)).
    apply Rabs_def1; cbn [Z.pow Z.pow_pos Pos.iter Z.mul Pos.mul]; lra.
Qed.
