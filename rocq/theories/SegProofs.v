(** Floating-point segment starts and hop frame counts. *)
From Coq Require Import List ZArith Reals Lia Lra Bool.
From Flocq Require Import Core.
From Verif Require Import Prelude PreludeFacts FloatModel FloatProofs SignalModel SignalSpec.
Import ListNotations.
Local Open Scope R_scope.

(** Precision in bits of the timestamp dtype. *)
Definition ts_prec (d : device_type) : Z := match d with Mps => 24 | _ => 53 end.

Lemma ts_round_le d x y : x <= y -> ts_round d x <= ts_round d y.
Proof. destruct d; simpl; [apply rnd64_le|apply rnd64_le|apply rnd32_le]. Qed.
Lemma ts_round_0 d : ts_round d 0 = 0.
Proof. destruct d; simpl; [apply rnd64_0|apply rnd64_0|apply rnd32_0]. Qed.
Lemma ts_round_nonneg d x : 0 <= x -> 0 <= ts_round d x.
Proof. intros. rewrite <- (ts_round_0 d). apply ts_round_le; auto. Qed.
Lemma ts_round_INR d k : (Z.of_nat k <= 2 ^ ts_prec d)%Z -> ts_round d (INR k) = INR k.
Proof. destruct d; simpl ts_prec; simpl ts_round; intros; [apply rnd64_INR|apply rnd64_INR|apply rnd32_INR]; auto. Qed.
Lemma ts_round_upper d x : bpow radix2 (-126) <= x -> ts_round d x <= x * (1 + / IZR (2 ^ ts_prec d)).
Proof.
  intros H. assert (bpow radix2 (-1022) <= x) by (eapply Rle_trans; [apply bpow_le|exact H]; lia).
  destruct d; simpl ts_round; simpl ts_prec; [apply rnd64_upper|apply rnd64_upper|apply rnd32_upper]; auto.
Qed.
Lemma ts_round_lower d x : bpow radix2 (-126) <= x -> x * (1 - / IZR (2 ^ ts_prec d)) <= ts_round d x.
Proof.
  intros H. assert (bpow radix2 (-1022) <= x) by (eapply Rle_trans; [apply bpow_le|exact H]; lia).
  destruct d; simpl ts_round; simpl ts_prec; [apply rnd64_lower|apply rnd64_lower|apply rnd32_lower]; auto.
Qed.

Section Default.
  Variables (d : device_type) (n T : nat).
  Hypothesis HT : (0 < T)%nat.
  Hypothesis HTb : (Z.of_nat T <= 2 ^ (ts_prec d - 2))%Z.
  Let step := ts_round d (rnd64 (INR n / INR T)).
  Let v (t : nat) := ts_round d (ts_round d (INR t) * step).
  Let u := / IZR (2 ^ ts_prec d).

  Lemma u_bounds : 0 < u <= / IZR (2 ^ 24) /\ / IZR (2 ^ 53) <= u.
  Proof.
    unfold u. destruct d; simpl ts_prec; repeat split;
      try (apply Rinv_0_lt_compat; apply IZR_lt; reflexivity);
      try (apply Rinv_le_contravar; [apply IZR_lt; reflexivity| apply IZR_le; discriminate]);
      try lra.
  Qed.
  Lemma T_INR_pos : 0 < INR T.
  Proof. apply lt_0_INR; auto. Qed.
  Lemma inv_T_ge : 4 * u <= / INR T.
  Proof.
    pose proof T_INR_pos.
    assert (E : INR T <= IZR (2 ^ (ts_prec d - 2))) by (rewrite INR_IZR_INZ; apply IZR_le; auto).
    assert (E2 : IZR (2 ^ ts_prec d) = 4 * IZR (2 ^ (ts_prec d - 2))).
    { rewrite <- mult_IZR. f_equal. destruct d; reflexivity. }
    unfold u. rewrite E2. rewrite Rinv_mult. 
    apply Rinv_le_contravar in E; auto. lra.
  Qed.
  Lemma quot_small : (0 < n)%nat -> bpow radix2 (-60) <= INR n / INR T.
  Proof.
    intros Hn. assert (1 <= INR n) by (replace 1 with (INR 1) by auto; apply le_INR; lia).
    pose proof T_INR_pos. pose proof inv_T_ge. pose proof u_bounds as [_ Hu].
    assert (bpow radix2 (-60) <= / IZR (2 ^ 53)).
    { change (-60)%Z with (- (60))%Z. rewrite bpow_neg_inv by lia.
      apply Rinv_le_contravar; [apply IZR_lt; reflexivity|apply IZR_le; discriminate]. }
    unfold Rdiv. assert (0 < / INR T) by (apply Rinv_0_lt_compat; auto). nra.
  Qed.
  Lemma bpow_chain k m x : (k <= m)%Z -> bpow radix2 m <= x -> bpow radix2 k <= x.
  Proof. intros. eapply Rle_trans; [apply bpow_le; eauto|auto]. Qed.
  Lemma bpow_half k x y : bpow radix2 (k + 1) <= x -> x * (1 - / IZR (2 ^ 24)) <= y -> bpow radix2 k <= y.
  Proof.
    intros H1 H2. rewrite bpow_plus in H1. change (bpow radix2 1) with 2 in H1.
    pose proof (bpow_gt_0 radix2 k).
    assert (/ IZR (2 ^ 24) <= / 2) by (apply Rinv_le_contravar; [lra|apply IZR_le; discriminate]).
    nra.
  Qed.
  Lemma step_bounds : (0 < n)%nat ->
    bpow radix2 (-62) <= step /\ step <= INR n / INR T * (1 + u) * (1 + u) /\
    INR n / INR T * (1 - u) * (1 - u) <= step.
  Proof.
    intros Hn. pose proof (quot_small Hn) as Hq. pose proof u_bounds as [[Hu0 Hu1] Hu2].
    set (q := INR n / INR T) in *.
    assert (Hq0 : 0 < q) by (pose proof (bpow_gt_0 radix2 (-60)); lra).
    assert (A1 : rnd64 q <= q * (1 + u)).
    { pose proof (rnd64_upper q ltac:(eapply bpow_chain; [|exact Hq]; lia)). nra. }
    assert (A2 : q * (1 - u) <= rnd64 q).
    { pose proof (rnd64_lower q ltac:(eapply bpow_chain; [|exact Hq]; lia)). nra. }
    assert (H61 : bpow radix2 (-61) <= rnd64 q).
    { apply (bpow_half _ q); auto. nra. }
    assert (Hs1 := ts_round_upper d (rnd64 q) ltac:(eapply bpow_chain; [|exact H61]; lia)).
    assert (Hs2 := ts_round_lower d (rnd64 q) ltac:(eapply bpow_chain; [|exact H61]; lia)).
    fold u in Hs1, Hs2. fold step in Hs1, Hs2.
    assert (H62 : bpow radix2 (-62) <= step).
    { apply (bpow_half _ (rnd64 q)); auto. 
      assert (0 < rnd64 q) by (pose proof (bpow_gt_0 radix2 (-61)); lra). nra. }
    repeat split; auto; nra.
  Qed.
  Lemma step_nonneg : 0 <= step.
  Proof.
    apply ts_round_nonneg, rnd64_nonneg. pose proof T_INR_pos.
    apply Rmult_le_pos; [apply pos_INR|]. left; apply Rinv_0_lt_compat; auto.
  Qed.
  Lemma pow_prec_le : (2 ^ (ts_prec d - 2) <= 2 ^ ts_prec d)%Z.
  Proof. destruct d; simpl; lia. Qed.
  Lemma v_eq t : (t <= T)%nat -> v t = ts_round d (INR t * step).
  Proof. intros. unfold v. rewrite ts_round_INR; auto. pose proof pow_prec_le. lia. Qed.
  Lemma v_nonneg t : (t <= T)%nat -> 0 <= v t.
  Proof.
    intros. rewrite v_eq by auto. apply ts_round_nonneg. apply Rmult_le_pos; [apply pos_INR|apply step_nonneg].
  Qed.
  Lemma v_0 : v 0 = 0.
  Proof. rewrite v_eq by lia. simpl INR. rewrite Rmult_0_l. apply ts_round_0. Qed.
  Lemma v_mono t t' : (t <= t')%nat -> (t' <= T)%nat -> v t <= v t'.
  Proof.
    intros. rewrite !v_eq by lia. apply ts_round_le. apply Rmult_le_compat_r; [apply step_nonneg|].
    apply le_INR; auto.
  Qed.
  (** Each start is within a relative error of three roundings of [t*n/T]. *)
  Lemma v_bounds t : (t <= T)%nat ->
    INR t * (INR n / INR T) * ((1 - u) * (1 - u) * (1 - u)) <= v t
     <= INR t * (INR n / INR T) * ((1 + u) * (1 + u) * (1 + u)).
  Proof.
    intros Ht. destruct (Nat.eq_dec t 0) as [->|Ht0].
    { rewrite v_0. simpl INR. lra. }
    destruct (Nat.eq_dec n 0) as [En|Hn0].
    { rewrite v_eq by auto. unfold step. rewrite En. simpl INR. unfold Rdiv.
      rewrite Rmult_0_l, rnd64_0, ts_round_0, Rmult_0_r, ts_round_0. lra. }
    destruct (step_bounds ltac:(lia)) as (S1 & S2 & S3).
    pose proof u_bounds as [[Hu0 Hu1] Hu2].
    assert (1 <= INR t) by (replace 1 with (INR 1) by auto; apply le_INR; lia).
    assert (Hs0 : 0 < step) by (pose proof (bpow_gt_0 radix2 (-62)); lra).
    assert (Hx : bpow radix2 (-62) <= INR t * step) by nra.
    rewrite v_eq by auto.
    pose proof (ts_round_upper d (INR t * step) ltac:(eapply bpow_chain; [|exact Hx]; lia)) as U.
    pose proof (ts_round_lower d (INR t * step) ltac:(eapply bpow_chain; [|exact Hx]; lia)) as Lo.
    fold u in U, Lo.
    assert (u < 1).
    { assert (/ IZR (2 ^ 24) <= / 2) by (apply Rinv_le_contravar; [lra|apply IZR_le; discriminate]). lra. }
    split.
    - apply Rle_trans with (INR t * step * (1 - u)); auto.
      replace (INR t * (INR n / INR T) * ((1 - u) * (1 - u) * (1 - u)))
        with (INR t * (INR n / INR T * (1 - u) * (1 - u)) * (1 - u)) by ring.
      apply Rmult_le_compat_r; [lra|]. apply Rmult_le_compat_l; lra.
    - apply Rle_trans with (INR t * step * (1 + u)); auto.
      replace (INR t * (INR n / INR T) * ((1 + u) * (1 + u) * (1 + u)))
        with (INR t * (INR n / INR T * (1 + u) * (1 + u)) * (1 + u)) by ring.
      apply Rmult_le_compat_r; [lra|]. apply Rmult_le_compat_l; lra.
  Qed.
  Lemma v_le_n t : (t < T)%nat -> v t <= INR n.
  Proof.
    intros Ht. destruct (v_bounds t ltac:(lia)) as [_ U].
    eapply Rle_trans; [exact U|].
    pose proof T_INR_pos. pose proof inv_T_ge as Hi. pose proof u_bounds as [[Hu0 Hu1] Hu2].
    assert (Hu8 : u <= / 8).
    { eapply Rle_trans; [exact Hu1|]. apply Rinv_le_contravar; [lra|apply IZR_le; discriminate]. }
    assert (Hc : (1 + u) * (1 + u) * (1 + u) <= 1 + 4 * u) by nra.
    assert (Ht1 : INR t <= INR T - 1).
    { replace (INR T - 1) with (INR (T - 1)) by (rewrite minus_INR by lia; auto). apply le_INR; lia. }
    assert (Hr : INR t * (INR n / INR T) <= INR n * (1 - / INR T)).
    { replace (INR n * (1 - / INR T)) with ((INR T - 1) * (INR n / INR T)) by (field; lra).
      apply Rmult_le_compat_r; auto. apply Rmult_le_pos; [apply pos_INR|]. left; apply Rinv_0_lt_compat; auto. }
    assert (0 <= INR n) by apply pos_INR.
    assert (0 <= INR t * (INR n / INR T)).
    { apply Rmult_le_pos; [apply pos_INR|]. apply Rmult_le_pos; auto. left; apply Rinv_0_lt_compat; auto. }
    apply Rle_trans with (INR n * (1 - / INR T) * (1 + 4 * u)).
    - apply Rmult_le_compat; auto. nra.
    - assert (0 < / INR T) by (apply Rinv_0_lt_compat; auto). 
      assert ((1 - / INR T) * (1 + 4 * u) <= 1) by nra. nra.
  Qed.

  Lemma default_starts fs : exists w, segment_starts d n T None fs = Ok w /\ length w = T /\
    (forall t, (t < T)%nat -> nth t w 0%Z = floorZ (v t)).
  Proof.
    unfold segment_starts. destruct (Nat.eqb_spec T 0); [lia|].
    eexists; split; [reflexivity|]. split; [apply length_tabulate|].
    intros t Ht. rewrite nth_tabulate by auto. apply truncZ_nonneg. apply v_nonneg. lia.
  Qed.
  Theorem default_partition fs : exists w, segment_starts d n T None fs = Ok w /\ length w = T /\
    partition_starts w n.
  Proof.
    destruct (default_starts fs) as (w & E & L & Hw). exists w. split; auto. split; auto.
    split; [lia|]. split.
    - rewrite Hw by auto. rewrite v_0. apply (floorZ_IZR 0).
    - intros k Hk. unfold seg_start. rewrite L in Hk. rewrite app_nth1 by lia. rewrite Hw by auto.
      destruct (Nat.eq_dec (S k) T).
      + rewrite app_nth2 by lia. rewrite L, e, Nat.sub_diag. cbn [nth].
        rewrite <- (floorZ_IZR (Z.of_nat n)). apply floorZ_mono. rewrite <- INR_IZR_INZ.
        apply v_le_n; auto.
      + rewrite app_nth1 by lia. rewrite Hw by lia. apply floorZ_mono. apply v_mono; lia.
  Qed.
  (** When [T] divides [n] (and [n] is representable) the starts are exact. *)
  Theorem default_exact fs q : n = (T * q)%nat -> (Z.of_nat n <= 2 ^ ts_prec d)%Z ->
    forall w, segment_starts d n T None fs = Ok w ->
    forall t, (t < T)%nat -> nth t w 0%Z = Z.of_nat (t * q).
  Proof.
    intros Hn Hb w Hw t Ht. destruct (default_starts fs) as (w' & E & L & Hv).
    rewrite E in Hw. injection Hw as <-. rewrite Hv by auto. rewrite v_eq by lia.
    pose proof T_INR_pos.
    assert (Hq : (q <= n)%nat) by nia.
    assert (Es : step = INR q).
    { unfold step. rewrite Hn, mult_INR. replace (INR T * INR q / INR T) with (INR q) by (field; lra).
      rewrite rnd64_INR. apply ts_round_INR. lia.
      transitivity (Z.of_nat n); [lia|]. etransitivity; [exact Hb|]. destruct d; simpl; lia. }
    rewrite Es, <- mult_INR, ts_round_INR by nia.
    rewrite INR_IZR_INZ. apply floorZ_IZR.
  Qed.
End Default.

(** ** Hop frame count *)
Lemma hop_frames_ok n H : (Z.of_nat n < 2 ^ 53)%Z -> (0 < H < 2 ^ 63)%Z ->
  hop_frames n H = Ok ((Z.of_nat n + H - 1) / H)%Z.
Proof.
  intros Hn HH. unfold hop_frames. destruct (Z.eqb_spec H 0); [lia|]. f_equal.
  assert (HP : 0 < IZR H) by (apply IZR_lt; lia).
  destruct (Nat.eq_dec n 0) as [->|Hn0].
  { simpl INR. unfold Rdiv. rewrite Rmult_0_l, rnd64_0. rewrite (ceilZ_IZR 0).
    symmetry. apply Z.div_small. lia. }
  set (q := ((Z.of_nat n + H - 1) / H)%Z).
  assert (Hq1 : ((q - 1) * H < Z.of_nat n)%Z).
  { unfold q. pose proof (Z.mul_div_le (Z.of_nat n + H - 1) H ltac:(lia)). nia. }
  assert (Hq2 : (Z.of_nat n <= q * H)%Z).
  { unfold q. pose proof (Z.mod_pos_bound (Z.of_nat n + H - 1) H ltac:(lia)).
    pose proof (Z.div_mod (Z.of_nat n + H - 1) H ltac:(lia)). nia. }
  assert (Hq0 : (1 <= q <= Z.of_nat n)%Z) by nia.
  apply ceilZ_unique.
  set (x := INR n / IZR H).
  assert (Ex : x * IZR H = INR n) by (unfold x; field; lra).
  assert (Hxq : x <= IZR q).
  { apply Rmult_le_reg_r with (IZR H); auto. rewrite Ex, INR_IZR_INZ, <- mult_IZR. apply IZR_le; auto. }
  assert (Hxl : (IZR q - 1) * IZR H + 1 <= x * IZR H).
  { rewrite Ex, INR_IZR_INZ. rewrite <- minus_IZR, <- mult_IZR, <- plus_IZR. apply IZR_le. lia. }
  split.
  - assert (1 <= INR n) by (replace 1 with (INR 1) by auto; apply le_INR; lia).
    assert (HxH : / IZR (2 ^ 63) <= x).
    { unfold x. apply Rle_trans with (/ IZR H).
      - apply Rinv_le_contravar; auto. apply IZR_le; lia.
      - unfold Rdiv. rewrite <- (Rmult_1_l (/ IZR H)) at 1. apply Rmult_le_compat_r; auto.
        left; apply Rinv_0_lt_compat; auto. }
    pose proof (rnd64_lower x) as Hl.
    assert (Hs : bpow radix2 (-1022) <= x).
    { eapply Rle_trans; [|exact HxH]. rewrite <- bpow_neg_inv by lia. apply bpow_le; lia. }
    specialize (Hl Hs).
    apply Rlt_le_trans with (x * (1 - / IZR (2 ^ 53))); auto.
    apply Rmult_lt_reg_r with (IZR H); auto.
    replace (x * (1 - / IZR (2 ^ 53)) * IZR H) with (x * IZR H - INR n * / IZR (2 ^ 53)) by (rewrite <- Ex; ring).
    assert (INR n * / IZR (2 ^ 53) < 1).
    { apply Rmult_lt_reg_r with (IZR (2 ^ 53)); [apply IZR_lt; reflexivity|].
      rewrite Rmult_assoc, Rinv_l by (apply IZR_neq; discriminate).
      rewrite Rmult_1_r, Rmult_1_l, INR_IZR_INZ. apply IZR_lt; auto. }
    lra.
  - rewrite <- (rnd64_IZR q) by lia. apply rnd64_le; auto.
Qed.
Lemma hop_frames_zero n : hop_frames n 0 = Err ZeroDivisionError.
Proof. reflexivity. Qed.
Lemma hop_frames_neg n H : (H < 0)%Z -> exists f, hop_frames n H = Ok f /\ (f <= 0)%Z.
Proof.
  intros HH. unfold hop_frames. destruct (Z.eqb_spec H 0); [lia|].
  eexists; split; [reflexivity|]. apply ceilZ_le.
  rewrite <- rnd64_0. apply rnd64_le.
  assert (IZR H < 0) by (apply IZR_lt; auto).
  assert (/ IZR H < 0) by (apply Rinv_lt_0_compat; auto).
  pose proof (pos_INR n). unfold Rdiv. nra.
Qed.
