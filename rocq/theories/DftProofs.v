(** The real FFT of the model computes linear convolution. *)
From Coq Require Import List ZArith Reals Lia Lra Bool.
From Coquelicot Require Import Complex.
From Verif Require Import Prelude PreludeFacts SignalModel.
Import ListNotations.
Local Open Scope R_scope.

(** ** Complex exponentials *)
Lemma C_eq (a b : C) : fst a = fst b -> snd a = snd b -> a = b.
Proof. destruct a, b; simpl; intros; subst; auto. Qed.

Lemma cis_add a b : cis (a + b) = Cmult (cis a) (cis b).
Proof. unfold cis, Cmult; simpl. rewrite cos_plus, sin_plus. f_equal; lra. Qed.
Lemma cis_0 : cis 0 = RtoC 1.
Proof. unfold cis. rewrite cos_0, sin_0. reflexivity. Qed.
Lemma cis_conj a : Cconj (cis a) = cis (- a).
Proof. unfold cis, Cconj; simpl. rewrite cos_neg, sin_neg. auto. Qed.

Lemma cis_2pi_nat n : cis (2 * PI * INR n) = RtoC 1.
Proof.
  unfold cis. replace (2 * PI * INR n) with (0 + 2 * INR n * PI) by lra.
  rewrite cos_period, sin_period, cos_0, sin_0. reflexivity.
Qed.
Lemma cis_2pi_Z z : cis (2 * PI * IZR z) = RtoC 1.
Proof.
  destruct (Z_le_gt_dec 0 z).
  - rewrite <- (Z2Nat.id z), <- INR_IZR_INZ by lia. apply cis_2pi_nat.
  - replace (2 * PI * IZR z) with (- (2 * PI * IZR (- z))) by (rewrite opp_IZR; lra).
    rewrite <- cis_conj, <- (Z2Nat.id (- z)), <- INR_IZR_INZ by lia.
    rewrite cis_2pi_nat. apply C_eq; simpl; lra.
Qed.

(** ** Complex sums *)
Lemma csum_ext n f g : (forall i, (i < n)%nat -> f i = g i) -> csum n f = csum n g.
Proof. induction n; simpl; intros; auto. rewrite IHn, H; auto. Qed.
Lemma csum_zero n f : (forall i, (i < n)%nat -> f i = RtoC 0) -> csum n f = RtoC 0.
Proof. induction n; simpl; intros; auto. rewrite IHn, H; auto. apply Cplus_0_r. Qed.
Lemma csum_scal_l n c f : csum n (fun i => Cmult c (f i)) = Cmult c (csum n f).
Proof. induction n; simpl; [ring|]. rewrite IHn. ring. Qed.
Lemma csum_scal_r n c f : csum n (fun i => Cmult (f i) c) = Cmult (csum n f) c.
Proof. induction n; simpl; [ring|]. rewrite IHn. ring. Qed.
Lemma csum_plus n f g : csum n (fun i => Cplus (f i) (g i)) = Cplus (csum n f) (csum n g).
Proof. induction n; simpl; [ring|]. rewrite IHn. ring. Qed.
Lemma csum_swap n m f :
  csum n (fun i => csum m (fun j => f i j)) = csum m (fun j => csum n (fun i => f i j)).
Proof.
  induction n; simpl.
  - symmetry. apply csum_zero; auto.
  - rewrite IHn, csum_plus. auto.
Qed.
Lemma csum_conj n f : Cconj (csum n f) = csum n (fun i => Cconj (f i)).
Proof.
  induction n; simpl.
  - apply C_eq; simpl; lra.
  - rewrite <- IHn. apply C_eq; simpl; lra.
Qed.
Lemma csum_RtoC n f : csum n (fun i => RtoC (f i)) = RtoC (rsum n f).
Proof. induction n; simpl; auto. rewrite IHn. apply C_eq; simpl; lra. Qed.

(** Powers of one root. *)
Lemma cis_INR_pow t k : cis (INR (S k) * t) = Cmult (cis t) (cis (INR k * t)).
Proof. rewrite S_INR, <- cis_add. f_equal. lra. Qed.

Lemma geom_sum t n :
  Cmult (Cminus (cis t) (RtoC 1)) (csum n (fun k => cis (INR k * t)))
  = Cminus (cis (INR n * t)) (RtoC 1).
Proof.
  induction n.
  - simpl. rewrite Rmult_0_l, cis_0. ring.
  - cbn [csum]. rewrite cis_INR_pow.
    replace (Cmult (Cminus (cis t) (RtoC 1))
               (Cplus (csum n (fun k => cis (INR k * t))) (cis (INR n * t))))
      with (Cplus (Cmult (Cminus (cis t) (RtoC 1)) (csum n (fun k => cis (INR k * t))))
                  (Cmult (Cminus (cis t) (RtoC 1)) (cis (INR n * t)))) by ring.
    rewrite IHn. ring.
Qed.

Lemma cis_ne_1 t : 0 < t < 2 * PI -> cis t <> RtoC 1.
Proof.
  intros [H1 H2] E. injection E as Ec Es.
  assert (Hs : 0 < sin (t / 2)) by (apply sin_gt_0; lra).
  assert (E2 : cos t = 1 - 2 * (sin (t / 2) * sin (t / 2))).
  { replace t with (2 * (t / 2)) at 1 by lra. rewrite cos_2a_sin. lra. }
  assert (0 < sin (t/2) * sin (t/2)) by (apply Rmult_lt_0_compat; auto).
  lra.
Qed.

(** Orthogonality of the roots of unity. *)
Lemma roots_orth N z : (0 < N)%nat -> (- Z.of_nat N < z < Z.of_nat N)%Z ->
  csum N (fun k => cis (INR k * (2 * PI * IZR z / INR N)))
  = if (z =? 0)%Z then RtoC (INR N) else RtoC 0.
Proof.
  intros HN Hz.
  assert (HN' : 0 < INR N) by (apply lt_0_INR; auto).
  destruct (Z.eqb_spec z 0) as [->|Hz0].
  - rewrite (csum_ext _ _ (fun _ => RtoC 1)).
    + rewrite csum_RtoC. rewrite rsum_const, Rmult_1_r. auto.
    + intros. replace (INR i * (2 * PI * 0 / INR N)) with 0 by (field; lra). apply cis_0.
  - set (t := 2 * PI * IZR z / INR N).
    assert (Hne : cis t <> RtoC 1).
    { assert (HzN : IZR z < INR N) by (rewrite INR_IZR_INZ; apply IZR_lt; lia).
      assert (HzN' : - INR N < IZR z) by (rewrite INR_IZR_INZ, <- opp_IZR; apply IZR_lt; lia).
      pose proof PI_RGT_0 as HPI.
      assert (Et : t = 2 * PI * (IZR z / INR N)) by (unfold t; field; lra).
      assert (Hq : -1 < IZR z / INR N < 1).
      { split.
        - apply Rmult_lt_reg_r with (INR N); auto.
          replace (IZR z / INR N * INR N) with (IZR z) by (field; lra). lra.
        - apply Rmult_lt_reg_r with (INR N); auto.
          replace (IZR z / INR N * INR N) with (IZR z) by (field; lra). lra. }
      destruct (Z_lt_ge_dec 0 z) as [Hp|Hn].
      - apply cis_ne_1. split.
        + rewrite Et. apply Rmult_lt_0_compat; [lra|].
          apply Rdiv_lt_0_compat; auto. apply IZR_lt; lia.
        + rewrite Et. nra.
      - intros E.
        assert (E' : cis (- t) = RtoC 1).
        { rewrite <- cis_conj, E. apply C_eq; simpl; lra. }
        revert E'. apply cis_ne_1.
        assert (IZR z < 0) by (apply IZR_lt; lia).
        assert (IZR z / INR N < 0).
        { apply Rmult_lt_reg_r with (INR N); auto.
          replace (IZR z / INR N * INR N) with (IZR z) by (field; lra). lra. }
        rewrite Et. split; nra. }
    assert (Hg := geom_sum t N).
    replace (INR N * t) with (2 * PI * IZR z) in Hg by (unfold t; field; lra).
    rewrite cis_2pi_Z in Hg.
    replace (Cminus (RtoC 1) (RtoC 1)) with (RtoC 0) in Hg by ring.
    assert (Hd : Cminus (cis t) (RtoC 1) <> RtoC 0).
    { intros E. apply Hne. replace (cis t) with (Cplus (Cminus (cis t) (RtoC 1)) (RtoC 1)) by ring.
      rewrite E. ring. }
    replace (csum N (fun k => cis (INR k * t)))
      with (Cmult (Cinv (Cminus (cis t) (RtoC 1)))
             (Cmult (Cminus (cis t) (RtoC 1)) (csum N (fun k => cis (INR k * t))))) by (field; auto).
    rewrite Hg. ring.
Qed.

(** ** The DFT of the model *)
Definition dft (x : list R) (N k : nat) : C :=
  csum N (fun i => Cmult (RtoC (nth i x 0)) (cis (- (2 * PI * INR k * INR i / INR N)))).

Lemma nth_rfft x N k : (k < N / 2 + 1)%nat -> nth k (rfft x N) (RtoC 0) = dft x N k.
Proof. intros. unfold rfft. rewrite nth_tabulate by auto. reflexivity. Qed.
Lemma length_rfft x N : length (rfft x N) = (N / 2 + 1)%nat.
Proof. apply length_tabulate. Qed.

(** Conjugate symmetry of the DFT of a real sequence. *)
Lemma dft_sym x N k : (0 < N)%nat -> (k <= N)%nat -> Cconj (dft x N (N - k)) = dft x N k.
Proof.
  intros HN Hk. unfold dft. rewrite csum_conj. apply csum_ext. intros i Hi.
  assert (HN' : 0 < INR N) by (apply lt_0_INR; auto).
  assert (E : forall a b, Cconj (Cmult a b) = Cmult (Cconj a) (Cconj b))
    by (intros; apply C_eq; simpl; lra).
  rewrite E, cis_conj. rewrite minus_INR by auto.
  replace (- - (2 * PI * (INR N - INR k) * INR i / INR N))
    with (- (2 * PI * INR k * INR i / INR N) + 2 * PI * INR i) by (field; lra).
  rewrite cis_add, cis_2pi_nat.
  replace (Cconj (RtoC (nth i x 0))) with (RtoC (nth i x 0)) by (apply C_eq; simpl; lra).
  ring.
Qed.

Lemma half_ext_prod x h N k : (0 < N)%nat -> (k < N)%nat ->
  half_ext (map2 Cmult (rfft x N) (rfft h N)) N k = Cmult (dft x N k) (dft h N k).
Proof.
  intros HN Hk. unfold half_ext.
  assert (Hget : forall q, (q < N / 2 + 1)%nat ->
    nth q (map2 Cmult (rfft x N) (rfft h N)) (RtoC 0) = Cmult (dft x N q) (dft h N q)).
  { intros q Hq. rewrite nth_map2 with (da := RtoC 0) (db := RtoC 0); rewrite ?length_rfft; auto.
    rewrite !nth_rfft; auto. }
  destruct (Nat.leb_spec k (N / 2)).
  - apply Hget. lia.
  - assert (N - k < N / 2 + 1)%nat.
    { pose proof (Nat.div_mod N 2 ltac:(lia)). pose proof (Nat.mod_upper_bound N 2 ltac:(lia)). lia. }
    rewrite Hget by auto.
    assert (E : forall a b, Cconj (Cmult a b) = Cmult (Cconj a) (Cconj b))
      by (intros; apply C_eq; simpl; lra).
    rewrite E, !dft_sym by lia. auto.
Qed.

(** Product of two transforms, expanded. *)
Lemma inverse_expand x h N j : (0 < N)%nat ->
  csum N (fun k => Cmult (half_ext (map2 Cmult (rfft x N) (rfft h N)) N k)
                     (cis (2 * PI * INR k * INR j / INR N)))
  = csum N (fun i => csum N (fun l =>
      Cmult (RtoC (nth i x 0 * nth l h 0))
        (csum N (fun k => cis (INR k * (2 * PI * IZR (Z.of_nat j - Z.of_nat i - Z.of_nat l) / INR N)))))).
Proof.
  intros HN.
  assert (HN' : 0 < INR N) by (apply lt_0_INR; auto).
  transitivity (csum N (fun k => csum N (fun i => csum N (fun l =>
     Cmult (RtoC (nth i x 0 * nth l h 0))
       (cis (INR k * (2 * PI * IZR (Z.of_nat j - Z.of_nat i - Z.of_nat l) / INR N))))))).
  - apply csum_ext. intros k Hk. rewrite half_ext_prod by auto. unfold dft.
    rewrite <- Cmult_assoc, (Cmult_comm (csum N _)).
    rewrite <- csum_scal_l.
    apply csum_ext. intros i Hi.
    rewrite (Cmult_comm _ (cis (2 * PI * INR k * INR j / INR N))).
    rewrite !(Cmult_comm _ (csum N _)).
    rewrite <- !Cmult_assoc, <- csum_scal_r.
    apply csum_ext. intros l Hl.
    rewrite RtoC_mult.
    replace (INR k * (2 * PI * IZR (Z.of_nat j - Z.of_nat i - Z.of_nat l) / INR N))
      with (2 * PI * INR k * INR j / INR N
            + (- (2 * PI * INR k * INR i / INR N) + - (2 * PI * INR k * INR l / INR N))).
    + rewrite !cis_add. ring.
    + rewrite !minus_IZR, <- !INR_IZR_INZ. field. lra.
  - rewrite csum_swap. apply csum_ext. intros i Hi.
    rewrite csum_swap. apply csum_ext. intros l Hl.
    rewrite csum_scal_l. auto.
Qed.

(** No wrap-around: with enough padding the inverse transform is linear convolution. *)
Lemma irfft_prod_linear x h N j :
  (length x + length h <= N + 1)%nat -> (j < N)%nat ->
  nth j (irfft (map2 Cmult (rfft x N) (rfft h N)) N) 0
  = rsum (S j) (fun i => nth i x 0 * nth (j - i) h 0).
Proof.
  intros HN Hj.
  assert (HN0 : (0 < N)%nat) by lia.
  assert (HN' : 0 < INR N) by (apply lt_0_INR; auto).
  unfold irfft. rewrite nth_tabulate by auto.
  rewrite inverse_expand by auto.
  rewrite (csum_ext N _ (fun i => RtoC (rsum N (fun l =>
     if (i + l =? j)%nat then nth i x 0 * nth l h 0 * INR N else 0)))).
  2:{ intros i Hi. rewrite <- csum_RtoC. apply csum_ext. intros l Hl.
      destruct (Nat.lt_ge_cases (i + l) N) as [Hil|Hil].
      - rewrite roots_orth by lia.
        destruct (Nat.eqb_spec (i + l) j).
        + replace (Z.of_nat j - Z.of_nat i - Z.of_nat l =? 0)%Z with true
            by (symmetry; apply Z.eqb_eq; lia).
          rewrite <- RtoC_mult. auto.
        + replace (Z.of_nat j - Z.of_nat i - Z.of_nat l =? 0)%Z with false
            by (symmetry; apply Z.eqb_neq; lia).
          ring.
      - replace (nth i x 0 * nth l h 0) with 0.
        + destruct (i + l =? j)%nat; rewrite ?Rmult_0_l; ring.
        + destruct (Nat.lt_ge_cases i (length x)).
          * rewrite (nth_overflow h) by lia. lra.
          * rewrite (nth_overflow x) by lia. lra. }
  rewrite csum_RtoC. unfold RtoC; simpl fst.
  rewrite (rsum_ext N _ (fun i => if (i <=? j)%nat then (nth i x 0 * nth (j - i) h 0) * INR N else 0)).
  2:{ intros i Hi. destruct (Nat.leb_spec i j).
      - rewrite (rsum_single N (j - i)); [|lia|].
        + replace (i + (j - i) =? j)%nat with true by (symmetry; apply Nat.eqb_eq; lia). auto.
        + intros l Hl Hne. replace (i + l =? j)%nat with false by (symmetry; apply Nat.eqb_neq; lia). auto.
      - apply rsum_zero. intros l Hl.
        replace (i + l =? j)%nat with false by (symmetry; apply Nat.eqb_neq; lia). auto. }
  rewrite (rsum_trunc N (S j)) by
    (try lia; intros i Hi; replace (i <=? j)%nat with false by (symmetry; apply Nat.leb_gt; lia); auto).
  rewrite (rsum_ext (S j) _ (fun i => (nth i x 0 * nth (j - i) h 0) * INR N)).
  2:{ intros i Hi. replace (i <=? j)%nat with true by (symmetry; apply Nat.leb_le; lia). auto. }
  rewrite rsum_scal_r. field. lra.
Qed.

(** ** The chosen FFT length *)
Lemma fft_len_ge n : (0 <= n)%Z -> (n <= Z.of_nat (fft_len n))%Z.
Proof.
  intros H. unfold fft_len, bit_length.
  rewrite Z2Nat.id by (apply Z.shiftl_nonneg; lia).
  destruct (Z.eq_dec n 0) as [->|]; [vm_compute; discriminate|].
  destruct (Z.eqb_spec (n - 1) 0).
  - replace n with 1%Z by lia. reflexivity.
  - rewrite Z.abs_eq by lia. rewrite Z.shiftl_1_l.
    pose proof (Z.log2_spec (n - 1) ltac:(lia)).
    rewrite <- Z.add_1_r in H0. lia.
Qed.
Lemma fft_len_lt n : (2 <= n)%Z -> (Z.of_nat (fft_len n) < 2 * n)%Z.
Proof.
  intros H. unfold fft_len, bit_length.
  rewrite Z2Nat.id by (apply Z.shiftl_nonneg; lia).
  destruct (Z.eqb_spec (n - 1) 0); [lia|].
  rewrite Z.abs_eq by lia. rewrite Z.shiftl_1_l.
  pose proof (Z.log2_spec (n - 1) ltac:(lia)).
  pose proof (Z.log2_nonneg (n - 1)).
  rewrite Z.pow_add_r by lia. lia.
Qed.

Lemma length_irfft X N : length (irfft X N) = N.
Proof. apply length_tabulate. Qed.

Lemma length_fft_convolve_data x h : (1 <= length x + length h)%nat ->
  length (fft_convolve_data x h) = (length x + length h - 1)%nat.
Proof.
  intros H. unfold fft_convolve_data.
  set (n := (Z.of_nat (length x) + Z.of_nat (length h) - 1)%Z).
  replace 0%Z with (Z.of_nat 0) by auto.
  replace n with (Z.of_nat (length x + length h - 1)) by (unfold n; lia).
  rewrite pyslice_nat by lia.
  destruct (Nat.eq_dec (length x + length h - 1) 0) as [E|E].
  - rewrite E. unfold block. simpl. auto.
  - rewrite length_block; [lia|]. rewrite length_irfft.
    pose proof (fft_len_ge (Z.of_nat (length x + length h - 1)) ltac:(lia)). lia.
Qed.

Theorem fft_convolve_data_correct x h j :
  (j < length x + length h - 1)%nat ->
  nth j (fft_convolve_data x h) 0 = rsum (S j) (fun i => nth i x 0 * nth (j - i) h 0).
Proof.
  intros Hj. unfold fft_convolve_data.
  replace (Z.of_nat (length x) + Z.of_nat (length h) - 1)%Z
    with (Z.of_nat (length x + length h - 1)) by lia.
  set (n := (length x + length h - 1)%nat) in *.
  pose proof (fft_len_ge (Z.of_nat n) ltac:(lia)).
  change 0%Z with (Z.of_nat 0).
  rewrite pyslice_nat by lia. rewrite nth_block by lia.
  simpl (0 + j)%nat.
  apply irfft_prod_linear; auto; lia.
Qed.
