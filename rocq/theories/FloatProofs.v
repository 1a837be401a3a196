(** Rounding facts used for index computations. *)
From Coq Require Import List ZArith Reals Lia Lra Bool.
From Flocq Require Import Core Relative.
From Verif Require Import Prelude PreludeFacts FloatModel.
Local Open Scope R_scope.

Section Rnd.
  Variables (emin prec : Z).
  Hypothesis Hprec : (1 < prec)%Z.
  Hypothesis Hemin : (emin <= - prec)%Z.
  Notation rnd := (round radix2 (FLT_exp emin prec) ZnearestE).
  Local Instance prec_gt_0_ : Prec_gt_0 prec.
  Proof. unfold Prec_gt_0. lia. Qed.

  Lemma rnd_le x y : x <= y -> rnd x <= rnd y.
  Proof. apply round_le; typeclasses eauto. Qed.
  Lemma rnd_0 : rnd 0 = 0.
  Proof. apply round_0; typeclasses eauto. Qed.
  Lemma rnd_nonneg x : 0 <= x -> 0 <= rnd x.
  Proof. intros. rewrite <- rnd_0. apply rnd_le; auto. Qed.
  Lemma rnd_IZR z : (Z.abs z <= 2 ^ prec)%Z -> rnd (IZR z) = IZR z.
  Proof.
    intros H. apply round_generic; [typeclasses eauto|].
    destruct (Z.eq_dec (Z.abs z) (2 ^ prec)) as [E|E].
    - assert (Hz : generic_format radix2 (FLT_exp emin prec) (bpow radix2 prec)).
      { apply generic_format_FLT_bpow; [typeclasses eauto|lia]. }
      assert (Eb : bpow radix2 prec = IZR (2 ^ prec)).
      { rewrite <- IZR_Zpower by lia. reflexivity. }
      destruct (Z.abs_spec z) as [[_ Ea]|[_ Ea]].
      + replace z with (2 ^ prec)%Z by lia. rewrite <- Eb. auto.
      + replace z with (- 2 ^ prec)%Z by lia. rewrite opp_IZR, <- Eb.
        apply generic_format_opp; auto.
    - apply generic_format_FLT. exists (Float radix2 z 0); simpl.
      + unfold F2R; simpl. lra.
      + lia.
      + lia.
  Qed.
  Lemma rnd_INR n : (Z.of_nat n <= 2 ^ prec)%Z -> rnd (INR n) = INR n.
  Proof. intros. rewrite INR_IZR_INZ. apply rnd_IZR. lia. Qed.
  (** relative error *)
  Lemma rnd_rel x : bpow radix2 (emin + prec - 1) <= Rabs x ->
    Rabs (rnd x - x) <= bpow radix2 (- prec) * Rabs x.
  Proof.
    intros H. pose proof (relative_error_N_FLT radix2 emin prec ltac:(lia) (fun z => negb (Z.even z)) x H) as E.
    assert (Eb : / 2 * bpow radix2 (- prec + 1) = bpow radix2 (- prec)).
    { rewrite bpow_plus. change (bpow radix2 1) with 2. lra. }
    rewrite Eb in E. exact E.
  Qed.
  Lemma rnd_upper x : bpow radix2 (emin + prec - 1) <= x -> rnd x <= x * (1 + bpow radix2 (- prec)).
  Proof.
    intros H. assert (0 < x) by (pose proof (bpow_gt_0 radix2 (emin + prec - 1)); lra).
    pose proof (rnd_rel x ltac:(rewrite Rabs_pos_eq; lra)) as E.
    rewrite (Rabs_pos_eq x) in E by lra. apply Rabs_le_inv in E. lra.
  Qed.
  Lemma rnd_lower x : bpow radix2 (emin + prec - 1) <= x -> x * (1 - bpow radix2 (- prec)) <= rnd x.
  Proof.
    intros H. assert (0 < x) by (pose proof (bpow_gt_0 radix2 (emin + prec - 1)); lra).
    pose proof (rnd_rel x ltac:(rewrite Rabs_pos_eq; lra)) as E.
    rewrite (Rabs_pos_eq x) in E by lra. apply Rabs_le_inv in E. lra.
  Qed.
End Rnd.

Lemma bpow_neg_inv k : (0 <= k)%Z -> bpow radix2 (- k) = / IZR (2 ^ k).
Proof.
  intros. rewrite bpow_opp. f_equal. rewrite <- IZR_Zpower by lia. reflexivity.
Qed.

(** binary64 *)
Lemma rnd64_le x y : x <= y -> rnd64 x <= rnd64 y.
Proof. apply rnd_le; lia. Qed.
Lemma rnd64_0 : rnd64 0 = 0.
Proof. apply rnd_0; lia. Qed.
Lemma rnd64_nonneg x : 0 <= x -> 0 <= rnd64 x.
Proof. apply rnd_nonneg; lia. Qed.
Lemma rnd64_IZR z : (Z.abs z <= 2 ^ 53)%Z -> rnd64 (IZR z) = IZR z.
Proof. apply rnd_IZR; lia. Qed.
Lemma rnd64_INR n : (Z.of_nat n <= 2 ^ 53)%Z -> rnd64 (INR n) = INR n.
Proof. apply rnd_INR; lia. Qed.
Lemma rnd64_upper x : bpow radix2 (-1022) <= x -> rnd64 x <= x * (1 + / IZR (2 ^ 53)).
Proof. rewrite <- bpow_neg_inv by lia. intros. apply rnd_upper; try lia; auto. Qed.
Lemma rnd64_lower x : bpow radix2 (-1022) <= x -> x * (1 - / IZR (2 ^ 53)) <= rnd64 x.
Proof. rewrite <- bpow_neg_inv by lia. intros. apply rnd_lower; try lia; auto. Qed.
(** binary32 *)
Lemma rnd32_le x y : x <= y -> rnd32 x <= rnd32 y.
Proof. apply rnd_le; lia. Qed.
Lemma rnd32_0 : rnd32 0 = 0.
Proof. apply rnd_0; lia. Qed.
Lemma rnd32_nonneg x : 0 <= x -> 0 <= rnd32 x.
Proof. apply rnd_nonneg; lia. Qed.
Lemma rnd32_IZR z : (Z.abs z <= 2 ^ 24)%Z -> rnd32 (IZR z) = IZR z.
Proof. apply rnd_IZR; lia. Qed.
Lemma rnd32_INR n : (Z.of_nat n <= 2 ^ 24)%Z -> rnd32 (INR n) = INR n.
Proof. apply rnd_INR; lia. Qed.
Lemma rnd32_upper x : bpow radix2 (-126) <= x -> rnd32 x <= x * (1 + / IZR (2 ^ 24)).
Proof. rewrite <- bpow_neg_inv by lia. intros. apply rnd_upper; try lia; auto. Qed.
Lemma rnd32_lower x : bpow radix2 (-126) <= x -> x * (1 - / IZR (2 ^ 24)) <= rnd32 x.
Proof. rewrite <- bpow_neg_inv by lia. intros. apply rnd_lower; try lia; auto. Qed.

Lemma bpow_small k m : (k <= m)%Z -> bpow radix2 k <= bpow radix2 m.
Proof. apply bpow_le. Qed.
