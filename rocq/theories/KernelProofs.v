(** Accuracy of the tabulated sinc kernel. *)
From Coq Require Import List ZArith Reals Lia Lra Bool.
From Coquelicot Require Import Coquelicot.
From Verif Require Import Prelude PreludeFacts DirModel ImageSpec IsmSpec AccumModel AccumProofs.
Local Open Scope R_scope.

(** ** sinc as an average of cosines *)
Lemma is_RInt_cos a : a <> 0 -> is_RInt (fun u => cos (a * u)) 0 1 (sin a / a).
Proof.
  intros Ha.
  replace (sin a / a) with (minus (sin (a * 1) / a) (sin (a * 0) / a)).
  - apply (is_RInt_derive (fun u => sin (a * u) / a) (fun u => cos (a * u))).
    + intros x _. auto_derive; auto. field. auto.
    + intros x _. apply (ex_derive_continuous (fun u => cos (a * u))). auto_derive; auto.
  - unfold minus, plus, opp; cbn. rewrite Rmult_1_r, Rmult_0_r, sin_0. field. auto.
Qed.
Lemma nsinc_RInt x : is_RInt (fun u => cos (PI * x * u)) 0 1 (nsinc x).
Proof.
  unfold nsinc. destruct (Req_EM_T x 0) as [->|Hx].
  - apply (is_RInt_ext (fun _ => 1)).
    + intros u _. rewrite Rmult_0_r, Rmult_0_l, cos_0. reflexivity.
    + replace 1 with (scal (1 - 0) 1) at 2 by (unfold scal; cbn; unfold mult; cbn; ring).
      apply (is_RInt_const 0 1 1).
  - apply is_RInt_cos. pose proof PI_RGT_0. apply Rmult_integral_contrapositive_currified; lra.
Qed.

(** ** Second-order bound for the cosine *)
Lemma cos_taylor_pos c y : 0 <= y -> Rabs (cos (c + y) - cos c + y * sin c) <= y * y / 2.
Proof.
  intros Hy.
  assert (S : forall t, 0 <= t -> Rabs (sin (c + t) - sin c) <= t).
  { intros t Ht. destruct (Req_dec t 0) as [->|]; [rewrite Rplus_0_r, Rminus_eq_0, Rabs_R0; lra|].
    destruct (MVT_gen sin c (c + t) cos) as (z & _ & E).
    - intros. auto_derive; auto. ring.
    - intros. apply continuity_pt_filterlim, continuous_sin.
    - rewrite E. replace (c + t - c) with t by ring. rewrite Rabs_mult, (Rabs_right t) by lra.
      pose proof (COS_bound z). assert (Rabs (cos z) <= 1) by (apply Rabs_le; lra).
      pose proof (Rabs_pos (cos z)). nra. }
  assert (G : forall s, s = 1 \/ s = -1 -> 0 <= y * y / 2 - s * (cos (c + y) - cos c + y * sin c)).
  { intros s Hs. destruct (Req_dec y 0) as [->|Hy0].
    - rewrite Rplus_0_r. destruct Hs; subst; lra.
    - destruct (MVT_gen (fun t => t * t / 2 - s * (cos (c + t) - cos c + t * sin c)) 0 y
        (fun t => t - s * (- sin (c + t) + sin c))) as (z & Hz & E).
      + intros. auto_derive; auto. field.
      + intros t _. apply continuity_pt_filterlim.
        apply (ex_derive_continuous (fun t => t * t / 2 - s * (cos (c + t) - cos c + t * sin c))).
        auto_derive; auto.
      + rewrite Rplus_0_r in E.
        rewrite Rmin_left, Rmax_right in Hz by lra.
        pose proof (S z ltac:(lra)) as Sz. apply Rabs_le_between in Sz.
        assert (0 <= z - s * (- sin (c + z) + sin c)) by (destruct Hs; subst; lra).
        assert (0 <= (z - s * (- sin (c + z) + sin c)) * (y - 0)) by (apply Rmult_le_pos; lra).
        lra. }
  pose proof (G 1 (or_introl eq_refl)). pose proof (G (-1) (or_intror eq_refl)).
  apply Rabs_le. lra.
Qed.
Lemma cos_taylor c y : Rabs (cos (c + y) - cos c + y * sin c) <= y * y / 2.
Proof.
  destruct (Rle_dec 0 y) as [|Hy]; [apply cos_taylor_pos; auto|].
  pose proof (cos_taylor_pos (- c) (- y) ltac:(lra)) as H.
  replace (- c + - y) with (- (c + y)) in H by ring. rewrite !cos_neg, sin_neg in H.
  replace (y * y / 2) with (- y * - y / 2) by field.
  replace (cos (c + y) - cos c + y * sin c) with (cos (c + y) - cos c + - y * - sin c) by ring. auto.
Qed.
Lemma cos_lerp p d t : 0 <= t <= 1 ->
  Rabs (cos p + t * (cos (p + d) - cos p) - cos (p + t * d)) <= d * d / 8.
Proof.
  intros Ht. set (c := p + t * d).
  pose proof (cos_taylor c (- (t * d))) as H1. pose proof (cos_taylor c ((1 - t) * d)) as H2.
  replace (c + - (t * d)) with p in H1 by (unfold c; ring).
  replace (c + (1 - t) * d) with (p + d) in H2 by (unfold c; ring).
  apply Rabs_le_between in H1. apply Rabs_le_between in H2.
  set (A := cos p - cos c + - (t * d) * sin c) in *. set (B := cos (p + d) - cos c + (1 - t) * d * sin c) in *.
  replace (cos p + t * (cos (p + d) - cos p) - cos c) with ((1 - t) * A + t * B) by (unfold A, B; ring).
  assert (K : t * (1 - t) * (d * d) / 2 <= d * d / 8).
  { pose proof (Rle_0_sqr (t - 1 / 2)) as Q. unfold Rsqr in Q. pose proof (Rle_0_sqr d) as Q2. unfold Rsqr in Q2.
    assert (t * (1 - t) <= 1 / 4) by lra. nra. }
  apply Rabs_le. split.
  - assert (- ((1 - t) * (t * d * (t * d) / 2)) <= (1 - t) * A) by
      (destruct H1 as [H1 _]; replace (- (t * d) * - (t * d)) with (t * d * (t * d)) in H1 by ring;
       replace (- ((1 - t) * (t * d * (t * d) / 2))) with ((1 - t) * - (t * d * (t * d) / 2)) by ring;
       apply Rmult_le_compat_l; lra).
    assert (- (t * ((1 - t) * d * ((1 - t) * d) / 2)) <= t * B) by
      (destruct H2 as [H2 _];
       replace (- (t * ((1 - t) * d * ((1 - t) * d) / 2))) with (t * - ((1 - t) * d * ((1 - t) * d) / 2)) by ring;
       apply Rmult_le_compat_l; lra).
    replace (t * (1 - t) * (d * d) / 2) with
      ((1 - t) * (t * d * (t * d) / 2) + t * ((1 - t) * d * ((1 - t) * d) / 2)) in K by field. lra.
  - assert ((1 - t) * A <= (1 - t) * (t * d * (t * d) / 2)) by
      (destruct H1 as [_ H1]; replace (- (t * d) * - (t * d)) with (t * d * (t * d)) in H1 by ring;
       apply Rmult_le_compat_l; lra).
    assert (t * B <= t * ((1 - t) * d * ((1 - t) * d) / 2)) by
      (destruct H2 as [_ H2]; apply Rmult_le_compat_l; lra).
    replace (t * (1 - t) * (d * d) / 2) with
      ((1 - t) * (t * d * (t * d) / 2) + t * ((1 - t) * d * ((1 - t) * d) / 2)) in K by field. lra.
Qed.

(** ** Error of the table *)
Lemma lerp_nsinc p d t : 0 <= t <= 1 ->
  Rabs (nsinc p + t * (nsinc (p + d) - nsinc p) - nsinc (p + t * d)) <= PI * PI * (d * d) / 24.
Proof.
  intros Ht.
  set (e := fun u => cos (PI * p * u) + t * (cos (PI * (p + d) * u) - cos (PI * p * u)) - cos (PI * (p + t * d) * u)).
  assert (I : is_RInt e 0 1 (nsinc p + t * (nsinc (p + d) - nsinc p) - nsinc (p + t * d))).
  { unfold e. apply (is_RInt_minus (V := R_NormedModule)); [|apply nsinc_RInt].
    apply (is_RInt_plus (V := R_NormedModule)); [apply nsinc_RInt|].
    apply (is_RInt_scal (V := R_NormedModule)).
    apply (is_RInt_minus (V := R_NormedModule)); apply nsinc_RInt. }
  assert (J : is_RInt (fun u => PI * PI * (d * d) / 8 * (u * u)) 0 1 (PI * PI * (d * d) / 24)).
  { replace (PI * PI * (d * d) / 24) with
      (minus (PI * PI * (d * d) / 24 * (1 * 1 * 1)) (PI * PI * (d * d) / 24 * (0 * 0 * 0)))
      by (unfold minus, plus, opp; cbn; field).
    apply (is_RInt_derive (fun u => PI * PI * (d * d) / 24 * (u * u * u))).
    - intros u _. auto_derive; auto. field.
    - intros u _. apply (ex_derive_continuous (fun u => PI * PI * (d * d) / 8 * (u * u))). auto_derive; auto. }
  refine (norm_RInt_le e (fun u => PI * PI * (d * d) / 8 * (u * u)) 0 1 _ _ _ _ I J); [lra|].
  intros u Hu. change (Rabs (e u) <= PI * PI * (d * d) / 8 * (u * u)).
  unfold e. replace (PI * (p + d) * u) with (PI * p * u + PI * d * u) by ring.
  replace (PI * (p + t * d) * u) with (PI * p * u + t * (PI * d * u)) by ring.
  eapply Rle_trans; [apply cos_lerp; auto|]. apply Req_le. field.
Qed.
Lemma grid_interp_error g x : (0 < g)%nat ->
  Rabs (grid_interp g nsinc x - nsinc x) <= PI * PI / (24 * (INR g * INR g)).
Proof.
  intros Hg. assert (G : 0 < INR g) by (apply lt_0_INR; auto). unfold grid_interp.
  set (i := floorZ (x * INR g)). pose proof (floorZ_spec (x * INR g)) as F. fold i in F.
  set (t := x * INR g - IZR i).
  replace ((IZR i + 1) / INR g) with (IZR i / INR g + / INR g) by (field; lra).
  replace (nsinc x) with (nsinc (IZR i / INR g + t * / INR g)) by (f_equal; unfold t; field; lra).
  eapply Rle_trans; [apply lerp_nsinc; unfold t; lra|]. apply Req_le. field. lra.
Qed.
Lemma grid_interp_exact g x z : (0 < g)%nat -> x * INR g = IZR z -> grid_interp g nsinc x = nsinc x.
Proof.
  intros Hg E. assert (G : 0 < INR g) by (apply lt_0_INR; auto). unfold grid_interp.
  rewrite E, floorZ_IZR. replace (IZR z - IZR z) with 0 by ring.
  replace (IZR z / INR g) with x by (rewrite <- E; field; lra). ring.
Qed.
Lemma hann_range L k : 0 <= hann L k <= 1.
Proof.
  unfold hann. destruct (L =? 1)%nat; [lra|].
  pose proof (SIN_bound (PI * INR k / INR (L - 1))). cbn [pow].
  set (s := sin (PI * INR k / INR (L - 1))) in *. nra.
Qed.
Lemma nsinc_int z : z <> 0%Z -> nsinc (IZR z) = 0.
Proof.
  intros H. unfold nsinc. destruct (Req_EM_T (IZR z) 0) as [E|]; [apply eq_IZR in E; congruence|].
  replace (sin (PI * IZR z)) with 0; [unfold Rdiv; ring|].
  symmetry. apply sin_eq_0_1. exists z. ring.
Qed.
Lemma nsinc_0 : nsinc 0 = 1.
Proof. unfold nsinc. destruct (Req_EM_T 0 0); auto; lra. Qed.
Lemma kernel_int table z : (forall g, table = Some g -> (0 < g)%nat) ->
  kernel table (IZR z) = if (z =? 0)%Z then 1 else 0.
Proof.
  intros H. replace (kernel table (IZR z)) with (nsinc (IZR z)).
  - destruct (Z.eqb_spec z 0) as [->|]; [apply nsinc_0|apply nsinc_int; auto].
  - destruct table as [g|]; auto. cbn. symmetry. apply (grid_interp_exact g _ (z * Z.of_nat g)); auto.
    rewrite mult_IZR, <- INR_IZR_INZ. reflexivity.
Qed.
Lemma hann_centre L : Nat.Odd L -> hann L (half L) = 1.
Proof.
  intros HL. pose proof (odd_half L HL) as E. unfold hann. destruct (Nat.eqb_spec L 1); auto.
  replace (PI * INR (half L) / INR (L - 1)) with (PI / 2).
  - rewrite sin_PI2. ring.
  - rewrite E at 2. replace (2 * half L + 1 - 1)%nat with (2 * half L)%nat by lia.
    rewrite mult_INR. cbn [INR]. assert (0 < INR (half L)) by (apply lt_0_INR; lia). field. lra.
Qed.
