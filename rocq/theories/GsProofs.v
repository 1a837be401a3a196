(** Proofs for C90. *)
From Coq Require Import List ZArith Reals Lia Lra Psatz Bool.
From Flocq Require Import Core Relative.
From Verif Require Import Prelude PreludeFacts FloatModel FloatProofs DirModel DirSpec RoomModel GeoModel GeoSpec GsModel GsSpec.
Import ListNotations.
Local Open Scope R_scope.
Local Notation length := List.length.

Lemma half_ulp_near emin prec x b : (1 < prec)%Z -> Rabs x <= b -> 0 < b ->
  Rabs (round radix2 (FLT_exp emin prec) ZnearestE x - x) <= b * bpow radix2 (- prec) + bpow radix2 emin.
Proof.
  intros Hp Hx Hb. assert (Prec_gt_0 prec) by (unfold Prec_gt_0; lia).
  pose proof (error_le_half_ulp radix2 (FLT_exp emin prec) (fun z => negb (Z.even z)) x) as E.
  destruct (Rlt_dec (Rabs x) (bpow radix2 (emin + prec))) as [L|L].
  - rewrite ulp_FLT_small in E by auto. pose proof (bpow_gt_0 radix2 emin). pose proof (bpow_gt_0 radix2 (- prec)). nra.
  - pose proof (ulp_FLT_le radix2 emin prec x) as U. assert (bpow radix2 (emin + prec - 1) <= Rabs x).
    { apply Rnot_lt_le in L. eapply Rle_trans; [|exact L]. apply bpow_le. lia. }
    specialize (U H0). replace (1 - prec)%Z with (- prec + 1)%Z in U by lia. rewrite bpow_plus in U. change (bpow radix2 1) with 2 in U.
    pose proof (bpow_gt_0 radix2 emin). pose proof (bpow_gt_0 radix2 (- prec)). nra.
Qed.
(** One rounding of a number up to sixteen is off by less than a millionth. *)
Lemma near32 x : Rabs x <= 16 -> Rabs (rnd32 x - x) <= / 10 ^ 6.
Proof.
  intros H. eapply Rle_trans; [apply (half_ulp_near (-149) 24 x 16); [lia|auto|lra]|].
  assert (bpow radix2 (-149) <= bpow radix2 (-27)) by (apply bpow_le; lia).
  assert (E1 : bpow radix2 (-24) = / IZR (2 ^ 24)) by reflexivity. assert (E2 : bpow radix2 (-27) = / IZR (2 ^ 27)) by reflexivity.
  change (- (24))%Z with (-24)%Z. rewrite E1. rewrite E2 in H0. cbn in *. lra.
Qed.
Lemma near64 x : Rabs x <= 16 -> Rabs (rnd64 x - x) <= / 10 ^ 12.
Proof.
  intros H. eapply Rle_trans; [apply (half_ulp_near (-1074) 53 x 16); [lia|auto|lra]|].
  assert (bpow radix2 (-1074) <= bpow radix2 (-53)) by (apply bpow_le; lia).
  assert (E1 : bpow radix2 (-53) = / IZR (2 ^ 53)) by reflexivity.
  change (- (53))%Z with (-53)%Z. rewrite E1 in *. cbn in *. lra.
Qed.
Ltac abs := repeat match goal with H : Rabs _ <= _ |- _ => apply Rabs_le_inv in H end; apply Rabs_le; lra.
(** Bounds of a rounded number from bounds of the number. *)
Lemma box32 x l h : l <= x <= h -> -16 <= l -> h <= 16 -> l - / 10 ^ 6 <= rnd32 x <= h + / 10 ^ 6.
Proof. intros H L U. assert (N : Rabs x <= 16) by (apply Rabs_le; lra). apply near32, Rabs_le_inv in N. lra. Qed.
Lemma box64 x l h : l <= x <= h -> -16 <= l -> h <= 16 -> l - / 10 ^ 12 <= rnd64 x <= h + / 10 ^ 12.
Proof. intros H L U. assert (N : Rabs x <= 16) by (apply Rabs_le; lra). apply near64, Rabs_le_inv in N. lra. Qed.
Lemma tol6 : / 10 ^ 6 = 1 / 1000000.
Proof. lra. Qed.
Lemma tol12 : / 10 ^ 12 = 1 / 1000000000000.
Proof. lra. Qed.

Lemma uniform_box a r : 0 <= a <= 1 -> 0 <= r <= 1 -> - a - 1 / 1000000 <= uniform (rnd64 (- a)) (rnd64 a) r <= a + 1 / 1000000.
Proof.
  intros Ha Hr. unfold uniform. pose proof (box64 (- a) (- a) (- a) ltac:(lra) ltac:(lra) ltac:(lra)) as A.
  pose proof (box64 a a a ltac:(lra) ltac:(lra) ltac:(lra)) as B. rewrite tol12 in *. set (lo := rnd64 (- a)) in *. set (hi := rnd64 a) in *.
  pose proof (box64 (hi - lo) (2 * a - 2 / 1000000000000) (2 * a + 2 / 1000000000000) ltac:(lra) ltac:(lra) ltac:(lra)) as C. rewrite tol12 in C. set (w := rnd64 (hi - lo)) in *.
  pose proof (box64 (w * r) (- 3 / 1000000000000) (2 * a + 3 / 1000000000000) ltac:(nra) ltac:(lra) ltac:(lra)) as D. rewrite tol12 in D. set (v := rnd64 (w * r)) in *.
  pose proof (box64 (lo + v) (- a - 5 / 1000000000000) (a + 5 / 1000000000000) ltac:(lra) ltac:(lra) ltac:(lra)) as E. rewrite tol12 in E. lra.
Qed.
Lemma rnd32_whole z : (Z.abs z <= 2 ^ 24)%Z -> rnd32 (IZR z) = IZR z.
Proof. apply rnd32_IZR. Qed.
Lemma rnd32_3_2 : rnd32 (3 / 2) = 3 / 2.
Proof.
  apply round_generic; [typeclasses eauto|]. apply generic_format_FLT. exists (Defs.Float radix2 3 (-1)); [unfold F2R; cbn; lra|cbn; lia|cbn; lia].
Qed.
(** The center of the array. *)
Lemma center_box g k : random_draws g -> exists x y z, mic_center g k = [x; y; z] /\
  Rabs (x - 4) <= 3 / 100 + / 10 ^ 5 /\ Rabs (y - 3) <= 3 / 100 + / 10 ^ 5 /\ Rabs (z - 3 / 2) <= 1 / 100 + / 10 ^ 5.
Proof.
  intros G. assert (Gk : forall i, 0 <= g i <= 1). { intros i. specialize (G i). assert (0 < / 2 ^ 53) by (apply Rinv_0_lt_compat, pow_lt; lra). lra. }
  unfold mic_center, room_center, jitter, add32. cbn [map2 combine map fst snd]. eexists _, _, _. split; [reflexivity|].
  replace (rnd32 (8 / 2)) with 4 by (replace (8 / 2) with 4 by lra; symmetry; apply rnd32_whole; lia).
  replace (rnd32 (6 / 2)) with 3 by (replace (6 / 2) with 3 by lra; symmetry; apply rnd32_whole; lia). rewrite rnd32_3_2.
  pose proof (uniform_box (3 / 100) (g (k + 0)%nat) ltac:(lra) (Gk _)) as A. pose proof (uniform_box (3 / 100) (g (k + 1)%nat) ltac:(lra) (Gk _)) as B.
  pose proof (uniform_box (1 / 100) (g (k + 2)%nat) ltac:(lra) (Gk _)) as C.
  apply box32 in A; [|lra|lra]. apply box32 in B; [|lra|lra]. apply box32 in C; [|lra|lra]. rewrite tol6 in *.
  match goal with |- context [rnd32 (4 + ?u)] => set (ux := u) in * end. match goal with |- context [rnd32 (3 + ?u)] => set (uy := u) in * end. match goal with |- context [rnd32 (3 / 2 + ?u)] => set (uz := u) in * end.
  pose proof (box32 (4 + ux) (4 - 3 / 100 - 2 / 1000000) (4 + 3 / 100 + 2 / 1000000) ltac:(lra) ltac:(lra) ltac:(lra)) as A'.
  pose proof (box32 (3 + uy) (3 - 3 / 100 - 2 / 1000000) (3 + 3 / 100 + 2 / 1000000) ltac:(lra) ltac:(lra) ltac:(lra)) as B'.
  pose proof (box32 (3 / 2 + uz) (3 / 2 - 1 / 100 - 2 / 1000000) (3 / 2 + 1 / 100 + 2 / 1000000) ltac:(lra) ltac:(lra) ltac:(lra)) as C'. rewrite tol6 in *.
  repeat split; apply Rabs_le; lra.
Qed.
(** Cosine and sine of the two angles. *)
Lemma root3 : 173205 / 100000 < sqrt 3 < 173206 / 100000.
Proof.
  split.
  - rewrite <- (sqrt_Rsqr (173205 / 100000)) by lra. apply sqrt_lt_1; unfold Rsqr; lra.
  - rewrite <- (sqrt_Rsqr (173206 / 100000)) by lra. apply sqrt_lt_1; unfold Rsqr; lra.
Qed.
Lemma angles : cos (30 * PI / 180) = sqrt 3 / 2 /\ sin (30 * PI / 180) = 1 / 2 /\ cos (150 * PI / 180) = - (sqrt 3 / 2) /\ sin (150 * PI / 180) = 1 / 2.
Proof.
  replace (30 * PI / 180) with (PI / 6) by lra. replace (150 * PI / 180) with (PI - PI / 6) by lra.
  rewrite cos_PI6, sin_PI6. replace (PI - PI / 6) with (- (PI / 6) + PI) by lra. rewrite neg_cos, neg_sin, cos_neg, sin_neg, cos_PI6, sin_PI6. repeat split; lra.
Qed.
Lemma mul_small a z b c : - b <= z <= b -> - c <= a <= c -> - (b * c) <= a * z <= b * c.
Proof.
  intros Hz Ha. assert (A : Rabs a <= c) by (apply Rabs_le; lra). assert (B : Rabs z <= b) by (apply Rabs_le; lra).
  assert (Rabs (a * z) <= c * b) by (rewrite Rabs_mult; apply Rmult_le_compat; auto; apply Rabs_pos). apply Rabs_le_inv in H. lra.
Qed.
(** A source. *)
Lemma source_box m c x y z deg C S : sound_maths m -> c = [x; y; z] -> Rabs (x - 4) <= 1 -> Rabs (y - 3) <= 1 -> cos (deg * PI / 180) = C -> sin (deg * PI / 180) = S ->
  Rabs C <= 1 -> Rabs S <= 1 ->
  exists u v, source_at m c deg = [u; v; 3 / 2] /\ Rabs (u - (x + 22 / 10 * C)) <= 4 / 1000000 /\ Rabs (v - (y + 22 / 10 * S)) <= 4 / 1000000.
Proof.
  intros (Mc & Ms & _) -> Hx Hy EC ES HC HS. unfold source_at. cbn [nth]. rewrite rnd32_3_2. eexists _, _. split; [reflexivity|].
  specialize (Mc deg). specialize (Ms deg). rewrite EC in Mc. rewrite ES in Ms. rewrite tol6 in *.
  assert (K : forall w q t, Rabs (w - q) <= 1 / 1000000 -> Rabs q <= 1 -> 0 <= t <= 6 -> Rabs (rnd32 (rnd64 (t + rnd64 (rnd64 (22 / 10) * w))) - (t + 22 / 10 * q)) <= 4 / 1000000).
  { intros w q t Hw Hq Ht. pose proof (box64 (22 / 10) (22 / 10) (22 / 10) ltac:(lra) ltac:(lra) ltac:(lra)) as A. rewrite tol12 in A. set (r := rnd64 (22 / 10)) in *.
    apply Rabs_le_inv in Hw, Hq.
    assert (E : 22 / 10 * q - 23 / 10000000 <= r * w <= 22 / 10 * q + 23 / 10000000).
    { pose proof (mul_small (r - 22 / 10) w 2 (1 / 1000000000000) ltac:(lra) ltac:(lra)). replace (r * w) with ((r - 22 / 10) * w + 22 / 10 * w) by ring. lra. }
    pose proof (box64 (r * w) _ _ E ltac:(lra) ltac:(lra)) as B. rewrite tol12 in B. set (v := rnd64 (r * w)) in *.
    pose proof (box64 (t + v) (t + 22 / 10 * q - 24 / 10000000) (t + 22 / 10 * q + 24 / 10000000) ltac:(lra) ltac:(lra) ltac:(lra)) as D. rewrite tol12 in D. set (v' := rnd64 (t + v)) in *.
    pose proof (box32 v' (t + 22 / 10 * q - 25 / 10000000) (t + 22 / 10 * q + 25 / 10000000) ltac:(lra) ltac:(lra) ltac:(lra)) as F. rewrite tol6 in F. apply Rabs_le. lra. }
  apply Rabs_le_inv in Hx, Hy. split; apply K; auto; lra.
Qed.
(** The length of the way between the sources along x. *)
Definition side : R := 22 / 10 * sqrt 3.
Lemma side_box : 38105 / 10000 < side < 38106 / 10000.
Proof. unfold side. pose proof root3. lra. Qed.
(** The second source seen from the first one at step [k]. *)
Lemma moving_box m ax ay bx by_ k : sound_maths m -> (k < 128)%nat -> 1 <= ax <= 7 -> 1 <= ay <= 5 -> 1 <= bx <= 7 -> 1 <= by_ <= 5 ->
  Rabs (ax - bx - side) <= 8 / 1000000 -> Rabs (ay - by_) <= 8 / 1000000 ->
  exists u v, moving_source m [ax; ay; 3 / 2] [bx; by_; 3 / 2] k = [u; v; 3 / 2] /\
    Rabs (u - ax - (- side + INR k / 127 * (side + 35 / 100))) <= 4 / 100000 /\ Rabs (v - ay - INR k / 127 * (1 / 10)) <= 4 / 100000.
Proof.
  intros (_ & _ & Ml & _) Hk Hax Hay Hbx Hby Hx Hy. unfold moving_source, add32, sub32. cbn [map2 combine map fst snd].
  destruct (Ml 128%nat k Hk) as [Ha Hl]. replace (INR 128 - 1) with 127 in Hl by (cbn; lra). set (al := m_lin m 128 k) in *. set (t := INR k / 127) in *. rewrite tol6 in Hl. apply Rabs_le_inv in Hl, Hx, Hy.
  pose proof side_box as SB.
  assert (K : forall p q w d, 1 <= p <= 7 -> 1 <= q <= 7 -> 0 <= d <= 1 -> - 1 / 1000 <= w <= 39 / 10 -> Rabs (p - q - w) <= 8 / 1000000 ->
    Rabs (rnd32 (q + rnd32 (al * rnd32 (rnd32 (p + rnd32 d) - q))) - p - (- w + t * (w + d))) <= 4 / 100000).
  { intros p q w d Hp Hq Hd Hw HH. apply Rabs_le_inv in HH.
    pose proof (box32 d d d ltac:(lra) ltac:(lra) ltac:(lra)) as A. rewrite tol6 in A. set (d' := rnd32 d) in *.
    pose proof (box32 (p + d') (p + d - 1 / 1000000) (p + d + 1 / 1000000) ltac:(lra) ltac:(lra) ltac:(lra)) as B. rewrite tol6 in B. set (en := rnd32 (p + d')) in *.
    pose proof (box32 (en - q) (w + d - 10 / 1000000) (w + d + 10 / 1000000) ltac:(lra) ltac:(lra) ltac:(lra)) as D. rewrite tol6 in D. set (df := rnd32 (en - q)) in *.
    assert (E : t * (w + d) - 17 / 1000000 <= al * df <= t * (w + d) + 17 / 1000000).
    { pose proof (mul_small al (df - (w + d)) (11 / 1000000) 1 ltac:(lra) ltac:(lra)) as E1.
      pose proof (mul_small (al - t) (w + d) 5 (1 / 1000000) ltac:(lra) ltac:(lra)) as E2.
      replace (al * df) with (t * (w + d) + al * (df - (w + d)) + (al - t) * (w + d)) by ring. lra. }
    pose proof (mul_small t (w + d) (49 / 10) (1 + 1 / 1000000) ltac:(lra) ltac:(lra)) as T0.
    pose proof (box32 (al * df) _ _ E ltac:(lra) ltac:(lra)) as F. rewrite tol6 in F. set (mv := rnd32 (al * df)) in *.
    pose proof (box32 (q + mv) (q + t * (w + d) - 18 / 1000000) (q + t * (w + d) + 18 / 1000000) ltac:(lra) ltac:(lra) ltac:(lra)) as G. rewrite tol6 in G.
    apply Rabs_le. lra. }
  assert (Z : rnd32 (3 / 2 + rnd32 (al * rnd32 (rnd32 (3 / 2 + rnd32 0) - 3 / 2))) = 3 / 2).
  { rewrite rnd32_0, Rplus_0_r, rnd32_3_2. replace (3 / 2 - 3 / 2) with 0 by lra. rewrite rnd32_0, Rmult_0_r, rnd32_0, Rplus_0_r. apply rnd32_3_2. }
  rewrite Z. eexists _, _. split; [reflexivity|]. split.
  - apply K; try lra. apply Rabs_le; lra.
  - replace (t * (1 / 10)) with (- 0 + t * (0 + 10 / 100)) by lra. apply K; try lra. apply Rabs_le; lra.
Qed.
(** Products of a step number and the way. *)
Lemma way_le t : t <= 115 -> t / 127 * (side + 35 / 100) <= 115 / 127 * (side + 35 / 100).
Proof. intros. pose proof side_box. apply Rmult_le_compat_r; lra. Qed.
Lemma way_ge t : 116 <= t -> 116 / 127 * (side + 35 / 100) <= t / 127 * (side + 35 / 100).
Proof. intros. pose proof side_box. apply Rmult_le_compat_r; lra. Qed.
Lemma way_next t : (t + 1) / 127 * (side + 35 / 100) = t / 127 * (side + 35 / 100) + 1 / 127 * (side + 35 / 100).
Proof. lra. Qed.
Lemma step_dec t e e' f f' : 0 <= t <= 115 -> Rabs e <= 4 / 100000 -> Rabs e' <= 4 / 100000 -> Rabs f <= 4 / 100000 -> Rabs f' <= 4 / 100000 ->
  let x := - side + t / 127 * (side + 35 / 100) + e in let x' := - side + (t + 1) / 127 * (side + 35 / 100) + e' in
  let y := t / 127 * (1 / 10) + f in let y' := (t + 1) / 127 * (1 / 10) + f' in
  x' * x' + y' * y' < x * x + y * y.
Proof.
  intros Ht He He' Hf Hf' x x' y y'. pose proof side_box. repeat match goal with H : Rabs _ <= _ |- _ => apply Rabs_le_inv in H end.
  assert (Dx : 326 / 10000 <= x' - x) by (unfold x, x'; rewrite way_next; lra). assert (Sx : x' + x <= - 53 / 1000) by (pose proof (way_le t ltac:(lra)); unfold x, x'; rewrite way_next; lra).
  assert (Dy : 0 <= y' - y <= 88 / 100000) by (unfold y, y'; lra). assert (Sy : y' + y <= 184 / 1000) by (unfold y, y'; lra).
  assert (Ly : 0 <= y' + y) by (unfold y, y'; lra). clearbody x x' y y'. clear - Dx Sx Dy Sy Ly.
  pose proof (Rmult_le_compat (326 / 10000) (x' - x) (53 / 1000) (- (x' + x)) ltac:(lra) ltac:(lra) ltac:(lra) ltac:(lra)) as P.
  pose proof (Rmult_le_compat (y' - y) (88 / 100000) (y' + y) (184 / 1000) ltac:(lra) ltac:(lra) ltac:(lra) ltac:(lra)) as Q. lra.
Qed.
Lemma step_inc t e e' f f' : 116 <= t <= 127 -> Rabs e <= 4 / 100000 -> Rabs e' <= 4 / 100000 -> Rabs f <= 4 / 100000 -> Rabs f' <= 4 / 100000 ->
  let x := - side + t / 127 * (side + 35 / 100) + e in let x' := - side + (t + 1) / 127 * (side + 35 / 100) + e' in
  let y := t / 127 * (1 / 10) + f in let y' := (t + 1) / 127 * (1 / 10) + f' in
  x * x + y * y < x' * x' + y' * y'.
Proof.
  intros Ht He He' Hf Hf' x x' y y'. pose proof side_box. repeat match goal with H : Rabs _ <= _ |- _ => apply Rabs_le_inv in H end.
  assert (Dx : 326 / 10000 <= x' - x) by (unfold x, x'; rewrite way_next; lra). assert (Sx : 11 / 1000 <= x' + x) by (pose proof (way_ge t ltac:(lra)); unfold x, x'; rewrite way_next; lra).
  assert (Dy : 0 <= y' - y) by (unfold y, y'; lra). assert (Sy : 0 <= y' + y) by (unfold y, y'; lra).
  clearbody x x' y y'. clear - Dx Sx Dy Sy.
  pose proof (Rmult_le_compat (326 / 10000) (x' - x) (11 / 1000) (x' + x) ltac:(lra) ltac:(lra) ltac:(lra) ltac:(lra)) as P. pose proof (Rmult_le_pos _ _ Dy Sy) as Q. lra.
Qed.
