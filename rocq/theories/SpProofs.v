(** Proofs for C91. *)
From Coq Require Import List ZArith Reals Lia Lra Psatz Bool.
From Flocq Require Import Core Relative.
From Verif Require Import Prelude PreludeFacts FloatModel FloatProofs SignalModel DirModel ImageModel ImageSpec AccumModel IsmSpec
  ImageProofs AccumProofs IsmModel IsmProofs KernelProofs ContSpec ContProofs SpModel SpSpec.
Import ListNotations.
Local Open Scope R_scope.
Local Notation length := List.length.

(** ** One rounding *)
Definition W : R := 61 / 10 ^ 9.
Lemma half_ulp emin prec x b : (1 < prec)%Z -> Rabs x <= b -> 0 < b ->
  Rabs (round radix2 (FLT_exp emin prec) ZnearestE x - x) <= b * bpow radix2 (- prec) + bpow radix2 emin.
Proof.
  intros Hp Hx Hb. assert (Prec_gt_0 prec) by (unfold Prec_gt_0; lia).
  pose proof (error_le_half_ulp radix2 (FLT_exp emin prec) (fun z => negb (Z.even z)) x) as E.
  destruct (Rlt_dec (Rabs x) (bpow radix2 (emin + prec))) as [L|L].
  - rewrite ulp_FLT_small in E by auto. pose proof (bpow_gt_0 radix2 emin). pose proof (bpow_gt_0 radix2 (- prec)). nra.
  - pose proof (ulp_FLT_le radix2 emin prec x) as U. assert (bpow radix2 (emin + prec - 1) <= Rabs x).
    { apply Rnot_lt_le in L. eapply Rle_trans; [|exact L]. apply bpow_le. lia. }
    specialize (U H0). replace (1 - prec)%Z with (- prec + 1)%Z in U by lia. rewrite bpow_plus in U. change (bpow radix2 1) with 2 in U.
    pose proof (bpow_gt_0 radix2 emin). pose proof (bpow_gt_0 radix2 (- prec)). nra.
Qed.
Lemma tiny_149 : bpow radix2 (-149) <= / 10 ^ 44.
Proof.
  change (-149)%Z with (- (149))%Z. rewrite (bpow_neg_inv 149) by lia. apply Rinv_le; [apply pow_lt; lra|]. rewrite pow_IZR. apply IZR_le. apply Z.leb_le. reflexivity.
Qed.
Lemma near x b : Rabs x <= b -> / 10 ^ 20 <= b -> Rabs (rnd32 x - x) <= b * (60 / 10 ^ 9).
Proof.
  intros Hx Hb. assert (P : 0 < / 10 ^ 20) by (apply Rinv_0_lt_compat, pow_lt; lra).
  eapply Rle_trans; [apply (half_ulp (-149) 24 x b); [lia|auto|lra]|].
  pose proof tiny_149 as T. assert (E1 : bpow radix2 (- (24)) = / IZR (2 ^ 24)) by reflexivity. rewrite E1.
  assert (Q : / 10 ^ 44 <= b * / 10 ^ 20). { replace (/ 10 ^ 44) with (/ 10 ^ 24 * / 10 ^ 20) by lra. apply Rmult_le_compat_r; lra. }
  cbn [Z.pow Z.pow_pos Pos.iter Z.mul Pos.mul] in *. lra.
Qed.
Lemma near_64 x b : Rabs x <= b -> / 10 ^ 20 <= b -> Rabs (rnd64 x - x) <= b * (60 / 10 ^ 9).
Proof.
  intros Hx Hb. assert (P : 0 < / 10 ^ 20) by (apply Rinv_0_lt_compat, pow_lt; lra).
  eapply Rle_trans; [apply (half_ulp (-1074) 53 x b); [lia|auto|lra]|].
  assert (T : bpow radix2 (-1074) <= / 10 ^ 44) by (eapply Rle_trans; [|apply tiny_149]; apply bpow_le; lia).
  assert (E1 : bpow radix2 (- (53)) <= / IZR (2 ^ 30)).
  { change (/ IZR (2 ^ 30)) with (bpow radix2 (-30)). apply bpow_le. lia. }
  assert (Q : / 10 ^ 44 <= b * / 10 ^ 20). { replace (/ 10 ^ 44) with (/ 10 ^ 24 * / 10 ^ 20) by lra. apply Rmult_le_compat_r; lra. }
  assert (b * bpow radix2 (- (53)) <= b * / IZR (2 ^ 30)) by (apply Rmult_le_compat_l; lra).
  cbn [Z.pow Z.pow_pos Pos.iter Z.mul Pos.mul] in *. lra.
Qed.

(** ** Approximations: [x] stands for [X], which is at most [b] in size, with the error [e b] *)
Definition approx (x X b e : R) : Prop := 0 <= b /\ 0 <= e /\ Rabs X <= b /\ Rabs (x - X) <= e * b.
Lemma ap_exact X b : Rabs X <= b -> approx X X b 0.
Proof. intros H. unfold approx. rewrite Rminus_eq_0, Rabs_R0. pose proof (Rabs_pos X). lra. Qed.
Lemma ap_weak x X b e b' e' : approx x X b e -> b <= b' -> e <= e' -> approx x X b' e'.
Proof.
  intros (A & B & C & D) Hb He. unfold approx. split; [lra|]. split; [lra|]. split; [lra|].
  eapply Rle_trans; [exact D|]. apply Rmult_le_compat; lra.
Qed.
Lemma ap_size x X b e : approx x X b e -> e <= 1 / 100 -> Rabs x <= b * (101 / 100).
Proof.
  intros (A & B & C & D) He. replace x with (X + (x - X)) by ring. eapply Rle_trans; [apply Rabs_triang|].
  assert (e * b <= 1 / 100 * b) by (apply Rmult_le_compat_r; lra). lra.
Qed.
Lemma ap_step r x X b e : approx x X b e -> / 10 ^ 20 <= b -> e <= 1 / 100 ->
  (forall y c, Rabs y <= c -> / 10 ^ 20 <= c -> Rabs (r y - y) <= c * (60 / 10 ^ 9)) -> approx (r x) X b (e + W).
Proof.
  intros H Hb He Hr. pose proof (ap_size _ _ _ _ H He) as Hs. destruct H as (A & B & C & D).
  unfold approx, W. split; [lra|]. split; [lra|]. split; [lra|].
  specialize (Hr x (b * (101 / 100)) Hs ltac:(lra)). replace (r x - X) with ((r x - x) + (x - X)) by ring.
  eapply Rle_trans; [apply Rabs_triang|]. lra.
Qed.
Lemma ap_rnd x X b e : approx x X b e -> / 10 ^ 20 <= b -> e <= 1 / 100 -> approx (rnd32 x) X b (e + W).
Proof. intros H Hb He. apply ap_step; auto. apply near. Qed.
Lemma ap_rnd64 x X b e : approx x X b e -> / 10 ^ 20 <= b -> e <= 1 / 100 -> approx (rnd64 x) X b (e + W).
Proof. intros H Hb He. apply ap_step; auto. apply near_64. Qed.
Lemma ap_mul x X b e y Y d f : approx x X b e -> approx y Y d f -> approx (x * y) (X * Y) (b * d) (e + f + e * f).
Proof.
  intros (A & B & C & D) (A' & B' & C' & D'). unfold approx.
  assert (0 <= b * d) by (apply Rmult_le_pos; auto). assert (0 <= e * f) by (apply Rmult_le_pos; auto).
  split; [auto|]. split; [lra|]. split; [rewrite Rabs_mult; apply Rmult_le_compat; auto using Rabs_pos|].
  replace (x * y - X * Y) with ((x - X) * Y + X * (y - Y) + (x - X) * (y - Y)) by ring.
  assert (T1 : Rabs ((x - X) * Y) <= e * b * d) by (rewrite Rabs_mult; apply Rmult_le_compat; auto using Rabs_pos).
  assert (T2 : Rabs (X * (y - Y)) <= b * (f * d)) by (rewrite Rabs_mult; apply Rmult_le_compat; auto using Rabs_pos).
  assert (T3 : Rabs ((x - X) * (y - Y)) <= e * b * (f * d)) by (rewrite Rabs_mult; apply Rmult_le_compat; auto using Rabs_pos).
  eapply Rle_trans; [apply Rabs_triang|]. eapply Rle_trans; [apply Rplus_le_compat_r, Rabs_triang|].
  replace ((e + f + e * f) * (b * d)) with (e * b * d + b * (f * d) + e * b * (f * d)) by ring. lra.
Qed.
Lemma ap_add x X b y Y d e : approx x X b e -> approx y Y d e -> approx (x + y) (X + Y) (b + d) e.
Proof.
  intros (A & B & C & D) (A' & B' & C' & D'). unfold approx. split; [lra|]. split; [lra|]. split.
  - eapply Rle_trans; [apply Rabs_triang|]. lra.
  - replace (x + y - (X + Y)) with ((x - X) + (y - Y)) by ring. eapply Rle_trans; [apply Rabs_triang|]. lra.
Qed.
Lemma ap_sub x X b y Y d e : approx x X b e -> approx y Y d e -> approx (x - y) (X - Y) (b + d) e.
Proof.
  intros H (A' & B' & C' & D'). unfold Rminus. apply ap_add; auto. unfold approx. rewrite Rabs_Ropp.
  replace (- y - - Y) with (- (y - Y)) by ring. rewrite Rabs_Ropp. auto.
Qed.
Lemma ap_inv x X e : 0 < X -> approx x X X e -> e <= 1 / 1000 -> 0 < x /\ approx (/ x) (/ X) (/ X) (e * (1002 / 1000)).
Proof.
  intros HX (A & B & _ & D) He. assert (e * X <= 1 / 1000 * X) by (apply Rmult_le_compat_r; lra).
  apply Rabs_le_inv in D. assert (Hx : X * (999 / 1000) <= x) by lra. assert (0 < x) by lra. split; auto.
  assert (0 < / X) by (apply Rinv_0_lt_compat; auto). assert (0 < / x) by (apply Rinv_0_lt_compat; auto).
  unfold approx. split; [lra|]. split; [lra|]. split; [rewrite Rabs_right; lra|].
  replace (/ x - / X) with ((X - x) * / X * / x) by (field; lra). rewrite !Rabs_mult, (Rabs_right (/ X)), (Rabs_right (/ x)) by lra.
  assert (Rabs (X - x) <= e * X) by (apply Rabs_le; lra).
  assert (I : / x <= / X * (1002 / 1000)).
  { replace (/ X * (1002 / 1000)) with (/ (X * (1000 / 1002))) by (field; lra). apply Rinv_le; lra. }
  apply Rle_trans with (e * X * / X * (/ X * (1002 / 1000))).
  - apply Rmult_le_compat; [apply Rmult_le_pos; [apply Rabs_pos|lra]|lra| |auto]. apply Rmult_le_compat_r; lra.
  - right. field. lra.
Qed.

(** ** One axis *)
Lemma thousandth : / 10 ^ 20 <= 1 / 1000.
Proof. lra. Qed.
Lemma half_index n : Rabs (IZR ((n + 1) / 2)) <= (IZR (Z.abs n) + 1) / 2.
Proof.
  rewrite <- abs_IZR. assert (E : (2 * Z.abs ((n + 1) / 2) <= Z.abs n + 1)%Z).
  { pose proof (Z.div_mod (n + 1) 2 ltac:(lia)). pose proof (Z.mod_pos_bound (n + 1) 2 ltac:(lia)). lia. }
  apply IZR_le in E. rewrite mult_IZR, plus_IZR in E. lra.
Qed.
Lemma ap_coord x l n : 0 <= x <= l -> 1 / 1000 <= l ->
  approx (coord32 (rnd32 x) (rnd32 l) n) (image_coord x l n) ((IZR (Z.abs n) + 2) * l) (51 / 10 * W).
Proof.
  intros Hx Hl. pose proof thousandth as Th. unfold coord32, image_coord. cbv zeta. pose proof (IZR_le _ _ (Z.abs_nonneg n)) as Hn.
  set (N := IZR (Z.abs n)) in *. set (k := IZR ((n + 1) / 2)). assert (Hk : Rabs k <= (N + 1) / 2) by apply half_index.
  assert (NL : 0 <= N * l) by (apply Rmult_le_pos; lra).
  assert (A1 : approx (rnd32 l) l l (0 + W)) by (apply ap_rnd; [apply ap_exact; rewrite Rabs_right; lra|lra|lra]).
  assert (A2 : approx (rnd32 (2 * rnd32 l)) (2 * l) (2 * l) (W + W)).
  { apply ap_rnd; [|lra|unfold W; lra]. eapply ap_weak; [apply (ap_mul 2 2 2 0 _ _ _ _ ltac:(apply ap_exact; rewrite Rabs_right; lra) A1)|lra|lra]. }
  assert (A3 : approx (rnd32 k) k ((N + 1) / 2) (0 + W)) by (apply ap_rnd; [apply ap_exact; auto|lra|lra]).
  assert (A4 : approx (rnd32 (rnd32 (2 * rnd32 l) * rnd32 k)) (2 * l * k) ((N + 1) * l) (41 / 10 * W)).
  { eapply ap_weak; [apply ap_rnd; [apply (ap_mul _ _ _ _ _ _ _ _ A2 A3)| |]| |]; [|unfold W; lra|right; field|unfold W; lra].
    replace (2 * l * ((N + 1) / 2)) with (N * l + l) by field. lra. }
  assert (A5 : approx (rnd32 x) x l (0 + W)).
  { apply ap_rnd; [|lra|lra]. apply ap_exact. rewrite Rabs_right; lra. }
  set (s := if (n mod 2 =? 0)%Z then 1 else -1). assert (Hs : Rabs s <= 1).
  { unfold s. destruct (_ =? _)%Z; [rewrite Rabs_right; lra|]. rewrite Rabs_left; lra. }
  assert (A6 : approx (rnd32 (s * rnd32 x)) (s * x) l (41 / 10 * W)).
  { eapply ap_weak; [apply ap_rnd; [apply (ap_mul s s 1 0 _ _ _ _ ltac:(apply ap_exact; auto) A5)| |]| |]; unfold W; lra. }
  eapply ap_weak; [apply ap_rnd; [apply (ap_add _ _ _ _ _ _ _ A4 A6)| |]| |]; [|unfold W; lra|right; ring|unfold W; lra].
  replace ((N + 1) * l + l) with (N * l + 2 * l) by ring. lra.
Qed.
Lemma ap_axis x m l n : 0 <= x <= l -> 0 <= m <= l -> 1 / 1000 <= l ->
  approx (rnd32 (rnd32 m - coord32 (rnd32 x) (rnd32 l) n)) (m - image_coord x l n) ((IZR (Z.abs n) + 3) * l) (62 / 10 * W).
Proof.
  intros Hx Hm Hl. pose proof (ap_coord x l n Hx Hl) as A. pose proof thousandth as Th.
  pose proof (IZR_le _ _ (Z.abs_nonneg n)) as Hn. set (N := IZR (Z.abs n)) in *. assert (NL : 0 <= N * l) by (apply Rmult_le_pos; lra).
  assert (B : approx (rnd32 m) m l (51 / 10 * W)).
  { apply ap_weak with l (0 + W); [apply ap_rnd; [apply ap_exact; rewrite Rabs_right; lra|lra|lra]|lra|unfold W; lra]. }
  eapply ap_weak; [apply ap_rnd; [apply (ap_sub _ _ _ _ _ _ _ B A)| |]| |]; [|unfold W; lra|right; ring|unfold W; lra].
  replace (l + (N + 2) * l) with (N * l + 3 * l) by ring. lra.
Qed.

(** ** The distance *)
Lemma rsum_cons x l : rsum (x :: l) = x + rsum l.
Proof. reflexivity. Qed.
Definition sq (v : list R) : R := rsum (map (fun x => x * x) v).
Lemma sq_cons x v : sq (x :: v) = x * x + sq v.
Proof. reflexivity. Qed.
Lemma sq_nonneg v : 0 <= sq v.
Proof. induction v; [cbn; lra|]. rewrite sq_cons. pose proof (Rle_0_sqr a) as H. unfold Rsqr in H. lra. Qed.
(** Vectors that agree in every coordinate up to [e] times a bound. *)
Definition close (e : R) (v32 v s : list R) : Prop :=
  Forall2 (fun p b => approx (fst p) (snd p) b e) (combine v32 v) s /\ length v32 = length s /\ length v = length s.
Lemma close_cons e a x b v32 v s : approx a x b e -> close e v32 v s -> close e (a :: v32) (x :: v) (b :: s).
Proof. intros A (F & L1 & L2). split; [cbn; constructor; auto|]. cbn. auto. Qed.
Lemma close_inv e v32 v s : close e v32 v s -> match s with
  | [] => v32 = [] /\ v = []
  | b :: s' => exists a x v32' v', v32 = a :: v32' /\ v = x :: v' /\ approx a x b e /\ close e v32' v' s' end.
Proof.
  intros (F & L1 & L2). destruct s as [|b s], v32 as [|a v32], v as [|x v]; cbn in *; try discriminate; auto.
  inversion F as [|p q r t A B]. exists a, x, v32, v. split; [auto|]. split; [auto|]. split; [auto|]. split; [auto|]. split; lia.
Qed.
Lemma close_dist e v32 : 0 <= e -> forall v s, close e v32 v s -> sqdist v32 v <= e * e * sq s /\ sq v <= sq s.
Proof.
  intros He. induction v32 as [|a v32 IH]; intros v s H; apply close_inv in H; destruct s as [|b s].
  - destruct H as [_ ->]. cbn. lra.
  - destruct H as (? & ? & ? & ? & E & _). discriminate.
  - destruct H as [E _]. discriminate.
  - destruct H as (a' & x & v32' & v' & E & -> & (P & Q & X & D) & C). injection E as <- <-.
    destruct (IH _ _ C) as [I1 I2]. rewrite sqdist_cons, !sq_cons.
    assert (T1 : (a - x) * (a - x) <= e * b * (e * b)).
    { rewrite <- (Rabs_right ((a - x) * (a - x))) by (apply Rle_ge, (Rle_0_sqr (a - x))). rewrite Rabs_mult. apply Rmult_le_compat; auto using Rabs_pos. }
    assert (T2 : x * x <= b * b).
    { rewrite <- (Rabs_right (x * x)) by (apply Rle_ge, (Rle_0_sqr x)). rewrite Rabs_mult. apply Rmult_le_compat; auto using Rabs_pos. }
    replace (e * e * (b * b + sq s)) with (e * b * (e * b) + e * e * sq s) by ring. lra.
Qed.
Lemma sq_euclid v : sq v = sqdist v (repeat 0 (length v)).
Proof. induction v; [reflexivity|]. cbn [length repeat]. rewrite sqdist_cons, sq_cons, IHv. ring. Qed.
Lemma norm_close e v32 v s : 0 <= e -> close e v32 v s -> approx (sqrt (sq v32)) (sqrt (sq v)) (sqrt (sq s)) e.
Proof.
  intros He C. destruct (close_dist e v32 He _ _ C) as [D S]. destruct C as (_ & L1 & L2).
  assert (E : euclid v32 v <= e * sqrt (sq s)).
  { unfold euclid. rewrite <- (sqrt_square e) at 1 by auto. rewrite <- sqrt_mult; [|apply Rmult_le_pos; auto|apply sq_nonneg]. apply sqrt_le_1_alt. auto. }
  split; [apply sqrt_pos|]. split; [auto|]. split; [rewrite Rabs_right by (apply Rle_ge, sqrt_pos); apply sqrt_le_1_alt; auto|].
  rewrite !sq_euclid. rewrite L1, L2. fold (euclid v32 (repeat 0 (length s))) (euclid v (repeat 0 (length s))).
  pose proof (euclid_triangle v32 v (repeat 0 (length s)) ltac:(congruence) ltac:(rewrite repeat_length; auto)) as T1.
  pose proof (euclid_triangle v v32 (repeat 0 (length s)) ltac:(congruence) ltac:(rewrite repeat_length; auto)) as T2.
  rewrite (euclid_sym v v32) in T2. rewrite <- sq_euclid. apply Rabs_le. lra.
Qed.
Lemma map2_cons {A B C} (f : A -> B -> C) a b x y : map2 f (a :: x) (b :: y) = f a b :: map2 f x y.
Proof. reflexivity. Qed.
Lemma close_vec size : roomy size -> forall src mic n, inside size src -> inside size mic -> length n = length size ->
  close (62 / 10 * W) (vec32 (map rnd32 src) (map rnd32 mic) (map rnd32 size) n) (ray src mic size n) (spread size n).
Proof.
  induction 1 as [|l size Hl R IH]; intros src mic n Hs Hm Hn.
  - inversion Hs; inversion Hm; subst. split; [constructor|auto].
  - inversion Hs as [|? x ? src' Hx Hs']; inversion Hm as [|? m ? mic' Hm1 Hm']; subst. destruct n as [|k n]; [discriminate|]. injection Hn as Hn.
    specialize (IH src' mic' n Hs' Hm' Hn). unfold vec32, ray in *. cbn [map combine image_of diff spread] in *. rewrite !map2_cons. cbn [fst snd].
    rewrite <- image_coord_reflected. apply close_cons; auto. apply ap_axis; auto.
Qed.

Lemma sq_diff a b : sq (diff a b) = sqdist a b.
Proof. revert b. induction a as [|x a IH]; intros [|y b]; try reflexivity. cbn [diff]. rewrite sq_cons, sqdist_cons, IH. reflexivity. Qed.
Lemma reach_sq size n : reach size n = sqrt (sq (spread size n)).
Proof. reflexivity. Qed.
Lemma reach_big size n : roomy size -> length n = length size -> size <> [] -> 3 / 1000 <= reach size n.
Proof.
  intros R L E. destruct R as [|l size Hl R]; [congruence|]. destruct n as [|k n]; [discriminate|].
  rewrite reach_sq. cbn [spread]. rewrite sq_cons. pose proof (IZR_le _ _ (Z.abs_nonneg k)) as Hk.
  assert (B : 3 / 1000 <= (IZR (Z.abs k) + 3) * l). { replace (3 / 1000) with (3 * (1 / 1000)) by lra. apply Rmult_le_compat; lra. }
  rewrite <- (sqrt_square (3 / 1000)) by lra. apply sqrt_le_1_alt. pose proof (sq_nonneg (spread size n)).
  assert (3 / 1000 * (3 / 1000) <= (IZR (Z.abs k) + 3) * l * ((IZR (Z.abs k) + 3) * l)) by (apply Rmult_le_compat; lra). lra.
Qed.
Section Scene.
  Variables (nrm : list R -> R) (fs c : R) (size src mic : list R) (n : list Z).
  Hypotheses (Hn : sound_norm nrm) (Hr : roomy size) (H0 : size <> []) (Hs : inside size src) (Hm : inside size mic) (Hl : length n = length size).
  Let v := vec32 (map rnd32 src) (map rnd32 mic) (map rnd32 size) n.
  Let Re := reach size n.
  Lemma re_big : 3 / 1000 <= Re.
  Proof. apply reach_big; auto. Qed.
  Lemma ap_dist : approx (dist32 nrm v) (ray_length src mic size n) Re (683 / 10 ^ 9).
  Proof.
    pose proof re_big as B. pose proof (norm_close (62 / 10 * W) v (ray src mic size n) (spread size n) ltac:(unfold W; lra) (close_vec size Hr _ _ _ Hs Hm Hl)) as A.
    rewrite <- reach_sq in A. fold Re in A. unfold ray in A. rewrite sq_diff in A. fold (euclid mic (image_of src size n)) in A.
    pose proof (ap_size _ _ _ _ A ltac:(unfold W; lra)) as S.
    assert (P : 0 <= sqrt (sq v)) by apply sqrt_pos. rewrite Rabs_right in S by lra.
    specialize (Hn v). cbv zeta in Hn. fold (sq v) in Hn. destruct A as (_ & _ & X & D).
    set (d := euclid mic (image_of src size n)) in *. unfold ray_length, dist32. fold d.
    assert (C : approx (rnd32 (rnd64 (/ 10 ^ 6))) (/ 10 ^ 6) (/ 10 ^ 6) (0 + W + W)).
    { apply ap_rnd; [|lra|unfold W; lra]. apply ap_rnd64; [|lra|lra]. apply ap_exact. rewrite Rabs_right; lra. }
    destruct C as (_ & _ & _ & C). apply Rabs_le_inv in C. apply Rabs_le_inv in Hn. apply Rabs_le_inv in D.
    assert (d0 : 0 <= d) by apply sqrt_pos. rewrite Rabs_right in X by lra. unfold W in *.
    split; [lra|]. split; [lra|]. split.
    - rewrite Rabs_right; [apply Rmax_lub; lra|]. apply Rle_ge. eapply Rle_trans; [apply d0|apply Rmax_l].
    - apply Rabs_le. unfold Rmax. destruct (Rle_dec (nrm v) _), (Rle_dec d _); lra.
  Qed.
  Hypotheses (Hc : 1 / 1000 <= c <= 10 ^ 6) (Hf : 1 <= fs <= 10 ^ 9).
  Lemma dist_pos : 0 < dist32 nrm v.
  Proof.
    unfold dist32. eapply Rlt_le_trans; [|apply Rmax_r].
    assert (C : approx (rnd32 (rnd64 (/ 10 ^ 6))) (/ 10 ^ 6) (/ 10 ^ 6) (0 + W + W)).
    { apply ap_rnd; [|lra|unfold W; lra]. apply ap_rnd64; [|lra|lra]. apply ap_exact. rewrite Rabs_right; lra. }
    destruct C as (_ & _ & _ & C). apply Rabs_le_inv in C. unfold W in C. lra.
  Qed.
  Lemma ap_offset h : approx (rnd32 (rnd64 (INR h / fs))) (INR h / fs) (INR h / fs) (W + W).
  Proof.
    destruct h as [|h].
    - replace (INR 0 / fs) with 0 by (cbn; field; lra). rewrite rnd64_0, rnd32_0. unfold approx, W. rewrite Rminus_eq_0, Rabs_R0. lra.
    - assert (1 <= INR (S h)) by (rewrite S_INR; pose proof (pos_INR h); lra).
      assert (B : / 10 ^ 9 <= INR (S h) / fs).
      { replace (/ 10 ^ 9) with (1 * / 10 ^ 9) by ring. apply Rmult_le_compat; [lra|lra|auto|]. apply Rinv_le; lra. }
      replace (W + W) with (0 + W + W) by ring. apply ap_rnd; [|lra|unfold W; lra]. apply ap_rnd64; [|lra|lra]. apply ap_exact. rewrite Rabs_right; lra.
  Qed.
  Lemma ap_sample h : approx (sample32 nrm fs c h v) (exact_sample fs c h src mic size n) (Re * fs / c + INR h) (/ 10 ^ 6).
  Proof.
    pose proof re_big as B. unfold sample32. cbv zeta.
    assert (Ac : approx (rnd32 c) c c (0 + W)) by (apply ap_rnd; [apply ap_exact; rewrite Rabs_right; lra|lra|lra]).
    destruct (ap_inv (rnd32 c) c (0 + W) ltac:(lra) Ac ltac:(unfold W; lra)) as [_ Ai].
    assert (Ic : / 10 ^ 6 <= / c) by (apply Rinv_le; lra).
    assert (T : / 10 ^ 20 <= Re * / c).
    { apply Rle_trans with (3 / 1000 * / 10 ^ 6); [lra|]. apply Rmult_le_compat; lra. }
    assert (A1 : approx (rnd32 (dist32 nrm v / rnd32 c)) (ray_length src mic size n / c) (Re * / c) (806 / 10 ^ 9)).
    { eapply ap_weak; [apply ap_rnd; [apply (ap_mul _ _ _ _ _ _ _ _ ap_dist Ai)|auto|]|right; reflexivity|]; unfold W; lra. }
    assert (Hh : 0 <= INR h / fs) by (apply Rmult_le_pos; [apply pos_INR|apply Rlt_le, Rinv_0_lt_compat; lra]).
    assert (A2 : approx (rnd32 (rnd64 (INR h / fs))) (INR h / fs) (INR h / fs) (806 / 10 ^ 9)).
    { eapply ap_weak; [apply ap_offset|right; reflexivity|unfold W; lra]. }
    pose proof (ap_add _ _ _ _ _ _ _ A1 A2) as A3.
    assert (A4 : approx (rnd32 (rnd32 (dist32 nrm v / rnd32 c) + rnd32 (rnd64 (INR h / fs)))) (ray_length src mic size n / c + INR h / fs)
      (Re * / c + INR h / fs) (806 / 10 ^ 9 + W)) by (apply ap_rnd; [auto|lra|lra]).
    assert (Af : approx (rnd32 fs) fs fs (0 + W)) by (apply ap_rnd; [apply ap_exact; rewrite Rabs_right; lra|lra|lra]).
    assert (BB : (Re * / c + INR h / fs) * fs = Re * fs / c + INR h) by (field; lra).
    assert (Ee : exact_sample fs c h src mic size n = (ray_length src mic size n / c + INR h / fs) * fs) by (unfold exact_sample; field; lra).
    rewrite Ee, <- BB. assert (S : / 10 ^ 20 <= (Re * / c + INR h / fs) * fs).
    { apply Rle_trans with (Re * / c * 1); [lra|]. apply Rmult_le_compat; lra. }
    pose proof (ap_mul _ _ _ _ _ _ _ _ A4 Af) as A5. apply ap_rnd in A5; [|exact S|unfold W; lra].
    apply (ap_weak _ _ _ _ _ _ A5); unfold W; lra.
  Qed.
  Lemma ray_reach : ray_length src mic size n <= Re.
  Proof. pose proof ap_dist as (_ & _ & X & _). rewrite Rabs_right in X; auto. apply Rle_ge, Rlt_le, ray_pos. Qed.
  Lemma gain_error g : Re <= 1000 * ray_length src mic size n -> let d := ray_length src mic size n in
    Rabs (gain32 nrm g v - g / d) <= Rabs g / d * (Re / d / 10 ^ 6) + / 10 ^ 40.
  Proof.
    intros Hd d. fold d in Hd. pose proof dist_pos as P. pose proof (ray_pos src mic size n) as Q. fold d in Q. pose proof ray_reach as RR. fold d in RR.
    pose proof ap_dist as (_ & _ & X & D). fold d in X, D. apply Rabs_le_inv in D. set (e := dist32 nrm v) in *.
    assert (LE : d * (999 / 1000) <= e) by lra. assert (I : 0 < / d) by (apply Rinv_0_lt_compat; auto).
    assert (Ie : / e <= / d * (1002 / 1000)).
    { replace (/ d * (1002 / 1000)) with (/ (d * (1000 / 1002))) by (field; lra). apply Rinv_le; lra. }
    assert (I0 : 0 < / e) by (apply Rinv_0_lt_compat; auto).
    set (G := Rabs g * / d). assert (HG : 0 <= G) by (apply Rmult_le_pos; [apply Rabs_pos|lra]).
    set (q := Re * / d). assert (Hq : 1 <= q). { unfold q. rewrite <- (Rinv_r d) by lra. apply Rmult_le_compat_r; lra. }
    assert (E1 : Rabs (g / e - g / d) <= G * (q * (70 / 10 ^ 8))).
    { replace (g / e - g / d) with (g * / d * ((d - e) * / e)) by (field; lra). rewrite Rabs_mult, Rabs_mult, (Rabs_right (/ d)) by lra. fold G.
      apply Rmult_le_compat_l; auto. rewrite Rabs_mult, (Rabs_right (/ e)) by lra.
      assert (Rabs (d - e) <= 69 / 10 ^ 8 * Re) by (apply Rabs_le; lra).
      apply Rle_trans with (69 / 10 ^ 8 * Re * (/ d * (1002 / 1000))); [apply Rmult_le_compat; auto using Rabs_pos; lra|].
      replace (69 / 10 ^ 8 * Re * (/ d * (1002 / 1000))) with (q * (69 / 10 ^ 8 * (1002 / 1000))) by (unfold q; ring). apply Rmult_le_compat_l; lra. }
    assert (GQ : G <= G * q). { rewrite <- (Rmult_1_r G) at 1. apply Rmult_le_compat_l; auto. }
    assert (E2 : Rabs (gain32 nrm g v - g / e) <= (G * q + G) * (60 / 10 ^ 9) + / 10 ^ 40).
    { unfold gain32. fold e. assert (T : Rabs (g / e) <= G * (1002 / 1000)).
      { unfold Rdiv, G. rewrite Rabs_mult, (Rabs_right (/ e)) by lra. rewrite Rmult_assoc. apply Rmult_le_compat_l; [apply Rabs_pos|lra]. }
      set (b := G * (1002 / 1000) + / 10 ^ 44). assert (0 < / 10 ^ 44) by (apply Rinv_0_lt_compat, pow_lt; lra).
      eapply Rle_trans; [apply (half_ulp (-149) 24 (g / e) b); unfold b; [lia|lra|lra]|].
      pose proof tiny_149 as T9. assert (Eb : bpow radix2 (- (24)) = / IZR (2 ^ 24)) by reflexivity. rewrite Eb. unfold b.
      cbn [Z.pow Z.pow_pos Pos.iter Z.mul Pos.mul]. lra. }
    replace (Rabs g / d) with G by reflexivity. replace (Re / d / 10 ^ 6) with (q * / 10 ^ 6) by (unfold q; field; lra).
    replace (gain32 nrm g v - g / d) with ((gain32 nrm g v - g / e) + (g / e - g / d)) by ring.
    eapply Rle_trans; [apply Rabs_triang|]. lra.
  Qed.
End Scene.

(** ** Reflections *)
Definition eta : R := / 10 ^ 20.
Lemma abs_pow b k : Rabs b <= 1 -> Rabs (b ^ k) <= 1.
Proof. intros H. rewrite <- RPow_abs. rewrite <- (pow1 k). apply pow_incr. split; [apply Rabs_pos|auto]. Qed.
Lemma ap_pow pw b k : sound_power pw -> Rabs b <= 1 -> approx (pw b (INR k)) (b ^ k) (Rabs (b ^ k) + eta) (3 / 10 ^ 7).
Proof.
  intros H Hb. specialize (H b k Hb). pose proof (Rabs_pos (b ^ k)). unfold approx, eta. split; [lra|]. split; [lra|]. split; [lra|].
  eapply Rle_trans; [exact H|]. lra.
Qed.
Lemma index_exact z : (0 <= z <= 2 ^ 24)%Z -> rnd32 (IZR z) = INR (Z.to_nat z).
Proof. intros H. rewrite rnd32_IZR by lia. rewrite INR_IZR_INZ, Z2Nat.id by lia. reflexivity. Qed.
Lemma n_bounds n : (0 <= n_hi n <= Z.abs n)%Z /\ (0 <= n_lo n <= Z.abs n)%Z.
Proof.
  unfold n_hi, n_lo. pose proof (Z.div_mod (n + 1) 2 ltac:(lia)). pose proof (Z.mod_pos_bound (n + 1) 2 ltac:(lia)).
  pose proof (Z.div_mod n 2 ltac:(lia)). pose proof (Z.mod_pos_bound n 2 ltac:(lia)).
  pose proof (Z.div_mod (Z.abs n) 2 ltac:(lia)). pose proof (Z.mod_pos_bound (Z.abs n) 2 ltac:(lia)).
  pose proof (Z.div_mod (Z.abs n + 1) 2 ltac:(lia)). pose proof (Z.mod_pos_bound (Z.abs n + 1) 2 ltac:(lia)).
  destruct (Z.leb_spec 0 n); lia.
Qed.
Lemma prod_bound p q i j : 0 <= p <= 1 -> 0 <= q <= 1 -> 0 <= i <= 100 -> 0 <= j <= 100 ->
  (p + i * eta) * (q + j * eta) <= p * q + (i + j + 1) * eta.
Proof.
  intros P Q I J. unfold eta. assert (T1 : p * j <= 1 * j) by (apply Rmult_le_compat_r; lra). assert (T2 : i * q <= i * 1) by (apply Rmult_le_compat_l; lra).
  assert (T3 : i * j <= 100 * 100) by (apply Rmult_le_compat; lra).
  replace ((p + i * / 10 ^ 20) * (q + j * / 10 ^ 20)) with (p * q + (p * j + i * q + i * j * / 10 ^ 20) * / 10 ^ 20) by ring. lra.
Qed.
Lemma ap_axis_coeff pw lo hi n : sound_power pw -> Rabs lo <= 1 -> Rabs hi <= 1 -> (Z.abs n <= 2 ^ 24)%Z ->
  approx (axis32 pw lo hi n) (axis_coeff lo hi n) (Rabs (axis_coeff lo hi n) + 3 * eta) (67 / 10 ^ 8) /\ Rabs (axis_coeff lo hi n) <= 1.
Proof.
  intros Hp Hlo Hhi Hn. unfold axis32, axis_coeff. destruct (n_bounds n) as [B1 B2]. rewrite !index_exact by lia.
  pose proof (ap_pow pw hi (Z.to_nat (n_hi n)) Hp Hhi) as A1. pose proof (ap_pow pw lo (Z.to_nat (n_lo n)) Hp Hlo) as A2.
  pose proof (abs_pow hi (Z.to_nat (n_hi n)) Hhi) as C1. pose proof (abs_pow lo (Z.to_nat (n_lo n)) Hlo) as C2.
  set (x := hi ^ _) in *. set (y := lo ^ _) in *. pose proof (Rabs_pos x). pose proof (Rabs_pos y). split.
  - pose proof (ap_mul _ _ _ _ _ _ _ _ A1 A2) as A3. pose proof (prod_bound (Rabs x) (Rabs y) 1 1 ltac:(lra) ltac:(lra) ltac:(lra) ltac:(lra)) as PB.
    rewrite Rabs_mult. assert (XY : 0 <= Rabs x * Rabs y) by (apply Rmult_le_pos; auto).
    assert (A4 : approx (pw hi (INR (Z.to_nat (n_hi n))) * pw lo (INR (Z.to_nat (n_lo n)))) (x * y) (Rabs x * Rabs y + 3 * eta) (601 / 10 ^ 9)).
    { apply (ap_weak _ _ _ _ _ _ A3); [rewrite !Rmult_1_l in PB; lra|lra]. }
    apply ap_rnd in A4; [|unfold eta; lra|lra]. apply (ap_weak _ _ _ _ _ _ A4); unfold W; lra.
  - rewrite Rabs_mult. rewrite <- (Rmult_1_r 1). apply Rmult_le_compat; auto.
Qed.
Lemma rprod_cons x l : rprod (x :: l) = x * rprod l.
Proof. reflexivity. Qed.
Lemma ap_fold pw : sound_power pw -> forall walls n a A i e, Forall (fun w => Rabs (fst w) <= 1 /\ Rabs (snd w) <= 1) walls ->
  Forall (fun k => Z.abs k <= 2 ^ 24)%Z n -> length n = length walls -> approx a A (Rabs A + i * eta) e -> Rabs A <= 1 -> 0 <= e ->
  1 <= i -> i + 4 * INR (length n) <= 100 -> e + 74 / 10 ^ 8 * INR (length n) <= 1 / 1000 ->
  let X := rprod (map2 (fun b k => axis_coeff (fst b) (snd b) k) walls n) in
  approx (fold_left (fun a x => rnd32 (a * x)) (map2 (fun b k => axis32 pw (fst b) (snd b) k) walls n) a) (A * X)
    (Rabs (A * X) + (i + 4 * INR (length n)) * eta) (e + 74 / 10 ^ 8 * INR (length n)).
Proof.
  intros Hp. induction walls as [|[lo hi] walls IH]; intros [|k n] a A i e Hw Hn L Ha HA He Hi Bi Be X; try discriminate.
  - unfold X. cbn. rewrite Rmult_1_r, !Rmult_0_r, !Rplus_0_r. exact Ha.
  - unfold X. rewrite !map2_cons. cbn [fold_left fst snd]. rewrite rprod_cons. inversion Hw as [|? ? [W1 W2] Hw']; subst. inversion Hn as [|? ? K1 Hn']; subst. cbn in W1, W2.
    cbn [length] in *. rewrite S_INR in *. pose proof (pos_INR (length n)) as PN.
    destruct (ap_axis_coeff pw lo hi k Hp W1 W2 K1) as [C1 C2]. set (x := axis_coeff lo hi k) in *. set (x32 := axis32 pw lo hi k) in *.
    pose proof (ap_mul _ _ _ _ _ _ _ _ Ha C1) as M. pose proof (Rabs_pos A). pose proof (Rabs_pos x).
    pose proof (prod_bound (Rabs A) (Rabs x) i 3 ltac:(lra) ltac:(lra) ltac:(lra) ltac:(lra)) as PB. rewrite <- Rabs_mult in PB.
    assert (M2 : approx (a * x32) (A * x) (Rabs (A * x) + (i + 4) * eta) (e + 671 / 10 ^ 9)).
    { apply (ap_weak _ _ _ _ _ _ M); [lra|]. assert (e * (67 / 10 ^ 8) <= 1 / 1000 * (67 / 10 ^ 8)) by (apply Rmult_le_compat_r; lra). lra. }
    apply ap_rnd in M2.
    + assert (M3 : approx (rnd32 (a * x32)) (A * x) (Rabs (A * x) + (i + 4) * eta) (e + 74 / 10 ^ 8)).
      { apply (ap_weak _ _ _ _ _ _ M2); [lra|unfold W; lra]. }
      assert (AX : Rabs (A * x) <= 1). { rewrite Rabs_mult, <- (Rmult_1_r 1). apply Rmult_le_compat; auto. }
      injection L as L. specialize (IH n (rnd32 (a * x32)) (A * x) (i + 4) (e + 74 / 10 ^ 8) Hw' Hn' L M3 AX ltac:(lra) ltac:(lra) ltac:(lra) ltac:(lra)).
      cbv zeta in IH. rewrite Rmult_assoc in IH. apply (ap_weak _ _ _ _ _ _ IH); [|lra].
      replace (i + 4 + 4 * INR (length n)) with (i + 4 * (INR (length n) + 1)) by ring. lra.
    + pose proof (Rabs_pos (A * x)). unfold eta in *. lra.
    + lra.
Qed.
Lemma gain_path walls n : rprod (map2 (fun b k => axis_coeff (fst b) (snd b) k) walls n) = path_gain walls n.
Proof.
  revert n. induction walls as [|[lo hi] walls IH]; intros [|k n]; try reflexivity. rewrite map2_cons, rprod_cons. cbn [fst snd path_gain].
  rewrite IH, axis_coeff_path. reflexivity.
Qed.
Lemma refl_error pw walls n : sound_power pw -> Forall (fun w => Rabs (fst w) <= 1 /\ Rabs (snd w) <= 1) walls ->
  Forall (fun k => Z.abs k <= 2 ^ 24)%Z n -> length n = length walls -> (length n <= 3)%nat ->
  Rabs (refl32 pw walls n - path_gain walls n) <= 3 / 10 ^ 6 * Rabs (path_gain walls n) + / 10 ^ 20.
Proof.
  intros Hp Hw Hn L L3. apply le_INR in L3. replace (INR 3) with 3 in L3 by (cbn; lra). pose proof (pos_INR (length n)).
  pose proof (ap_fold pw Hp walls n 1 1 1 0 Hw Hn L) as A. rewrite Rabs_R1 in A.
  assert (I : approx 1 1 (1 + 1 * eta) 0) by (apply (ap_weak 1 1 1 0); [apply ap_exact; rewrite Rabs_R1; lra|unfold eta; lra|lra]).
  specialize (A I ltac:(lra) ltac:(lra) ltac:(lra) ltac:(lra) ltac:(lra)). cbv zeta in A. rewrite gain_path, Rmult_1_l in A. fold (refl32 pw walls n) in A.
  assert (A' : approx (refl32 pw walls n) (path_gain walls n) (Rabs (path_gain walls n) + 100 * eta) (3 / 10 ^ 6)).
  { apply (ap_weak _ _ _ _ _ _ A); [|lra]. apply Rplus_le_compat_l. apply Rmult_le_compat_r; [unfold eta; lra|lra]. }
  destruct A' as (_ & _ & _ & D). eapply Rle_trans; [exact D|]. unfold eta. lra.
Qed.

(** ** The response *)
Lemma between_shift x a b h : between (x - h) (a - h) (b - h) = between x a b.
Proof.
  unfold between. destruct (Rlt_dec (a - h) (x - h)), (Rlt_dec a x); try (exfalso; lra);
  destruct (Rle_dec (x - h) (b - h)), (Rle_dec x b); try (exfalso; lra);
  destruct (Rlt_dec (b - h) (x - h)), (Rlt_dec b x); try (exfalso; lra);
  destruct (Rle_dec (x - h) (a - h)), (Rle_dec x a); try (exfalso; lra); reflexivity.
Qed.
Lemma xsum_pulses {A} L kern (s a : A -> R) l j :
  xsum (map (fun n => pulse L kern (s n) (Some (a n)) j) l) = Some (rsum (map (fun n => a n * shape_at L kern j (s n)) l)).
Proof.
  induction l as [|n l IH]; [reflexivity|]. cbn [map]. unfold xsum in *. cbn [fold_right]. rewrite IH, pulse_value. reflexivity.
Qed.
Lemma map_seq_nth {A B} (f : A -> B) (d : A) l : map (fun i => f (nth i l d)) (seq 0 (length l)) = map f l.
Proof.
  induction l as [|x l IH] using rev_ind; [reflexivity|]. rewrite app_length. cbn [length]. rewrite Nat.add_1_r, seq_S, !map_app. cbn [map]. f_equal.
  - rewrite <- IH. apply map_ext_in. intros i Hi. apply in_seq in Hi. rewrite app_nth1 by lia. reflexivity.
  - rewrite app_nth2, Nat.sub_diag by lia. reflexivity.
Qed.
Lemma rir32_value nrm fs c L gran lut chunk nsample size src mic images refl : Nat.Odd L -> (0 < gran)%nat -> (0 < chunk)%nat ->
  exists out, rir32 nrm fs c L gran lut chunk nsample size src mic images refl = Ok out /\ length out = nsample /\
    forall j, (j < nsample)%nat -> nth j out None = Some (rsum (map (fun n =>
      gain32 nrm (refl n) (vec32 src mic size n) *
      shape_at L (kernel (if lut then Some gran else None)) j (sample32 nrm fs c (L / 2) (vec32 src mic size n) - INR (L / 2))) images)).
Proof.
  intros HL Hg Hc. unfold rir32. rewrite (half_odd L HL).
  set (S := map (fun n => sample32 nrm fs c (L / 2) (vec32 src mic size n)) images). set (A := map (fun n => Some (gain32 nrm (refl n) (vec32 src mic size n))) images).
  destruct (accumulate_exact lut L gran nsample 1 (length images) chunk S A (repeat (Some 0) nsample) HL Hg Hc) as (out & E & Lo & V).
  - lia.
  - rewrite repeat_length. lia.
  - unfold S. rewrite map_length. lia.
  - unfold A. rewrite map_length. lia.
  - exists out. split; [exact E|]. split; [lia|]. intros j Hj. rewrite V by lia.
    rewrite Nat.div_small, Nat.mod_small by lia. cbn [Nat.mul Nat.add]. rewrite nth_repeat_lt by auto. rewrite (half_odd L HL).
    set (k := kernel _). rewrite <- (xsum_pulses L k (fun n => sample32 nrm fs c (L / 2) (vec32 src mic size n) - INR (L / 2)) (fun n => gain32 nrm (refl n) (vec32 src mic size n)) images j).
    rewrite <- (map_seq_nth _ [] images).
    match goal with |- xadd (Some 0) (xsum ?l) = xsum ?r => replace l with r end.
    + destruct (xsum _) as [z|]; [|reflexivity]. cbn. f_equal. ring.
    + apply map_ext_in. intros i Hi. apply in_seq in Hi. unfold S, A. f_equal.
      * f_equal. rewrite (nth_indep _ 0 ((fun n => sample32 nrm fs c (L / 2) (vec32 src mic size n)) [])) by (rewrite map_length; lia).
        rewrite (map_nth (fun n => sample32 nrm fs c (L / 2) (vec32 src mic size n))). reflexivity.
      * rewrite (nth_indep _ None ((fun n => Some (gain32 nrm (refl n) (vec32 src mic size n))) [])) by (rewrite map_length; lia).
        rewrite (map_nth (fun n => Some (gain32 nrm (refl n) (vec32 src mic size n)))). reflexivity.
Qed.
Lemma response_close nrm fs c L gran lut chunk nsample walls size src mic images :
  sound_norm nrm -> roomy size -> size <> [] -> inside size src -> inside size mic ->
  1 / 1000 <= c <= 10 ^ 6 -> 1 <= fs <= 10 ^ 9 -> Nat.Odd L -> (0 < gran)%nat -> (0 < chunk)%nat ->
  (forall n, In n images -> length n = length size /\ reach size n <= 1000 * ray_length src mic size n) ->
  let v n := vec32 (map rnd32 src) (map rnd32 mic) (map rnd32 size) n in
  exists out, rir32 nrm fs c L gran lut chunk nsample (map rnd32 size) (map rnd32 src) (map rnd32 mic) images (path_gain walls) = Ok out /\
    length out = nsample /\
    forall j, (j < nsample)%nat -> exists h32 h, nth j out None = Some h32 /\
      response L (kernel (if lut then Some gran else None)) fs c walls size images unity unity src mic j = Some h /\
      Rabs (h32 - h) <= response_error L fs c size images (path_gain walls) src mic (fun n => sample32 nrm fs c (L / 2) (v n)) j.
Proof.
  intros Hn Hr H0 Hs Hm Hc Hf HL Hg Hk Hi v.
  destruct (rir32_value nrm fs c L gran lut chunk nsample (map rnd32 size) (map rnd32 src) (map rnd32 mic) images (path_gain walls) HL Hg Hk) as (out & E & Lo & V).
  exists out. split; [exact E|]. split; [exact Lo|]. intros j Hj. eexists. eexists. split; [apply V; auto|]. split; [apply response_value|].
  set (table := if lut then Some gran else None). assert (Ht : forall g, table = Some g -> (0 < g)%nat) by (unfold table; destruct lut; intros g Eg; [injection Eg as <-; auto|discriminate]).
  unfold value, response_error. apply rsum_diff. intros n In. destruct (Hi n In) as [Ln Rn]. fold (v n).
  pose proof (gain_error nrm size src mic n Hn Hr H0 Hs Hm Ln (path_gain walls n) Rn) as G. cbv zeta in G. fold (v n) in G.
  pose proof (ap_sample nrm fs c size src mic n Hn Hr H0 Hs Hm Ln Hc Hf (L / 2)) as (_ & _ & _ & D). fold (v n) in D. cbv zeta.
  pose proof (ray_pos src mic size n) as P. set (d := ray_length src mic size n) in *. set (g := path_gain walls n) in *.
  set (s := sample32 nrm fs c (L / 2) (v n)) in *. set (a := gain32 nrm g (v n)) in *.
  replace (arrival fs c src mic size n) with (exact_sample fs c (L / 2) src mic size n - INR (L / 2)) by (unfold exact_sample, arrival; ring).
  set (x := exact_sample fs c (L / 2) src mic size n) in *.
  pose proof (shape_change L table j HL Ht (x - INR (L / 2)) (s - INR (L / 2))) as C. rewrite between_shift in C.
  replace (s - INR (L / 2) - (x - INR (L / 2))) with (s - x) in C by ring.
  pose proof (shape_abs L table j (s - INR (L / 2)) Ht) as B.
  set (q := shape_at L (kernel table) j (x - INR (L / 2))) in *. set (p := shape_at L (kernel table) j (s - INR (L / 2))) in *.
  replace (a * p - g / d * q) with ((a - g / d) * p + g / d * (p - q)) by ring.
  eapply Rle_trans; [apply Rabs_triang|]. rewrite !Rabs_mult.
  assert (Gd : Rabs (g / d) = Rabs g / d).
  { unfold Rdiv. rewrite Rabs_mult, (Rabs_right (/ d)); auto. apply Rle_ge, Rlt_le, Rinv_0_lt_compat; auto. }
  rewrite Gd. assert (T0 : 0 <= Rabs g / d) by (rewrite <- Gd; apply Rabs_pos).
  assert (T1 : Rabs (a - g / d) * Rabs p <= Rabs (a - g / d) * 1) by (apply Rmult_le_compat_l; [apply Rabs_pos|auto]).
  set (jj := if between (INR j) x s then jump L else 0) in *.
  assert (T2 : Rabs g / d * Rabs (p - q) <= Rabs g / d * (PI / 2 * delay_error fs c (L / 2) size n + jj)).
  { apply Rmult_le_compat_l; auto. eapply Rle_trans; [exact C|]. apply Rplus_le_compat_r. pose proof PI_RGT_0. apply Rmult_le_compat_l; [lra|]. exact D. }
  lra.
Qed.

(** ** The fraction *)
Lemma pz e : powerRZ 2 e = bpow radix2 e.
Proof. symmetry. apply (bpow_powerRZ radix2). Qed.
Lemma single_format x : single x -> generic_format radix2 fexp32 x.
Proof.
  intros (m & e & Hm & He & ->). apply generic_format_FLT. exists (Defs.Float radix2 m e); cbn; auto.
  unfold F2R. cbn [Fnum Fexp]. rewrite pz. reflexivity.
Qed.
Lemma rnd32_single x : single x -> rnd32 x = x.
Proof. intros H. apply round_generic; [apply valid_rnd_N|]. apply single_format; auto. Qed.
Lemma single_rnd32 x : single (rnd32 x).
Proof.
  assert (G : generic_format radix2 fexp32 (rnd32 x)) by (apply generic_format_round; [apply FLT_exp_valid; reflexivity|apply valid_rnd_N]).
  apply FLT_format_generic in G; [|reflexivity]. destruct G as [[m e] E Hm He]. exists m, e. cbn in *. split; [auto|]. split; [auto|].
  rewrite E. unfold F2R. cbn [Fnum Fexp]. rewrite pz. reflexivity.
Qed.
Lemma fraction x : single x -> 0 <= x -> frac32 x = x - IZR (floorZ x) /\ 0 <= frac32 x < 1.
Proof.
  intros Hx H0. pose proof (floorZ_spec x) as F.
  assert (A : frac32 x = x - IZR (floorZ x)).
  { unfold frac32, index32. destruct Hx as (m & e & Hm & He & Ex). destruct (Z.leb_spec 0 e) as [P|P].
    - assert (Ez : x = IZR (m * 2 ^ e)). { rewrite Ex, mult_IZR. f_equal. rewrite pz, (IZR_Zpower radix2) by auto. reflexivity. }
      assert (Ef : floorZ x = (m * 2 ^ e)%Z) by (rewrite Ez; apply floorZ_IZR). rewrite Ef, <- Ez.
      rewrite (rnd32_single x) by (exists m, e; auto). rewrite Rminus_eq_0. apply rnd32_0.
    - set (k := Z.to_nat (- e)). assert (Ek : powerRZ 2 e = / IZR (2 ^ Z.of_nat k)).
      { unfold k. rewrite Z2Nat.id by lia. rewrite pz. replace e with (- (- e))%Z at 1 by lia. apply bpow_neg_inv. lia. }
      set (q := (2 ^ Z.of_nat k)%Z) in *. assert (Hq : (0 < q)%Z) by (apply Z.pow_pos_nonneg; lia). assert (Hq' : 0 < IZR q) by (apply IZR_lt; auto).
      assert (M0 : (0 <= m)%Z).
      { apply le_IZR. rewrite Ex, Ek in H0. apply (Rmult_le_compat_r (IZR q)) in H0; [|lra]. rewrite Rmult_0_l, Rmult_assoc, Rinv_l in H0; lra. }
      pose proof (Z.div_mod m q ltac:(lia)) as DM. pose proof (Z.mod_pos_bound m q Hq) as MB.
      assert (Ex' : x = IZR (m / q) + IZR (m mod q) * / IZR q).
      { rewrite Ex, Ek. rewrite DM at 1. rewrite plus_IZR, mult_IZR. field. lra. }
      assert (FB : 0 <= IZR (m mod q) * / IZR q < 1).
      { split; [apply Rmult_le_pos; [apply IZR_le; lia|apply Rlt_le, Rinv_0_lt_compat; auto]|].
        apply Rmult_lt_reg_r with (IZR q); [auto|]. rewrite Rmult_assoc, Rinv_l, Rmult_1_r, Rmult_1_l by lra. apply IZR_lt. lia. }
      assert (Ef : floorZ x = (m / q)%Z) by (apply floorZ_unique; lra). rewrite Ef.
      assert (Q : (0 <= m / q <= m)%Z). { split; [apply Z.div_pos; lia|]. apply Z.div_le_upper_bound; [lia|]. nia. }
      rewrite (rnd32_single (IZR (m / q))).
      2:{ exists (m / q)%Z, 0%Z. split; [lia|]. split; [lia|]. cbn. ring. }
      apply rnd32_single. exists (m mod q)%Z, e. split; [|split; [auto|rewrite Ex' at 1; rewrite Ek; ring]].
      assert (m mod q <= m)%Z by (apply Z.mod_le; lia). lia. }
  split; [exact A|]. rewrite A. lra.
Qed.
Lemma sample_nonneg nrm fs c h v : 0 <= c -> 0 < fs -> 0 <= sample32 nrm fs c h v.
Proof.
  intros Hc Hf. unfold sample32. cbv zeta. assert (D : 0 <= dist32 nrm v).
  { unfold dist32. eapply Rle_trans; [|apply Rmax_r]. apply rnd32_nonneg, rnd64_nonneg. lra. }
  apply rnd32_nonneg, Rmult_le_pos; [|apply rnd32_nonneg; lra]. apply rnd32_nonneg, Rplus_le_le_0_compat.
  - apply rnd32_nonneg. pose proof (rnd32_nonneg c Hc) as [P|E].
    + apply Rmult_le_pos; [auto|apply Rlt_le, Rinv_0_lt_compat; auto].
    + rewrite <- E. unfold Rdiv. rewrite Rinv_0, Rmult_0_r. lra.
  - apply rnd32_nonneg, rnd64_nonneg. apply Rmult_le_pos; [apply pos_INR|apply Rlt_le, Rinv_0_lt_compat; auto].
Qed.

(** ** Rounding of particular numbers *)
Lemma rnd_val emin p m e x : (1 < p)%Z -> (emin <= e)%Z -> bpow radix2 (e + p - 1) <= x < bpow radix2 (e + p) ->
  Rabs (x * bpow radix2 (- e) - IZR m) < / 2 -> round radix2 (FLT_exp emin p) ZnearestE x = IZR m * bpow radix2 e.
Proof.
  intros Hp He Hx Hm. assert (M : (mag radix2 x = e + p :> Z)%Z).
  { apply mag_unique. rewrite Rabs_right; [exact Hx|]. apply Rle_ge. eapply Rle_trans; [|apply Hx]. apply bpow_ge_0. }
  unfold round, scaled_mantissa, cexp, FLT_exp. rewrite M. replace (Z.max (e + p - p) emin) with e by lia.
  rewrite (Znearest_imp _ _ m) by exact Hm. reflexivity.
Qed.
