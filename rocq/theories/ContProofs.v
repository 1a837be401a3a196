(** How a pulse changes with its delay, and a response with the positions. *)
From Coq Require Import List ZArith Reals Lia Lra Bool.
From Coquelicot Require Import Coquelicot.
From Verif Require Import Prelude PreludeFacts DirModel DirProofs ImageSpec ImageProofs IsmSpec AccumModel AccumProofs KernelProofs SimMore ContSpec.
Import ListNotations.
Local Open Scope R_scope.
Local Notation length := List.length.

(** ** Functions that are Lipschitz in every cell of the integers *)
Lemma cells (f : R -> R) K : 0 <= K ->
  (forall i u v, IZR i <= u <= v -> v < IZR i + 1 -> Rabs (f v - f u) <= K * (v - u)) ->
  (forall i u, IZR i <= u < IZR i + 1 -> Rabs (f (IZR i + 1) - f u) <= K * (IZR i + 1 - u)) ->
  forall u v, u <= v -> Rabs (f v - f u) <= K * (v - u).
Proof.
  intros HK Hin Hup.
  assert (G : forall k u v, (floorZ v - floorZ u = Z.of_nat k)%Z -> u <= v -> Rabs (f v - f u) <= K * (v - u)).
  { induction k as [|k IH]; intros u v E Huv.
    - pose proof (floorZ_spec u). pose proof (floorZ_spec v). replace (floorZ v) with (floorZ u) in * by lia.
      apply (Hin (floorZ u)); lra.
    - pose proof (floorZ_spec u) as Fu. pose proof (floorZ_spec v) as Fv.
      assert (Hi : IZR (floorZ u) + 1 <= v).
      { replace (floorZ v) with (floorZ u + 1 + Z.of_nat k)%Z in Fv by lia. rewrite 2!plus_IZR in Fv.
        assert (0 <= IZR (Z.of_nat k)) by (apply IZR_le; lia). lra. }
      pose proof (Hup (floorZ u) u Fu) as H1.
      assert (H2 : Rabs (f v - f (IZR (floorZ u) + 1)) <= K * (v - (IZR (floorZ u) + 1))).
      { apply IH; auto. rewrite <- plus_IZR, floorZ_IZR. lia. }
      replace (f v - f u) with ((f v - f (IZR (floorZ u) + 1)) + (f (IZR (floorZ u) + 1) - f u)) by ring.
      eapply Rle_trans; [apply Rabs_triang|]. lra. }
  intros u v Huv. apply (G (Z.to_nat (floorZ v - floorZ u))); auto.
  pose proof (floorZ_mono u v Huv). lia.
Qed.
Lemma cells_sym (f : R -> R) K : (forall u v, u <= v -> Rabs (f v - f u) <= K * (v - u)) ->
  forall u v, Rabs (f v - f u) <= K * Rabs (v - u).
Proof.
  intros H u v. destruct (Rle_dec u v).
  - rewrite (Rabs_right (v - u)) by lra. auto.
  - rewrite (Rabs_left (v - u)), Rabs_minus_sym by lra. specialize (H v u). replace (- (v - u)) with (u - v) by ring. apply H. lra.
Qed.

(** ** The kernels *)
Lemma cos_lip a b : Rabs (cos b - cos a) <= Rabs (b - a).
Proof.
  destruct (Req_dec a b) as [->|Hne]; [rewrite !Rminus_eq_0, Rabs_R0; lra|].
  destruct (MVT_gen cos a b (fun x => - sin x)) as (z & _ & E).
  - intros. auto_derive; auto. ring.
  - intros. apply continuity_pt_filterlim, continuous_cos.
  - rewrite E, Rabs_mult, Rabs_Ropp. pose proof (SIN_bound z). assert (Rabs (sin z) <= 1) by (apply Rabs_le; lra).
    pose proof (Rabs_pos (b - a)). nra.
Qed.
Lemma nsinc_lip u v : Rabs (nsinc v - nsinc u) <= PI / 2 * Rabs (v - u).
Proof.
  pose proof PI_RGT_0 as Hpi.
  assert (I : is_RInt (fun t => cos (PI * v * t) - cos (PI * u * t)) 0 1 (nsinc v - nsinc u)).
  { apply (is_RInt_minus (V := R_NormedModule)); apply nsinc_RInt. }
  assert (J : is_RInt (fun t => PI * Rabs (v - u) * t) 0 1 (PI / 2 * Rabs (v - u))).
  { replace (PI / 2 * Rabs (v - u)) with
      (minus (PI / 2 * Rabs (v - u) * (1 * 1)) (PI / 2 * Rabs (v - u) * (0 * 0))) by (unfold minus, plus, opp; cbn; ring).
    apply (is_RInt_derive (fun t => PI / 2 * Rabs (v - u) * (t * t))).
    - intros t _. auto_derive; auto. field.
    - intros t _. apply (ex_derive_continuous (fun t => PI * Rabs (v - u) * t)). auto_derive; auto. }
  refine (norm_RInt_le _ _ 0 1 _ _ _ _ I J); [lra|].
  intros t Ht. change (Rabs (cos (PI * v * t) - cos (PI * u * t)) <= PI * Rabs (v - u) * t).
  eapply Rle_trans; [apply cos_lip|]. replace (PI * v * t - PI * u * t) with (PI * t * (v - u)) by ring.
  rewrite !Rabs_mult, (Rabs_right PI), (Rabs_right t) by lra. lra.
Qed.
Lemma nsinc_abs x : Rabs (nsinc x) <= 1.
Proof.
  assert (J : is_RInt (fun _ : R => 1) 0 1 1).
  { replace 1 with (scal (1 - 0) 1) at 2 by (unfold scal; cbn; unfold mult; cbn; ring). apply (is_RInt_const 0 1 1). }
  refine (norm_RInt_le _ _ 0 1 _ _ _ _ (nsinc_RInt x) J); [lra|]. intros t _.
  change (Rabs (cos (PI * x * t)) <= 1). pose proof (COS_bound (PI * x * t)). apply Rabs_le; lra.
Qed.
Lemma lerp_lip a b K s t d : Rabs (b - a) <= K * d -> 0 <= s <= t -> Rabs ((a + t * (b - a)) - (a + s * (b - a))) <= K * ((t - s) * d).
Proof.
  intros H Hs. replace (a + t * (b - a) - (a + s * (b - a))) with ((t - s) * (b - a)) by ring.
  rewrite Rabs_mult, (Rabs_right (t - s)) by lra.
  replace (K * ((t - s) * d)) with ((t - s) * (K * d)) by ring. apply Rmult_le_compat_l; lra.
Qed.
Lemma grid_lip g h K : (0 < g)%nat -> 0 <= K -> (forall u v, Rabs (h v - h u) <= K * Rabs (v - u)) ->
  forall u v, Rabs (grid_interp g h v - grid_interp g h u) <= K * Rabs (v - u).
Proof.
  intros Hg HK Hh. assert (G : 0 < INR g) by (apply lt_0_INR; auto).
  assert (D : forall i, Rabs (h ((IZR i + 1) / INR g) - h (IZR i / INR g)) <= K * / INR g).
  { intros i. eapply Rle_trans; [apply Hh|]. replace ((IZR i + 1) / INR g - IZR i / INR g) with (/ INR g) by (field; lra).
    rewrite Rabs_right; [lra|]. apply Rle_ge, Rlt_le, Rinv_0_lt_compat; auto. }
  set (p := fun y => grid_interp g h (y / INR g)).
  assert (Ep : forall x, grid_interp g h x = p (x * INR g)) by (intros; unfold p; f_equal; field; lra).
  assert (Pi : forall i y, IZR i <= y < IZR i + 1 ->
    p y = h (IZR i / INR g) + (y - IZR i) * (h ((IZR i + 1) / INR g) - h (IZR i / INR g))).
  { intros i y Hy. unfold p, grid_interp. replace (y / INR g * INR g) with y by (field; lra).
    rewrite (floorZ_unique y i Hy). reflexivity. }
  intros u v. rewrite !Ep.
  assert (C : forall a b, Rabs (p b - p a) <= K * / INR g * Rabs (b - a)).
  { apply cells_sym. apply cells.
    - apply Rmult_le_pos; [auto|]. apply Rlt_le, Rinv_0_lt_compat; auto.
    - intros i a b Ha Hb. rewrite (Pi i a), (Pi i b) by lra.
      replace (K * / INR g * (b - a)) with (K * (((b - IZR i) - (a - IZR i)) * / INR g)) by ring.
      apply lerp_lip; [apply D|lra].
    - intros i a Ha. rewrite (Pi i a Ha). rewrite (Pi (i + 1)%Z (IZR i + 1)) by (rewrite plus_IZR; lra).
      rewrite plus_IZR. replace (IZR i + 1 - (IZR i + 1)) with 0 by ring. rewrite Rmult_0_l, Rplus_0_r.
      replace (h ((IZR i + 1) / INR g)) with (h (IZR i / INR g) + 1 * (h ((IZR i + 1) / INR g) - h (IZR i / INR g))) at 1 by ring.
      replace (K * / INR g * (IZR i + 1 - a)) with (K * ((1 - (a - IZR i)) * / INR g)) by ring.
      apply lerp_lip; [apply D|lra]. }
  eapply Rle_trans; [apply C|]. replace (v * INR g - u * INR g) with (INR g * (v - u)) by ring.
  rewrite Rabs_mult, (Rabs_right (INR g)) by lra. apply Req_le. field. lra.
Qed.
Lemma kernel_lip table u v : (forall g, table = Some g -> (0 < g)%nat) ->
  Rabs (kernel table v - kernel table u) <= PI / 2 * Rabs (v - u).
Proof.
  intros H. destruct table as [g|]; cbn [kernel]; [|apply nsinc_lip].
  apply grid_lip; auto using nsinc_lip. pose proof PI_RGT_0. lra.
Qed.
Lemma kernel_abs table x : (forall g, table = Some g -> (0 < g)%nat) -> Rabs (kernel table x) <= 1.
Proof.
  intros H. destruct table as [g|]; cbn [kernel]; [|apply nsinc_abs].
  unfold grid_interp. set (i := floorZ _). pose proof (floorZ_spec (x * INR g)) as F. fold i in F.
  set (t := x * INR g - IZR i). set (a := nsinc _). set (b := nsinc _).
  assert (Rabs a <= 1) by apply nsinc_abs. assert (Rabs b <= 1) by apply nsinc_abs.
  apply Rabs_le_between in H0. apply Rabs_le_between in H1. assert (0 <= t <= 1) by (unfold t; lra).
  apply Rabs_le. replace (a + t * (b - a)) with ((1 - t) * a + t * b) by ring. split; nra.
Qed.

(** ** One pulse *)
Lemma window_range L k : 0 <= window L k <= 1.
Proof. unfold window. destruct (_ && _)%bool; [apply hann_range|lra]. Qed.
Lemma window_centre L : Nat.Odd L -> window L (Z.of_nat (L / 2)) = 1.
Proof.
  intros HL. unfold window. pose proof (odd_half L HL) as E.
  assert (Eh : (L / 2)%nat = half L) by (symmetry; apply half_odd; auto). rewrite Eh.
  replace ((0 <=? Z.of_nat (half L)) && (Z.of_nat (half L) <? Z.of_nat L))%Z with true.
  - rewrite Nat2Z.id. apply hann_centre; auto.
  - symmetry. apply andb_true_iff. split; [apply Z.leb_le|apply Z.ltb_lt]; lia.
Qed.
Lemma jump_nonneg L : 0 <= jump L <= 1.
Proof. unfold jump. pose proof (window_range L (Z.of_nat (L / 2) + 1)). lra. Qed.
(** The value of a pulse of strength one. *)
Definition shape_at (L : nat) (kern : R -> R) (j : nat) (d : R) : R :=
  kern (INR j - INR (L / 2) - d) * window L (Z.of_nat j - floorZ d).
Lemma pulse_value L kern d a j : pulse L kern d (Some a) j = Some (a * shape_at L kern j d).
Proof.
  unfold pulse, shape_at, window. destruct (_ && _)%bool; [|f_equal; ring].
  cbn [xscale]. unfold xscale. cbn [option_map]. f_equal. replace (IZR (Z.of_nat j - floorZ d) - INR (L / 2) - (d - IZR (floorZ d))) with (INR j - INR (L / 2) - d); [ring|].
  rewrite minus_IZR, <- INR_IZR_INZ. ring.
Qed.
Lemma shape_abs L table j d : (forall g, table = Some g -> (0 < g)%nat) -> Rabs (shape_at L (kernel table) j d) <= 1.
Proof.
  intros Ht. unfold shape_at. rewrite Rabs_mult.
  pose proof (kernel_abs table (INR j - INR (L / 2) - d) Ht) as H1. pose proof (window_range L (Z.of_nat j - floorZ d)) as H2.
  rewrite (Rabs_right (window _ _)) by lra. pose proof (Rabs_pos (kernel table (INR j - INR (L / 2) - d))). nra.
Qed.
Section Pulse.
  Variables (L : nat) (table : option nat) (j : nat).
  Hypotheses (HL : Nat.Odd L) (Ht : forall g, table = Some g -> (0 < g)%nat).
  Let x : Z := (Z.of_nat j - Z.of_nat (L / 2))%Z.
  Lemma x_real : INR j - INR (L / 2) = IZR x.
  Proof. unfold x. rewrite minus_IZR, <- !INR_IZR_INZ. reflexivity. Qed.
  (** The value without the jump. *)
  Let smooth (d : R) : R := shape_at L (kernel table) j d - if Rle_dec (IZR x) d then jump L else 0.
  Lemma smooth_lip u v : Rabs (smooth v - smooth u) <= PI / 2 * Rabs (v - u).
  Proof.
    pose proof PI_RGT_0 as Hpi. apply cells_sym. apply cells; [lra| |].
    - intros i a b Ha Hb. unfold smooth, shape_at. rewrite x_real, (floorZ_unique a i), (floorZ_unique b i) by lra.
      replace (if Rle_dec (IZR x) b then jump L else 0) with (if Rle_dec (IZR x) a then jump L else 0).
      + set (w := window _ _). assert (W : 0 <= w <= 1) by apply window_range.
        match goal with |- Rabs (?p * w - ?e - (?q * w - ?e)) <= _ => replace (p * w - e - (q * w - e)) with ((p - q) * w) by ring end.
        rewrite Rabs_mult, (Rabs_right w) by lra.
        pose proof (kernel_lip table (IZR x - a) (IZR x - b) Ht) as H.
        replace (IZR x - b - (IZR x - a)) with (- (b - a)) in H by ring. rewrite Rabs_Ropp, (Rabs_right (b - a)) in H by lra.
        pose proof (Rabs_pos (kernel table (IZR x - b) - kernel table (IZR x - a))). nra.
      + destruct (Rle_dec (IZR x) a), (Rle_dec (IZR x) b); auto; [lra|]. exfalso.
        assert (x < i + 1)%Z by (apply lt_IZR; rewrite plus_IZR; lra).
        assert (i < x)%Z by (apply lt_IZR; lra). lia.
    - intros i a Ha. unfold smooth, shape_at. rewrite x_real, (floorZ_unique a i) by lra.
      rewrite <- plus_IZR, floorZ_IZR, <- minus_IZR, (kernel_int table) by auto.
      pose proof (kernel_lip table (IZR x - a) (IZR (x - (i + 1))) Ht) as H. rewrite kernel_int in H by auto.
      rewrite minus_IZR in H. replace (IZR x - IZR (i + 1) - (IZR x - a)) with (- (IZR (i + 1) - a)) in H by ring.
      rewrite Rabs_Ropp, (Rabs_right (IZR (i + 1) - a)) in H by (rewrite plus_IZR; lra).
      set (w := window L (Z.of_nat j - i)). assert (W : 0 <= w <= 1) by apply window_range.
      destruct (Z.eqb_spec (x - (i + 1)) 0) as [E|E].
      + assert (Exi : x = (i + 1)%Z) by lia.
        destruct (Rle_dec (IZR x) (IZR (i + 1))) as [_|B]; [|exfalso; apply B; rewrite Exi; lra].
        destruct (Rle_dec (IZR x) a) as [B|_]; [rewrite Exi, plus_IZR in B; lra|].
        replace (Z.of_nat j - (i + 1))%Z with (Z.of_nat (L / 2)) by (unfold x in *; lia).
        rewrite window_centre by auto.
        unfold jump. replace (Z.of_nat (L / 2) + 1)%Z with (Z.of_nat j - i)%Z by (unfold x in *; lia). fold w.
        match goal with |- Rabs ?e <= _ => replace e with ((1 - kernel table (IZR x - a)) * w) by ring end.
        rewrite Rabs_mult, (Rabs_right w) by lra. pose proof (Rabs_pos (1 - kernel table (IZR x - a))). nra.
      + replace (if Rle_dec (IZR x) (IZR (i + 1)) then jump L else 0) with (if Rle_dec (IZR x) a then jump L else 0).
        * match goal with |- Rabs ?e <= _ => replace e with ((0 - kernel table (IZR x - a)) * w) by ring end.
          rewrite Rabs_mult, (Rabs_right w) by lra. pose proof (Rabs_pos (0 - kernel table (IZR x - a))). nra.
        * destruct (Rle_dec (IZR x) a), (Rle_dec (IZR x) (IZR (i + 1))); auto; exfalso.
          -- rewrite plus_IZR in *. lra.
          -- assert (x <= i + 1)%Z by (apply le_IZR; auto). assert (i < x)%Z by (apply lt_IZR; lra). lia.
  Qed.
  Lemma shape_change u v : Rabs (shape_at L (kernel table) j v - shape_at L (kernel table) j u) <=
    PI / 2 * Rabs (v - u) + if between (INR j - INR (L / 2)) u v then jump L else 0.
  Proof.
    pose proof (smooth_lip u v) as H. rewrite x_real. pose proof (jump_nonneg L) as J. unfold smooth in H. unfold between.
    set (p := shape_at _ _ _ v) in *. set (q := shape_at _ _ _ u) in *.
    apply Rabs_le_between in H. apply Rabs_le.
    destruct (Rle_dec (IZR x) v), (Rle_dec (IZR x) u), (Rlt_dec u (IZR x)), (Rlt_dec v (IZR x)); cbn [orb] in *; try lra.
  Qed.
End Pulse.
(** Size of the jump. *)
Lemma jump_value L : Nat.Odd L -> (3 <= L)%nat -> jump L = sin (PI / INR (L - 1)) ^ 2.
Proof.
  intros HL H3. unfold jump, window. pose proof (odd_half L HL) as E.
  assert (Eh : (L / 2)%nat = half L) by (symmetry; apply half_odd; auto). rewrite Eh.
  replace ((0 <=? Z.of_nat (half L) + 1) && (Z.of_nat (half L) + 1 <? Z.of_nat L))%Z with true.
  2:{ symmetry. apply andb_true_iff. split; [apply Z.leb_le|apply Z.ltb_lt]; lia. }
  replace (Z.to_nat (Z.of_nat (half L) + 1)) with (S (half L)) by lia. unfold hann.
  destruct (Nat.eqb_spec L 1); [lia|]. set (h := half L) in *.
  assert (Hh : 0 < INR h) by (apply lt_0_INR; lia).
  assert (EL : INR (L - 1) = 2 * INR h) by (replace (L - 1)%nat with (2 * h)%nat by lia; rewrite mult_INR; reflexivity).
  rewrite EL, S_INR. replace (PI * (INR h + 1) / (2 * INR h)) with (PI / 2 + PI / (2 * INR h)) by (field; lra).
  rewrite sin_plus, sin_PI2, cos_PI2. pose proof (sin2_cos2 (PI / (2 * INR h))) as S. unfold Rsqr in S. cbn [pow]. lra.
Qed.

(** ** Distances *)
Lemma minkowski2 p q u v w : 0 <= v -> 0 <= w -> 0 <= u <= v + w ->
  sqrt ((p + q) * (p + q) + u * u) <= sqrt (p * p + v * v) + sqrt (q * q + w * w).
Proof.
  intros Hv Hw Hu. set (s := sqrt (p * p + v * v)). set (t := sqrt (q * q + w * w)).
  assert (Hs : 0 <= s) by apply sqrt_pos. assert (Htt : 0 <= t) by apply sqrt_pos.
  assert (Es : s * s = p * p + v * v) by (apply sqrt_sqrt; nra).
  assert (Et : t * t = q * q + w * w) by (apply sqrt_sqrt; nra).
  assert (C : p * q + v * w <= s * t).
  { destruct (Rle_dec (p * q + v * w) 0); [nra|].
    apply Rsqr_incr_0_var; [|nra]. unfold Rsqr. replace (s * t * (s * t)) with (s * s * (t * t)) by ring.
    rewrite Es, Et. pose proof (Rle_0_sqr (p * w - v * q)) as Q. unfold Rsqr in Q. nra. }
  rewrite <- (sqrt_square (s + t)) by lra. apply sqrt_le_1_alt. nra.
Qed.
Lemma sqdist_cons x y a b : sqdist (x :: a) (y :: b) = (x - y) * (x - y) + sqdist a b.
Proof. reflexivity. Qed.
Lemma euclid_triangle a : forall b c, length a = length b -> length b = length c -> euclid a c <= euclid a b + euclid b c.
Proof.
  unfold euclid. induction a as [|x a IH]; intros [|y b] [|z c] H1 H2; try discriminate.
  - unfold sqdist. cbn. rewrite sqrt_0. lra.
  - rewrite !sqdist_cons. injection H1 as H1. injection H2 as H2. specialize (IH b c H1 H2).
    pose proof (minkowski2 (x - y) (y - z) (sqrt (sqdist a c)) (sqrt (sqdist a b)) (sqrt (sqdist b c))) as M.
    rewrite !sqrt_sqrt in M by apply sqdist_nonneg. replace (x - y + (y - z)) with (x - z) in M by ring.
    apply M; auto using sqrt_pos.
Qed.
Lemma sqdist_sym a : forall b, sqdist a b = sqdist b a.
Proof.
  induction a as [|x a IH]; intros [|y b]; try reflexivity. rewrite !sqdist_cons, IH. ring.
Qed.
Lemma euclid_sym a b : euclid a b = euclid b a.
Proof. unfold euclid. rewrite sqdist_sym. reflexivity. Qed.
Lemma image_isometry size : forall a b n, length a = length size -> length b = length size -> length n = length size ->
  sqdist (image_of a size n) (image_of b size n) = sqdist a b.
Proof.
  induction size as [|l size IH]; intros [|x a] [|y b] [|k n] H1 H2 H3; try discriminate; [reflexivity|].
  cbn [image_of]. rewrite !sqdist_cons, IH by (cbn in *; lia). rewrite !reflected_cell.
  destruct (Z.even k); ring.
Qed.
Lemma length_image size : forall a n, length a = length size -> length n = length size -> length (image_of a size n) = length size.
Proof. induction size as [|l size IH]; intros [|x a] [|k n] H1 H2; try discriminate; cbn in *; auto. Qed.
Lemma ray_lip size src mic src' mic' n : length src = length size -> length mic = length size ->
  length src' = length size -> length mic' = length size -> length n = length size ->
  Rabs (ray_length src' mic' size n - ray_length src mic size n) <= euclid src src' + euclid mic mic'.
Proof.
  intros H1 H2 H3 H4 H5.
  assert (A : forall s m s' m', length s = length size -> length m = length size -> length s' = length size -> length m' = length size ->
    ray_length s' m' size n <= ray_length s m size n + (euclid s s' + euclid m m')).
  { intros s m s' m' L1 L2 L3 L4. unfold ray_length.
    assert (B : euclid m' (image_of s' size n) <= euclid m' m + (euclid m (image_of s size n) + euclid s s')).
    { eapply Rle_trans; [apply (euclid_triangle m' m)|]; [rewrite ?length_image; congruence..|].
      apply Rplus_le_compat_l. eapply Rle_trans; [apply (euclid_triangle m (image_of s size n))|]; [rewrite ?length_image; congruence..|].
      apply Rplus_le_compat_l. unfold euclid. rewrite image_isometry by auto. lra. }
    rewrite (euclid_sym m' m) in B.
    assert (0 <= euclid s s') by apply sqrt_pos. assert (0 <= euclid m m') by apply sqrt_pos.
    apply Rmax_lub.
    - pose proof (Rmax_l (euclid m (image_of s size n)) (/ 10 ^ 6)). lra.
    - pose proof (Rmax_r (euclid m (image_of s size n)) (/ 10 ^ 6)). lra. }
  pose proof (A src mic src' mic' H1 H2 H3 H4). pose proof (A src' mic' src mic H3 H4 H1 H2) as B.
  rewrite (euclid_sym src' src), (euclid_sym mic' mic) in B. apply Rabs_le. lra.
Qed.
Lemma ray_pos src mic size n : 0 < ray_length src mic size n.
Proof.
  unfold ray_length. eapply Rlt_le_trans; [|apply Rmax_r]. apply Rinv_0_lt_compat. apply pow_lt. lra.
Qed.

(** ** The response *)
(** Real value of a response without directivity. *)
Definition value (L : nat) (kern : R -> R) (fs c : R) (walls : list (R * R)) (size : list R) (images : list (list Z))
    (src mic : list R) (j : nat) : R :=
  rsum (map (fun n => path_gain walls n / ray_length src mic size n * shape_at L kern j (arrival fs c src mic size n)) images).
Lemma response_value L kern fs c walls size images src mic j :
  response L kern fs c walls size images unity unity src mic j = Some (value L kern fs c walls size images src mic j).
Proof.
  unfold response, value, xsum, rsum. induction images as [|n images IH]; [reflexivity|].
  cbn [map fold_right]. rewrite IH. unfold amplitude, unity, arrival. cbn [xmul xscale option_map].
  match goal with |- context [pulse L kern ?d ?a j] => replace a with (Some (path_gain walls n / ray_length src mic size n)) end.
  - rewrite pulse_value. reflexivity.
  - cbn. f_equal. ring.
Qed.
Lemma rsum_diff {A} (f g b : A -> R) l : (forall x, In x l -> Rabs (f x - g x) <= b x) ->
  Rabs (rsum (map f l) - rsum (map g l)) <= rsum (map b l).
Proof.
  unfold rsum. induction l as [|x l IH]; intros H; cbn.
  - rewrite Rminus_eq_0, Rabs_R0. lra.
  - match goal with |- Rabs (?a + ?s - (?b + ?t)) <= _ => replace (a + s - (b + t)) with ((a - b) + (s - t)) by ring end.
    eapply Rle_trans; [apply Rabs_triang|]. apply Rplus_le_compat; [apply H; left; auto|]. apply IH. intros; apply H; right; auto.
Qed.
Lemma value_change L table fs c walls size images src mic src' mic' j :
  Nat.Odd L -> (forall g, table = Some g -> (0 < g)%nat) -> 0 < fs -> 0 < c ->
  length src = length size -> length mic = length size -> length src' = length size -> length mic' = length size ->
  (forall n, In n images -> length n = length size) ->
  Rabs (value L (kernel table) fs c walls size images src' mic' j - value L (kernel table) fs c walls size images src mic j) <=
  variation L fs c walls size images src mic src' mic' j.
Proof.
  intros HL Ht Hfs Hc H1 H2 H3 H4 Hi. unfold value, variation. apply rsum_diff. intros n Hn.
  pose proof (ray_lip size src mic src' mic' n H1 H2 H3 H4 (Hi n Hn)) as Hr.
  pose proof (ray_pos src mic size n) as P. pose proof (ray_pos src' mic' size n) as P'.
  set (del := euclid src src' + euclid mic mic') in *. set (r := ray_length src mic size n) in *. set (r' := ray_length src' mic' size n) in *.
  set (G := path_gain walls n). set (d := arrival fs c src mic size n). set (d' := arrival fs c src' mic' size n).
  pose proof (shape_change L table j HL Ht d d') as Hs. pose proof (shape_abs L table j d' Ht) as Ha.
  set (s := shape_at L (kernel table) j d) in *. set (s' := shape_at L (kernel table) j d') in *.
  replace (G / r' * s' - G / r * s) with (G / r * ((r - r') / r' * s' + (s' - s))) by (field; lra).
  rewrite Rabs_mult. replace (Rabs (G / r)) with (Rabs G / r).
  2:{ unfold Rdiv. rewrite Rabs_mult, (Rabs_right (/ r)); auto. apply Rle_ge, Rlt_le, Rinv_0_lt_compat; auto. }
  apply Rmult_le_compat_l.
  { apply Rmult_le_pos; [apply Rabs_pos|]. apply Rlt_le, Rinv_0_lt_compat; auto. }
  eapply Rle_trans; [apply Rabs_triang|].
  assert (I' : 0 < / r') by (apply Rinv_0_lt_compat; auto).
  assert (A1 : Rabs ((r - r') / r' * s') <= del * / r').
  { unfold Rdiv. rewrite !Rabs_mult, (Rabs_right (/ r')) by lra. rewrite Rabs_minus_sym.
    pose proof (Rabs_pos (r' - r)). pose proof (Rabs_pos s'). assert (0 <= Rabs (r' - r) * / r') by (apply Rmult_le_pos; lra).
    assert (Rabs (r' - r) * / r' <= del * / r') by (apply Rmult_le_compat_r; lra). nra. }
  assert (A2 : PI / 2 * Rabs (d' - d) <= del * (PI / 2 * (fs / c))).
  { unfold d, d', arrival. fold r r'. replace (r' * fs / c - r * fs / c) with ((r' - r) * (fs / c)) by (field; lra).
    assert (Q : 0 < fs / c) by (apply Rmult_lt_0_compat; [auto|apply Rinv_0_lt_compat; auto]).
    rewrite Rabs_mult, (Rabs_right (fs / c)) by lra. pose proof PI_RGT_0.
    replace (del * (PI / 2 * (fs / c))) with (PI / 2 * (del * (fs / c))) by ring.
    apply Rmult_le_compat_l; [lra|]. apply Rmult_le_compat_r; lra. }
  rewrite Rmult_plus_distr_l. rewrite Rplus_assoc. apply Rplus_le_compat; [auto|]. eapply Rle_trans; [exact Hs|]. lra.
Qed.
Lemma value_bounded L table fs c walls size images src mic j : (forall g, table = Some g -> (0 < g)%nat) ->
  Rabs (value L (kernel table) fs c walls size images src mic j) <= total_strength walls size images src mic.
Proof.
  intros Ht. unfold value, total_strength.
  rewrite <- (Rminus_0_r (rsum (map _ images))). replace 0 with (rsum (map (fun _ : list Z => 0) images)).
  2:{ unfold rsum. induction images; cbn; [reflexivity|]. rewrite IHimages. ring. }
  apply rsum_diff. intros n _. rewrite Rminus_0_r, Rabs_mult. pose proof (ray_pos src mic size n) as P.
  pose proof (shape_abs L table j (arrival fs c src mic size n) Ht).
  replace (Rabs (path_gain walls n / ray_length src mic size n)) with (Rabs (path_gain walls n) / ray_length src mic size n).
  2:{ unfold Rdiv. rewrite Rabs_mult, (Rabs_right (/ _)); auto. apply Rle_ge, Rlt_le, Rinv_0_lt_compat; auto. }
  assert (0 <= Rabs (path_gain walls n) / ray_length src mic size n).
  { apply Rmult_le_pos; [apply Rabs_pos|]. apply Rlt_le, Rinv_0_lt_compat; auto. }
  pose proof (Rabs_pos (shape_at L (kernel table) j (arrival fs c src mic size n))). nra.
Qed.

(** ** Small movements *)
Lemma between_false x a b : Rabs (b - a) < Rabs (x - a) -> between x a b = false.
Proof.
  intros H. unfold between.
  destruct (Rle_dec a b); [rewrite (Rabs_right (b - a)) in H by lra|rewrite (Rabs_left (b - a)) in H by lra];
  (destruct (Rle_dec a x); [rewrite (Rabs_right (x - a)) in H by lra|rewrite (Rabs_left (x - a)) in H by lra]);
  destruct (Rlt_dec a x), (Rle_dec x b), (Rlt_dec b x), (Rle_dec x a); cbn; auto; lra.
Qed.
Lemma away fs c x size src mic images : 0 < fs -> 0 < c ->
  (forall n, In n images -> arrival fs c src mic size n <> x) ->
  exists eta, 0 < eta /\ forall n, In n images -> eta * (fs / c) < Rabs (x - arrival fs c src mic size n).
Proof.
  intros Hf Hc. assert (Q : 0 < fs / c) by (apply Rmult_lt_0_compat; [auto|apply Rinv_0_lt_compat; auto]).
  induction images as [|n images IH]; intros H.
  - exists 1. split; [lra|]. intros n [].
  - destruct IH as (e & He & IH); [intros; apply H; right; auto|].
    assert (P : 0 < Rabs (x - arrival fs c src mic size n)).
    { apply Rabs_pos_lt. intros E. apply (H n); [left; auto|]. lra. }
    set (a := Rabs (x - arrival fs c src mic size n)) in *.
    assert (P2 : 0 < a / (2 * (fs / c))) by (apply Rmult_lt_0_compat; [auto|apply Rinv_0_lt_compat; lra]).
    exists (Rmin e (a / (2 * (fs / c)))). split; [apply Rmin_pos; auto|]. intros k [<-|Hk].
    + fold a. eapply Rle_lt_trans; [apply Rmult_le_compat_r; [lra|apply Rmin_r]|].
      replace (a / (2 * (fs / c)) * (fs / c)) with (a / 2) by (field; split; lra). lra.
    + eapply Rle_lt_trans; [apply Rmult_le_compat_r; [lra|apply Rmin_l]|]. apply IH; auto.
Qed.
Lemma rsum_le {A} (f g : A -> R) l : (forall x, In x l -> f x <= g x) -> rsum (map f l) <= rsum (map g l).
Proof.
  unfold rsum. induction l as [|x l IH]; intros H; cbn; [lra|]. apply Rplus_le_compat; [apply H; left; auto|]. apply IH. intros; apply H; right; auto.
Qed.
Lemma rsum_scal {A} k (f : A -> R) l : rsum (map (fun x => f x * k) l) = rsum (map f l) * k.
Proof. unfold rsum. induction l as [|x l IH]; cbn; [ring|]. rewrite IH. ring. Qed.
Lemma total_nonneg walls size images src mic : 0 <= total_strength walls size images src mic.
Proof.
  unfold total_strength. replace 0 with (rsum (map (fun _ : list Z => 0) images)).
  2:{ unfold rsum. induction images; cbn; [reflexivity|]. rewrite IHimages. ring. }
  apply rsum_le. intros n _. apply Rmult_le_pos; [apply Rabs_pos|]. apply Rlt_le, Rinv_0_lt_compat, ray_pos.
Qed.
Lemma variation_small L fs c walls size images src mic j eps : 0 < fs -> 0 < c -> 0 < eps ->
  length src = length size -> length mic = length size -> (forall n, In n images -> length n = length size) ->
  (forall n, In n images -> arrival fs c src mic size n <> INR j - INR (L / 2)) ->
  exists eta, 0 < eta /\ forall src' mic', length src' = length size -> length mic' = length size ->
    euclid src src' + euclid mic mic' <= eta -> variation L fs c walls size images src mic src' mic' j <= eps.
Proof.
  intros Hf Hc He H1 H2 Hi Hx. assert (Q : 0 < fs / c) by (apply Rmult_lt_0_compat; [auto|apply Rinv_0_lt_compat; auto]).
  destruct (away _ _ _ _ _ _ _ Hf Hc Hx) as (e1 & P1 & A1). pose proof PI_RGT_0 as Hpi.
  set (M := 10 ^ 6 + PI / 2 * (fs / c)). assert (HM : 0 < M) by (unfold M; apply Rplus_lt_0_compat; [apply pow_lt; lra|apply Rmult_lt_0_compat; lra]).
  set (S := total_strength walls size images src mic). assert (HS : 0 <= S) by apply total_nonneg.
  assert (P2 : 0 < eps / ((S + 1) * M)) by (apply Rmult_lt_0_compat; [auto|apply Rinv_0_lt_compat, Rmult_lt_0_compat; lra]).
  exists (Rmin e1 (eps / ((S + 1) * M))). split; [apply Rmin_pos; auto|]. intros src' mic' L1 L2 Hd.
  set (del := euclid src src' + euclid mic mic') in *.
  assert (D0 : 0 <= del) by (unfold del; pose proof (sqrt_pos (sqdist src src')); pose proof (sqrt_pos (sqdist mic mic')); unfold euclid; lra).
  assert (D1 : del <= e1) by (eapply Rle_trans; [exact Hd|apply Rmin_l]). assert (D2 : del <= eps / ((S + 1) * M)) by (eapply Rle_trans; [exact Hd|apply Rmin_r]).
  apply Rle_trans with (S * (del * M)).
  - unfold variation. fold del. unfold S, total_strength. rewrite <- rsum_scal. apply rsum_le. intros n Hn.
    pose proof (ray_pos src mic size n) as R1. pose proof (ray_pos src' mic' size n) as R2.
    pose proof (ray_lip size src mic src' mic' n H1 H2 L1 L2 (Hi n Hn)) as Hr. fold del in Hr.
    rewrite between_false.
    + apply Rmult_le_compat_l; [apply Rmult_le_pos; [apply Rabs_pos|apply Rlt_le, Rinv_0_lt_compat; auto]|].
      rewrite Rplus_0_r. apply Rmult_le_compat_l; auto. unfold M. apply Rplus_le_compat_r.
      rewrite <- (Rinv_inv (10 ^ 6)). apply Rinv_le_contravar; [apply Rinv_0_lt_compat, pow_lt; lra|]. apply Rmax_r.
    + eapply Rle_lt_trans; [|apply A1; auto]. unfold arrival.
      replace (ray_length src' mic' size n * fs / c - ray_length src mic size n * fs / c) with
        ((ray_length src' mic' size n - ray_length src mic size n) * (fs / c)) by (field; lra).
      rewrite Rabs_mult, (Rabs_right (fs / c)) by lra. apply Rmult_le_compat_r; lra.
  - apply Rle_trans with ((S + 1) * (eps / ((S + 1) * M) * M)).
    + assert (del * M <= eps / ((S + 1) * M) * M) by (apply Rmult_le_compat_r; lra). assert (0 <= del * M) by (apply Rmult_le_pos; lra).
      apply Rmult_le_compat; lra.
    + apply Req_le. field. split; lra.
Qed.
Lemma jump_pos L : Nat.Odd L -> 0 < jump L.
Proof.
  intros HL. destruct (le_lt_dec 3 L) as [H|H].
  - rewrite jump_value by auto. apply pow_lt. pose proof PI_RGT_0.
    assert (2 <= INR (L - 1)) by (replace 2 with (INR 2) by reflexivity; apply le_INR; lia).
    assert (0 < / INR (L - 1) <= / 2) by (split; [apply Rinv_0_lt_compat; lra|apply Rinv_le_contravar; lra]).
    unfold Rdiv. apply sin_gt_0; nra.
  - destruct HL as [k HL]. assert (k = 0)%nat by lia. subst k. cbn in HL. subst L. unfold jump.
    assert (E : window 1 (Z.of_nat (1 / 2) + 1) = 0) by (unfold window; destruct (_ && _) eqn:X; [cbn in X; discriminate|reflexivity]). rewrite E. lra.
Qed.
