(** Proofs about array geometry. *)
From Coq Require Import String List ZArith Reals Lia Lra Psatz Bool.
From Coquelicot Require Import Complex.
From Verif Require Import Prelude PreludeFacts SignalModel DftProofs FloatModel DirModel DirSpec DirProofs RoomModel GeoModel GeoSpec.
Import ListNotations.
Local Open Scope R_scope.
Local Notation length := List.length.

(** ** Vectors *)
Lemma length_scale a p : length (scale a p) = length p.
Proof. apply map_length. Qed.
Lemma length_shift c p : length p = length c -> length (shift c p) = length c.
Proof. intros H. unfold shift. rewrite length_map2, H. lia. Qed.
Lemma disp_shift c p : length p = length c -> disp c (shift c p) = p.
Proof.
  revert p. unfold shift, map2. induction c as [|x c IH]; intros [|y p] H; cbn in *; try discriminate; auto.
  f_equal; [lra|]. apply IH. lia.
Qed.
Lemma dot_comm a b : dot a b = dot b a.
Proof. revert b. induction a; intros [|y b]; cbn; auto. rewrite IHa. lra. Qed.
Lemma dot_scale_l k a b : dot (scale k a) b = k * dot a b.
Proof. revert b. induction a; intros [|y b]; cbn; try lra. change (map (Rmult k) a0) with (scale k a0). rewrite IHa. lra. Qed.
Lemma dot_scale_r k a b : dot a (scale k b) = k * dot a b.
Proof. rewrite dot_comm, dot_scale_l, dot_comm. auto. Qed.
Lemma dot_plus_l a b x : length a = length b -> dot (map2 Rplus a b) x = dot a x + dot b x.
Proof.
  unfold map2. revert b x. induction a as [|y a IH]; intros [|z b] [|w x] H; cbn in *; try discriminate; try lra.
  rewrite IH by lia. lra.
Qed.
Lemma dot_plus_r a b x : length a = length b -> dot x (map2 Rplus a b) = dot x a + dot x b.
Proof. intros H. rewrite dot_comm, dot_plus_l, (dot_comm a), (dot_comm b) by auto. auto. Qed.
Lemma dot_sq_nonneg a : 0 <= dot a a.
Proof. induction a; cbn; [lra|]. nra. Qed.
Lemma norm_0_iff a : norm a = 0 <-> Forall (fun x => x = 0) a.
Proof.
  unfold norm. split.
  - intros H. apply sqrt_eq_0 in H; [|apply dot_sq_nonneg]. induction a as [|x a IH]; [constructor|]. cbn in H.
    pose proof (dot_sq_nonneg a). assert (x * x = 0 /\ dot a a = 0) as [H1 H2] by nra. constructor; auto. nra.
  - intros H. replace (dot a a) with 0; [apply sqrt_0|]. induction H; cbn; auto. subst x. rewrite <- IHForall. lra.
Qed.
Lemma norm_scale k a : norm (scale k a) = Rabs k * norm a.
Proof.
  unfold norm. rewrite dot_scale_l, dot_scale_r. rewrite <- Rmult_assoc.
  rewrite sqrt_mult_alt by nra. f_equal. apply sqrt_Rsqr_abs.
Qed.
Lemma norm_nonneg a : 0 <= norm a.
Proof. apply sqrt_pos. Qed.
Lemma norm_sq a : norm a * norm a = dot a a.
Proof. apply sqrt_sqrt, dot_sq_nonneg. Qed.
Lemma norm_1 a : dot a a = 1 -> norm a = 1.
Proof. intros H. unfold norm. rewrite H. apply sqrt_1. Qed.
Lemma unit_vec_none v : unit_vec v = None <-> Forall (fun x => x = 0) v.
Proof. unfold unit_vec. rewrite vnorm_norm, <- norm_0_iff. destruct (Req_EM_T (norm v) 0); split; intros; auto; try discriminate. contradiction. Qed.
Lemma unit_vec_some v u : unit_vec v = Some u -> 0 < norm v /\ u = scale (/ norm v) v /\ dot u u = 1.
Proof.
  unfold unit_vec. rewrite vnorm_norm. destruct (Req_EM_T (norm v) 0) as [|N]; [discriminate|]. intros H. injection H as <-.
  assert (P : 0 < norm v) by (pose proof (norm_nonneg v); lra). split; auto.
  assert (E : map (fun x => x / norm v) v = scale (/ norm v) v) by (apply map_ext; intros; unfold Rdiv; lra).
  split; auto. rewrite E, dot_scale_l, dot_scale_r, <- norm_sq. field. lra.
Qed.

(** ** Linear arrays *)
Lemma nth_shift_scale c u k i : length u = length c -> (i < length c)%nat -> nth i (shift c (scale k u)) 0 = nth i c 0 + k * nth i u 0.
Proof.
  intros L H. unfold shift. rewrite (nth_map2 _ _ _ _ 0 0 0) by (rewrite ?length_scale; lia). f_equal.
  unfold scale. rewrite (nth_indep _ 0 (k * 0)) by (rewrite map_length; lia). apply map_nth.
Qed.
Lemma offsets_sum n s : rsum n (fun i => (INR i - (INR n - 1) / 2) * s) = 0.
Proof.
  assert (G : forall k a, rsum k (fun i => (INR i - a) * s) = (INR k * (INR k - 1) / 2 - INR k * a) * s).
  { intros k a. induction k as [|k IH]; [cbn; lra|]. cbn [rsum]. rewrite IH, S_INR. lra. }
  rewrite G. field.
Qed.
Lemma nth_tab {A} (f : nat -> A) n i d : (i < n)%nat -> nth i (map f (seq 0 n)) d = f i.
Proof. intros H. rewrite (nth_indep _ d (f 0%nat)) by (rewrite map_length, seq_length; lia). rewrite map_nth, seq_nth by lia. auto. Qed.
Lemma centred_tab c n (f : nat -> list R) : (forall i, (i < length c)%nat -> rsum n (fun j => nth i (f j) 0 - nth i c 0) = 0) ->
  centred c (map f (seq 0 n)).
Proof.
  intros H i Hi. rewrite map_length, seq_length. specialize (H i Hi). rewrite rsum_minus, rsum_const in H.
  rewrite (rsum_ext _ _ (fun j => nth i (f j) 0)); [lra|]. intros j Hj. rewrite nth_tab; auto.
Qed.
Lemma line_spec c u num s : length u = length c -> dot u u = 1 -> 0 < s -> (0 < num)%Z ->
  let pts := map (fun i => shift c (scale ((INR i - (IZR num - 1) / 2) * s) u)) (seq 0 (Z.to_nat num)) in
  length pts = Z.to_nat num /\ (forall p, In p pts -> length p = length c) /\ centred c pts /\
  forall i, (i + 1 < Z.to_nat num)%nat -> multiple s u (disp (nth i pts []) (nth (i + 1) pts [])) /\
    distance (nth i pts []) (nth (i + 1) pts []) = s.
Proof.
  intros L U S N pts. split; [unfold pts; rewrite map_length, seq_length; auto|].
  split. { intros p Hp. unfold pts in Hp. apply in_map_iff in Hp as (j & <- & _). apply length_shift. rewrite length_scale; auto. }
  split.
  - apply centred_tab. intros i Hi. rewrite (rsum_ext _ _ (fun j => (INR j - (INR (Z.to_nat num) - 1) / 2) * s * nth i u 0)).
    + rewrite rsum_scal_r, offsets_sum. lra.
    + intros j Hj. rewrite nth_shift_scale by auto. rewrite INR_IZR_INZ with (n := Z.to_nat num), Z2Nat.id by lia. lra.
  - intros i Hi.
    assert (E : disp (nth i pts []) (nth (i + 1) pts []) = scale s u).
    { unfold pts. rewrite !nth_tab by lia. rewrite plus_INR. change (INR 1) with 1.
      generalize (INR i). intros x. clear -L. revert u L. unfold shift, map2, scale.
      induction c as [|y c IH]; intros [|z u] L; cbn in *; try discriminate; auto. f_equal; [lra|]. apply IH. lia. }
    rewrite E. split.
    + split; [apply length_scale|]. intros k Hk. unfold scale. rewrite (nth_indep _ 0 (s * 0)) by (rewrite map_length; lia). apply map_nth.
    + unfold distance. rewrite E, norm_scale, (norm_1 _ U), Rabs_right by lra. lra.
Qed.
Lemma axis_vec_spec dim a : (a < dim)%nat -> length (axis_vec dim a) = dim /\ dot (axis_vec dim a) (axis_vec dim a) = 1 /\
  forall i, (i < dim)%nat -> nth i (axis_vec dim a) 0 = if (i =? a)%nat then 1 else 0.
Proof.
  intros H. unfold axis_vec. split; [rewrite map_length, seq_length; auto|]. split.
  - assert (G : forall n s, dot (map (fun i => if (i =? a)%nat then 1 else 0) (seq s n)) (map (fun i => if (i =? a)%nat then 1 else 0) (seq s n)) =
      if ((s <=? a) && (a <? s + n))%nat then 1 else 0).
    { induction n as [|n IH]; intros s.
      - cbn [seq map dot]. destruct (Nat.leb_spec s a), (Nat.ltb_spec a (s + 0)); cbn; auto; lia.
      - cbn [seq map dot]. rewrite IH. destruct (Nat.eqb_spec s a), (Nat.leb_spec (S s) a), (Nat.ltb_spec a (S s + n)), (Nat.leb_spec s a), (Nat.ltb_spec a (s + S n)); cbn; try lia; lra. }
    rewrite G. destruct (Nat.leb_spec 0 a), (Nat.ltb_spec a (0 + dim)); cbn; auto; lia.
  - intros i Hi. rewrite nth_tab; auto.
Qed.

(** ** Circular arrays *)
Lemma cis_sums n : (2 <= n)%nat -> rsum n (fun i => cos (INR i * (2 * PI / INR n))) = 0 /\ rsum n (fun i => sin (INR i * (2 * PI / INR n))) = 0.
Proof.
  intros H. pose proof (roots_orth n 1 ltac:(lia) ltac:(lia)) as R. cbn [Z.eqb] in R.
  assert (G : forall k, csum k (fun i => cis (INR i * (2 * PI * 1 / INR n))) =
    (rsum k (fun i => cos (INR i * (2 * PI / INR n))), rsum k (fun i => sin (INR i * (2 * PI / INR n))))).
  { induction k as [|k IH]; [reflexivity|]. cbn [csum rsum]. rewrite IH. unfold cis, Cplus. cbn [fst snd].
    replace (2 * PI * 1 / INR n) with (2 * PI / INR n) by (rewrite Rmult_1_r; auto). reflexivity. }
  rewrite G in R. unfold RtoC in R. injection R as R1 R2. auto.
Qed.
Definition circle_point (c u w : list R) (r a : R) : list R :=
  shift c (scale r (map2 Rplus (scale (cos a) u) (scale (sin a) w))).
Lemma circle_disp c u w r a : length u = length c -> length w = length c ->
  disp c (circle_point c u w r a) = scale r (map2 Rplus (scale (cos a) u) (scale (sin a) w)).
Proof. intros. apply disp_shift. rewrite length_scale, length_map2, !length_scale. lia. Qed.
Lemma circle_dot c u w r a b : length u = length c -> length w = length c -> dot u u = 1 -> dot w w = 1 -> dot u w = 0 ->
  dot (disp c (circle_point c u w r a)) (disp c (circle_point c u w r b)) = r ^ 2 * cos (a - b).
Proof.
  intros L1 L2 U W O. rewrite !circle_disp by auto. rewrite dot_scale_l, dot_scale_r.
  rewrite dot_plus_l by (rewrite !length_scale; lia). rewrite !dot_plus_r by (rewrite !length_scale; lia).
  rewrite !dot_scale_l, !dot_scale_r, (dot_comm w u), U, W, O, cos_minus. ring.
Qed.
Lemma circle_spec c u w r n : length u = length c -> length w = length c -> dot u u = 1 -> dot w w = 1 -> dot u w = 0 -> 0 < r -> (0 < n)%nat ->
  let pts := map (circle_point c u w r) (circle_angles Float n) in
  ring c r n pts /\ ((2 <= n)%nat -> centred c pts) /\
  forall v, dot v u = 0 -> dot v w = 0 -> in_plane c v pts.
Proof.
  intros L1 L2 U W O Rp N pts.
  assert (EP : pts = map (fun i => circle_point c u w r (INR i * (2 * PI / INR n))) (seq 0 n)).
  { unfold pts, circle_angles. rewrite map_map. auto. }
  assert (Hn : 0 < INR n) by (apply lt_0_INR; lia).
  split; [constructor|split].
  - rewrite EP, map_length, seq_length. auto.
  - intros p Hp. rewrite EP in Hp. apply in_map_iff in Hp as (i & <- & _). apply length_shift. rewrite length_scale, length_map2, !length_scale. lia.
  - intros p Hp. rewrite EP in Hp. apply in_map_iff in Hp as (i & <- & _). unfold distance, norm. rewrite circle_dot by auto.
    rewrite Rminus_diag_eq, cos_0 by auto. rewrite Rmult_1_r, sqrt_pow2 by lra. auto.
  - intros i j Hi Hj. rewrite EP, !nth_tab by auto. rewrite circle_dot by auto. do 2 f_equal. field. lra.
  - intros H2. rewrite EP. apply centred_tab. intros k Hk. destruct (cis_sums n H2) as [C1 C2].
    rewrite (rsum_ext _ _ (fun i => r * nth k u 0 * cos (INR i * (2 * PI / INR n)) + r * nth k w 0 * sin (INR i * (2 * PI / INR n)))).
    + rewrite rsum_plus, !rsum_scal, C1, C2. lra.
    + intros i Hi. unfold circle_point.
      rewrite nth_shift_scale by (rewrite ?length_map2, ?length_scale; lia).
      rewrite (nth_map2 _ _ _ _ 0 0 0) by (rewrite !length_scale; lia).
      assert (G : forall k' a (l : list R), nth k' (scale a l) 0 = a * nth k' l 0).
      { intros k' a l. unfold scale. destruct (Nat.lt_ge_cases k' (length l)).
        - rewrite (nth_indep _ 0 (a * 0)) by (rewrite map_length; lia). apply map_nth.
        - rewrite !nth_overflow by (rewrite ?map_length; lia). lra. }
      rewrite !G. lra.
  - intros v V1 V2 p Hp. rewrite EP in Hp. apply in_map_iff in Hp as (i & <- & _). rewrite circle_disp by auto.
    rewrite dot_scale_r, dot_plus_r, !dot_scale_r, V1, V2 by (rewrite !length_scale; lia). lra.
Qed.
Lemma cross_dots a b : length a = 3%nat -> length b = 3%nat ->
  length (cross a b) = 3%nat /\ dot (cross a b) a = 0 /\ dot (cross a b) b = 0 /\
  dot (cross a b) (cross a b) = dot a a * dot b b - dot a b * dot a b.
Proof.
  destruct a as [|a1 [|a2 [|a3 [|]]]]; try discriminate. destruct b as [|b1 [|b2 [|b3 [|]]]]; try discriminate. intros _ _.
  cbn. repeat split; ring.
Qed.
(** The normals for which the basis is undefined. *)
Definition bad_normal (v : list R) : Prop := exists k, 0 <= k /\ v = [- k; 0; 0].
Lemma basis_spec v r : basis_from_normal Float v = Ok r -> length v = 3%nat /\
  ((bad_normal v /\ r = None) \/
   (~ bad_normal v /\ exists u w, r = Some (u, w) /\ length u = 3%nat /\ length w = 3%nat /\
      dot u u = 1 /\ dot w w = 1 /\ dot u w = 0 /\ dot v u = 0 /\ dot v w = 0)).
Proof.
  unfold basis_from_normal. destruct (Nat.eqb_spec (length v) 3) as [L|]; cbn [negb]; [|discriminate]. intros H. injection H as <-. split; auto.
  destruct (unit_vec v) as [n|] eqn:En.
  2:{ left. split; auto. apply unit_vec_none in En. destruct v as [|a [|b [|c [|]]]]; try discriminate.
      inversion En as [|? ? Ea E1]; subst. inversion E1 as [|? ? Eb E2]; subst. inversion E2 as [|? ? Ec E3]; subst. exists 0. split; [lra|]. repeat f_equal. lra. }
  apply unit_vec_some in En as (P & En & U).
  assert (Ln : length n = 3%nat) by (rewrite En, length_scale; auto).
  assert (Ev : v = scale (norm v) n).
  { rewrite En. unfold scale. rewrite map_map. rewrite <- (map_id v) at 1. apply map_ext. intros x. field. lra. }
  set (ref := if allclose n [1; 0; 0] then [0; 1; 0] else [1; 0; 0]).
  assert (Lr : length ref = 3%nat) by (unfold ref; destruct (allclose _ _); auto).
  destruct (cross_dots n ref Ln Lr) as (Lc & Cn & Cr & Cc).
  cbv zeta.
  destruct (unit_vec (cross n ref)) as [bx|] eqn:Ex.
  - right. apply unit_vec_some in Ex as (Px & Ex & Ux). assert (Lx : length bx = 3%nat) by (rewrite Ex, length_scale; auto).
    destruct (cross_dots n bx Ln Lx) as (Ly & Yn & Yx & Yy).
    assert (Dx : dot bx n = 0) by (rewrite Ex, dot_scale_l, Cn; lra).
    rewrite (dot_comm n bx), Dx, U, Ux in Yy.
    destruct (unit_vec (cross n bx)) as [w|] eqn:Ew.
    2:{ exfalso. apply unit_vec_none in Ew. apply norm_0_iff in Ew. pose proof (norm_sq (cross n bx)) as Q. rewrite Ew in Q. lra. }
    apply unit_vec_some in Ew as (Pw & Ew & Uw).
    split.
    + intros (k & Hk & Hv). rewrite Hv in En. rewrite En in Px. unfold ref in Px.
      assert (Nv : norm v = k).
      { rewrite Hv. unfold norm. cbn. replace (- k * - k + (0 * 0 + (0 * 0 + 0))) with (k * k) by ring. apply sqrt_square; auto. }
      assert (AC : allclose n [1; 0; 0] = false).
      { rewrite En. cbn. rewrite <- Hv, Nv. apply andb_false_iff. left. unfold Rleb. destruct (Rle_dec _ _) as [Q|]; auto. exfalso.
        replace (/ k * - k - 1) with (-2) in Q by (field; lra). rewrite (Rabs_left (-2)), Rabs_R1 in Q by lra. cbn in Q. lra. }
      rewrite <- En, AC in Px. rewrite En in Px.
      assert (Z : norm (cross (scale (/ norm [-k; 0; 0]) [- k; 0; 0]) [1; 0; 0]) = 0).
      { apply norm_0_iff. cbn. repeat constructor; ring. }
      lra.
    + exists bx, w. split; auto. split; auto. split; [rewrite Ew, length_scale; auto|]. split; auto. split; auto.
      split; [rewrite Ew, dot_scale_r, (dot_comm bx), Yx; lra|]. rewrite Ev, !dot_scale_l. split.
      * rewrite (dot_comm n), Dx. lra.
      * rewrite Ew, dot_scale_r, (dot_comm n), Yn. lra.
  - left. split; auto. apply unit_vec_none, norm_0_iff in Ex. pose proof (norm_sq (cross n ref)) as Q. rewrite Ex, Cc, U in Q.
    unfold ref in Q. destruct n as [|n1 [|n2 [|n3 [|]]]]; try discriminate. cbn in U.
    destruct (allclose _ _) eqn:AC; cbn in Q.
    + exfalso. unfold allclose in AC. cbn in AC. apply andb_true_iff in AC as [A1 A2]. unfold Rleb in A1. destruct (Rle_dec _ _) as [B|] in A1; [|discriminate].
      rewrite Rabs_R1 in B. assert (n1 > 1/2) by (revert B; cbn; unfold Rabs; destruct (Rcase_abs _); lra). nra.
    + assert (n2 = 0 /\ n3 = 0) as [-> ->] by (split; nra). exists (norm v). split; [lra|]. rewrite Ev at 1. cbn.
      assert (N1 : (n1 - 1) * (n1 + 1) = 0) by nra. apply Rmult_integral in N1 as [N1|N1].
      * exfalso. assert (n1 = 1) by lra. subst n1. unfold allclose in AC. cbn in AC. revert AC.
        rewrite !Rminus_diag_eq by auto. rewrite !Rabs_R0, Rabs_R1. unfold Rleb. repeat (destruct (Rle_dec _ _) as [|B]; [|exfalso; apply B; lra]). discriminate.
      * assert (n1 = -1) by lra. subst n1. repeat f_equal; lra.
Qed.
Lemma Rleb_iff a b : Rleb a b = true <-> a <= b.
Proof. unfold Rleb. destruct (Rle_dec a b); split; intros; try discriminate; auto; lra. Qed.
Lemma allclose_x v : 0 < norm v -> length v = 3%nat -> allclose (scale (/ norm v) v) [1; 0; 0] = true <-> along_x v.
Proof.
  intros P L. destruct v as [|a [|b [|c [|]]]]; try discriminate. unfold allclose, along_x. set (n := norm [a; b; c]) in *.
  cbn [scale map combine forallb fst snd]. rewrite !andb_true_iff, !Rleb_iff, Rabs_R1, Rabs_R0, !Rmult_0_r, !Rplus_0_r, !Rminus_0_r, Rmult_1_r.
  assert (S : forall x e, Rabs (/ n * x) <= e <-> Rabs x <= e * n).
  { intros x e. rewrite Rabs_mult, (Rabs_right (/ n)) by (left; apply Rinv_0_lt_compat; auto). split; intros H.
    - apply (Rmult_le_compat_r n) in H; [|lra]. replace (/ n * Rabs x * n) with (Rabs x) in H by (field; lra). auto.
    - apply (Rmult_le_reg_r n); auto. replace (/ n * Rabs x * n) with (Rabs x) by (field; lra). auto. }
  rewrite <- !S. replace (/ n * (a - n)) with (/ n * a - 1) by (field; lra). tauto.
Qed.
Lemma basis_first v u w : basis_from_normal Float v = Ok (Some (u, w)) ->
  (along_x v -> dot u [0; 1; 0] = 0) /\ (~ along_x v -> dot u [1; 0; 0] = 0).
Proof.
  unfold basis_from_normal. destruct (Nat.eqb_spec (length v) 3) as [L|]; cbn [negb]; [|discriminate]. intros H. injection H as H.
  destruct (unit_vec v) as [n|] eqn:En; [|discriminate]. apply unit_vec_some in En as (P & En & U).
  assert (Ln : length n = 3%nat) by (rewrite En, length_scale; auto). pose proof (allclose_x v P L) as A. rewrite <- En in A.
  cbv zeta in H. destruct (allclose n [1; 0; 0]) eqn:AC.
  - destruct (unit_vec (cross n [0; 1; 0])) as [bx|] eqn:Ex; [|discriminate]. destruct (unit_vec (cross n bx)); [|discriminate]. injection H as <- <-.
    apply unit_vec_some in Ex as (Px & Ex & Ux). destruct (cross_dots n [0; 1; 0] Ln eq_refl) as (Lc & Cn & Cr & Cc). split.
    + intros _. rewrite Ex, dot_scale_l, Cr. lra.
    + intros N. exfalso. apply N, A. auto.
  - destruct (unit_vec (cross n [1; 0; 0])) as [bx|] eqn:Ex; [|discriminate]. destruct (unit_vec (cross n bx)); [|discriminate]. injection H as <- <-.
    apply unit_vec_some in Ex as (Px & Ex & Ux). destruct (cross_dots n [1; 0; 0] Ln eq_refl) as (Lc & Cn & Cr & Cc). split.
    + intros N. apply A in N. discriminate.
    + intros _. rewrite Ex, dot_scale_l, Cr. lra.
Qed.
