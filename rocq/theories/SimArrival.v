(** Arrival times, omnidirectional corollaries and table positions. *)
From Coq Require Import String List ZArith Reals Lia Lra Bool Permutation.
From Verif Require Import Prelude PreludeFacts SignalModel FloatModel FloatProofs DirModel ImageModel ImageSpec AcousticModel
  AccumModel IsmModel IsmSpec ImageProofs AccumProofs IsmProofs SimProofs SimMore KernelProofs.
Import ListNotations.
Local Open Scope R_scope.
Local Notation length := List.length.

(** ** Reading a successful omnidirectional simulation *)
Lemma omni_ok_inv X dev r srcs mics N nb n c dim beta T :
  scene r srcs mics dim beta -> cfg_hpf_enable c = false ->
  simulate_rir X dev r srcs mics (Some N) nb (Some (Z.of_nat n)) None None (Some (DName "omni")) ONone (Some c) = Ok T ->
  cfg_validate c = Ok tt /\ (0 <= N)%Z /\ (0 < n)%nat /\
  exists images, image_source_indices N dim nb = Ok images /\
    xshape T = [count srcs; count mics; n] /\ length (xdata T) = (count srcs * count mics * n)%nat /\
    forall s m j, (s < count srcs)%nat -> (m < count mics)%nat -> (j < n)%nat ->
      xget T [s; m; j] = omni_rir dev c r beta images srcs mics s m j.
Proof.
  intros Hsc Hh H. assert (H0 := H).
  unfold simulate_rir, resolve_config in H. cbn [bind] in H.
  destruct (cfg_validate c) as [[]|] eqn:Hv; [|discriminate]. cbn [bind] in H. split; auto.
  unfold validate_args in H. cbn [bind] in H.
  destruct (Z.leb_spec (Z.of_nat n) 0); [discriminate|]. destruct (Z.ltb_spec N 0); [discriminate|].
  split; auto. split; [lia|].
  cbn [bind] in H. cbv zeta in H.
  destruct (scene_prepare r srcs mics dim beta ONone Hsc eq_refl) as (so & mo & Ep). rewrite Ep in H. cbn [bind] in H.
  rewrite (scene_shapes _ _ _ _ _ Hsc) in H. cbn [bind] in H. rewrite (sc_beta _ _ _ _ _ Hsc) in H. cbn [bind] in H.
  rewrite (scene_validate_beta _ _ _ _ _ Hsc) in H. cbn [bind] in H. bcase_in H. clear H.
  exists a. split; auto. rewrite (simulate_omni X dev r srcs mics N nb n c dim beta a) in H0; auto; [|lia].
  injection H0 as <-. split; [reflexivity|]. split; [apply length_rows2|].
  intros. apply xget_rows2; auto.
Qed.
Lemma length_position e n d i : wf (entity_pos e) -> shape (unsqueeze1 (entity_pos e)) = [n; d] -> (i < n)%nat ->
  length (position e i) = d.
Proof.
  intros Hw H Hi. unfold position. rewrite (trows_2d _ n d H), nth_map_seq by auto. apply length_block.
  assert (data (unsqueeze1 (entity_pos e)) = data (entity_pos e)) as ->.
  { unfold unsqueeze1. destruct (_ =? 1)%nat; reflexivity. }
  rewrite Hw. unfold unsqueeze1, ndim in H.
  destruct (shape (entity_pos e)) as [|a [|b l]] eqn:E; cbn [length Nat.eqb shape] in H; [congruence| |].
  - injection H as <- <-. cbn [prodn fold_right]. nia.
  - rewrite E in H. injection H as -> -> ->. cbn [prodn fold_right]. nia.
Qed.

(** ** Targets of one image *)
Lemma combine_filter_fst {A} (p : Z -> bool) (ts : list Z) (vs : list A) : length ts = length vs ->
  map fst (filter (fun q => p (fst q)) (combine ts vs)) = filter p ts.
Proof.
  revert vs. induction ts as [|t ts IH]; intros [|v vs] H; cbn in H; try discriminate; auto.
  cbn [combine filter fst]. destruct (p t); cbn [map fst]; rewrite IH; auto.
Qed.
Lemma updates_targets rnd u L g nsample sm delay amp us : Nat.Odd L -> 0 <= delay ->
  image_updates rnd u L g nsample sm (delay + INR (half L)) amp = Ok us ->
  map fst us = map (fun z => (z + Z.of_nat (sm * nsample))%Z)
    (filter (fun z => (z <? Z.of_nat nsample)%Z) (map (fun k => (floorZ delay + Z.of_nat k)%Z) (seq 0 L))).
Proof.
  intros HL Hd H. unfold image_updates in H. cbv zeta in H. bcase_in H. injection H as <-.
  pose proof (mapM_length _ _ _ E) as La. rewrite seq_length in La.
  rewrite map_map. cbn [fst]. rewrite <- (map_map fst (fun z => (z + Z.of_nat sm * Z.of_nat nsample)%Z)).
  rewrite Nat2Z.inj_mul. f_equal.
  rewrite (combine_filter_fst (fun z => (0 <=? z) && (z <? Z.of_nat nsample))%Z).
  2:{ rewrite !map_length. unfold fdl_offsets. rewrite length_tabulate. auto. }
  assert (F0 : (0 <= floorZ delay)%Z) by (apply floorZ_ge; auto).
  unfold fdl_offsets, tabulate. rewrite map_map.
  rewrite (map_ext _ (fun k => (floorZ delay + Z.of_nat k)%Z)).
  - apply filter_ext_in. intros z Hz. apply in_map_iff in Hz as (k & <- & _).
    destruct (Z.leb_spec 0 (floorZ delay + Z.of_nat k)); [reflexivity|lia].
  - intros k. rewrite INR_IZR_INZ, floorZ_add. lia.
Qed.

(** ** Integer delays *)
Lemma pulse_integer L table i x j : Nat.Odd L -> (forall g, table = Some g -> (0 < g)%nat) ->
  pulse L (kernel table) (INR i) (Some x) j = Some (if (j =? i + (L - 1) / 2)%nat then x else 0).
Proof.
  intros HL Ht. unfold pulse. rewrite INR_IZR_INZ, floorZ_IZR.
  pose proof (odd_half L HL) as EL. unfold half in EL. set (h := ((L - 1) / 2)%nat) in *.
  assert (Eh : (L / 2)%nat = h) by (rewrite <- half_odd by auto; reflexivity). rewrite Eh.
  replace (IZR (Z.of_nat j - Z.of_nat i) - INR h - (IZR (Z.of_nat i) - IZR (Z.of_nat i)))
    with (IZR (Z.of_nat j - Z.of_nat i - Z.of_nat h)) by (rewrite (minus_IZR _ (Z.of_nat h)), <- (INR_IZR_INZ h); ring).
  rewrite kernel_int by auto.
  destruct (Z.leb_spec 0 (Z.of_nat j - Z.of_nat i)), (Z.ltb_spec (Z.of_nat j - Z.of_nat i) (Z.of_nat L)); cbn [andb];
  destruct (Nat.eqb_spec j (i + h)); try lia; try reflexivity.
  - replace (_ =? 0)%Z with true by (symmetry; apply Z.eqb_eq; lia).
    replace (Z.to_nat (Z.of_nat j - Z.of_nat i)) with (half L) by (unfold half; fold h; lia).
    rewrite hann_centre by auto. cbn. f_equal. ring.
  - replace (_ =? 0)%Z with false by (symmetry; apply Z.eqb_neq; lia). cbn. f_equal. ring.
Qed.

(** ** The direct path is the shortest *)
Lemma sq_le a b : (b <= a /\ b <= - a) \/ (a <= b /\ - a <= b) -> a * a <= b * b.
Proof. intros [H|H]; nra. Qed.
Lemma axis_direct len x m n : 0 <= x <= len -> 0 <= m <= len ->
  (m - x) * (m - x) <= (m - reflected len x n) * (m - reflected len x n).
Proof.
  intros Hx Hm. rewrite <- image_coord_reflected. destruct (parity n) as [k [-> | ->]].
  - rewrite image_coord_even, mult_IZR.
    destruct (Z_lt_le_dec k 0) as [Hk|Hk].
    + assert (IZR k <= -1) by (apply IZR_le; lia). apply sq_le. right.
      assert (0 <= (-1 - IZR k) * len) by (apply Rmult_le_pos; lra). lra.
    + destruct (Z.eq_dec k 0) as [->|Hk0]; [lra|].
      assert (1 <= IZR k) by (apply IZR_le; lia). apply sq_le. left.
      assert (0 <= (IZR k - 1) * len) by (apply Rmult_le_pos; lra). lra.
  - rewrite image_coord_odd, plus_IZR, mult_IZR.
    destruct (Z_lt_le_dec k 0) as [Hk|Hk].
    + assert (IZR k <= -1) by (apply IZR_le; lia).
      apply sq_le. right. assert (0 <= (-1 - IZR k) * len) by (apply Rmult_le_pos; lra). lra.
    + assert (0 <= IZR k) by (apply IZR_le; lia).
      apply sq_le. left. assert (0 <= IZR k * len) by (apply Rmult_le_pos; lra). lra.
Qed.
Lemma direct_nearest src mic size n : inside src size -> inside mic size -> length n = length size ->
  euclid mic src <= euclid mic (image_of src size n).
Proof.
  intros Hs Hm Hn. unfold euclid. apply sqrt_le_1_alt. unfold sqdist.
  revert mic n Hm Hn. induction Hs as [|x l src size Hx Hs IH]; intros mic n Hm Hn.
  - inversion Hm; subst. cbn. lra.
  - inversion Hm as [|y l' mic' size' Hy Hm' E1 E2]; subst. destruct n as [|k n]; [discriminate|].
    cbn [image_of combine map fold_right fst snd].
    pose proof (axis_direct l x y k Hx Hy). pose proof (IH mic' n Hm' ltac:(cbn in Hn; lia)). lra.
Qed.

(** ** Table positions *)
Lemma table_positions rnd L g sample k : good_rounding rnd g -> (0 < g)%nat -> (k < L)%nat ->
  let frac := rnd (sample - IZR (floorZ sample)) in
  let pos := (floorZ (rnd (rnd (1 - frac) * INR g))%R + Z.of_nat k * Z.of_nat g)%Z in
  (0 <= pos)%Z /\ (pos + 1 < Z.of_nat (length (sinc_lut L g)))%Z.
Proof.
  intros Hr Hg Hk frac pos. pose proof (frac_range rnd g sample Hr) as Hf. fold frac in Hf.
  pose proof (lut_offset_range rnd g frac Hr Hf). rewrite length_lut by auto. unfold pos. nia.
Qed.
Lemma good_rnd64 g : (Z.of_nat g <= 2 ^ 53)%Z -> good_rounding rnd64 g.
Proof.
  intros H. split; [apply rnd64_le|]. split; [apply rnd64_0|]. split; [apply (rnd64_IZR 1); lia|]. apply rnd64_INR; auto.
Qed.
Lemma good_rnd32 g : (Z.of_nat g <= 2 ^ 24)%Z -> good_rounding rnd32 g.
Proof.
  intros H. split; [apply rnd32_le|]. split; [apply rnd32_0|]. split; [apply (rnd32_IZR 1); lia|]. apply rnd32_INR; auto.
Qed.
Lemma tap_difference L g f k : Nat.Odd L -> (0 < g)%nat -> 0 <= f <= 1 -> (k < L)%nat ->
  exists a b, filter_tap (fun x => x) true L g f k = Ok a /\ filter_tap (fun x => x) false L g f k = Ok b /\
    Rabs (a - b) <= PI * PI / (24 * (INR g * INR g)).
Proof.
  intros HL Hg Hf Hk. do 2 eexists. rewrite !tap_exact by auto. split; [reflexivity|]. split; [reflexivity|].
  cbn [kernel]. rewrite <- Rmult_minus_distr_r, Rabs_mult.
  pose proof (hann_range L k). rewrite (Rabs_right (hann L k)) by lra.
  pose proof (grid_interp_error g (INR k - INR (half L) - f) Hg).
  pose proof (Rabs_pos (grid_interp g nsinc (INR k - INR (half L) - f) - nsinc (INR k - INR (half L) - f))). nra.
Qed.
