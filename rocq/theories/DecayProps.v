(** Property theorems C101: how echoes, responses and recordings die away. *)
From Coq Require Import String List ZArith Reals Lia Lra Psatz Bool Permutation.
From Verif Require Import Prelude PreludeFacts SignalModel SignalSpec ConvProofs FloatModel DirModel DirProofs ImageModel ImageSpec AcousticModel
  AccumModel IsmModel IsmSpec ImageProofs AccumProofs IsmProofs SimProofs SimMore SimArrival KernelProofs ContSpec ContProofs IsmProps ContProps ConvMore AlgProofs LoopModel
  BetaSpec BetaProofs BetaProps RecSpec RecProofs DecayProofs.
Import ListNotations.
Local Open Scope R_scope.
Local Notation length := List.length.
Local Notation rsum := Prelude.rsum.

(** ** C101 *)
(** A response of fixed length with omnidirectional sources and microphones. *)
Local Notation simulation X dev r srcs mics N n c :=
  (simulate_rir X dev r srcs mics (Some N) None (Some (Z.of_nat n)) None None (Some (DName "omni")) ONone (Some c)).
(** [t] is what comes out when the signal [x] is convolved with the simulated responses [T]. *)
Local Notation recording x T t := (exists h, all_numbers T = Some h /\ convolve_rir x h = Ok t).

(** The length of a way decides, up to a few sides of the room, how many walls are met on it. *)
Theorem C101_reflections : forall size src mic v lo hi,
  ImageSpec.inside src size -> ImageSpec.inside mic size -> length v = length size -> 0 <= lo -> Forall (fun l => lo <= l <= hi) size ->
  let d := euclid mic (image_of src size v) in
  d <= (IZR (order_of v) + INR (length size)) * hi /\ IZR (order_of v) * lo <= sqrt (INR (length size)) * d + fold_right Rplus 0 size.
Proof.
  intros size src mic v lo hi Hs Hm Lv Hlo F d. destruct (along_between lo hi Hlo size src mic v Hs Hm Lv F) as (A & B).
  pose proof (Forall2_length _ _ _ Hs) as Ls. pose proof (Forall2_length _ _ _ Hm) as Lm. assert (Li : length mic = length (image_of src size v)) by (rewrite length_image; auto).
  pose proof (euclid_le_along _ _ Li) as E1. pose proof (along_le_euclid _ _ Li) as E2. rewrite Lm in E2. fold d in E1, E2. split; lra.
Qed.
(** So an echo that has come a long way is weak, and an echo that has come a short way is not. *)
Theorem C101_echo : forall walls size src mic v lo hi b B K, length walls = length size ->
  ImageSpec.inside src size -> ImageSpec.inside mic size -> length v = length size -> 0 < lo -> / 10 ^ 6 <= hi -> (0 < length size)%nat -> Forall (fun l => lo <= l <= hi) size ->
  let d := ray_length src mic size v in
  (0 <= B <= 1 -> Forall (fun p => Rabs (fst p) <= B /\ Rabs (snd p) <= B) walls -> (INR K + INR (length size)) * hi < d -> Rabs (path_gain walls v) <= B ^ K) /\
  (0 <= b <= 1 -> Forall (fun p => b <= fst p /\ b <= snd p) walls -> sqrt (INR (length size)) * d + fold_right Rplus 0 size <= INR K * lo -> b ^ K <= path_gain walls v).
Proof.
  intros walls size src mic v lo hi b B K Lw Hs Hm Lv Hlo Hhi Hdim F d. destruct (C101_reflections size src mic v lo hi Hs Hm Lv ltac:(lra) F) as (E1 & E2).
  assert (P6 : 0 < / 10 ^ 6) by (apply Rinv_0_lt_compat, pow_lt; lra).
  assert (Ln : Z.of_nat (length (met walls v)) = order_of v) by (apply length_met; congruence). rewrite gain_met. split.
  - intros HB Fw Hd. assert (Q : (K <= length (met walls v))%nat).
    { assert (D1 : 1 <= INR (length size)) by (apply (le_INR 1); lia). pose proof (pos_INR K) as PK. unfold d, ray_length, Rmax in Hd. destruct (Rle_dec _ _) as [C|C]; [nra|].
      assert (INR K < IZR (order_of v)) by nra. rewrite <- Ln, <- INR_IZR_INZ in H. apply INR_lt in H. lia. }
    eapply Rle_trans; [apply prod_le, (met_forall (fun x => Rabs x <= B)), Fw|]. apply pow_anti; auto.
  - intros Hb Fw Hd. assert (Q : (length (met walls v) <= K)%nat).
    { assert (euclid mic (image_of src size v) <= d) by apply Rmax_l. pose proof (sqrt_pos (INR (length size))). assert (IZR (order_of v) * lo <= INR K * lo) by nra.
      apply Rmult_le_reg_r in H1; auto. rewrite <- Ln, <- INR_IZR_INZ in H1. apply INR_le in H1. exact H1. }
    eapply Rle_trans; [apply (pow_anti b (length (met walls v))); auto|]. apply prod_ge; [lra|]. apply (met_forall (fun x => b <= x)), Fw.
Qed.
Lemma late_images r srcs mics dim beta N l K : scene r srcs mics dim beta -> all_images dim N l -> forall late, NoDup late ->
  (forall v, In v late <-> length v = dim /\ (Z.of_nat K <= order_of v <= N)%Z) -> Permutation (filter (fun v => (Z.of_nat K <=? order_of v)%Z) l) late.
Proof.
  intros _ (Nl & Il) late Nd Im. apply NoDup_Permutation; auto; [apply NoDup_filter; auto|]. intros v. rewrite filter_In, Il, Im, Z.leb_le. intuition.
Qed.
Lemma value_late dev r srcs mics dim beta N images late c B K hi i s m : scene r srcs mics dim beta -> cfg_validate c = Ok tt -> all_images dim N images -> 0 < r_c r ->
  ImageSpec.inside (position srcs s) (data (r_size r)) -> ImageSpec.inside (position mics m) (data (r_size r)) -> / 10 ^ 6 <= hi -> Forall (fun l => 0 <= l <= hi) (data (r_size r)) ->
  0 <= B <= 1 -> Forall (fun b => Rabs b <= B) beta -> NoDup late -> (forall v, In v late <-> length v = dim /\ (Z.of_nat K <= order_of v <= N)%Z) ->
  (INR K + INR dim) * hi < (INR i - INR (Z.to_nat (cfg_fdl c)) + 1) * r_c r / r_fs r ->
  Rabs (value (Z.to_nat (cfg_fdl c)) (the_kernel dev c) (r_fs r) (r_c r) (beta_pairs beta) (data (r_size r)) images (position srcs s) (position mics m) i) <=
    B ^ K * inverse_distances (data (r_size r)) (position srcs s) (position mics m) late.
Proof.
  intros Sc Hv Ai Hc Is Im Hhi F HB Fb Nd Il Hi. set (L := Z.to_nat (cfg_fdl c)) in *. set (size := data (r_size r)) in *. pose proof (sc_fs _ _ _ _ _ Sc) as Hfs.
  assert (Ls : length size = dim). { unfold size. pose proof (sc_size_wf _ _ _ _ _ Sc) as W. unfold wf in W. rewrite (sc_size _ _ _ _ _ Sc) in W. rewrite W. cbn. lia. }
  assert (P6 : 0 < / 10 ^ 6) by (apply Rinv_0_lt_compat, pow_lt; lra).
  unfold value. rewrite (sum_filter _ (fun v => (Z.of_nat K <=? order_of v)%Z)).
  - pose proof (late_images _ _ _ _ _ _ _ K Sc Ai late Nd Il) as P. rewrite (rsum_perm _ _ (Permutation_map _ P)).
    apply (walls_bound L _ (r_fs r) (r_c r) size (position srcs s) (position mics m) i (table_positive dev c Hv) (beta_pairs beta) late B K HB).
    + intros v Iv. apply Il in Iv. rewrite (length_pairs dim) by apply Sc. split; [apply Iv|apply Iv].
    + apply (pair_forall (fun b => Rabs b <= B) dim); auto. apply Sc.
  - intros v Iv Hv0. apply Z.leb_gt in Hv0. apply (proj2 Ai) in Iv as (Lv & _).
    destruct (C101_reflections size (position srcs s) (position mics m) v 0 hi Is Im ltac:(congruence) ltac:(lra) F) as (E1 & _). rewrite Ls in E1.
    assert (Od : IZR (order_of v) <= INR K) by (rewrite INR_IZR_INZ; apply IZR_le; lia). pose proof (pos_INR K) as PK.
    assert (D2 : 2 <= INR dim) by (destruct (sc_dim _ _ _ _ _ Sc) as [-> | ->]; cbn; lra).
    assert (Rl : ray_length (position srcs s) (position mics m) size v <= (INR K + INR dim) * hi) by (unfold ray_length; apply Rmax_lub; nra).
    assert (Ar : arrival (r_fs r) (r_c r) (position srcs s) (position mics m) size v < INR i - INR L + 1).
    { unfold arrival. apply Rmult_lt_reg_r with (r_c r / r_fs r); [apply Rdiv_lt_0_compat; auto|]. 
      replace (ray_length (position srcs s) (position mics m) size v * r_fs r / r_c r * (r_c r / r_fs r)) with (ray_length (position srcs s) (position mics m) size v) by (field; lra).
      unfold Rdiv in *. rewrite <- Rmult_assoc. lra. }
    assert (W0 : window L (Z.of_nat i - floorZ (arrival (r_fs r) (r_c r) (position srcs s) (position mics m) size v)) = 0).
    { unfold window. destruct (_ <? Z.of_nat L)%Z eqn:Hw; [|rewrite andb_false_r; reflexivity]. exfalso. apply Z.ltb_lt in Hw. destruct (floorZ_spec (arrival (r_fs r) (r_c r) (position srcs s) (position mics m) size v)) as (G1 & _).
      assert (G2 : (Z.of_nat i - Z.of_nat L + 1 <= floorZ (arrival (r_fs r) (r_c r) (position srcs s) (position mics m) size v))%Z) by lia.
      apply IZR_le in G2. rewrite plus_IZR, minus_IZR, <- !INR_IZR_INZ in G2. lra. }
    unfold shape_at. rewrite W0. ring.
Qed.
(** The late part of a response decays exponentially: a sample so late that sound has come more than
    [K] + dim longest sides has met at least [K] walls. *)
Theorem C101_response : forall X dev r srcs mics N n c dim beta T hi B K late s m j,
  scene r srcs mics dim beta -> cfg_hpf_enable c = false -> 0 < r_c r -> / 10 ^ 6 <= hi -> Forall (fun l => 0 <= l <= hi) (data (r_size r)) ->
  0 <= B <= 1 -> Forall (fun b => Rabs b <= B) beta -> NoDup late -> (forall v, In v late <-> length v = dim /\ (Z.of_nat K <= order_of v <= N)%Z) ->
  simulation X dev r srcs mics N n c = Ok T -> (s < count srcs)%nat -> (m < count mics)%nat -> (j < n)%nat ->
  ImageSpec.inside (position srcs s) (data (r_size r)) -> ImageSpec.inside (position mics m) (data (r_size r)) ->
  (INR K + INR dim) * hi < (INR j - INR (Z.to_nat (cfg_fdl c)) + 1) * r_c r / r_fs r ->
  exists h, xget T [s; m; j] = Some h /\ Rabs h <= B ^ K * inverse_distances (data (r_size r)) (position srcs s) (position mics m) late.
Proof.
  intros X dev r srcs mics N n c dim beta T hi B K late s m j Sc Hh Hc Hhi F HB Fb Nd Il H Ss Sm Sj Is Im Hj.
  destruct (omni_ok_inv _ _ _ _ _ _ _ _ _ _ _ _ Sc Hh H) as (Hv & HN & _). destruct (images_exist N dim HN) as (images & Ai).
  destruct (read_value _ _ _ _ _ _ _ _ _ _ _ _ Sc Hh Ai H) as (_ & E). eexists. split; [apply E; auto|]. eapply value_late; eauto.
Qed.
(** After the sources have fallen silent at sample [P], a recording dies away in the same way. *)
Theorem C101_recording : forall X dev r srcs mics N n c dim beta T x hi B level P,
  scene r srcs mics dim beta -> cfg_hpf_enable c = false -> 0 < r_c r -> / 10 ^ 6 <= hi -> Forall (fun l => 0 <= l <= hi) (data (r_size r)) ->
  0 <= B <= 1 -> Forall (fun b => Rabs b <= B) beta -> plays x (count srcs) ->
  (forall s, (s < count srcs)%nat -> ImageSpec.inside (position srcs s) (data (r_size r))) -> (forall m, (m < count mics)%nat -> ImageSpec.inside (position mics m) (data (r_size r))) ->
  (forall s i, (s < count srcs)%nat -> Rabs (sig_view x s i) <= level s) -> (forall s i, (s < count srcs)%nat -> (P <= i)%nat -> sig_view x s i = 0) -> (0 < P)%nat ->
  simulation X dev r srcs mics N n c = Ok T ->
  exists t, recording x T t /\ shape t = out_shape (count mics) (sig_len x + n - 1) /\
    forall K late m j, NoDup late -> (forall v, In v late <-> length v = dim /\ (Z.of_nat K <= order_of v <= N)%Z) -> (m < count mics)%nat -> (j < sig_len x + n - 1)%nat ->
      (INR K + INR dim) * hi < (INR j - INR (P - 1) - INR (Z.to_nat (cfg_fdl c)) + 1) * r_c r / r_fs r ->
      Rabs (out_view t m j) <= rsum (count srcs) (fun s => level s * (INR P * (B ^ K * inverse_distances (data (r_size r)) (position srcs s) (position mics m) late))).
Proof.
  intros X dev r srcs mics N n c dim beta T x hi B level P Sc Hh Hc Hhi F HB Fb Px Is Im Lv Zx HP H.
  destruct (omni_ok_inv _ _ _ _ _ _ _ _ _ _ _ _ Sc Hh H) as (Hv & HN & _). destruct (images_exist N dim HN) as (images & Ai).
  destruct (read_value _ _ _ _ _ _ _ _ _ _ _ _ Sc Hh Ai H) as (_ & E). destruct (recorded _ _ _ _ _ _ _ _ _ _ _ _ Sc Hh H Px _ E) as (h & t & A & C & (O1 & O2 & O3)).
  exists t. split; [exists h; auto|]. split; [exact O1|]. intros K late m j Nd Il Sm Sj Hj. rewrite O3 by auto. eapply Rle_trans; [apply rsum_abs|]. apply PreludeFacts.rsum_le. intros s Ss.
  assert (Bp : 0 <= B ^ K * inverse_distances (data (r_size r)) (position srcs s) (position mics m) late).
  { apply Rmult_le_pos; [apply pow_le; lra|]. unfold inverse_distances. induction late as [|v late IH]; [cbn; lra|]. clear. cbn [map fold_right].
    assert (G : forall l, 0 <= fold_right Rplus 0 (map (fun n : list Z => / ray_length (position srcs s) (position mics m) (data (r_size r)) n) l)).
    { induction l as [|w l IH]; cbn [map fold_right]; [lra|]. assert (0 < / ray_length (position srcs s) (position mics m) (data (r_size r)) w); [|lra].
      apply Rinv_0_lt_compat. unfold ray_length. eapply Rlt_le_trans; [|apply Rmax_r]. apply Rinv_0_lt_compat, pow_lt; lra. }
    exact (G (v :: late)). }
  set (bound := B ^ K * inverse_distances (data (r_size r)) (position srcs s) (position mics m) late) in *.
  assert (L0 : 0 <= level s) by (eapply Rle_trans; [apply Rabs_pos|apply (Lv s 0%nat Ss)]).
  unfold lin_conv. eapply Rle_trans; [apply rsum_abs|].
  assert (Pj : (P - 1 <= j)%nat).
  { apply Nat.nlt_ge. intros Q. assert (INR j + 1 <= INR (P - 1)) by (rewrite <- S_INR; apply le_INR; lia). pose proof (sc_fs _ _ _ _ _ Sc) as Hfs.
    pose proof (pos_INR (Z.to_nat (cfg_fdl c))) as PL. pose proof (pos_INR K) as PK. assert (0 <= INR dim) by apply pos_INR. assert (P6 : 0 < / 10 ^ 6) by (apply Rinv_0_lt_compat, pow_lt; lra).
    assert (0 <= (INR K + INR dim) * hi) by (apply Rmult_le_pos; lra). 
    assert ((INR j - INR (P - 1) - INR (Z.to_nat (cfg_fdl c)) + 1) * r_c r / r_fs r <= 0); [|lra]. unfold Rdiv. rewrite Rmult_assoc.
    assert (0 < r_c r * / r_fs r) by (apply Rmult_lt_0_compat; auto; apply Rinv_0_lt_compat; auto). nra. }
  replace (level s * (INR P * bound)) with (rsum P (fun _ => level s * bound)) by (rewrite PreludeFacts.rsum_const; ring).
  assert (Cut : rsum (S j) (fun tau => Rabs (sig_view x s tau * zext n (value (Z.to_nat (cfg_fdl c)) (the_kernel dev c) (r_fs r) (r_c r) (beta_pairs beta) (data (r_size r)) images (position srcs s) (position mics m)) (j - tau))) =
    rsum P (fun tau => Rabs (sig_view x s tau * zext n (value (Z.to_nat (cfg_fdl c)) (the_kernel dev c) (r_fs r) (r_c r) (beta_pairs beta) (data (r_size r)) images (position srcs s) (position mics m)) (j - tau)))).
  { replace (S j) with (P + (S j - P))%nat by lia. generalize (S j - P)%nat. intros e. induction e as [|e IH]; [rewrite Nat.add_0_r; reflexivity|].
    rewrite Nat.add_succ_r. cbn [Prelude.rsum]. rewrite IH, (Zx s (P + e)%nat) by (auto; lia). rewrite Rmult_0_l, Rabs_R0. ring. }
  eapply Rle_trans; [apply Req_le; exact Cut|]. apply PreludeFacts.rsum_le. intros tau Ht. rewrite Rabs_mult. apply Rmult_le_compat; auto using Rabs_pos. unfold zext. destruct (Nat.ltb_spec (j - tau) n); [|rewrite Rabs_R0; exact Bp].
  unfold bound. eapply value_late; eauto. eapply Rlt_le_trans; [exact Hj|]. pose proof (sc_fs _ _ _ _ _ Sc) as Hfs. unfold Rdiv. apply Rmult_le_compat_r; [left; apply Rinv_0_lt_compat; auto|]. apply Rmult_le_compat_r; [lra|].
  rewrite (minus_INR j tau) by lia. assert (INR tau <= INR (P - 1)) by (apply le_INR; lia). lra.
Qed.
(** The time asked for as reverberation time does not bound single echoes: in a cube whose walls were
    chosen for it, an echo along an axis arrives after this time with more than one thousandth (-60 dB)
    of its strength left. *)
Theorem C101_t60_unchecked : forall a, / 10 ^ 6 <= a ->
  let t60 := 161 / 1000 * a / (6 * (19 / 100)) in let size := mkT [3%nat] [a; a; a] in let middle := [a / 2; a / 2; a / 2] in
  exists beta v, estimate_beta_from_t60 size t60 = Ok beta /\ 343 * t60 < ray_length middle middle (data size) v /\ path_gain (beta_pairs beta) v > 5 * / 1000.
Proof.
  intros a Ha t60 size middle. assert (P6 : 0 < / 10 ^ 6) by (apply Rinv_0_lt_compat, pow_lt; lra).
  exists (repeat (9 / 10) 6), [49; 0; 0]%Z. split; [|split].
  - unfold estimate_beta_from_t60. assert (T : 0 < t60) by (unfold t60; lra). destruct (Rle_dec t60 0); [lra|]. cbn [size ensure_dim ndim shape length numel prodn fold_right Nat.eqb Nat.mul Nat.add andb orb bind data extend_size].
    do 2 f_equal. unfold beta_of_alpha. replace (0.161 * (a * a * a) / (t60 * (2 * (a * a + a * a + a * a)))) with (19 / 100) by (replace 0.161 with (161 / 1000) by lra; unfold t60; field; split; nra).
    rewrite Rmin_left by lra. rewrite Rmax_right by lra. replace (1 - 19 / 100) with (9 / 10 * (9 / 10)) by lra. apply sqrt_square. lra.
  - eapply Rlt_le_trans; [|apply Rmax_l]. unfold euclid, sqdist, middle. cbn [size data image_of combine map fold_right fst snd]. rewrite !reflected_cell. cbn [Z.even].
    match goal with |- _ < sqrt ?e => replace e with ((49 * a) * (49 * a)) by field end. rewrite sqrt_square by lra. unfold t60. lra.
  - cbn [beta_pairs repeat path_gain planes]. 
    assert (W : forall l, wall_product (9 / 10) (9 / 10) l = (9 / 10) ^ length l).
    { induction l as [|z l IH]; [reflexivity|]. cbn [wall_product length pow]. rewrite IH. unfold wall_of. destruct (Z.even z); reflexivity. }
    rewrite !W, map_length, seq_length. change (Pos.to_nat 49) with 49%nat. cbn [length]. rewrite !pow_O, !Rmult_1_r.
    replace (9 / 10) with (9 * / 10) by reflexivity. rewrite Rpow_mult_distr, pow_inv. rewrite !pow_IZR.
    assert (G0 : (0 < 10 ^ Z.of_nat 49)%Z) by reflexivity. assert (G1 : (5 * 10 ^ Z.of_nat 49 < 1000 * 9 ^ Z.of_nat 49)%Z) by reflexivity.
    revert G0 G1. generalize (10 ^ Z.of_nat 49)%Z, (9 ^ Z.of_nat 49)%Z. intros p q G0 G1. apply IZR_lt in G0. apply IZR_lt in G1. rewrite !mult_IZR in G1.
    apply Rmult_gt_reg_l with (IZR p); [exact G0|]. replace (IZR p * (IZR q * / IZR p)) with (IZR q) by (field; lra). lra.
Qed.
(** The image [4, 0] in the room of the other examples has come 37 m: at least one wall, at most eight. *)
Example C101_example : ray_length [1; 1] [4; 5] [10; 10] [4; 0]%Z > 10 /\ Rabs (path_gain [(/2, /3); (/5, /7)] [4; 0]%Z) <= (/ 2) ^ 1 /\ (/ 7) ^ 8 <= path_gain [(/2, /3); (/5, /7)] [4; 0]%Z.
Proof.
  assert (I1 : ImageSpec.inside [1; 1] [10; 10]) by (repeat constructor; cbn; lra). assert (I2 : ImageSpec.inside [4; 5] [10; 10]) by (repeat constructor; cbn; lra).
  assert (P6 : / 10 ^ 6 <= 10) by (cbn [pow]; lra). assert (F : Forall (fun l => 10 <= l <= 10) [10; 10]) by (repeat constructor; lra).
  assert (D : 37 <= euclid [4; 5] (image_of [1; 1] [10; 10] [4; 0]%Z) <= 38).
  { unfold euclid, sqdist. cbn [image_of combine map fold_right fst snd]. rewrite !reflected_cell. cbn [Z.even]. split.
    - rewrite <- (sqrt_square 37) by lra. apply sqrt_le_1_alt. lra.
    - rewrite <- (sqrt_square 38) by lra. apply sqrt_le_1_alt. lra. }
  assert (R : ray_length [1; 1] [4; 5] [10; 10] [4; 0]%Z = euclid [4; 5] (image_of [1; 1] [10; 10] [4; 0]%Z)) by (apply Rmax_left; cbn [pow]; lra).
  destruct (C101_echo [(/2, /3); (/5, /7)] [10; 10] [1; 1] [4; 5] [4; 0]%Z 10 10 (/ 7) (/ 2) 1 eq_refl I1 I2 eq_refl ltac:(lra) P6 ltac:(cbn; lia) F) as (A & _).
  destruct (C101_echo [(/2, /3); (/5, /7)] [10; 10] [1; 1] [4; 5] [4; 0]%Z 10 10 (/ 7) (/ 2) 8 eq_refl I1 I2 eq_refl ltac:(lra) P6 ltac:(cbn; lia) F) as (_ & B).
  rewrite R in *. split; [lra|]. split.
  - apply A; [lra| |cbn [length INR]; lra]. repeat constructor; cbn; rewrite Rabs_pos_eq; lra.
  - apply B; [lra| |]. { repeat constructor; cbn; lra. } cbn [length INR fold_right]. assert (sqrt (1 + 1) <= 3 / 2) by (rewrite <- (sqrt_square (3 / 2)) by lra; apply sqrt_le_1_alt; lra).
    pose proof (sqrt_pos (1 + 1)). nra.
Qed.
(** Sample 70 of a response at 2 samples per metre in the room of side 10 has met a wall at least; so has
    sample 71 of the recording of two samples 7, -3. *)
Example C101_late_example : forall X, exists T t late h,
  simulation X Cpu ex_room ex_src ex_mic 4%Z 80 ex_cfg = Ok T /\ recording (mkT [2%nat] [7; -3]) T t /\ In [1; 0]%Z late /\ ~ In [0; 0]%Z late /\
  xget T [0; 0; 70]%nat = Some h /\ Rabs h <= / 2 * inverse_distances [10; 10] [1; 1] [4; 5] late /\
  Rabs (out_view t 0 71) <= 7 * (2 * (/ 2 * inverse_distances [10; 10] [1; 1] [4; 5] late)).
Proof.
  intros X. destruct (indices_order 4 2 ltac:(lia)) as (l & El & Nl & Il).
  assert (exists T, simulation X Cpu ex_room ex_src ex_mic 4%Z 80 ex_cfg = Ok T) as (T & H)
    by (eexists; exact (simulate_omni X Cpu ex_room ex_src ex_mic 4 None 80 ex_cfg 2 _ l ex_scene ex_cfg_valid eq_refl ltac:(lia) ltac:(lia) El)).
  set (late := filter (fun v => (Z.of_nat 1 <=? order_of v)%Z) l).
  assert (Nd : NoDup late) by (apply NoDup_filter; auto).
  assert (Im : forall v, In v late <-> length v = 2%nat /\ (Z.of_nat 1 <= order_of v <= 4)%Z) by (intros v; unfold late; rewrite filter_In, Il, Z.leb_le; intuition).
  assert (I1 : forall s, (s < 1)%nat -> ImageSpec.inside (position ex_src s) [10; 10]) by (intros s Ss; assert (s = 0%nat) as -> by lia; repeat constructor; cbn; lra).
  assert (I2 : forall s, (s < 1)%nat -> ImageSpec.inside (position ex_mic s) [10; 10]) by (intros s Ss; assert (s = 0%nat) as -> by lia; repeat constructor; cbn; lra).
  assert (P6 : / 10 ^ 6 <= 10) by (cbn [pow]; lra). assert (F : Forall (fun l => 0 <= l <= 10) [10; 10]) by (repeat constructor; lra).
  assert (Fb : Forall (fun b => Rabs b <= / 2) [/2; /3; /5; /7]) by (repeat constructor; rewrite Rabs_pos_eq; lra).
  assert (Px : plays (mkT [2%nat] [7; -3]) (count ex_src)) by (unfold plays, sig_rank_ok, ndim, wf, sig_len, sig_rows; cbn; intuition lia).
  destruct (C101_response X Cpu ex_room ex_src ex_mic 4%Z 80 ex_cfg 2 _ T 10 (/ 2) 1 late 0 0 70 ex_scene eq_refl ltac:(cbn; lra) P6 F ltac:(lra) Fb Nd Im H ltac:(cbn; lia) ltac:(cbn; lia) ltac:(lia)
    (I1 0%nat ltac:(lia)) (I2 0%nat ltac:(lia))) as (h & Eh & Bh).
  { change (Z.to_nat (cfg_fdl ex_cfg)) with 3%nat. rewrite !INR_IZR_INZ. cbn [Z.of_nat Pos.of_succ_nat Pos.succ ex_room r_c r_fs]. lra. }
  destruct (C101_recording X Cpu ex_room ex_src ex_mic 4%Z 80 ex_cfg 2 _ T (mkT [2%nat] [7; -3]) 10 (/ 2) (fun _ => 7) 2 ex_scene eq_refl ltac:(cbn; lra) P6 F ltac:(lra) Fb Px I1 I2) as (t & Rt & _ & Bt).
  { intros s i Ss. unfold sig_view, zext, tget. cbn [shape data]. destruct (Nat.ltb_spec i 2); [|rewrite Rabs_R0; lra].
    assert (i = 0 \/ i = 1)%nat as [->| ->] by lia; cbn; unfold Rabs; destruct (Rcase_abs _); lra. }
  { intros s i Ss Hi. apply sig_view_zero. exact Hi. }
  { lia. } { exact H. }
  exists T, t, late, h. split; [exact H|]. split; [exact Rt|]. split; [apply Im; split; [reflexivity|vm_compute; split; discriminate]|].
  split; [intros I; apply Im in I; destruct I as (_ & I); unfold order_of in I; cbn in I; lia|]. split; [exact Eh|].
  split; [eapply Rle_trans; [exact Bh|]; apply Req_le; rewrite pow_1; reflexivity|].
  specialize (Bt 1%nat late 0%nat 71%nat Nd Im ltac:(cbn; lia) ltac:(cbn; lia)). eapply Rle_trans; [apply Bt|].
  - change (Z.to_nat (cfg_fdl ex_cfg)) with 3%nat. change (2 - 1)%nat with 1%nat. rewrite !INR_IZR_INZ. cbn [Z.of_nat Pos.of_succ_nat Pos.succ ex_room r_c r_fs]. lra.
  - change (count ex_src) with 1%nat. cbn [Prelude.rsum]. rewrite pow_1. change (position ex_src 0) with [1; 1]. change (position ex_mic 0) with [4; 5]. change (data (r_size ex_room)) with [10; 10].
    replace (INR 2) with 2 by (cbn; lra). apply Req_le. ring.
Qed.
Print Assumptions C101_reflections.
Print Assumptions C101_echo.
Print Assumptions C101_response.
Print Assumptions C101_recording.
Print Assumptions C101_t60_unchecked.
