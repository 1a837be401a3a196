(** C91: single precision moves an arrival by at most a millionth of the greatest delay. *)
From Coq Require Import List ZArith Reals Lia Lra Bool.
From Flocq Require Import Core.
From Verif Require Import Prelude PreludeFacts FloatModel FloatProofs DirModel ImageModel ImageSpec AccumModel IsmSpec IsmModel
  ContSpec ContProofs SpModel SpSpec SpProofs.
Import ListNotations.
Local Open Scope R_scope.
Local Notation length := List.length.

(** A scene as users give it: source and microphone in a room of at least a millimetre. *)
Record given (size src mic : list R) (fs c : R) : Prop := {
  g_size : size <> []; g_room : roomy size; g_src : inside size src; g_mic : inside size mic;
  g_c : 1 / 1000 <= c <= 10 ^ 6; g_fs : 1 <= fs <= 10 ^ 9 }.
(** The ray as the program computes it, from the rounded positions. *)
Definition float_ray (src mic size : list R) (n : list Z) : list R := vec32 (map rnd32 src) (map rnd32 mic) (map rnd32 size) n.

Theorem C91_delay : forall nrm fs c h size src mic n, sound_norm nrm -> given size src mic fs c -> length n = length size ->
  Rabs (sample32 nrm fs c h (float_ray src mic size n) - exact_sample fs c h src mic size n) <= delay_error fs c h size n.
Proof.
  intros nrm fs c h size src mic n Hn [A B C D E F] L.
  destruct (ap_sample nrm fs c size src mic n Hn B A C D L E F h) as (_ & _ & _ & X). exact X.
Qed.
(** The sample a pulse starts from is the exact one or a neighbour of it. *)
Theorem C91_index : forall nrm fs c h size src mic n, sound_norm nrm -> given size src mic fs c -> length n = length size ->
  let err := delay_error fs c h size n in
  let exact := exact_sample fs c h src mic size n in
  let index := index32 (sample32 nrm fs c h (float_ray src mic size n)) in
  (err < 1 -> (Z.abs (index - floorZ exact) <= 1)%Z) /\
  (forall k, IZR k + err <= exact < IZR k + 1 - err -> index = k).
Proof.
  intros nrm fs c h size src mic n Hn Hg L err exact index. pose proof (C91_delay nrm fs c h size src mic n Hn Hg L) as D. fold err exact in D.
  unfold index, index32. set (s := sample32 _ _ _ _ _) in *. apply Rabs_le_inv in D. split.
  - intros He. pose proof (floorZ_spec s) as S. pose proof (floorZ_spec exact) as X.
    assert (floorZ s < floorZ exact + 2)%Z by (apply lt_IZR; rewrite plus_IZR; lra).
    assert (floorZ exact < floorZ s + 2)%Z by (apply lt_IZR; rewrite plus_IZR; lra). lia.
  - intros k Hk. apply floorZ_unique. lra.
Qed.
(** The fraction that is left is exact and below one. *)
Theorem C91_fraction : forall nrm fs c h vec, 0 <= c -> 0 < fs ->
  let s := sample32 nrm fs c h vec in single s /\ 0 <= s /\ 0 <= frac32 s < 1 /\ IZR (index32 s) + frac32 s = s.
Proof.
  intros nrm fs c h vec Hc Hf s. assert (S : single s) by apply single_rnd32. assert (P : 0 <= s) by (apply sample_nonneg; auto).
  destruct (fraction s S P) as [E F]. split; [auto|]. split; [auto|]. split; [auto|]. rewrite E. unfold index32. ring.
Qed.
(** Gains are right to a millionth of the reach relative to the distance. *)
Theorem C91_gain : forall nrm fs c size src mic n g, sound_norm nrm -> given size src mic fs c -> length n = length size ->
  let d := ray_length src mic size n in
  reach size n <= 1000 * d ->
  Rabs (gain32 nrm g (float_ray src mic size n) - g / d) <= Rabs g / d * (reach size n / d / 10 ^ 6) + / 10 ^ 40.
Proof.
  intros nrm fs c size src mic n g Hn [A B C D E F] L d Hd. apply (gain_error nrm size src mic n Hn B A C D L g Hd).
Qed.
(** The coefficients of the walls along a path are right to three millionths. *)
Theorem C91_reflection : forall pw walls n, sound_power pw -> Forall (fun w => Rabs (fst w) <= 1 /\ Rabs (snd w) <= 1) walls ->
  Forall (fun k => Z.abs k <= 2 ^ 24)%Z n -> length n = length walls -> (length n <= 3)%nat ->
  Rabs (refl32 pw walls n - path_gain walls n) <= 3 / 10 ^ 6 * Rabs (path_gain walls n) + / 10 ^ 20.
Proof. exact refl_error. Qed.
(** The whole response. *)
Theorem C91_response : forall nrm fs c L gran lut chunk nsample walls size src mic images,
  sound_norm nrm -> given size src mic fs c -> Nat.Odd L -> (0 < gran)%nat -> (0 < chunk)%nat ->
  (forall n, In n images -> length n = length size /\ reach size n <= 1000 * ray_length src mic size n) ->
  exists out, rir32 nrm fs c L gran lut chunk nsample (map rnd32 size) (map rnd32 src) (map rnd32 mic) images (path_gain walls) = Ok out /\
    length out = nsample /\
    forall j, (j < nsample)%nat -> exists h32 h, nth j out None = Some h32 /\
      response L (kernel (if lut then Some gran else None)) fs c walls size images unity unity src mic j = Some h /\
      Rabs (h32 - h) <= response_error L fs c size images (path_gain walls) src mic
        (fun n => sample32 nrm fs c (L / 2) (float_ray src mic size n)) j.
Proof.
  intros nrm fs c L gran lut chunk nsample walls size src mic images Hn [A B C D E F] HL Hg Hk Hi.
  apply (response_close nrm fs c L gran lut chunk nsample walls size src mic images Hn B A C D E F HL Hg Hk Hi).
Qed.

(** ** Examples *)
Definition norm_exact (v : list R) : R := sqrt (rsum (map (fun x => x * x) v)).
Lemma norm_exact_sound : sound_norm norm_exact.
Proof.
  intros v. cbv zeta. fold (norm_exact v). rewrite Rminus_eq_0, Rabs_R0. assert (0 <= norm_exact v) by apply sqrt_pos. lra.
Qed.
(** A reflection of ninth order in a room of 6 x 4 x 3 m at 16 kHz: less than a four hundredth
    of a sample. *)
Example C91_delay_example : given [6; 4; 3] [1; 2; 1.5] [4; 1; 1.2] 16000 343 /\ delay_error 16000 343 40 [6; 4; 3] [4; -3; 2]%Z < 1 / 400.
Proof.
  split.
  - constructor; [discriminate|repeat constructor; lra|repeat constructor; lra|repeat constructor; lra|lra|lra].
  - unfold delay_error, reach. cbn [spread map rsum fold_right Z.abs]. set (r := sqrt _).
    assert (r <= 51).
    { unfold r. rewrite <- (sqrt_square 51) by lra. apply sqrt_le_1_alt. lra. }
    change (INR 40) with (INR (4 * 10)). rewrite mult_INR. cbn [INR]. lra.
Qed.
(** The index need not be the exact one: a source 28 m away at 44.1 kHz arrives exactly at
    sample 3640, in single precision a quarter of a thousandth of a sample before. *)
Lemma rnd32_val m e x : (-149 <= e)%Z -> bpow radix2 (e + 24 - 1) <= x < bpow radix2 (e + 24) ->
  Rabs (x * bpow radix2 (- e) - IZR m) < / 2 -> rnd32 x = IZR m * bpow radix2 e.
Proof. intros He. apply (rnd_val (-149) 24); lia. Qed.
Lemma rnd64_val m e x : (-1074 <= e)%Z -> bpow radix2 (e + 53 - 1) <= x < bpow radix2 (e + 53) ->
  Rabs (x * bpow radix2 (- e) - IZR m) < / 2 -> rnd64 x = IZR m * bpow radix2 e.
Proof. intros He. apply (rnd_val (-1074) 53); lia. Qed.
Ltac powers := repeat match goal with |- context [bpow radix2 ?z] => let v := eval vm_compute in z in
  match v with
  | Zneg ?k => let w := eval vm_compute in (2 ^ Zpos k)%Z in replace (bpow radix2 z) with (/ IZR w) by reflexivity
  | Zpos ?k => let w := eval vm_compute in (2 ^ Zpos k)%Z in replace (bpow radix2 z) with (IZR w) by reflexivity
  | Z0 => replace (bpow radix2 z) with 1 by reflexivity
  end end.
Lemma far_ray : float_ray [1; 1; 1] [29; 1; 1] [40; 5; 3] [0; 0; 0]%Z = [28; 0; 0].
Proof.
  unfold float_ray, vec32. cbn [map combine]. rewrite !rnd32_IZR by lia. rewrite !map2_cons. cbn [fst snd].
  assert (E : forall l, (0 <= l <= 100)%Z -> coord32 1 (IZR l) 0 = 1).
  { intros l Hl. unfold coord32. change ((0 + 1) / 2)%Z with 0%Z. change (0 mod 2 =? 0)%Z with true. cbv iota zeta. rewrite rnd32_0, Rmult_0_r, rnd32_0, Rmult_1_r, Rplus_0_l.
    rewrite !(rnd32_IZR 1) by lia. reflexivity. }
  rewrite !E by lia. cbn [map2 combine map fst snd]. replace (29 - 1) with 28 by lra. rewrite Rminus_eq_0, rnd32_0, (rnd32_IZR 28) by lia. reflexivity.
Qed.
Example C91_other_index : given [40; 5; 3] [1; 1; 1] [29; 1; 1] 44100 343 /\
  exact_sample 44100 343 40 [1; 1; 1] [29; 1; 1] [40; 5; 3] [0; 0; 0]%Z = 3640 /\
  sample32 norm_exact 44100 343 40 (float_ray [1; 1; 1] [29; 1; 1] [40; 5; 3] [0; 0; 0]%Z) = 3640 - 1 / 4096 /\
  index32 (sample32 norm_exact 44100 343 40 (float_ray [1; 1; 1] [29; 1; 1] [40; 5; 3] [0; 0; 0]%Z)) = 3639%Z.
Proof.
  assert (H40 : INR 40 = 40) by (rewrite INR_IZR_INZ; reflexivity).
  split; [constructor; [discriminate|repeat constructor; lra|repeat constructor; lra|repeat constructor; lra|lra|lra]|].
  split.
  { unfold exact_sample, ray_length. cbn [image_of reflected]. unfold euclid.
    replace (sqdist [29; 1; 1] [1; 1; 1]) with (28 * 28) by (unfold sqdist; cbn; ring). rewrite sqrt_square, Rmax_left, H40 by lra. lra. }
  assert (E : sample32 norm_exact 44100 343 40 (float_ray [1; 1; 1] [29; 1; 1] [40; 5; 3] [0; 0; 0]%Z) = 3640 - 1 / 4096).
  { rewrite far_ray. unfold sample32. cbv zeta. rewrite H40.
    assert (D : dist32 norm_exact [28; 0; 0] = 28).
    { unfold dist32, norm_exact. cbn [map rsum fold_right]. replace (28 * 28 + (0 * 0 + (0 * 0 + 0))) with (28 * 28) by ring.
      rewrite sqrt_square by lra. apply Rmax_left. rewrite <- (rnd32_IZR 28) by lia. apply rnd32_le.
      rewrite <- (rnd64_IZR 28) by lia. apply rnd64_le. lra. }
    rewrite D, (rnd32_IZR 343), (rnd32_IZR 44100) by lia.
    assert (T1 : rnd32 (28 / 343) = 10956549 * bpow radix2 (-27)).
    { apply rnd32_val; [lia|powers; lra|]. apply Rabs_def1; powers; lra. }
    assert (T2 : rnd64 (40 / 44100) = 8365870328212949 * bpow radix2 (-63)).
    { apply rnd64_val; [lia|powers; lra|]. apply Rabs_def1; powers; lra. }
    rewrite T1, T2.
    assert (T3 : rnd32 (8365870328212949 * bpow radix2 (-63)) = 15582648 * bpow radix2 (-34)).
    { apply rnd32_val; [lia|powers; lra|]. apply Rabs_def1; powers; lra. }
    rewrite T3.
    assert (T4 : rnd32 (10956549 * bpow radix2 (-27) + 15582648 * bpow radix2 (-34)) = 11078288 * bpow radix2 (-27)).
    { apply rnd32_val; [lia|powers; lra|]. apply Rabs_def1; powers; lra. }
    rewrite T4.
    assert (T5 : rnd32 (11078288 * bpow radix2 (-27) * 44100) = 14909439 * bpow radix2 (-12)).
    { apply rnd32_val; [lia|powers; lra|]. apply Rabs_def1; powers; lra. }
    rewrite T5. powers. lra. }
  split; [exact E|]. rewrite E. apply floorZ_unique. lra.
Qed.
(** What is left of that delay. *)
Example C91_fraction_example : frac32 (3640 - 1 / 4096) = 4095 / 4096.
Proof.
  assert (S : single (3640 - 1 / 4096)).
  { exists 14909439%Z, (-12)%Z. split; [lia|]. split; [lia|]. rewrite pz. powers. lra. }
  destruct (fraction _ S ltac:(lra)) as [E _]. rewrite E, (floorZ_unique (3640 - 1 / 4096) 3639) by lra. lra.
Qed.
(** The direct sound of that scene: the gain is off by less than two ten millionths. *)
Example C91_gain_example : Rabs (gain32 norm_exact 1 [28; 0; 0] - 1 / 28) <= 2 / 10 ^ 7.
Proof.
  replace [28; 0; 0] with (float_ray [1; 1; 1] [29; 1; 1] [40; 5; 3] [0; 0; 0]%Z) by apply far_ray.
  assert (Rl : ray_length [1; 1; 1] [29; 1; 1] [40; 5; 3] [0; 0; 0]%Z = 28).
  { unfold ray_length. cbn [image_of reflected]. unfold euclid. replace (sqdist [29; 1; 1] [1; 1; 1]) with (28 * 28) by (unfold sqdist; cbn; ring).
    rewrite sqrt_square by lra. apply Rmax_left. lra. }
  assert (Rr : reach [40; 5; 3] [0; 0; 0]%Z <= 1 * 122).
  { unfold reach. cbn [spread map rsum fold_right Z.abs]. rewrite <- (sqrt_square (1 * 122)) by lra. apply sqrt_le_1_alt. lra. }
  destruct C91_other_index as [Hg _].
  pose proof (C91_gain norm_exact 44100 343 _ _ _ [0; 0; 0]%Z 1 norm_exact_sound Hg eq_refl) as G. cbv zeta in G. rewrite Rl in G.
  specialize (G ltac:(lra)). eapply Rle_trans; [exact G|]. rewrite Rabs_R1. lra.
Qed.
(** The response of that scene has the right length and both values exist. *)
Example C91_response_example : exists out,
  rir32 norm_exact 44100 343 81 20 true 2048 5000 (map rnd32 [40; 5; 3]) (map rnd32 [1; 1; 1]) (map rnd32 [29; 1; 1]) [[0; 0; 0]%Z] (path_gain [(0, 0); (0, 0); (0, 0)]) = Ok out /\
  length out = 5000%nat.
Proof.
  destruct C91_other_index as [Hg _].
  destruct (C91_response norm_exact 44100 343 81 20 true 2048 5000 [(0, 0); (0, 0); (0, 0)] _ _ _ [[0; 0; 0]%Z] norm_exact_sound Hg) as (out & E & L & _).
  - exists 40%nat. reflexivity.
  - lia.
  - lia.
  - intros n [<-|[]]. split; [reflexivity|].
    assert (Rl : ray_length [1; 1; 1] [29; 1; 1] [40; 5; 3] [0; 0; 0]%Z = 28).
    { unfold ray_length. cbn [image_of reflected]. unfold euclid. replace (sqdist [29; 1; 1] [1; 1; 1]) with (28 * 28) by (unfold sqdist; cbn; ring).
      rewrite sqrt_square by lra. apply Rmax_left. lra. }
    rewrite Rl. assert (Rr : reach [40; 5; 3] [0; 0; 0]%Z <= 1 * 122).
    { unfold reach. cbn [spread map rsum fold_right Z.abs]. rewrite <- (sqrt_square (1 * 122)) by lra. apply sqrt_le_1_alt. lra. }
    lra.
  - eauto.
Qed.

(** Three reflections at walls of 0.9 and two at walls of 0.5. *)
Example C91_reflection_example : sound_power (fun b x => b ^ Z.to_nat (floorZ x)) /\
  path_gain [(0.9, 0.9); (0.5, 0.5); (0.2, 0.2)] [3; -2; 0]%Z = 0.18225 /\
  Rabs (refl32 (fun b x => b ^ Z.to_nat (floorZ x)) [(0.9, 0.9); (0.5, 0.5); (0.2, 0.2)] [3; -2; 0]%Z - 0.18225) <= / 10 ^ 6.
Proof.
  assert (P : sound_power (fun b x => b ^ Z.to_nat (floorZ x))).
  { intros b k Hb. rewrite INR_IZR_INZ, floorZ_IZR, Nat2Z.id, Rminus_eq_0, Rabs_R0. pose proof (Rabs_pos (b ^ k)). lra. }
  assert (G : path_gain [(0.9, 0.9); (0.5, 0.5); (0.2, 0.2)] [3; -2; 0]%Z = 0.18225).
  { rewrite <- gain_path. cbn [map2 combine map rprod fst snd]. unfold axis_coeff.
    change (Z.to_nat (n_hi 3)) with 2%nat. change (Z.to_nat (n_lo 3)) with 1%nat. change (Z.to_nat (n_hi (-2))) with 1%nat.
    change (Z.to_nat (n_lo (-2))) with 1%nat. change (Z.to_nat (n_hi 0)) with 0%nat. change (Z.to_nat (n_lo 0)) with 0%nat. cbn [pow]. lra. }
  split; [exact P|]. split; [exact G|].
  assert (B : Rabs 0.18225 = 0.18225) by (apply Rabs_right; lra).
  pose proof (C91_reflection _ [(0.9, 0.9); (0.5, 0.5); (0.2, 0.2)] [3; -2; 0]%Z P) as H. rewrite G, B in H.
  eapply Rle_trans; [apply H|lra].
  - repeat apply Forall_cons; try apply Forall_nil; cbn [fst snd]; split; apply Rabs_le; lra.
  - repeat apply Forall_cons; try apply Forall_nil; cbn; lia.
  - reflexivity.
  - cbn. lia.
Qed.

Print Assumptions C91_delay.
Print Assumptions C91_reflection.
Print Assumptions C91_index.
Print Assumptions C91_fraction.
Print Assumptions C91_gain.
Print Assumptions C91_response.
Print Assumptions C91_other_index.
