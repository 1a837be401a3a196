(** Properties of the image source simulation: C15 (samples), C16 - C25. *)
From Coq Require Import String List ZArith Reals Lia Lra Bool Permutation.
From Verif Require Import Prelude PreludeFacts SignalModel FloatModel FloatProofs DirModel ImageModel ImageSpec AcousticModel
  AccumModel IsmModel IsmSpec ImageProofs AccumProofs IsmProofs SimProofs SimMore SimLocal SimSteps SimPairs
  SimArrival KernelProofs.
Import ListNotations.
Local Open Scope R_scope.
Local Notation length := List.length.

(** A concrete scene used by the examples: a 10 x 10 room sampled at 2 Hz with unit sound
    speed, one source at (1, 1), one microphone at (4, 5), at distance 5. *)
Definition ex_room : room := mkRoom (mkT [2%nat] [10; 10]) 2 1 (Some [/2; /3; /5; /7]) None.
Definition ex_src : entity := ETensor (mkT [2%nat] [1; 1]).
Definition ex_mic : entity := ETensor (mkT [1%nat; 2%nat] [4; 5]).
Definition ex_cfg : config :=
  mkConfig None None None None None None true false 3 4 2 1 false false 10 (Some 2%Z).
Lemma ex_scene : scene ex_room ex_src ex_mic 2 [/2; /3; /5; /7].
Proof. constructor; cbn; auto; try lra; try lia. reflexivity. Qed.
Lemma ex_cfg_valid : cfg_validate ex_cfg = Ok tt.
Proof. unfold cfg_validate. cbn. unfold Rleb. destruct (Rle_dec 10 0); [lra|reflexivity]. Qed.
Lemma ex_ray : ray_length [1; 1] [4; 5] [10; 10] [0; 0]%Z = 5.
Proof.
  unfold ray_length, euclid, sqdist. cbn [image_of reflected combine map fold_right fst snd].
  replace ((4 - 1) * (4 - 1) + ((5 - 1) * (5 - 1) + 0)) with (5 * 5) by ring.
  rewrite sqrt_square by lra. apply Rmax_left. cbn [pow]. lra.
Qed.

(** ** C15: the samples before tmax are complete *)
Theorem C15_rir_complete : forall X dev r srcs mics mo nb nb' ns tmax dir ori c tm T T',
  0 < r_fs r -> 0 < r_c r -> cfg_hpf_enable c = false -> wf (r_size r) ->
  Forall (fun l => 0 < l) (data (r_size r)) ->
  (forall s, (s < count srcs)%nat -> inside (position srcs s) (data (r_size r))) ->
  (forall m, (m < count mics)%nat -> inside (position mics m) (data (r_size r))) ->
  estimate_image_counts_from_tmax tm (r_size r) (r_c r) = Ok nb -> Forall2 Z.le nb nb' ->
  simulate_rir X dev r srcs mics mo (Some nb) ns tmax None dir ori (Some c) = Ok T ->
  simulate_rir X dev r srcs mics mo (Some nb') ns tmax None dir ori (Some c) = Ok T' ->
  exists S M n, xshape T = [S; M; n] /\ xshape T' = [S; M; n] /\
    forall s m j, (s < S)%nat -> (m < M)%nat -> (j < n)%nat -> (Z.of_nat j < floorZ (tm * r_fs r)%R)%Z ->
      xget T' [s; m; j] = xget T [s; m; j].
Proof. exact rir_complete. Qed.
(** tmax = 15 s gives one more image on each side of each axis after the first; a larger box
    leaves every sample before 15 * fs = 30 unchanged. *)
Example C15_rir_example : forall X, exists T T',
  estimate_image_counts_from_tmax 15 (r_size ex_room) (r_c ex_room) = Ok [2; 2]%Z /\
  simulate_rir X Cpu ex_room ex_src ex_mic (Some 1%Z) (Some [2; 2]%Z) (Some 40%Z) None None (Some (DName "omni")) ONone
    (Some ex_cfg) = Ok T /\
  simulate_rir X Cpu ex_room ex_src ex_mic (Some 1%Z) (Some [2; 3]%Z) (Some 40%Z) None None (Some (DName "omni")) ONone
    (Some ex_cfg) = Ok T' /\
  forall j, (j < 30)%nat -> xget T' [0%nat; 0%nat; j] = xget T [0%nat; 0%nat; j].
Proof.
  intros X.
  assert (En : estimate_image_counts_from_tmax 15 (r_size ex_room) (r_c ex_room) = Ok [2; 2]%Z).
  { unfold estimate_image_counts_from_tmax. destruct (Rle_dec 15 0); [lra|].
    cbn [ensure_dim ndim shape length numel prodn fold_right Nat.eqb Nat.mul Nat.add andb orb bind data map ex_room r_size r_c].
    rewrite (ceilZ_unique (15 * 1 / 10) 2) by lra. reflexivity. }
  pose proof (simulate_omni X Cpu ex_room ex_src ex_mic 1 (Some [2; 2]%Z) 40 ex_cfg 2 _ _ ex_scene ex_cfg_valid eq_refl
    ltac:(lia) ltac:(lia) eq_refl) as H.
  pose proof (simulate_omni X Cpu ex_room ex_src ex_mic 1 (Some [2; 3]%Z) 40 ex_cfg 2 _ _ ex_scene ex_cfg_valid eq_refl
    ltac:(lia) ltac:(lia) eq_refl) as H'.
  assert (I1 : inside [1; 1] [10; 10]) by (repeat constructor; cbn; lra).
  assert (I2 : inside [4; 5] [10; 10]) by (repeat constructor; cbn; lra).
  destruct (C15_rir_complete X Cpu ex_room ex_src ex_mic _ [2; 2]%Z [2; 3]%Z _ _ _ _ ex_cfg 15 _ _
    ltac:(cbn; lra) ltac:(cbn; lra) eq_refl eq_refl ltac:(repeat constructor; cbn; lra)
    ltac:(intros s Hs; cbn in Hs; replace s with 0%nat by lia; exact I1)
    ltac:(intros s Hs; cbn in Hs; replace s with 0%nat by lia; exact I2)
    En ltac:(repeat constructor; lia) H H') as (S & M & n & E1 & E2 & E3).
  cbn [xshape] in E1. injection E1 as <- <- <-.
  do 2 eexists. split; [exact En|]. split; [exact H|]. split; [exact H'|].
  intros j Hj. apply E3; try (cbn; lia). cbn [r_fs ex_room]. replace (15 * 2) with (IZR 30) by lra.
  rewrite floorZ_IZR. lia.
Qed.
Print Assumptions C15_rir_complete.

(** ** C16 *)
Theorem C16_reciprocity : forall X dev r a b N nb n c dim beta T,
  scene r a b dim beta -> wf (entity_pos a) -> wf (entity_pos b) -> cfg_hpf_enable c = false ->
  simulate_rir X dev r a b (Some N) nb (Some (Z.of_nat n)) None None (Some (DName "omni")) ONone (Some c) = Ok T ->
  exists T',
    simulate_rir X dev r b a (Some N) nb (Some (Z.of_nat n)) None None (Some (DName "omni")) ONone (Some c) = Ok T' /\
    xshape T = [count a; count b; n] /\ xshape T' = [count b; count a; n] /\
    forall s m j, (s < count a)%nat -> (m < count b)%nat -> (j < n)%nat ->
      xget T' [m; s; j] = xget T [s; m; j].
Proof.
  intros X dev r a b N nb n c dim beta T Hsc Wa Wb Hh H.
  assert (Hsc' : scene r b a dim beta) by (destruct Hsc; constructor; auto).
  destruct (omni_ok_inv _ _ _ _ _ _ _ _ _ _ _ _ Hsc Hh H) as (Hv & HN & Hn & images & Hi & E1 & E2 & E3).
  eexists. split; [apply (simulate_omni X dev r b a N nb n c dim beta images); auto|].
  split; auto. split; auto. intros s m j Hs Hm Hj. rewrite E3, xget_rows2 by auto. unfold omni_rir.
  assert (L : length (data (r_size r)) = dim).
  { rewrite (sc_size_wf _ _ _ _ _ Hsc), (sc_size _ _ _ _ _ Hsc). cbn. lia. }
  assert (C : NoDup images /\ forall k, In k images -> In (map swap_index k) images).
  { apply (indices_closed N dim nb images (map swap_index)); auto; intros.
    - apply map_length.
    - rewrite map_map. apply map_ext. apply swap_index_abs. }
  apply response_reciprocal; try apply C.
  - rewrite L. eapply length_position; eauto. apply (sc_mic _ _ _ _ _ Hsc).
  - rewrite L. eapply length_position; eauto. apply (sc_src _ _ _ _ _ Hsc).
Qed.
Example C16_example : exists T T',
  simulate_rir (mkExt unit (fun _ _ => Ok tt) (fun _ x => Ok x) (fun _ n => repeat 0 n)) Cpu ex_room ex_src ex_mic
    (Some 1%Z) None (Some 20%Z) None None (Some (DName "omni")) ONone (Some ex_cfg) = Ok T /\
  simulate_rir (mkExt unit (fun _ _ => Ok tt) (fun _ x => Ok x) (fun _ n => repeat 0 n)) Cpu ex_room ex_mic ex_src
    (Some 1%Z) None (Some 20%Z) None None (Some (DName "omni")) ONone (Some ex_cfg) = Ok T' /\
  xget T [0; 0; 12]%nat = xget T' [0; 0; 12]%nat.
Proof.
  pose proof (simulate_omni (mkExt unit (fun _ _ => Ok tt) (fun _ x => Ok x) (fun _ n => repeat 0 n)) Cpu
    ex_room ex_src ex_mic 1 None 20 ex_cfg 2 _ _ ex_scene ex_cfg_valid eq_refl ltac:(lia) ltac:(lia) eq_refl) as H.
  destruct (C16_reciprocity _ _ _ _ _ _ _ 20 ex_cfg _ _ _ ex_scene eq_refl eq_refl eq_refl H) as (T' & H' & _ & _ & E).
  do 2 eexists. split; [exact H|]. split; [exact H'|]. symmetry. apply E; cbn; lia.
Qed.
Print Assumptions C16_reciprocity.

(** ** C17 *)
Theorem C17_mirror : forall X dev r srcs mics srcs' mics' N nb n c dim beta i T,
  let r' := mkRoom (r_size r) (r_fs r) (r_c r) (Some (swap_walls i beta)) None in
  scene r srcs mics dim beta -> wf (entity_pos srcs) -> wf (entity_pos mics) -> (i < dim)%nat ->
  shape (unsqueeze1 (entity_pos srcs')) = [count srcs; dim] ->
  shape (unsqueeze1 (entity_pos mics')) = [count mics; dim] ->
  (forall s, (s < count srcs)%nat -> position srcs' s = mirrored i (data (r_size r)) (position srcs s)) ->
  (forall m, (m < count mics)%nat -> position mics' m = mirrored i (data (r_size r)) (position mics m)) ->
  cfg_hpf_enable c = false ->
  simulate_rir X dev r srcs mics (Some N) nb (Some (Z.of_nat n)) None None (Some (DName "omni")) ONone (Some c) = Ok T ->
  simulate_rir X dev r' srcs' mics' (Some N) nb (Some (Z.of_nat n)) None None (Some (DName "omni")) ONone (Some c) = Ok T.
Proof.
  intros X dev r srcs mics srcs' mics' N nb n c dim beta i T r' Hsc Wa Wb Hdi Hss Hsm Hps Hpm Hh H.
  destruct (omni_ok_inv _ _ _ _ _ _ _ _ _ _ _ _ Hsc Hh H) as (Hv & HN & Hn & images & Hi & _).
  assert (Cs : count srcs' = count srcs) by (unfold count at 1; rewrite Hss; reflexivity).
  assert (Cm : count mics' = count mics) by (unfold count at 1; rewrite Hsm; reflexivity).
  assert (Lb : forall i b, length (swap_walls i b) = length b).
  { clear. induction i; intros [|x [|y b]]; cbn; auto. }
  assert (Hsc' : scene r' srcs' mics' dim (swap_walls i beta)).
  { destruct Hsc; constructor; cbn; auto.
    - rewrite Lb; auto.
    - rewrite Cs; auto.
    - rewrite Cs; auto.
    - rewrite Cm; auto.
    - rewrite Cm; auto. }
  rewrite (simulate_omni X dev r srcs mics N nb n c dim beta images) in H by auto. rewrite <- H.
  rewrite (simulate_omni X dev r' srcs' mics' N nb n c dim (swap_walls i beta) images) by auto.
  rewrite Cs, Cm. do 2 f_equal.
  assert (L : length (data (r_size r)) = dim).
  { rewrite (sc_size_wf _ _ _ _ _ Hsc), (sc_size _ _ _ _ _ Hsc). cbn. lia. }
  assert (C : NoDup images /\ forall k, In k images -> In (negate_at i k) images).
  { apply (indices_closed N dim nb images (negate_at i)); auto; intros; [apply negate_at_length|apply negate_at_abs]. }
  apply flat_map_ext_in. intros s Hs. apply in_seq in Hs. apply flat_map_ext_in. intros m Hm. apply in_seq in Hm.
  apply map_ext. intros j. unfold omni_rir. rewrite Hps, Hpm by lia.
  apply response_mirror; try apply C.
  - rewrite L. apply (length_position _ (count srcs)); auto; [apply (sc_src _ _ _ _ _ Hsc)|lia].
  - rewrite L. apply (length_position _ (count mics)); auto; [apply (sc_mic _ _ _ _ _ Hsc)|lia].
  - intros k Hk. split; [apply C; auto|]. rewrite L. eapply indices_length; eauto.
Qed.
(** Mirroring the second axis of the example: (1, 1) becomes (1, 9), (4, 5) stays. *)
Example C17_example : forall X,
  simulate_rir X Cpu (mkRoom (mkT [2%nat] [10; 10]) 2 1 (Some [/2; /3; /7; /5]) None)
    (ETensor (mkT [1%nat; 2%nat] [1; 9])) (ETensor (mkT [1%nat; 2%nat] [4; 5]))
    (Some 1%Z) None (Some 20%Z) None None (Some (DName "omni")) ONone (Some ex_cfg) =
  simulate_rir X Cpu ex_room ex_src ex_mic
    (Some 1%Z) None (Some 20%Z) None None (Some (DName "omni")) ONone (Some ex_cfg).
Proof.
  intros X.
  pose proof (simulate_omni X Cpu ex_room ex_src ex_mic 1 None 20 ex_cfg 2 _ _ ex_scene ex_cfg_valid eq_refl
    ltac:(lia) ltac:(lia) eq_refl) as H. change (Z.of_nat 20) with 20%Z in H. rewrite H.
  eapply (C17_mirror X Cpu ex_room ex_src ex_mic _ _ 1 None 20 ex_cfg 2 _ 1 _ ex_scene); try reflexivity; auto.
  - intros s Hs. cbn in Hs. replace s with 0%nat by lia. cbn. do 2 f_equal. lra.
  - intros s Hs. cbn in Hs. replace s with 0%nat by lia. cbn. do 2 f_equal. lra.
Qed.
Print Assumptions C17_mirror.

(** ** C18 *)
Theorem C18_static_chunks : forall X dev r sources mics mo nb ns tmax tdiff dir ori c a b,
  r_fs r <> 0 -> (0 < a)%Z -> (0 < b)%Z -> (0 < cfg_img_chunk c)%Z -> (0 < cfg_acc_chunk c)%Z ->
  simulate_rir X dev r sources mics mo nb ns tmax tdiff dir ori (Some (with_chunks c a b)) =
  simulate_rir X dev r sources mics mo nb ns tmax tdiff dir ori (Some c).
Proof. exact chunk_invariance. Qed.
Theorem C18_dynamic_chunks : forall X dev r src mic mo nb ns tmax dir ori c a b,
  r_fs r <> 0 -> (0 < a)%Z -> (0 < b)%Z -> (0 < cfg_img_chunk c)%Z -> (0 < cfg_acc_chunk c)%Z ->
  simulate_dynamic_rir X dev r src mic mo nb ns tmax dir ori (Some (with_chunks c a b)) =
  simulate_dynamic_rir X dev r src mic mo nb ns tmax dir ori (Some c).
Proof. exact chunk_invariance_dynamic. Qed.
(** The RIR is the plain sum over all images of amplitude times the windowed kernel. *)
Theorem C18_plain_sum : forall X dev r srcs mics N nb n c dim beta T,
  scene r srcs mics dim beta -> cfg_hpf_enable c = false ->
  simulate_rir X dev r srcs mics (Some N) nb (Some (Z.of_nat n)) None None (Some (DName "omni")) ONone (Some c) = Ok T ->
  exists images, image_source_indices N dim nb = Ok images /\ xshape T = [count srcs; count mics; n] /\
  forall s m j, (s < count srcs)%nat -> (m < count mics)%nat -> (j < n)%nat ->
    xget T [s; m; j] =
    xsum (map (fun k =>
      let d := ray_length (position srcs s) (position mics m) (data (r_size r)) k in
      pulse (Z.to_nat (cfg_fdl c))
        (kernel (if lut_enabled (cfg_use_lut c) dev then Some (Z.to_nat (cfg_gran c)) else None))
        (d * r_fs r / r_c r) (Some (path_gain (beta_pairs beta) k / d)) j) images).
Proof.
  intros X dev r srcs mics N nb n c dim beta T Hsc Hh H.
  destruct (omni_ok_inv _ _ _ _ _ _ _ _ _ _ _ _ Hsc Hh H) as (Hv & HN & Hn & images & Hi & E1 & E2 & E3).
  exists images. split; auto. split; auto. intros s m j Hs Hm Hj. rewrite E3 by auto.
  unfold omni_rir, response. f_equal. apply map_ext. intros k. cbv zeta. unfold amplitude, unity, the_kernel.
  cbn [xmul xscale option_map]. do 2 f_equal. ring.
Qed.
Example C18_example : forall X,
  simulate_rir X Cpu ex_room ex_src ex_mic (Some 3%Z) None (Some 20%Z) None None (Some (DName "omni")) ONone
    (Some (with_chunks ex_cfg 7 5)) =
  simulate_rir X Cpu ex_room ex_src ex_mic (Some 3%Z) None (Some 20%Z) None None (Some (DName "omni")) ONone
    (Some ex_cfg) /\
  exists T, simulate_rir X Cpu ex_room ex_src ex_mic (Some 3%Z) None (Some 20%Z) None None (Some (DName "omni")) ONone
    (Some ex_cfg) = Ok T.
Proof.
  intros X. split; [apply C18_static_chunks; cbn; lra || lia|].
  pose proof (simulate_omni X Cpu ex_room ex_src ex_mic 3 None 20 ex_cfg 2 _ _ ex_scene ex_cfg_valid eq_refl
    ltac:(lia) ltac:(lia) eq_refl) as H. change (Z.of_nat 20) with 20%Z in H. eauto.
Qed.
Print Assumptions C18_static_chunks.
Print Assumptions C18_dynamic_chunks.
Print Assumptions C18_plain_sum.

(** ** C19 *)
Theorem C19_pair_is_single : forall X dev r srcs mics mo nb ns tmax dir ori cfg T,
  r_fs r <> 0 -> filt_length X -> entity_wf srcs -> entity_wf mics -> ori_arg_wf ori ->
  simulate_rir X dev r srcs mics mo nb ns tmax None dir ori cfg = Ok T ->
  let dim := numel (r_size r) in
  exists S M n, xshape T = [S; M; n] /\ length (xdata T) = (S * M * n)%nat /\
    forall s m, (s < S)%nat -> (m < M)%nat ->
      simulate_rir X dev r (pick_entity dim srcs s) (pick_entity dim mics m) mo nb ns tmax None dir
        (pick_ori_arg dim ori s m) cfg =
      Ok (mkX [1%nat; 1%nat; n] (block ((s * M + m) * n) n (xdata T))).
Proof. exact pair_is_single. Qed.
(** The scatter of one image stays in the row of its pair, whatever the delay. *)
Theorem C19_scatter_in_row : forall rnd u L g nsample sm sample amp, good_rounding rnd g -> (0 < g)%nat ->
  exists us, image_updates rnd u L g nsample sm sample amp = Ok us /\
    Forall (fun p => (Z.of_nat (sm * nsample) <= fst p < Z.of_nat (sm * nsample + nsample))%Z) us.
Proof. exact updates_ok. Qed.
Example C19_example : exists us,
  image_updates (fun x => x) false 3 4 5 2 3.5 (Some 1) = Ok us /\ map fst us = [12; 13; 14]%Z.
Proof.
  unfold image_updates. rewrite (floorZ_unique 3.5 3) by lra.
  eexists. split; [reflexivity|]. reflexivity.
Qed.
Print Assumptions C19_pair_is_single.
Print Assumptions C19_scatter_in_row.

(** ** C20 *)
Theorem C20_table_positions : forall rnd L g sample k, good_rounding rnd g -> (0 < g)%nat -> (k < L)%nat ->
  let frac := rnd (sample - IZR (floorZ sample)) in
  let pos := (floorZ (rnd (rnd (1 - frac) * INR g))%R + Z.of_nat k * Z.of_nat g)%Z in
  (0 <= pos)%Z /\ (pos + 1 < Z.of_nat (length (sinc_lut L g)))%Z.
Proof. exact table_positions. Qed.
Theorem C20_accumulate_never_raises : forall rnd u L g nsample n_sm chunk sample amp buf,
  good_rounding rnd g -> (0 < g)%nat -> (0 < n_sm)%nat -> length buf = (n_sm * nsample)%nat ->
  exists out, accumulate_impl rnd n_sm nsample buf sample amp L g u chunk = Ok out /\
    length out = (n_sm * nsample)%nat.
Proof. exact accumulate_total. Qed.
Theorem C20_binary64 : forall g, (Z.of_nat g <= 2 ^ 53)%Z -> good_rounding rnd64 g.
Proof. exact good_rnd64. Qed.
Theorem C20_binary32 : forall g, (Z.of_nat g <= 2 ^ 24)%Z -> good_rounding rnd32 g.
Proof. exact good_rnd32. Qed.
(** The extreme position: fraction 0 and the last tap use the last two table entries. *)
Example C20_example : good_rounding rnd32 4 /\ length (sinc_lut 3 4) = 17%nat /\
  (floorZ ((1 - 0) * INR 4)%R + 2 * 4 + 1 = 13)%Z.
Proof.
  split; [apply C20_binary32; lia|]. split; [reflexivity|].
  replace ((1 - 0) * INR 4) with (IZR 4) by (cbn; lra). rewrite floorZ_IZR. reflexivity.
Qed.
Print Assumptions C20_table_positions.
Print Assumptions C20_accumulate_never_raises.
Print Assumptions C20_binary64.
Print Assumptions C20_binary32.

(** ** C21 *)
Theorem C21_direct_tap : forall L g f k, Nat.Odd L -> (0 < g)%nat -> 0 <= f <= 1 -> (k < L)%nat ->
  filter_tap (fun x => x) false L g f k = Ok (nsinc (INR k - INR (half L) - f) * hann L k).
Proof. intros. rewrite tap_exact by auto. reflexivity. Qed.
Theorem C21_table_tap : forall L g f k, Nat.Odd L -> (0 < g)%nat -> 0 <= f <= 1 -> (k < L)%nat ->
  filter_tap (fun x => x) true L g f k = Ok (grid_interp g nsinc (INR k - INR (half L) - f) * hann L k).
Proof. intros. rewrite tap_exact by auto. reflexivity. Qed.
Theorem C21_exact_on_grid : forall L g p k, Nat.Odd L -> (0 < g)%nat -> (p <= g)%nat -> (k < L)%nat ->
  filter_tap (fun x => x) true L g (INR p / INR g) k = filter_tap (fun x => x) false L g (INR p / INR g) k.
Proof.
  intros L g p k HL Hg Hp Hk. assert (G : 0 < INR g) by (apply lt_0_INR; auto).
  assert (Hf : 0 <= INR p / INR g <= 1).
  { split; [apply Rle_mult_inv_pos; auto using pos_INR|]. apply le_INR in Hp.
    apply Rmult_le_reg_r with (INR g); auto. unfold Rdiv. rewrite Rmult_assoc, Rinv_l, Rmult_1_r, Rmult_1_l by lra. auto. }
  rewrite !tap_exact by auto. cbn [kernel]. do 2 f_equal.
  apply (grid_interp_exact g _ ((Z.of_nat k - Z.of_nat (half L)) * Z.of_nat g - Z.of_nat p)); auto.
  rewrite minus_IZR, mult_IZR, minus_IZR, <- !INR_IZR_INZ. field. lra.
Qed.
Theorem C21_error_bound : forall L g f k, Nat.Odd L -> (0 < g)%nat -> 0 <= f <= 1 -> (k < L)%nat ->
  exists a b, filter_tap (fun x => x) true L g f k = Ok a /\ filter_tap (fun x => x) false L g f k = Ok b /\
    Rabs (a - b) <= PI * PI / (24 * (INR g * INR g)).
Proof. exact tap_difference. Qed.
Example C21_example : filter_tap (fun x => x) true 3 4 (INR 1 / INR 4) 1 = Ok (nsinc (- / 4)).
Proof.
  rewrite C21_exact_on_grid; [|exists 1%nat; lia|lia..]. rewrite C21_direct_tap; [|exists 1%nat; lia|lia| |lia].
  - f_equal. replace (hann 3 1) with 1 by (symmetry; apply (hann_centre 3); exists 1%nat; lia).
    rewrite Rmult_1_r. f_equal. change (half 3) with 1%nat. cbn. lra.
  - cbn. lra.
Qed.
Print Assumptions C21_direct_tap.
Print Assumptions C21_table_tap.
Print Assumptions C21_exact_on_grid.
Print Assumptions C21_error_bound.

(** ** C22 *)
(** Samples touched by an image arriving at [delay] samples. *)
Theorem C22_touched_samples : forall rnd u L g nsample sm delay amp us, Nat.Odd L -> 0 <= delay ->
  image_updates rnd u L g nsample sm (delay + INR (half L)) amp = Ok us ->
  map fst us = map (fun z => (z + Z.of_nat (sm * nsample))%Z)
    (filter (fun z => (z <? Z.of_nat nsample)%Z) (map (fun k => (floorZ delay + Z.of_nat k)%Z) (seq 0 L))).
Proof. exact updates_targets. Qed.
(** The delay passed on by the simulation is distance * fs / c plus half the filter. *)
Theorem C22_delay : forall fs c L src mic size n, fs <> 0 ->
  image_sample fs c (half L) (image_vec src mic size n) =
  ray_length src mic size n * fs / c + INR (half L).
Proof. intros. rewrite image_vec_ray. rewrite <- (sample_ray fs c (half L)) by auto. ring. Qed.
Theorem C22_integer_delay : forall L table i x j, Nat.Odd L -> (forall g, table = Some g -> (0 < g)%nat) ->
  pulse L (kernel table) (INR i) (Some x) j = Some (if (j =? i + (L - 1) / 2)%nat then x else 0).
Proof. exact pulse_integer. Qed.
Theorem C22_silent_before_direct : forall X dev r srcs mics N nb n c dim beta T s m j,
  scene r srcs mics dim beta -> cfg_hpf_enable c = false -> 0 < r_c r ->
  simulate_rir X dev r srcs mics (Some N) nb (Some (Z.of_nat n)) None None (Some (DName "omni")) ONone (Some c) = Ok T ->
  (s < count srcs)%nat -> (m < count mics)%nat -> (j < n)%nat ->
  inside (position srcs s) (data (r_size r)) -> inside (position mics m) (data (r_size r)) ->
  (Z.of_nat j < floorZ (euclid (position mics m) (position srcs s) * r_fs r / r_c r)%R)%Z ->
  xget T [s; m; j] = Some 0.
Proof.
  intros X dev r srcs mics N nb n c dim beta T s m j Hsc Hh Hc H Hs Hm Hj Is Im Hlt.
  destruct (omni_ok_inv _ _ _ _ _ _ _ _ _ _ _ _ Hsc Hh H) as (Hv & HN & Hn & images & Hi & E1 & E2 & E3).
  rewrite E3 by auto. apply response_causal. intros k Hk. eapply Z.lt_le_trans; [exact Hlt|].
  apply floorZ_mono. pose proof (sc_fs _ _ _ _ _ Hsc).
  assert (L : length (data (r_size r)) = dim).
  { rewrite (sc_size_wf _ _ _ _ _ Hsc), (sc_size _ _ _ _ _ Hsc). cbn. lia. }
  unfold Rdiv. apply Rmult_le_compat_r; [apply Rlt_le, Rinv_0_lt_compat; auto|].
  apply Rmult_le_compat_r; [lra|]. unfold ray_length. eapply Rle_trans; [|apply Rmax_l].
  apply direct_nearest; auto. rewrite L. eapply indices_length; eauto.
Qed.
(** Direct path only: the single value 1/5 at sample 10 + 1, nothing else. *)
Example C22_example : forall X, exists T,
  simulate_rir X Cpu ex_room ex_src ex_mic (Some 0%Z) None (Some 20%Z) None None (Some (DName "omni")) ONone
    (Some ex_cfg) = Ok T /\
  forall j, (j < 20)%nat -> xget T [0%nat; 0%nat; j] = Some (if (j =? 11)%nat then / 5 else 0).
Proof.
  intros X. pose proof (simulate_omni X Cpu ex_room ex_src ex_mic 0 None 20 ex_cfg 2 _ _ ex_scene ex_cfg_valid eq_refl
    ltac:(lia) ltac:(lia) eq_refl) as H. change (Z.of_nat 20) with 20%Z in H.
  eexists. split; [exact H|]. intros j Hj. rewrite xget_rows2 by (auto; cbn; lia).
  unfold omni_rir, response, the_kernel, amplitude, unity.
  change (position ex_src 0) with [1; 1]. change (position ex_mic 0) with [4; 5].
  cbn [map repeat flat_map filter l1 fold_right Z.abs Z.leb Z.compare app].
  change (filter _ _) with [[0; 0]%Z]. cbn [map]. change (data (r_size ex_room)) with [10; 10].
  rewrite ex_ray. cbn [r_fs r_c ex_room]. replace (5 * 2 / 1) with (INR 10) by (cbn; lra).
  cbn [xmul xscale option_map]. change (Z.to_nat (cfg_fdl ex_cfg)) with 3%nat.
  rewrite C22_integer_delay; [|exists 1%nat; lia|].
  - change (10 + (3 - 1) / 2)%nat with 11%nat. rewrite xsum_cons, xadd_0_r. f_equal.
    destruct (j =? 11)%nat; auto. cbn [beta_pairs path_gain wall_product planes]. lra.
  - intros g Hg. cbn in Hg. injection Hg as <-. change (Pos.to_nat 4) with 4%nat. lia.
Qed.
Print Assumptions C22_touched_samples.
Print Assumptions C22_delay.
Print Assumptions C22_integer_delay.
Print Assumptions C22_silent_before_direct.

(** ** C23 *)
Theorem C23_prefix : forall X dev r sources mics mo nb K k tmax dir ori c T,
  r_fs r <> 0 -> cfg_hpf_enable c = false -> (0 < k <= K)%nat ->
  simulate_rir X dev r sources mics mo nb (Some (Z.of_nat K)) tmax None dir ori (Some c) = Ok T ->
  exists T' S M, simulate_rir X dev r sources mics mo nb (Some (Z.of_nat k)) tmax None dir ori (Some c) = Ok T' /\
    xshape T = [S; M; K] /\ xshape T' = [S; M; k] /\
    forall s m j, (s < S)%nat -> (m < M)%nat -> (j < k)%nat -> xget T' [s; m; j] = xget T [s; m; j].
Proof. exact prefix_simulation. Qed.
Example C23_example : forall X, exists T T',
  simulate_rir X Cpu ex_room ex_src ex_mic (Some 2%Z) None (Some 20%Z) None None (Some (DName "omni")) ONone
    (Some ex_cfg) = Ok T /\
  simulate_rir X Cpu ex_room ex_src ex_mic (Some 2%Z) None (Some 15%Z) None None (Some (DName "omni")) ONone
    (Some ex_cfg) = Ok T' /\ xget T' [0; 0; 14]%nat = xget T [0; 0; 14]%nat.
Proof.
  intros X. pose proof (simulate_omni X Cpu ex_room ex_src ex_mic 2 None 20 ex_cfg 2 _ _ ex_scene ex_cfg_valid eq_refl
    ltac:(lia) ltac:(lia) eq_refl) as H.
  destruct (C23_prefix X Cpu ex_room ex_src ex_mic _ _ 20 15 None _ _ ex_cfg _ ltac:(cbn; lra) eq_refl ltac:(lia) H)
    as (T' & S & M & H' & E1 & E2 & E3).
  cbn [xshape] in E1. injection E1 as <- <-. do 2 eexists. split; [exact H|]. split; [exact H'|]. apply E3; cbn; lia.
Qed.
Print Assumptions C23_prefix.

(** ** C24 *)
Theorem C24_next_order : forall X dev r srcs mics N n c dim beta T,
  scene r srcs mics dim beta -> cfg_hpf_enable c = false ->
  simulate_rir X dev r srcs mics (Some N) None (Some (Z.of_nat n)) None None (Some (DName "omni")) ONone (Some c) = Ok T ->
  exists T' news,
    simulate_rir X dev r srcs mics (Some (N + 1)%Z) None (Some (Z.of_nat n)) None None (Some (DName "omni")) ONone (Some c) = Ok T' /\
    NoDup news /\ (forall k, In k news <-> length k = dim /\ order_of k = (N + 1)%Z) /\
    forall s m j, (s < count srcs)%nat -> (m < count mics)%nat -> (j < n)%nat ->
      xget T' [s; m; j] = xadd (xget T [s; m; j])
        (response (Z.to_nat (cfg_fdl c)) (the_kernel dev c) (r_fs r) (r_c r) (beta_pairs beta) (data (r_size r))
           news unity unity (position srcs s) (position mics m) j).
Proof.
  intros X dev r srcs mics N n c dim beta T Hsc Hh H.
  destruct (omni_ok_inv _ _ _ _ _ _ _ _ _ _ _ _ Hsc Hh H) as (Hv & HN & Hn & images & Hi & E1 & E2 & E3).
  destruct (indices_order (N + 1) dim ltac:(lia)) as (images' & Hi' & _).
  destruct (indices_extend N dim images images' HN Hi Hi') as (news & P & D & I).
  eexists _, news. split; [apply (simulate_omni X dev r srcs mics (N + 1) None n c dim beta images'); auto; lia|].
  split; auto. split; auto. intros s m j Hs Hm Hj. rewrite E3, xget_rows2 by auto. unfold omni_rir.
  rewrite (response_perm _ _ _ _ _ _ _ _ _ _ _ _ _ P), response_app. reflexivity.
Qed.
Theorem C24_absorbing_room : forall X dev r srcs mics N n c dim T,
  scene r srcs mics dim (repeat 0 (2 * dim)) -> cfg_hpf_enable c = false ->
  simulate_rir X dev r srcs mics (Some N) None (Some (Z.of_nat n)) None None (Some (DName "omni")) ONone (Some c) = Ok T ->
  forall s m j, (s < count srcs)%nat -> (m < count mics)%nat -> (j < n)%nat ->
    let d := ray_length (position srcs s) (position mics m) (data (r_size r)) (repeat 0%Z dim) in
    xget T [s; m; j] = pulse (Z.to_nat (cfg_fdl c)) (the_kernel dev c) (d * r_fs r / r_c r) (Some (/ d)) j.
Proof.
  intros X dev r srcs mics N n c dim T Hsc Hh H s m j Hs Hm Hj d.
  destruct (omni_ok_inv _ _ _ _ _ _ _ _ _ _ _ _ Hsc Hh H) as (Hv & HN & Hn & images & Hi & E1 & E2 & E3).
  rewrite E3 by auto. unfold omni_rir.
  destruct (indices_order N dim HN) as (l & E & D & I). rewrite E in Hi. injection Hi as <-.
  assert (H0 : In (repeat 0%Z dim) l).
  { apply I. rewrite repeat_length. split; auto. clear -HN. induction dim; cbn; auto. }
  destruct (perm_incl [repeat 0%Z dim] l) as (extra & P & G); auto.
  { constructor; [auto|constructor]. } { intros x [<-|[]]; auto. }
  rewrite (response_perm _ _ _ _ _ _ _ _ _ _ _ _ _ P), response_app.
  rewrite (response_absorbing _ _ _ _ dim _ extra).
  - rewrite xadd_0_r. unfold response. cbn [map]. rewrite xsum_cons, xadd_0_r. fold d. f_equal.
    unfold amplitude, unity. cbn [xmul xscale option_map]. rewrite path_gain_direct. fold d. f_equal.
    unfold Rdiv. ring.
  - intros k Hk. apply G in Hk as [G1 G2]. apply I in G1 as [G1 _]. split; auto. intros ->. apply G2. left; auto.
Qed.
Example C24_example : forall X, exists T T' news,
  simulate_rir X Cpu ex_room ex_src ex_mic (Some 0%Z) None (Some 20%Z) None None (Some (DName "omni")) ONone
    (Some ex_cfg) = Ok T /\
  simulate_rir X Cpu ex_room ex_src ex_mic (Some 1%Z) None (Some 20%Z) None None (Some (DName "omni")) ONone
    (Some ex_cfg) = Ok T' /\
  (forall k, In k news <-> length k = 2%nat /\ order_of k = 1%Z) /\ In [-1; 0]%Z news /\
  xget T' [0; 0; 11]%nat = xadd (Some (/ 5))
    (response 3 (the_kernel Cpu ex_cfg) 2 1 [(/2, /3); (/5, /7)] [10; 10] news unity unity [1; 1] [4; 5] 11).
Proof.
  intros X. destruct (C22_example X) as (T & H & V).
  destruct (C24_next_order X Cpu ex_room ex_src ex_mic 0 20 ex_cfg 2 _ T ex_scene eq_refl H) as (T' & news & H' & D & I & E).
  exists T, T', news. split; auto. split; auto. split; auto. split; [apply I; auto|].
  rewrite (E 0%nat 0%nat 11%nat) by (cbn; lia). rewrite V by lia. reflexivity.
Qed.
Print Assumptions C24_next_order.
Print Assumptions C24_absorbing_room.

(** ** C25 *)
Theorem C25_dynamic_is_static : forall X dev r src mic mo nb ns tmax dir ori cfg T, r_fs r <> 0 -> filt_length X ->
  simulate_dynamic_rir X dev r src mic mo nb ns tmax dir ori cfg = Ok T ->
  exists Tn S M n, (0 < Tn)%nat /\ xshape T = [Tn; S; M; n] /\ length (xdata T) = (Tn * (S * M * n))%nat /\
    forall t, (t < Tn)%nat ->
      simulate_rir X dev r (ETensor (step_tensor src t)) (ETensor (step_tensor mic t)) mo nb ns tmax None dir ori cfg
      = Ok (mkX [S; M; n] (block (t * (S * M * n)) (S * M * n) (xdata T))).
Proof. exact dynamic_is_static. Qed.
Theorem C25_static_gives_dynamic : forall X dev r src mic mo nb ns tmax dir ori cfg Tn S M dim,
  r_fs r <> 0 -> filt_length X -> (0 < Tn)%nat ->
  shape (unsqueeze_traj src) = [Tn; S; dim] -> shape (unsqueeze_traj mic) = [Tn; M; dim] ->
  (forall t, (t < Tn)%nat -> exists R,
     simulate_rir X dev r (ETensor (step_tensor src t)) (ETensor (step_tensor mic t)) mo nb ns tmax None dir ori cfg = Ok R) ->
  exists T, simulate_dynamic_rir X dev r src mic mo nb ns tmax dir ori cfg = Ok T.
Proof. exact static_gives_dynamic. Qed.
(** A trajectory that does not move gives the same response at every step. *)
Theorem C25_constant_trajectory : forall X dev r src mic mo nb ns tmax dir ori cfg T Tn S M n t t',
  r_fs r <> 0 -> filt_length X ->
  simulate_dynamic_rir X dev r src mic mo nb ns tmax dir ori cfg = Ok T -> xshape T = [Tn; S; M; n] ->
  (t < Tn)%nat -> (t' < Tn)%nat -> step_tensor src t = step_tensor src t' -> step_tensor mic t = step_tensor mic t' ->
  block (t * (S * M * n)) (S * M * n) (xdata T) = block (t' * (S * M * n)) (S * M * n) (xdata T).
Proof.
  intros X dev r src mic mo nb ns tmax dir ori cfg T Tn S M n t t' Hfs HX H Hsh Ht Ht' Es Em.
  destruct (dynamic_is_static _ _ _ _ _ _ _ _ _ _ _ _ _ Hfs HX H) as (Tn' & S' & M' & n' & _ & E & _ & G).
  rewrite Hsh in E. injection E as <- <- <- <-.
  pose proof (G t Ht) as G1. pose proof (G t' Ht') as G2. rewrite Es, Em in G1. congruence.
Qed.
(** Two steps: at the second one the source has moved to (4, 1), at distance 4. *)
Example C25_example : forall X, filt_length X -> exists T,
  simulate_dynamic_rir X Cpu ex_room (mkT [2%nat; 2%nat] [1; 1; 4; 1]) (mkT [2%nat; 1%nat; 2%nat] [4; 5; 4; 5])
    (Some 1%Z) None (Some 20%Z) None (Some (DName "omni")) ONone (Some ex_cfg) = Ok T.
Proof.
  intros X HX. apply (C25_static_gives_dynamic X Cpu ex_room _ _ _ _ _ _ _ _ _ 2 1 1 2); auto; try (cbn; lra).
  intros t Ht.
  assert (Sc : scene ex_room (ETensor (step_tensor (mkT [2%nat; 2%nat] [1; 1; 4; 1]) t))
      (ETensor (step_tensor (mkT [2%nat; 1%nat; 2%nat] [4; 5; 4; 5]) t)) 2 [/2; /3; /5; /7]).
  { constructor; cbn; auto; try lra; try lia. reflexivity. }
  pose proof (simulate_omni X Cpu ex_room _ _ 1 None 20 ex_cfg 2 _ _ Sc ex_cfg_valid eq_refl
    ltac:(lia) ltac:(lia) eq_refl) as H. change (Z.of_nat 20) with 20%Z in H. eauto.
Qed.
Print Assumptions C25_dynamic_is_static.
Print Assumptions C25_static_gives_dynamic.
Print Assumptions C25_constant_trajectory.
