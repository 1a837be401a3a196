(** C60-C63, C69 and the builder's part of C56: the dataset builder. *)
From Coq Require Import String List ZArith Reals Lra Lia Bool Permutation.
From Verif Require Import Prelude PreludeFacts FloatModel DirModel RoomModel GeoModel GeoSampling DsModel DsSpec DsProofs BldModel BldSpec BldProofs BldAudio.
Import ListNotations.
Local Notation length := List.length.
Local Open Scope R_scope.

(** * C60 *)
(** In every scene that is built, at every trajectory step every source is inside the margin
    box and at least 1.8 m (horizontally) from the array centre. Margin boxes wider than
    9e8 m are excluded (an azimuth within 1e-9 of an axis is treated as parallel to it). *)
Theorem C60_sources a d g k row p : fair_scene a d -> build_scene_geometry a d = Ok g ->
  px (sa_room a) - 2 * px (sa_margin a) <= 900000000 -> py (sa_room a) - 2 * py (sa_margin a) <= 900000000 ->
  nth_error (geo_traj g) k = Some row -> In p row ->
  in_margin (sa_room a) (sa_margin a) p /\ away (18 / 10) (geo_center g) p.
Proof.
  intros F H Ex Ey Hk Hp. destruct (scene_inv _ _ _ F H) as (_ & _ & Hl & Ht).
  pose proof (constrained_ok _ _ _ _ _ _ _ _ _ _ F eq_refl Hl) as (N1 & N2 & Ra & V1 & V2 & MD & Mu & Ln & j & G).
  set (c := geo_center g) in *. apply In_nth_error in Hp as [i Hi].
  assert (Lr := trajectory_row _ _ _ _ _ _ _ _ Ht Hk).
  destruct (nth_error (geo_sources g) i) as [q|] eqn:Eq; [|apply nth_error_None in Eq; assert (i < length row)%nat by (apply nth_error_Some; congruence); lia].
  rewrite (trajectory_at _ _ _ _ _ _ _ _ _ _ Ht Hk Eq) in Hi. apply G in Eq. clear G. injection Hi as Hi.
  destruct Eq as (r & R1 & R2 & Sx & Sz & Az & Rest). assert (R0 : 0 <= r) by (unfold min_distance in R1; lra).
  assert (Hn : hnorm (p_start q) c = r) by (rewrite Sx; apply hnorm_circle; auto).
  assert (St : in_margin (sa_room a) (sa_margin a) (p_start q) /\ away (18 / 10) c (p_start q)).
  { destruct (max_radius_inside _ c (sa_room a) (sa_margin a) r Mu Ex Ey R0 R2) as [I1 I2]. rewrite Sx. unfold in_margin, in_box, away. cbn [px py pz].
    split; [auto|]. generalize (trig1 (azimuth_of (sd_trials d j) (Z.to_nat (sa_n a)) i)). unfold min_distance in R1. nra. }
  destruct (sa_steps a <=? 1)%Z; [subst p; auto|]. destruct (is_moving (sd_moving d) i); [|subst p; auto].
  destruct Rest as (R3 & _). rewrite Hn in Hi. cbv zeta in Hi. set (th := p_az0 q + _) in Hi. subst p.
  destruct (circle_inside c (sa_room a) (sa_margin a) r th R0 R3) as [I1 I2]. unfold in_margin, in_box, away. cbn [px py pz].
  split; [auto|]. generalize (trig1 th). unfold min_distance in R1. nra.
Qed.
(** With a randomised centre the six microphones are inside the room (walls included). *)
Theorem C60_microphones a d g : fair_scene a d -> sa_random_center a = true -> build_scene_geometry a d = Ok g ->
  length (geo_mics g) = 6%nat /\ forall p, In p (geo_mics g) -> in_room (sa_room a) p.
Proof.
  intros F Rc H. destruct (scene_inv _ _ _ F H) as (Hm & Hc & _). rewrite Rc in Hc. apply octa_mics in Hm as [E ->].
  apply center_ok in Hc as (A & B & C & _); [|apply F]. set (r := sa_edge a / sqrt 2) in *.
  assert (R0 : 0 < r) by (unfold r; apply Rmult_lt_0_compat; auto; apply Rinv_0_lt_compat, sqrt_lt_R0; lra).
  split; [reflexivity|]. intros p Hp. cbn in Hp. decompose [or] Hp; subst; try contradiction; unfold in_room, in_box; cbn [px py pz]; lra.
Qed.
(** Exactly when a scene exists: no draw can make a sensible scene fail, and no trial is
    ever wasted. *)
Theorem C60_feasible a d : fair_scene a d ->
  (exists g, build_scene_geometry a d = Ok g) <-> sensible a /\ if sa_random_center a then spacious a else center_fits a.
Proof.
  intros F. assert (S2 : 0 < sqrt 2) by (apply sqrt_lt_R0; lra).
  assert (I2 : 0 < / sqrt 2) by (apply Rinv_0_lt_compat; auto). split.
  - intros [g H]. destruct (scene_inv _ _ _ F H) as (Hm & Hc & Hl & _).
    pose proof (constrained_ok _ _ _ _ _ _ _ _ _ _ F eq_refl Hl) as (N1 & N2 & Ra & V1 & V2 & MD & Mu & _).
    apply constrained_z in Hl; auto. apply octa_mics in Hm as [E _]. apply ratios_iff in Ra as (Ra1 & Ra2 & Ra3). unfold move_duration in MD.
    assert (D : 0 < m_dur (sa_motion a)) by nra.
    split; [unfold sensible; tauto|]. destruct (sa_random_center a).
    + unfold spacious. unfold sample_random_mic_center in Hc. set (r := sa_edge a / sqrt 2) in *.
      destruct (Rleb _ (Rmax r (px (sa_margin a) + _))) eqn:E1; [discriminate|]. destruct (Rleb _ (Rmax r (py (sa_margin a) + _))) eqn:E2; [discriminate|].
      destruct (Rleb _ r) eqn:E3; [discriminate|]. apply rleb_false in E1, E2, E3. clear Hc. unfold min_distance in *. split; [lra|].
      intros f [-> | ->].
      * exists (Rmax r (px (sa_margin a) + 18 / 10)), (Rmin (px (sa_room a) - r) (px (sa_room a) - px (sa_margin a) - 18 / 10)). split; [lra|].
        pose proof (Rmax_l r (px (sa_margin a) + 18 / 10)). pose proof (Rmax_r r (px (sa_margin a) + 18 / 10)).
        pose proof (Rmin_l (px (sa_room a) - r) (px (sa_room a) - px (sa_margin a) - 18 / 10)). pose proof (Rmin_r (px (sa_room a) - r) (px (sa_room a) - px (sa_margin a) - 18 / 10)).
        intros c [-> | ->]; lra.
      * exists (Rmax r (py (sa_margin a) + 18 / 10)), (Rmin (py (sa_room a) - r) (py (sa_room a) - py (sa_margin a) - 18 / 10)). split; [lra|].
        pose proof (Rmax_l r (py (sa_margin a) + 18 / 10)). pose proof (Rmax_r r (py (sa_margin a) + 18 / 10)).
        pose proof (Rmin_l (py (sa_room a) - r) (py (sa_room a) - py (sa_margin a) - 18 / 10)). pose proof (Rmin_r (py (sa_room a) - r) (py (sa_room a) - py (sa_margin a) - 18 / 10)).
        intros c [-> | ->]; lra.
    + rewrite Hc in Mu. apply mu_bounds in Mu. unfold min_distance in Mu. intros f [-> | ->]; lra.
  - intros [(E & N1 & N2 & Ra1 & Ra2 & Ra3 & V1 & V2 & D & Z) Hc]. unfold build_scene_geometry.
    assert (R0 : 0 < sa_edge a / sqrt 2) by (apply Rmult_lt_0_compat; auto).
    unfold polyhedron_array. cbn [v_data v_dtype]. rewrite rleb_intro_false by auto. cbn [length negb Nat.eqb].
    change (polyhedron_vertices "octahedron") with (Ok [[1; 0; 0]; [-1; 0; 0]; [0; 1; 0]; [0; -1; 0]; [0; 0; 1]; [0; 0; -1]]). cbn [bind].
    assert (C : exists c, (if sa_random_center a then sample_random_mic_center (sd_center d) (sa_room a) (sa_margin a) min_distance (sa_edge a / sqrt 2) else Ok (sa_center a)) = Ok c /\
       min_distance <= max_uniform_radius c (sa_room a) (sa_margin a)).
    { destruct (sa_random_center a).
      - destruct Hc as [Hz Hc]. set (r := sa_edge a / sqrt 2) in *.
        destruct (Hc px (or_introl eq_refl)) as (x1 & x2 & X & HX). destruct (Hc py (or_intror eq_refl)) as (y1 & y2 & Y & HY).
        pose proof (HX x1 (or_introl eq_refl)). pose proof (HX x2 (or_intror eq_refl)). pose proof (HY y1 (or_introl eq_refl)). pose proof (HY y2 (or_intror eq_refl)).
        assert (exists c, sample_random_mic_center (sd_center d) (sa_room a) (sa_margin a) min_distance r = Ok c) as [c Ec].
        { unfold sample_random_mic_center, min_distance. rewrite !rleb_intro_false; [cbn; eauto|lra| |].
          - apply Rle_lt_trans with y1; [apply Rmax_lub; lra|]. apply Rlt_le_trans with y2; auto. apply Rmin_glb; lra.
          - apply Rle_lt_trans with x1; [apply Rmax_lub; lra|]. apply Rlt_le_trans with x2; auto. apply Rmin_glb; lra. }
        exists c. split; auto. apply center_ok in Ec; [tauto|apply F].
      - exists (sa_center a). split; auto. apply mu_bounds. unfold min_distance. pose proof (Hc px (or_introl eq_refl)). pose proof (Hc py (or_intror eq_refl)). lra. }
    destruct C as (c & -> & Mu). cbn [bind]. unfold place_mics, polyhedron_array. cbn [v_data v_dtype]. rewrite rleb_intro_false by auto. cbn [length negb Nat.eqb].
    change (polyhedron_vertices "octahedron") with (Ok [[1; 0; 0]; [-1; 0; 0]; [0; 1; 0]; [0; -1; 0]; [0; 0; 1]; [0; 0; -1]]). cbn [bind].
    destruct (constrained_total a d c (sa_n a) (sa_moving a) (sa_motion a) (sa_room a) (sa_margin a) 99 F eq_refl) as [l ->]; auto.
    + apply ratios_iff. auto.
    + unfold move_duration. nra.
    + cbn [bind]. destruct (trajectory_ratios l c (sd_moving d) (sa_steps a) (sa_motion a)) as [tr ->]; [apply ratios_iff; auto|]. cbn. eauto.
Qed.

(** Trials, for arbitrary draws: the first one that succeeds decides, one that fails gives way
    to the next, and without trials left there is no scene. *)
Theorem C60_trials d moving n nm m c room margin mr k :
  (forall l, constrained_positions d moving n nm m c room margin mr 1 = Ok l ->
     constrained_positions d moving n nm m c room margin mr (S k) = Ok l) /\
  (constrained_positions d moving n nm m c room margin mr 1 = Err ValueError ->
     constrained_positions d moving n nm m c room margin mr (S k) =
     constrained_positions (fun i => d (S i)) moving n nm m c room margin mr k) /\
  constrained_positions d moving n nm m c room margin mr 0 = Err ValueError.
Proof.
  unfold constrained_positions.
  repeat (match goal with |- context [if ?b then _ else _] => destruct b; [repeat split; congruence|] end).
  cbn [trials].
  assert (S : forall f i d d', (forall j, d (S j) = d' j) ->
    trials (S i) f d (Z.to_nat n) moving m c room margin mr = trials i f d' (Z.to_nat n) moving m c room margin mr).
  { induction f as [|f IH]; intros i d1 d2 H; cbn [trials]; auto. rewrite H. destruct (mapM _ _) as [?|[]]; auto. }
  destruct (mapM _ _) as [l|e]; [split; [|split]; congruence|]. split; [|split]; auto.
  - intros l. destruct e; discriminate.
  - destruct e; try discriminate. intros _. apply S. auto.
Qed.
(** A fixed centre is not checked against the height of the room: the array may be outside. *)
Theorem C60_fixed_center_unchecked : exists a d g p, fair_scene a d /\ build_scene_geometry a d = Ok g /\ In p (geo_mics g) /\ ~ in_room (sa_room a) p.
Proof.
  set (a := mkSA 1 0 (P3 8 6 3) (P3 4 3 10) 1 (P3 (/2) (/2) (/4)) 1 (mkMotion 0 1 1 1 1) false).
  set (d := mkSD (P3 0 0 0) [] (fun _ => mkDraws 0 [0%nat] (fun _ => 0) (fun _ => 0) (fun _ => 0) (fun _ => true))).
  assert (F : fair_scene a d).
  { unfold a, d. split; [unfold u01_3, u01; cbn; lra|]. split; [|split; [constructor|split; [intros i []|reflexivity]]].
    intros k. unfold fair_trial, u01. cbn. change (Pos.to_nat 1) with 1%nat. cbn. split; [lra|]. split; [apply Permutation_refl|intros; lra]. }
  destruct (proj2 (C60_feasible a d F)) as [g H].
  { unfold a, sensible, center_fits. cbn. split; [repeat split; lia || lra|]. intros f [-> | ->]; cbn; lra. }
  destruct (scene_inv _ _ _ F H) as (Hm & Hc & _). cbn in Hc. apply octa_mics in Hm as [_ E].
  exists a, d, g, (P3 (sa_edge a / sqrt 2 + px (geo_center g)) (0 + py (geo_center g)) (0 + pz (geo_center g))).
  split; auto. split; auto. split; [rewrite E; left; auto|]. rewrite Hc. unfold in_room, in_box. cbn. lra.
Qed.

(** * C61 *)
Lemma rotate_circle c r az phi z : rotate c phi (P3 (px c + r * cos az) (py c + r * sin az) z) = P3 (px c + r * cos (az + phi)) (py c + r * sin (az + phi)) z.
Proof. unfold rotate. cbn [px py pz]. rewrite cos_plus, sin_plus. f_equal; ring. Qed.
(** Time runs from 0 to 1 over the steps. A static source stays at its start. A moving source
    is at its start until the movement begins, at its end from the moment the movement ends,
    and in between it has turned about the array centre, always in the recorded direction, by
    the arc whose length is the recorded speed times the seconds since the movement began. *)
Theorem C61_profile a d g k row i q p : fair_scene a d -> build_scene_geometry a d = Ok g -> (2 <= sa_steps a)%Z ->
  nth_error (geo_traj g) k = Some row -> nth_error (geo_sources g) i = Some q -> nth_error row i = Some p ->
  let t := INR k / (IZR (sa_steps a) - 1) in
  let m := sa_motion a in
  if in_dec Nat.eq_dec i (sd_moving d) then
    exists r, hdist_is r (geo_center g) (p_start q) /\ 18 / 10 <= r /\ v_min m <= p_vel q <= v_max m /\ (p_dir q = 1 \/ p_dir q = -1)%Z /\
      p_ang q * r = IZR (p_dir q) * p_vel q /\
      (t <= m_start m -> p = p_start q) /\ (m_end m <= t -> p = p_end q) /\
      (m_start m <= t <= m_end m -> p = rotate (geo_center g) (IZR (p_dir q) * (p_vel q * (m_dur m * (t - m_start m)) / r)) (p_start q)) /\
      p_end q = rotate (geo_center g) (IZR (p_dir q) * (p_vel q * (m_dur m * (m_end m - m_start m)) / r)) (p_start q)
  else p = p_start q /\ p_end q = p_start q /\ p_vel q = 0 /\ p_ang q = 0 /\ p_dir q = 0%Z.
Proof.
  intros F H Hs Hk Hq Hp t m. destruct (scene_inv _ _ _ F H) as (_ & _ & Hl & Ht).
  pose proof (constrained_ok _ _ _ _ _ _ _ _ _ _ F eq_refl Hl) as (N1 & N2 & Ra & V1 & V2 & MD & Mu & Ln & j & G).
  set (c := geo_center g) in *. rewrite (trajectory_at _ _ _ _ _ _ _ _ _ _ Ht Hk Hq) in Hp. apply G in Hq. clear G. injection Hp as Hp.
  destruct Hq as (r & R1 & R2 & Sx & Sz & Az & Rest). assert (R0 : 0 <= r) by (unfold min_distance in R1; lra).
  assert (Hn : hnorm (p_start q) c = r) by (rewrite Sx; apply hnorm_circle; auto).
  destruct (Z.leb_spec (sa_steps a) 1); [lia|]. replace (is_moving (sd_moving d) i) with (if in_dec Nat.eq_dec i (sd_moving d) then true else false) in *.
  2:{ destruct (in_dec Nat.eq_dec i (sd_moving d)) as [I|I]; symmetry; [apply is_moving_spec; auto|]. destruct (is_moving (sd_moving d) i) eqn:E; auto. apply is_moving_spec in E. contradiction. }
  destruct (in_dec Nat.eq_dec i (sd_moving d)) as [I|I]; [|subst p; tauto].
  destruct Rest as (R3 & V3 & Dr & An & A1 & En). cbv zeta in Hp. rewrite Hn in Hp.
  assert (Et : timeline (Z.to_nat (sa_steps a)) k = t). { unfold timeline, t. rewrite INR_IZR_INZ with (n := Z.to_nat (sa_steps a)), Z2Nat.id by lia. auto. }
  rewrite Et in Hp. set (az := azimuth_of _ _ _) in *. rewrite Az in Hp. rewrite A1 in Hp, En.
  replace (az + p_ang q * move_duration (sa_motion a) - az) with (p_ang q * move_duration (sa_motion a)) in Hp by ring. fold m in Hp, En, A1, Ra, MD, V3.
  exists r. assert (Rp : 0 < r) by (unfold min_distance in R1; lra).
  split; [split; [auto|]; rewrite Sx; cbn [px py]; generalize (trig1 az); nra|]. split; [exact R1|]. split; [exact V3|]. split; [exact Dr|].
  split; [rewrite An; field; lra|]. split; [|split; [|split]].
  - intros L. rewrite (alpha_before m t Ra L) in Hp. rewrite Sx. cbn [pz]. subst p. f_equal; f_equal; f_equal; f_equal; ring.
  - intros L. rewrite (alpha_after m t Ra L) in Hp. rewrite En. subst p. f_equal; f_equal; f_equal; f_equal; ring.
  - intros L. pose proof (alpha_between m t Ra L) as Ab. subst p. rewrite Sx. rewrite rotate_circle. cbn [pz].
    replace (p_ang q * move_duration m * alpha m t) with (p_ang q * m_dur m * (alpha m t * (m_end m - m_start m))) by (unfold move_duration; ring).
    rewrite Ab, An. f_equal; f_equal; f_equal; f_equal; field; lra.
  - rewrite En, Sx. rewrite rotate_circle. cbn [pz]. rewrite An. unfold move_duration. f_equal; f_equal; f_equal; f_equal; field; lra.
Qed.
(** The trajectory has the requested number of steps and one position per source. With one
    step it is just the start positions. *)
Theorem C61_shape a d g : fair_scene a d -> build_scene_geometry a d = Ok g ->
  length (geo_traj g) = Nat.max 1 (Z.to_nat (sa_steps a)) /\ Z.of_nat (length (geo_sources g)) = sa_n a /\
  (forall row, In row (geo_traj g) -> length row = length (geo_sources g)) /\
  ((sa_steps a <= 1)%Z -> geo_traj g = [map p_start (geo_sources g)]).
Proof.
  intros F H. destruct (scene_inv _ _ _ F H) as (_ & _ & Hl & Ht).
  pose proof (constrained_ok _ _ _ _ _ _ _ _ _ _ F eq_refl Hl) as (N1 & N2 & Ra & V1 & V2 & MD & Mu & Ln & j & G).
  split; [eapply trajectory_length; eauto|]. split; [lia|]. split.
  - intros row Hr. apply In_nth_error in Hr as [k Hk]. eapply trajectory_row; eauto.
  - intros L. unfold source_trajectory in Ht. destruct (Z.leb_spec (sa_steps a) 1); [|lia]. apply Ok_inj in Ht. auto.
Qed.
(** The sources start at equally spaced azimuths about the array centre, in some order. *)
Theorem C61_spacing a d g : fair_scene a d -> build_scene_geometry a d = Ok g ->
  exists base slots, 0 <= base <= 2 * PI /\ Permutation (seq 0 (Z.to_nat (sa_n a))) slots /\
    forall i q s, nth_error (geo_sources g) i = Some q -> nth_error slots i = Some s ->
      p_az0 q = base + 2 * PI * INR s / IZR (sa_n a) /\
      exists r, 18 / 10 <= r /\ px (p_start q) = px (geo_center g) + r * cos (p_az0 q) /\ py (p_start q) = py (geo_center g) + r * sin (p_az0 q).
Proof.
  intros F H. destruct (scene_inv _ _ _ F H) as (_ & _ & Hl & Ht).
  pose proof (constrained_ok _ _ _ _ _ _ _ _ _ _ F eq_refl Hl) as (N1 & N2 & Ra & V1 & V2 & MD & Mu & Ln & j & G).
  destruct F as (_ & F & _). destruct (F j) as (U & P & _). exists (unif 0 (2 * PI) (d_base (sd_trials d j))), (d_perm (sd_trials d j)).
  split; [apply unif_bounds; auto; generalize PI_RGT_0; lra|]. split; auto. intros i q s Hq Hsl. apply G in Hq. destruct Hq as (r & R1 & R2 & Sx & Sz & Az & _).
  rewrite Az. split.
  - unfold azimuth_of. rewrite (nth_error_nth _ _ _ Hsl). rewrite INR_IZR_INZ with (n := Z.to_nat (sa_n a)), Z2Nat.id by lia. field. apply not_0_IZR. lia.
  - exists r. split; auto. rewrite Sx. auto.
Qed.

(** * C62 *)
(** The files: all sources are scaled by one factor, at most one and equal to one when no
    source exceeds 0.99; no written source exceeds 0.99; the mixture is the sample-wise sum
    of the written sources. (What is missing: the mixture may still clip.) *)
Theorem C62_partial stems out mix : written_files stems = Ok (out, mix) ->
  exists k, 0 < k <= 1 /\ out = map (map (fun x => x * k)) stems /\
    ((forall s x, In s stems -> In x s -> Rabs x <= 99 / 100) -> k = 1) /\
    (forall s x, In s out -> In x s -> Rabs x <= 99 / 100) /\ (forall s, In s out -> ~ clips s) /\
    (forall s, In s out -> length s = length mix) /\ (forall i, (i < length mix)%nat -> nth i mix 0 = sum_at out i) /\
    (forall x, In x mix -> Rabs x <= INR (length stems) * (99 / 100)) /\
    (forall k', 0 <= k' <= 1 -> (forall s x, In s stems -> In x s -> Rabs (x * k') <= 99 / 100) -> k' <= k).
Proof.
  intros H. unfold written_files in H. apply bind_ok in H as (o & Ho & H). apply bind_ok in H as (m & Hm & H). apply Ok_inj in H. injection H as -> ->.
  apply normalize_spec in Ho as (k & K & Eo & B & Un & Mx); [|lra]. apply mix_spec in Hm as (N & L & Sm). exists k.
  split; auto. split; auto. split; auto. split; auto. split.
  - intros s Hs (x & Hx & C). specialize (B s x Hs Hx). lra.
  - split; auto. split; auto. split; auto. intros x Hx. apply In_nth with (d := 0) in Hx as (i & Li & <-). rewrite Sm by auto.
    replace (length stems) with (length out) by (rewrite Eo; apply map_length). apply sum_at_bound; auto. lra.
Qed.
(** The files exist whenever the sources are of one positive length. *)
Theorem C62_total stems n : stems <> [] -> (0 < n)%nat -> (forall s, In s stems -> length s = n) -> exists r, written_files stems = Ok r.
Proof.
  intros N P L. unfold written_files. destruct (normalize_total (99 / 100) stems N) as [out Ho].
  - intros s Hs ->. specialize (L _ Hs). cbn in L. lia.
  - rewrite Ho. cbn [bind]. apply normalize_spec in Ho as (k & _ & -> & _); [|lra].
    destruct (mix_total (map (map (fun x => x * k)) stems) n) as [mix ->]; [destruct stems; [contradiction|discriminate]| |cbn; eauto].
    intros s Hs. apply in_map_iff in Hs as (s0 & <- & Hs). rewrite map_length. auto.
Qed.
(** Two sources that do not clip can give a mixture that does. *)
Theorem C62_refuted : exists stems out mix, written_files stems = Ok (out, mix) /\ clips mix.
Proof.
  assert (H : exists r, written_files [[9 / 10; 0]; [9 / 10; 1 / 10]] = Ok r) by (apply C62_total with (n := 2%nat); [discriminate|lia|]; intros s [<-|[<-|[]]]; auto).
  destruct H as [[out mix] H]. exists [[9 / 10; 0]; [9 / 10; 1 / 10]], out, mix. split; auto.
  apply C62_partial in H as (k & _ & E & U & _ & _ & L & Sm & _). rewrite U in E.
  2:{ intros s x [<-|[<-|[]]] [<-|[<-|[]]]; rewrite Rabs_pos_eq; lra. }
  assert (Lm : (0 < length mix)%nat). { rewrite <- (L (map (fun x => x * 1) [9 / 10; 0])); [cbn; lia|]. rewrite E. left. auto. }
  exists (nth 0 mix 0). split; [apply nth_In; auto|]. rewrite Sm, E by auto. unfold sum_at. cbn. rewrite Rabs_pos_eq; lra.
Qed.

(** * C63 *)
Lemma below_iff root p : below root p = true <-> inside root p.
Proof.
  revert p. induction root as [|x r IH]; intros p; cbn.
  - split; [intros _; exists p; auto|auto].
  - destruct p as [|y p].
    + split; [discriminate|intros [q E]; discriminate].
    + rewrite andb_true_iff, String.eqb_eq, IH. split.
      * intros [-> [q ->]]. exists q. auto.
      * intros [q E]. injection E as -> ->. split; auto. exists q. auto.
Qed.
(** What the checks at the beginning ask for. *)
Definition plainly_invalid (a : build_args) : Prop :=
  length (ba_room_list a) <> 3%nat \/ length (ba_center_list a) <> 3%nat \/ length (ba_margin_list a) <> 3%nat \/
  (ba_scenes a <= 0)%Z \/ (sa_n (ba_scene a) <= 0)%Z \/ (sa_moving (ba_scene a) < 0)%Z \/ (sa_n (ba_scene a) < sa_moving (ba_scene a))%Z \/
  (Z.of_nat (length (ba_speakers a)) < sa_n (ba_scene a))%Z \/ (sa_steps (ba_scene a) <= 0)%Z \/ m_dur (sa_motion (ba_scene a)) <= 0 \/ (ba_rir a <= 0)%Z.
Lemma triplet_iff l : (exists p, as_triplet l = Ok p) <-> length l = 3%nat.
Proof.
  unfold as_triplet. split; [|destruct l as [|x [|y [|z [|]]]]; cbn; try discriminate; eauto].
  intros [p H]. destruct l as [|x [|y [|z [|]]]]; try discriminate. auto.
Qed.
Lemma triplet_err l e : as_triplet l = Err e -> e = ValueError /\ length l <> 3%nat.
Proof. intros H. split; [unfold as_triplet in H; destruct l as [|x [|y [|z [|]]]]; congruence|]. intros E. apply triplet_iff in E as [p E]. congruence. Qed.
Lemma early_iff a : plainly_invalid a <-> exists e, early_checks a = Err e.
Proof.
  unfold plainly_invalid, early_checks. split.
  - intros H.
    destruct (as_triplet (ba_room_list a)) as [r|e] eqn:E1; [|cbn; eauto]. destruct (as_triplet (ba_center_list a)) as [c|e] eqn:E2; [|cbn; eauto].
    destruct (as_triplet (ba_margin_list a)) as [mg|e] eqn:E3; [|cbn; eauto]. cbn [bind].
    assert (L1 : length (ba_room_list a) = 3%nat) by (apply triplet_iff; eauto). assert (L2 : length (ba_center_list a) = 3%nat) by (apply triplet_iff; eauto).
    assert (L3 : length (ba_margin_list a) = 3%nat) by (apply triplet_iff; eauto).
    destruct (Z.leb_spec (ba_scenes a) 0); [eauto|]. destruct (Z.leb_spec (sa_n (ba_scene a)) 0); [eauto|].
    destruct (Z.ltb_spec (sa_moving (ba_scene a)) 0); [cbn; eauto|]. destruct (Z.ltb_spec (sa_n (ba_scene a)) (sa_moving (ba_scene a))); [cbn; eauto|]. cbn [orb].
    destruct (Z.ltb_spec (Z.of_nat (length (ba_speakers a))) (sa_n (ba_scene a))); [eauto|]. destruct (Z.leb_spec (sa_steps (ba_scene a)) 0); [eauto|].
    destruct (Rleb (m_dur (sa_motion (ba_scene a))) 0) eqn:E; [eauto|]. apply rleb_false in E. destruct (Z.leb_spec (ba_rir a) 0); [eauto|].
    exfalso. decompose [or] H; try lia; lra.
  - intros Hx. destruct Hx as [e H].
    destruct (as_triplet (ba_room_list a)) as [r|e1] eqn:E1; [|apply triplet_err in E1; tauto]. destruct (as_triplet (ba_center_list a)) as [c|e1] eqn:E2; [|apply triplet_err in E2; tauto].
    destruct (as_triplet (ba_margin_list a)) as [mg|e1] eqn:E3; [|apply triplet_err in E3; tauto]. cbn [bind] in H.
    destruct (Z.leb_spec (ba_scenes a) 0); [tauto|]. destruct (Z.leb_spec (sa_n (ba_scene a)) 0); [tauto|].
    destruct (Z.ltb_spec (sa_moving (ba_scene a)) 0); [tauto|]. destruct (Z.ltb_spec (sa_n (ba_scene a)) (sa_moving (ba_scene a))); [tauto|]. cbn [orb] in H.
    destruct (Z.ltb_spec (Z.of_nat (length (ba_speakers a))) (sa_n (ba_scene a))); [tauto|]. destruct (Z.leb_spec (sa_steps (ba_scene a)) 0); [tauto|].
    destruct (Rleb (m_dur (sa_motion (ba_scene a))) 0) eqn:E; [apply rleb_true in E; tauto|]. destruct (Z.leb_spec (ba_rir a) 0); [tauto|discriminate].
Qed.
(** Arguments rejected by the first block of checks leave the file system as it was; and
    without [overwrite] an existing directory makes the builder raise and change nothing.
    (What is missing: arguments that are only rejected later.) *)
Theorem C63_partial a open room_ok d rest w :
  plainly_invalid a \/ (bexists w (ba_root a) = true /\ ba_overwrite a = false) ->
  exists e, build a open room_ok d rest w = (Err e, w).
Proof.
  intros H. unfold build. destruct (early_checks a) as [[[r c] mg]|e] eqn:E; [|eauto].
  destruct H as [H|[H1 H2]]; [apply (proj1 (early_iff a)) in H; destruct H as [e0 He]; congruence|]. unfold prepare. rewrite H1, H2. cbn. eauto.
Qed.
(** Speakers recorded at different rates are never mixed: a build that succeeds read the same
    rate for every speaker, after the directory had been prepared. *)
Theorem C63_one_rate a open room_ok d rest w x w' : build a open room_ok d rest w = (Ok x, w') ->
  exists w1 f, forall spk, In spk (ba_speakers a) -> open w1 spk = Ok f.
Proof.
  unfold build. destruct (early_checks a) as [[[r c] mg]|e]; [|discriminate]. destruct (prepare a w) as [w1|e]; [|discriminate].
  destruct (late_checks a (open w1) room_ok d r c mg) as [g|e] eqn:E; [|discriminate]. intros _. exists w1.
  unfold late_checks in E. destruct (open_speakers (open w1) (ba_speakers a)) as [f|e] eqn:O; [|discriminate]. exists f. clear E.
  unfold open_speakers in O.
  assert (H : forall l acc r, foldM (fun (acc : option Z) spk =>
            do sr <- open w1 spk;
            match acc with
            | None => Ok (Some sr)
            | Some f => if negb (sr =? f)%Z then Err ValueError else Ok acc
            end) l acc = Ok r -> (acc <> None -> r = acc) /\ forall spk, In spk l -> exists f, r = Some f /\ open w1 spk = Ok f).
  { clear. induction l as [|y l IH]; cbn [foldM]; intros acc r H; [injection H as <-; split; [auto|intros s []]|].
    destruct (open w1 y) as [sr|] eqn:Ey; [|discriminate]. cbn [bind] in H. destruct acc as [f|].
    - destruct (Z.eqb_spec sr f) as [->|N]; [|discriminate]. cbn [negb bind] in H. destruct (IH _ _ H) as [I1 I2]. split; auto.
      intros spk [<-|I]; auto. exists f. split; auto. apply I1. discriminate.
    - cbn [bind] in H. destruct (IH _ _ H) as [I1 I2]. split; [congruence|].
      intros spk [<-|I]; auto. exists sr. split; auto. apply I1. discriminate. }
  match type of O with bind ?X _ = _ => destruct X as [r1|] eqn:R; [|discriminate] end. cbn [bind] in O.
  destruct r1 as [f1|]; [|discriminate]. injection O as <-. intros spk I. destruct (proj2 (H _ _ _ R) spk I) as (f2 & E2 & E3). congruence.
Qed.
(** Without [overwrite], whatever happens, an existing directory is untouched. *)
Theorem C63_no_overwrite a open room_ok d rest w : ba_overwrite a = false -> bexists w (ba_root a) = true ->
  forall p, snd (build a open room_ok d rest w) p = w p.
Proof. intros H1 H2 p. destruct (C63_partial a open room_ok d rest w) as [e ->]; auto. Qed.
(** With [overwrite], arguments that pass the first checks but fail any later one cost the
    whole existing dataset. *)
Theorem C63_late a open room_ok d rest w room center margin e :
  early_checks a = Ok (room, center, margin) -> ba_overwrite a = true -> bexists w (ba_root a) = true ->
  late_checks a (open (mkdirs (ba_root a) (rmtree (ba_root a) w))) room_ok d room center margin = Err e ->
  exists w', build a open room_ok d rest w = (Err e, w') /\ w' (ba_root a) = Some BDir /\ forall p, inside (ba_root a) p -> p <> ba_root a -> w' p = None.
Proof.
  intros H1 H2 H3 H4. unfold build, prepare. rewrite H1, H3, H2. cbn [negb]. rewrite H4. eexists. split; [reflexivity|].
  assert (Br : below (ba_root a) (ba_root a) = true) by (apply below_iff; exists []; rewrite app_nil_r; auto).
  unfold mkdirs, rmtree. split; [rewrite Br; auto|]. intros p Hp N. rewrite (proj2 (below_iff _ _) Hp).
  destruct (below p (ba_root a)) eqn:E; auto. apply below_iff in E as [q E]. destruct Hp as [q' ->]. rewrite E in N.
  exfalso. rewrite <- app_assoc in E. rewrite <- (app_nil_r (ba_root a)) in E at 1. apply app_inv_head in E. symmetry in E. apply app_eq_nil in E as [-> ->].
  rewrite app_nil_r in N. contradiction.
Qed.
(** Such arguments exist: the order of the motion ratios is only checked inside the first
    scene, long after the old dataset has been deleted. *)
Definition bad_ratios : build_args :=
  mkBA ["out"%string] ["cmu"%string] ["aew"%string] 1
    (mkSA 1 1 (P3 8 6 3) (P3 4 3 1) 1 (P3 (/2) (/2) (/4)) 16 (mkMotion (65 / 100) (35 / 100) (3 / 10) (8 / 10) 20) false)
    [8; 6; 3] [4; 3; 1] [/2; /2; /4] 4096 true.
Theorem C63_refuted : exists a open room_ok d rest w e w' p x,
  build a open room_ok d rest w = (Err e, w') /\ e = ValueError /\ inside (ba_root a) p /\ w p = Some (BFile x) /\ w' p = None /\
  (forall w spk, open w spk = Ok 16000%Z) /\ room_ok = Ok tt.
Proof.
  set (w := (fun p => match p with ["out"%string] => Some BDir | ["out"; "mixture.wav"]%string => Some (BFile [1]) | _ => None end) : bworld).
  set (d := mkSD (P3 0 0 0) [0%nat] (fun _ => mkDraws 0 [0%nat] (fun _ => 0) (fun _ => 0) (fun _ => 0) (fun _ => true))).
  set (open := fun (_ : bworld) (_ : string) => Ok 16000%Z : result Z).
  assert (E1 : early_checks bad_ratios = Ok (P3 8 6 3, P3 4 3 1, P3 (/2) (/2) (/4))).
  { unfold early_checks, bad_ratios. cbn. rewrite rleb_intro_false by lra. auto. }
  assert (E2 : exists e, late_checks bad_ratios (open (mkdirs (ba_root bad_ratios) (rmtree (ba_root bad_ratios) w))) (Ok tt) d (P3 8 6 3) (P3 4 3 1) (P3 (/2) (/2) (/4)) = Err e /\ e = ValueError).
  { unfold late_checks. cbn [ba_speakers bad_ratios open_speakers foldM bind ba_scene sa_motion m_dur sa_edge sa_n sa_moving sa_steps sa_random_center open].
    unfold open_speakers. cbn [foldM bind open]. unfold open. cbn [bind].
    destruct (target_samples 20 16000 <=? 0)%Z; [eauto|].
    destruct (polyhedron_array _ _ _) as [base|e] eqn:Ep; cbn [bind].
    - destruct (Z.of_nat (length base) <? 1)%Z; [eauto|]. unfold build_scene_geometry. cbn [sa_edge sa_random_center sa_center sa_motion sa_room sa_margin sa_n sa_moving sa_steps].
      rewrite Ep. cbn [bind]. unfold place_mics. rewrite Ep. cbn [bind]. unfold constrained_positions. cbn [Z.leb Z.ltb Z.compare orb Pos.compare Pos.compare_cont].
      unfold ratios_ok. cbn [m_start m_end]. rewrite (rltb_intro_false (65 / 100) (35 / 100)) by lra. rewrite andb_false_r. cbn. eauto.
    - exists e. split; auto. unfold polyhedron_array in Ep. destruct (Rleb _ 0); [congruence|]. cbn in Ep. discriminate. }
  destruct E2 as (e & E2 & Ee).
  destruct (C63_late bad_ratios open (Ok tt) d (fun w _ => (Ok (0, 0)%Z, w)) w _ _ _ e E1 eq_refl eq_refl E2) as (w' & B & _ & D).
  exists bad_ratios, open, (Ok tt), d, (fun w _ => (Ok (0, 0)%Z, w)), w, e, w', ["out"; "mixture.wav"]%string, [1].
  split; auto. split; auto. split; [exists ["mixture.wav"%string]; auto|]. split; auto. split; [|split; auto].
  apply D; [exists ["mixture.wav"%string]; auto|discriminate].
Qed.
(** If the corpus lies inside the output directory, [overwrite] deletes the corpus itself, and
    then the build fails for want of data. *)
Theorem C63_corpus_refuted a open room_ok d rest w spk0 spks room center margin :
  early_checks a = Ok (room, center, margin) -> ba_overwrite a = true -> bexists w (ba_root a) = true ->
  inside (ba_root a) (ba_cmu a) -> ba_cmu a <> ba_root a -> ba_speakers a = spk0 :: spks ->
  (forall w spk, w (ba_cmu a) = None -> open w spk = Err FileNotFoundError) ->
  exists w', build a open room_ok d rest w = (Err FileNotFoundError, w') /\ forall p, inside (ba_cmu a) p -> w' p = None.
Proof.
  intros H1 H2 H3 H4 N Hs Ho.
  assert (G : forall p, inside (ba_root a) p -> p <> ba_root a -> mkdirs (ba_root a) (rmtree (ba_root a) w) p = None).
  { intros p Hp Np. unfold mkdirs, rmtree. rewrite (proj2 (below_iff _ _) Hp).
    destruct (below p (ba_root a)) eqn:E; auto. apply below_iff in E as [q E]. destruct Hp as [q' ->]. exfalso.
    rewrite <- app_assoc in E. rewrite <- (app_nil_r (ba_root a)) in E at 1. apply app_inv_head in E. symmetry in E. apply app_eq_nil in E as [-> ->].
    rewrite app_nil_r in Np. contradiction. }
  destruct (C63_late a open room_ok d rest w room center margin FileNotFoundError) as (w' & B & _ & D); auto.
  - unfold late_checks, open_speakers. rewrite Hs. cbn [foldM]. rewrite Ho by (apply G; auto). reflexivity.
  - exists w'. split; auto. intros p [q ->]. destruct H4 as [q0 E]. apply D.
    + exists (q0 ++ q). rewrite E, app_assoc. auto.
    + rewrite E in *. intros X. rewrite <- app_assoc in X. rewrite <- (app_nil_r (ba_root a)) in X at 2. apply app_inv_head in X. apply app_eq_nil in X as [-> ->]. rewrite app_nil_r in N. contradiction.
Qed.

(** * C56, for the builder's own loader *)
(** The signal has exactly the target length and is the beginning of the concatenation of
    utterances of that speaker, taken epoch by epoch and no more than needed. *)
Theorem C56_fixed c g target fuel k spk k' row ids : fair g -> (0 < target)%Z ->
  load_fixed_length_signal c g target fuel k spk = Some (Ok (k', row, ids)) -> fixed_row_for c (Z.to_nat target) spk ids row.
Proof. apply load_fixed_spec. Qed.
(** It ends whenever one utterance is not empty or cannot be loaded. *)
Theorem C56_fixed_terminates c g target k spk all : fair g -> utts c spk = Ok all -> all <> [] ->
  (exists u, In u all /\ forall a f, audio_of c spk u = Ok (a, f) -> a <> []) ->
  exists fuel r, load_fixed_length_signal c g target fuel k spk = Some r.
Proof.
  intros G Hu N (u0 & I0 & P0). unfold load_fixed_length_signal. rewrite Hu. destruct all as [|u all]; [contradiction|].
  assert (P : Permutation (u :: all) (shuffle g k (u :: all))) by apply (proj1 G).
  destruct (fhalts_some c g target spk (u :: all) u0 G I0 P0 (Z.to_nat target) (shuffle g k (u :: all)) 0 0 (mkGot (S k) None [] [])) as (fuel & r & E); auto; [lia|lia|].
  exists fuel. rewrite E. destruct r as [st|]; [|eauto]. destruct (cut _ _); eauto.
Qed.
(** Unlike [load_dataset_sources] it never compares sample rates: utterances of different rates are joined. *)
Theorem C56_fixed_rates_unchecked : exists c g target fuel k' row ids, fair g /\
  load_fixed_length_signal c g target fuel 0 "s" = Some (Ok (k', row, ids)) /\
  exists u v a b f h, In u ids /\ In v ids /\ audio_of c "s" u = Ok (a, f) /\ audio_of c "s" v = Ok (b, h) /\ f <> h.
Proof.
  exists (mkCorpus ["s"%string] (fun _ => Ok ["u"; "v"]%string) (fun _ u => if String.eqb u "u" then Ok ([1; 2], 8000%Z) else Ok ([3; 4], 16000%Z))).
  exists (mkRng (fun l n => firstn n l) (fun _ l => l)), 3%Z, 5%nat, 1%nat, [1; 2; 3], ["u"; "v"]%string. split.
  - split; [intros; apply Permutation_refl|]. intros l n H. cbn. split; [rewrite firstn_length; lia|]. exists (skipn n l). rewrite firstn_skipn. apply Permutation_refl.
  - split; [reflexivity|]. exists "u"%string, "v"%string, [1; 2], [3; 4], 8000%Z, 16000%Z. cbn. repeat split; auto. discriminate.
Qed.

(** * C69 *)
(** The convolved stem of [n_mics] channels and [T] samples is written with one row per
    sample and one column per microphone, provided [T] is neither one nor [n_mics]. *)
Theorem C69_partial t n_mics T : wf t -> shape t = [n_mics; T] -> T <> 1%nat -> T <> n_mics -> (1 <= n_mics)%nat ->
  exists o, to_time_channel_audio t n_mics = Ok o /\ shape o = [T; n_mics] /\
    forall i j, (i < n_mics)%nat -> (j < T)%nat -> tget o [j; i] = tget t [i; j].
Proof.
  intros W S N1 N2 P. unfold to_time_channel_audio, squeeze. rewrite S. cbn [filter].
  destruct (Nat.eqb_spec T 1); [contradiction|]. destruct (Nat.eqb_spec n_mics 1) as [->|N3]; cbn [negb shape].
  - eexists. split; [reflexivity|]. split; [reflexivity|]. intros i j Hi Hj. assert (i = 0)%nat by lia. subst i. unfold tget. rewrite S. cbn. f_equal.
  - destruct (Nat.eqb_spec T n_mics); [contradiction|]. rewrite Nat.eqb_refl. eexists. split; [reflexivity|]. split; [reflexivity|].
    intros i j Hi Hj. rewrite (transpose2_get _ n_mics T i j); auto. unfold tget. rewrite S. auto.
Qed.
(** With as many samples as microphones the axes are exchanged; a single sample becomes a
    mono file of [n_mics] samples. *)
Theorem C69_refuted : exists t o, wf t /\ shape t = [6%nat; 6%nat] /\ to_time_channel_audio t 6 = Ok o /\ tget o [0%nat; 1%nat] <> tget t [1%nat; 0%nat] /\
  forall t1, shape t1 = [6%nat; 1%nat] -> exists o1, to_time_channel_audio t1 6 = Ok o1 /\ shape o1 = [6%nat; 1%nat].
Proof.
  exists (mkT [6%nat; 6%nat] (map INR (seq 0 36))), (mkT [6%nat; 6%nat] (map INR (seq 0 36))). split; [reflexivity|]. split; [reflexivity|]. split; [reflexivity|]. split.
  - intros E. change (INR 1 = INR 6) in E. apply INR_eq in E. discriminate.
  - intros t1 S. unfold to_time_channel_audio, squeeze. rewrite S. cbn. eauto.
Qed.

(** * Examples *)
(** Two sources in the default room, the second moving with 0.5 m/s for 6 of 20 s: a scene is
    built for a fixed centre. *)
Definition ex_args : scene_args :=
  mkSA 2 1 (P3 8 6 3) (P3 4 3 (15 / 10)) 1 (P3 (5 / 10) (5 / 10) (3 / 10)) 1024 (mkMotion (35 / 100) (65 / 100) (3 / 10) (8 / 10) 20) false.
Definition ex_draws : scene_draws :=
  mkSD (P3 0 0 0) [1%nat] (fun _ => mkDraws 0 [1%nat; 0%nat] (fun _ => 1 / 2) (fun _ => 1 / 2) (fun _ => 4 / 10) (fun _ => true)).
Example ex_fair : fair_scene ex_args ex_draws.
Proof.
  split; [unfold u01_3, u01; cbn; lra|]. split; [|split; [repeat constructor; intros []|split; [intros i [<-|[]]; cbn; change (Pos.to_nat 2) with 2%nat; lia|reflexivity]]].
  intros k. unfold fair_trial, u01. cbn. change (Pos.to_nat 2) with 2%nat. cbn. split; [lra|]. split; [apply perm_swap|intros; lra].
Qed.
Example C60_ex : exists g, build_scene_geometry ex_args ex_draws = Ok g.
Proof. apply C60_feasible; [apply ex_fair|]. unfold sensible, center_fits. cbn. split; [repeat split; lia || lra|]. intros f [-> | ->]; cbn; lra. Qed.
Example C60_mics_ex : forall a, a = mkSA 2 1 (P3 8 6 3) (P3 0 0 0) 1 (P3 (5 / 10) (5 / 10) (3 / 10)) 1024 (mkMotion (35 / 100) (65 / 100) (3 / 10) (8 / 10) 20) true ->
  exists g, build_scene_geometry a ex_draws = Ok g /\ forall p, In p (geo_mics g) -> in_room (P3 8 6 3) p.
Proof.
  intros a ->. match goal with |- context [build_scene_geometry ?x _] => set (a := x) end.
  assert (F : fair_scene a ex_draws) by apply ex_fair.
  assert (S : 1 <= sqrt 2). { rewrite <- sqrt_1 at 1. apply sqrt_le_1_alt. lra. }
  assert (I : 0 < 1 / sqrt 2 <= 1). { split; [apply Rmult_lt_0_compat; [lra|apply Rinv_0_lt_compat; lra]|]. apply (Rmult_le_reg_r (sqrt 2)); [lra|]. unfold Rdiv. rewrite Rmult_assoc, Rinv_l; lra. }
  destruct (proj2 (C60_feasible a ex_draws F)) as [g G].
  { split; [unfold sensible, a; cbn; repeat split; lia || lra|]. unfold a, spacious. cbn. split; [lra|].
    intros f [-> | ->]; [exists 3, 4|exists (25 / 10), (31 / 10)]; cbn; (split; [lra|]); intros c [-> | ->]; lra. }
  exists g. split; auto. apply (C60_microphones a ex_draws g F eq_refl G).
Qed.
(** The moving source: half-way through the movement (3 s) it has turned by 0.5 * 3 / r. *)
Example C61_ex g row q p : build_scene_geometry ex_args ex_draws = Ok g -> nth_error (geo_traj g) 512 = Some row ->
  nth_error (geo_sources g) 1 = Some q -> nth_error row 1 = Some p ->
  exists r, hdist_is r (geo_center g) (p_start q) /\
    p = rotate (geo_center g) (IZR (p_dir q) * (p_vel q * (20 * (512 / 1023 - 35 / 100)) / r)) (p_start q).
Proof.
  intros G Hr Hq Hp. pose proof (C61_profile ex_args ex_draws g 512 row 1 q p ex_fair G ltac:(cbn; lia) Hr Hq Hp) as H. cbv zeta in H.
  destruct (in_dec _ _ _) as [I|I]; [|destruct I; left; reflexivity].
  destruct H as (r & H1 & _ & _ & _ & _ & _ & _ & H2 & _). exists r. split; auto.
  assert (E : INR 512 / (IZR (sa_steps ex_args) - 1) = 512 / 1023). { rewrite INR_IZR_INZ. cbn [sa_steps ex_args]. change (Z.of_nat 512) with 512%Z. f_equal. f_equal. lra. }
  rewrite E in H2. apply H2. cbn. lra.
Qed.
(** Stems with peak 1.98 are halved; the mixture is the sum of the halves. *)
Example C62_ex : exists out mix, written_files [[198 / 100; 0]; [0; -1]] = Ok (out, mix) /\ nth 1 mix 0 = sum_at out 1 /\ forall s, In s out -> ~ clips s.
Proof.
  destruct (C62_total [[198 / 100; 0]; [0; -1]] 2) as [[out mix] H]; [discriminate|lia|intros s [<-|[<-|[]]]; auto|].
  exists out, mix. split; auto. apply C62_partial in H as (k & _ & E & _ & _ & C & L & Sm & _). split; auto. apply Sm.
  rewrite <- (L (map (fun x => x * k) [198 / 100; 0])); [cbn; lia|]. rewrite E. left. auto.
Qed.
(** A negative number of RIR samples is noticed in time. *)
Example C63_ex open room_ok d rest w : exists e, build (mkBA ["out"%string] ["cmu"%string] ["aew"; "axb"]%string 1 ex_args [8; 6; 3] [4; 3; 1] [1; 1; 1] (-1) true) open room_ok d rest w = (Err e, w).
Proof. apply C63_partial. left. unfold plainly_invalid. cbn. repeat (try lia; right). Qed.
Example C69_ex : to_time_channel_audio (mkT [2%nat; 3%nat] [1; 2; 3; 4; 5; 6]) 2 = Ok (mkT [3%nat; 2%nat] [1; 4; 2; 5; 3; 6]).
Proof. reflexivity. Qed.
Example C56_fixed_ex : load_fixed_length_signal (mkCorpus ["s"%string] (fun _ => Ok ["u"; "v"]%string) (fun _ u => if String.eqb u "u" then Ok ([1; 2], 8%Z) else Ok ([3; 4; 5], 8%Z)))
  (mkRng (fun l n => firstn n l) (fun _ l => rev l)) 6 9 0 "s" = Some (Ok (2%nat, [3; 4; 5; 1; 2; 1], ["v"; "u"; "u"]%string)).
Proof. reflexivity. Qed.

Print Assumptions C60_sources.
Print Assumptions C60_microphones.
Print Assumptions C60_feasible.
Print Assumptions C60_fixed_center_unchecked.
Print Assumptions C61_profile.
Print Assumptions C61_shape.
Print Assumptions C61_spacing.
Print Assumptions C62_partial.
Print Assumptions C62_total.
Print Assumptions C62_refuted.
Print Assumptions C60_trials.
Print Assumptions C63_one_rate.
Print Assumptions C63_partial.
Print Assumptions C63_no_overwrite.
Print Assumptions C63_late.
Print Assumptions C63_refuted.
Print Assumptions C63_corpus_refuted.
Print Assumptions C56_fixed.
Print Assumptions C56_fixed_terminates.
Print Assumptions C56_fixed_rates_unchecked.
Print Assumptions C69_partial.
Print Assumptions C69_refuted.
