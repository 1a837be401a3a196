(** Lemmas about the dataset builder: geometry. *)
From Coq Require Import String List ZArith Reals Lra Lia Bool Permutation Psatz.
From Verif Require Import Prelude PreludeFacts FloatModel DirModel RoomModel GeoModel GeoSpec GeoProofs GeoSampling GeoSolids GeoProps DsModel DsSpec BldModel BldSpec.
Import ListNotations.
Local Notation length := List.length.
Local Open Scope R_scope.

Lemma rltb_true x y : Rltb x y = true -> x < y.
Proof. unfold Rltb. destruct (Rlt_dec x y); [auto|discriminate]. Qed.
Lemma rltb_false x y : Rltb x y = false -> y <= x.
Proof. unfold Rltb. destruct (Rlt_dec x y); [discriminate|lra]. Qed.
Lemma rltb_intro x y : x < y -> Rltb x y = true.
Proof. unfold Rltb. destruct (Rlt_dec x y); [auto|lra]. Qed.
Lemma rltb_intro_false x y : y <= x -> Rltb x y = false.
Proof. unfold Rltb. destruct (Rlt_dec x y); [lra|auto]. Qed.
Lemma rleb_intro x y : x <= y -> Rleb x y = true.
Proof. unfold Rleb. destruct (Rle_dec x y); [auto|lra]. Qed.
Lemma rleb_intro_false x y : y < x -> Rleb x y = false.
Proof. unfold Rleb. destruct (Rle_dec x y); [lra|auto]. Qed.
Lemma unif_bounds a b u : u01 u -> a <= b -> a <= unif a b u <= b.
Proof. unfold u01, unif. intros H L. nra. Qed.

(** ** Radii *)
Lemma trig1 x : cos x * cos x + sin x * sin x = 1.
Proof. generalize (sin2_cos2 x). unfold Rsqr. lra. Qed.
Lemma axis_inside cs c lo hi b r : -1 <= cs <= 1 -> lo <= c <= hi -> axis_bound cs c lo hi = Some b ->
  0 <= r -> (forall x, In x b -> r <= x) ->
  match b with [] => Rabs cs <= eps | _ => lo <= c + r * cs <= hi end.
Proof.
  unfold axis_bound, eps. intros Hc Hl H Hr Hb. destruct (Rltb _ cs) eqn:E1.
  - injection H as <-. apply rltb_true in E1. specialize (Hb _ (or_introl eq_refl)).
    assert (r * cs <= hi - c) by (apply (Rmult_le_compat_r cs) in Hb; [|lra]; unfold Rdiv in Hb; rewrite Rmult_assoc, Rinv_l in Hb by lra; lra). nra.
  - apply rltb_false in E1. destruct (Rltb cs _) eqn:E2.
    + injection H as <-. apply rltb_true in E2. specialize (Hb _ (or_introl eq_refl)).
      assert (lo - c <= r * cs).
      { apply (Rmult_le_compat_r (- cs)) in Hb; [|lra]. replace ((lo - c) / cs * - cs) with (c - lo) in Hb by (field; lra). lra. } nra.
    + apply rltb_false in E2. destruct (Rltb c lo || Rltb hi c); [discriminate|]. injection H as <-. apply Rabs_le. lra.
Qed.
Lemma axis_generous cs c lo hi m : -1 <= cs <= 1 -> 0 <= m -> m <= c - lo -> m <= hi - c ->
  exists b, axis_bound cs c lo hi = Some b /\ (forall x, In x b -> m <= x) /\ (b = [] -> Rabs cs <= eps).
Proof.
  unfold axis_bound. intros Hc Hm H1 H2. destruct (Rltb eps cs) eqn:E1.
  - apply rltb_true in E1. assert (0 < cs) by (unfold eps in E1; lra). eexists. split; [reflexivity|]. split; [|discriminate]. intros x [<-|[]].
    apply (Rmult_le_reg_r cs); auto. unfold Rdiv. rewrite Rmult_assoc, Rinv_l by lra. nra.
  - apply rltb_false in E1. destruct (Rltb cs (- eps)) eqn:E2.
    + apply rltb_true in E2. assert (cs < 0) by (unfold eps in E2; lra). eexists. split; [reflexivity|]. split; [|discriminate]. intros x [<-|[]].
      replace ((lo - c) / cs) with ((c - lo) / - cs) by (field; lra).
      apply (Rmult_le_reg_r (- cs)); [lra|]. unfold Rdiv. rewrite Rmult_assoc, Rinv_l by lra. nra.
    + apply rltb_false in E2. rewrite !rltb_intro_false by lra. cbn. eexists. split; [reflexivity|]. split; [intros x []|]. intros _. apply Rabs_le. lra.
Qed.
Lemma fold_min_le l : forall b x, In x (b :: l) -> fold_left Rmin l b <= x.
Proof.
  induction l as [|y l IH]; intros b x H; cbn in *.
  - destruct H as [ -> |[]]; lra.
  - destruct H as [ -> |[ -> |H]].
    + apply Rle_trans with (Rmin x y); [apply IH; auto|apply Rmin_l].
    + apply Rle_trans with (Rmin b x); [apply IH; auto|apply Rmin_r].
    + apply IH. auto.
Qed.
Lemma fold_min_ge l : forall b m, (forall x, In x (b :: l) -> m <= x) -> m <= fold_left Rmin l b.
Proof.
  induction l as [|y l IH]; intros b m H; cbn in *; [apply H; auto|].
  apply IH. intros x [<-|Hx]; [|apply H; auto]. apply Rmin_glb; apply H; auto.
Qed.
Lemma rabs_inv x y : Rabs x <= y -> - y <= x <= y.
Proof. intros H. generalize (Rle_abs x), (Rle_abs (- x)). rewrite Rabs_Ropp. lra. Qed.
Lemma both_small az : ~ (Rabs (cos az) <= eps /\ Rabs (sin az) <= eps).
Proof.
  unfold eps. intros [H1 H2]. generalize (trig1 az). apply rabs_inv in H1. apply rabs_inv in H2. nra.
Qed.
(** The axis whose bound is skipped moves by less than the distance to the margin. *)
Lemma skipped_axis c s r ext : c * c + s * s = 1 -> Rabs c <= eps -> 0 <= r -> r * Rabs s <= ext -> ext <= 900000000 ->
  - (18 / 10) <= r * c <= 18 / 10.
Proof.
  unfold eps. intros T H Hr Hs He. apply rabs_inv in H.
  assert (K : 1 / 2 <= Rabs s). { unfold Rabs. destruct (Rcase_abs s); nra. }
  assert (r <= 1800000000) by nra. split; nra.
Qed.
Lemma axis_reach cs c lo hi b r ext : -1 <= cs <= 1 -> lo <= c <= hi -> hi - lo <= ext -> axis_bound cs c lo hi = Some b -> b <> [] ->
  0 <= r -> (forall x, In x b -> r <= x) -> r * Rabs cs <= ext.
Proof.
  intros Hc Hl He H N Hr Hb. pose proof (axis_inside cs c lo hi b r Hc Hl H Hr Hb) as K. destruct b; [contradiction|].
  unfold Rabs. destruct (Rcase_abs cs); nra.
Qed.
Lemma max_radius_inside az c room margin r : 
  18 / 10 <= max_uniform_radius c room margin -> px room - 2 * px margin <= 900000000 -> py room - 2 * py margin <= 900000000 ->
  0 <= r -> r <= max_radius_for_azimuth az c room margin ->
  px margin <= px c + r * cos az <= px room - px margin /\ py margin <= py c + r * sin az <= py room - py margin.
Proof.
  intros Hm Ex Ey Hr H. unfold max_uniform_radius in Hm.
  assert (M : 18/10 <= px c - px margin /\ 18/10 <= px room - px margin - px c /\ 18/10 <= py c - py margin /\ 18/10 <= py room - py margin - py c).
  { pose proof (Rmin_l (Rmin (Rmin (px c - px margin) (px room - px margin - px c)) (py c - py margin)) (py room - py margin - py c)).
    pose proof (Rmin_r (Rmin (Rmin (px c - px margin) (px room - px margin - px c)) (py c - py margin)) (py room - py margin - py c)).
    pose proof (Rmin_l (Rmin (px c - px margin) (px room - px margin - px c)) (py c - py margin)).
    pose proof (Rmin_r (Rmin (px c - px margin) (px room - px margin - px c)) (py c - py margin)).
    pose proof (Rmin_l (px c - px margin) (px room - px margin - px c)).
    pose proof (Rmin_r (px c - px margin) (px room - px margin - px c)). lra. }
  destruct M as (M1 & M2 & M3 & M4). unfold max_radius_for_azimuth in H.
  destruct (axis_bound (cos az) _ _ _) as [b1|] eqn:E1; [|exfalso; lra]. destruct (axis_bound (sin az) _ _ _) as [b2|] eqn:E2; [|exfalso; lra].
  assert (A : forall x, In x (b1 ++ b2) -> r <= x).
  { destruct (b1 ++ b2) as [|b l]; [intros x []|]. intros x Hx. eapply Rle_trans; [exact H|apply fold_min_le; auto]. }
  assert (C1 := COS_bound az). assert (C2 := SIN_bound az).
  assert (A1 : forall x, In x b1 -> r <= x) by (intros; apply A, in_or_app; auto).
  assert (A2 : forall x, In x b2 -> r <= x) by (intros; apply A, in_or_app; auto).
  assert (B1 : px margin <= px c <= px room - px margin) by lra. assert (B2 : py margin <= py c <= py room - py margin) by lra.
  assert (D1 : px room - px margin - px margin <= 900000000) by lra. assert (D2 : py room - py margin - py margin <= 900000000) by lra.
  pose proof (axis_inside _ _ _ _ _ r C1 B1 E1 Hr A1) as I1.
  pose proof (axis_inside _ _ _ _ _ r C2 B2 E2 Hr A2) as I2.
  pose proof (trig1 az) as T. assert (T' : sin az * sin az + cos az * cos az = 1) by lra. destruct b1 as [|x1 b1], b2 as [|x2 b2].
  - destruct (both_small az); auto.
  - assert (K := axis_reach _ _ _ _ _ r 900000000 C2 B2 D2 E2 ltac:(discriminate) Hr A2).
    assert (S := skipped_axis _ _ _ _ T I1 Hr K (Rle_refl _)). lra.
  - assert (K := axis_reach _ _ _ _ _ r 900000000 C1 B1 D1 E1 ltac:(discriminate) Hr A1).
    assert (S := skipped_axis _ _ _ _ T' I2 Hr K (Rle_refl _)). lra.
  - lra.
Qed.
Lemma mu_bounds c room margin m : m <= max_uniform_radius c room margin <->
  m <= px c - px margin /\ m <= px room - px margin - px c /\ m <= py c - py margin /\ m <= py room - py margin - py c.
Proof.
  unfold max_uniform_radius. split.
  - intros H. pose proof (Rmin_l (Rmin (Rmin (px c - px margin) (px room - px margin - px c)) (py c - py margin)) (py room - py margin - py c)).
    pose proof (Rmin_r (Rmin (Rmin (px c - px margin) (px room - px margin - px c)) (py c - py margin)) (py room - py margin - py c)).
    pose proof (Rmin_l (Rmin (px c - px margin) (px room - px margin - px c)) (py c - py margin)).
    pose proof (Rmin_r (Rmin (px c - px margin) (px room - px margin - px c)) (py c - py margin)).
    pose proof (Rmin_l (px c - px margin) (px room - px margin - px c)).
    pose proof (Rmin_r (px c - px margin) (px room - px margin - px c)). lra.
  - intros (A & B & C & D). repeat apply Rmin_glb; auto.
Qed.
Lemma max_radius_generous az c room margin : 0 <= max_uniform_radius c room margin ->
  max_uniform_radius c room margin <= max_radius_for_azimuth az c room margin.
Proof.
  intros H. set (m := max_uniform_radius c room margin) in *. destruct (proj1 (mu_bounds c room margin m)) as (A & B & C & D); [unfold m; lra|].
  unfold max_radius_for_azimuth.
  destruct (axis_generous (cos az) (px c) (px margin) (px room - px margin) m (COS_bound az) H A B) as (b1 & -> & G1 & N1).
  destruct (axis_generous (sin az) (py c) (py margin) (py room - py margin) m (SIN_bound az) H C D) as (b2 & -> & G2 & N2).
  destruct (b1 ++ b2) as [|b l] eqn:E.
  - apply app_eq_nil in E as [ -> -> ]. destruct (both_small az); auto.
  - apply fold_min_ge. rewrite <- E. intros x Hx. apply in_app_or in Hx as [Hx|Hx]; auto.
Qed.

(** ** One source *)
Lemma hnorm_circle c r az z : 0 <= r -> hnorm (P3 (px c + r * cos az) (py c + r * sin az) z) c = r.
Proof.
  intros H. unfold hnorm. cbn [px py]. apply sqrt_lem_1 with (y := r); auto; [nra|]. generalize (trig1 az). nra.
Qed.
Lemma circle_inside c room margin r az : 0 <= r -> r <= max_uniform_radius c room margin ->
  px margin <= px c + r * cos az <= px room - px margin /\ py margin <= py c + r * sin az <= py room - py margin.
Proof.
  intros H1 H2. apply mu_bounds in H2. generalize (COS_bound az), (SIN_bound az). intros. repeat split; nra.
Qed.
Lemma sample_position_ok ur uz az c room margin mr mx p : u01 ur -> u01 uz -> sample_position_on_azimuth ur uz az c room margin mr mx = Ok p ->
  exists r, mr <= r /\ r <= max_radius_for_azimuth az c room margin /\ (forall m, mx = Some m -> r <= m) /\
    px p = px c + r * cos az /\ py p = py c + r * sin az /\ pz margin <= pz p <= pz room - pz margin.
Proof.
  intros U1 U2 H. unfold sample_position_on_azimuth in H. destruct (Rleb _ (pz margin)) eqn:Ez; [discriminate|]. apply rleb_false in Ez.
  set (rm := match mx with Some m => _ | None => _ end) in H. destruct (Rltb rm mr) eqn:Er; [discriminate|]. apply rltb_false in Er.
  apply Ok_inj in H. subst p. pose proof (unif_bounds mr rm ur U1 Er) as B. exists (unif mr rm ur). cbn [px py pz].
  split; [lra|]. split; [|split; [|split; [auto|split; [auto|apply unif_bounds; auto; lra]]]].
  - eapply Rle_trans; [apply B|]. unfold rm. destruct mx; [apply Rmin_l|lra].
  - intros m ->. eapply Rle_trans; [apply B|]. apply Rmin_r.
Qed.
Lemma sample_position_total ur uz az c room margin mr mx : pz margin < pz room - pz margin -> 0 <= mr <= max_uniform_radius c room margin ->
  (mx = None \/ mx = Some (max_uniform_radius c room margin)) -> exists p, sample_position_on_azimuth ur uz az c room margin mr mx = Ok p.
Proof.
  intros Hz H Hm. unfold sample_position_on_azimuth. rewrite rleb_intro_false by auto.
  assert (G := max_radius_generous az c room margin ltac:(lra)). rewrite rltb_intro_false; [eauto|].
  destruct Hm as [ -> | -> ]; [lra|]. apply Rmin_glb; lra.
Qed.
(** What a placed source satisfies. *)
Definition good (m : motion) (c room margin : p3) (az0 : R) (mov : bool) (q : placed) : Prop :=
  exists r, min_distance <= r /\ r <= max_radius_for_azimuth az0 c room margin /\
    p_start q = P3 (px c + r * cos az0) (py c + r * sin az0) (pz (p_start q)) /\
    pz margin <= pz (p_start q) <= pz room - pz margin /\ p_az0 q = az0 /\
    if mov then
      r <= max_uniform_radius c room margin /\ v_min m <= p_vel q <= v_max m /\ (p_dir q = 1 \/ p_dir q = -1)%Z /\
      p_ang q = IZR (p_dir q) * p_vel q / r /\ p_az1 q = az0 + p_ang q * move_duration m /\
      p_end q = P3 (px c + r * cos (p_az1 q)) (py c + r * sin (p_az1 q)) (pz (p_start q))
    else p_end q = p_start q /\ p_vel q = 0 /\ p_ang q = 0 /\ p_dir q = 0%Z.
(** The azimuth of a source. *)
Definition azimuth_of (d : draws) (n i : nat) : R := unif 0 (2 * PI) (d_base d) + INR (nth i (d_perm d) 0%nat) * (2 * PI / INR n).
Lemma p3_eta p : p = P3 (px p) (py p) (pz p).
Proof. destruct p; reflexivity. Qed.
Lemma place_one_good n d moving m c room margin i q : fair_trial n d -> v_min m <= v_max m ->
  place_one d n moving m c room margin min_distance i = Ok q -> good m c room margin (azimuth_of d n i) (is_moving moving i) q.
Proof.
  intros (_ & _ & F) Hv H. destruct (F i) as (U1 & U2 & U3). unfold place_one in H. fold (azimuth_of d n i) in H. set (az := azimuth_of d n i) in *.
  destruct (sample_position_on_azimuth _ _ _ _ _ _ _ _) as [p|] eqn:Es; [|discriminate]. cbn [bind] in H.
  apply sample_position_ok in Es as (r & R1 & R2 & R3 & X & Y & Z); auto.
  assert (R0 : 0 <= r) by (unfold min_distance in R1; lra).
  assert (Ep : p = P3 (px c + r * cos az) (py c + r * sin az) (pz p)) by (rewrite <- X, <- Y; apply p3_eta).
  exists r. destruct (is_moving moving i); cbn [negb] in H.
  - assert (Hn : hnorm p c = r) by (rewrite Ep; apply hnorm_circle; auto). rewrite Hn in H.
    destruct (Rltb r min_distance); [discriminate|]. destruct (Rleb r eps); [discriminate|].
    destruct (negb _); [discriminate|]. apply Ok_inj in H. subst q. cbn.
    repeat (split; auto); try lra; try (destruct (d_plus d i); auto); apply unif_bounds; auto.
  - apply Ok_inj in H. subst q. cbn. repeat (split; auto); lra.
Qed.
Lemma place_one_total n d moving m c room margin i : pz margin < pz room - pz margin -> min_distance <= max_uniform_radius c room margin ->
  fair_trial n d -> exists q, place_one d n moving m c room margin min_distance i = Ok q.
Proof.
  intros Hz Hm (_ & _ & F). destruct (F i) as (U1 & U2 & U3). unfold place_one. fold (azimuth_of d n i). set (az := azimuth_of d n i).
  assert (Q : 0 < min_distance) by (unfold min_distance; lra).
  destruct (sample_position_total (d_radius d i) (d_z d i) az c room margin min_distance
    (if is_moving moving i then Some (max_uniform_radius c room margin) else None)) as [p Es]; auto; [lra|destruct (is_moving moving i); auto|].
  rewrite Es. cbn [bind]. apply sample_position_ok in Es as (r & R1 & R2 & R3 & X & Y & Z); auto.
  assert (Ep : p = P3 (px c + r * cos az) (py c + r * sin az) (pz p)) by (rewrite <- X, <- Y; apply p3_eta).
  destruct (is_moving moving i); cbn [negb]; [|eauto].
  assert (Hn : hnorm p c = r) by (rewrite Ep; apply hnorm_circle; lra). rewrite Hn.
  rewrite rltb_intro_false by auto. rewrite rleb_intro_false by (unfold eps, min_distance in *; lra). cbn [px py pz].
  specialize (R3 _ eq_refl).
  match goal with |- context [negb ((Rleb _ (_ + _ * cos ?a) && _) && _)] => destruct (circle_inside c room margin r a) as [[? ?] [? ?]]; [lra|auto|] end.
  rewrite !rleb_intro by auto. cbn. eauto.
Qed.
Lemma mapM_total {A B} (f : A -> result B) l : (forall x, In x l -> exists y, f x = Ok y) -> exists ys, mapM f l = Ok ys.
Proof.
  induction l as [|x l IH]; intros H; cbn; [eauto|]. destruct (H x (or_introl eq_refl)) as [y ->]. destruct IH as [ys ->]; [intros; apply H; right; auto|]. cbn. eauto.
Qed.
Lemma trials_ok fuel : forall k d n moving m c room margin mr l, trials k fuel d n moving m c room margin mr = Ok l ->
  exists j, mapM (place_one (d j) n moving m c room margin mr) (seq 0 n) = Ok l.
Proof.
  induction fuel as [|fuel IH]; intros k d n moving m c room margin mr l H; cbn in H; [discriminate|].
  destruct (mapM _ _) as [l'|e] eqn:E.
  - apply Ok_inj in H. subst. eauto.
  - destruct e; try discriminate. eauto.
Qed.
Lemma constrained_ok a d c n nm m room margin k l : fair_scene a d -> n = sa_n a ->
  constrained_positions (sd_trials d) (sd_moving d) n nm m c room margin min_distance k = Ok l ->
  (0 < n)%Z /\ (0 <= nm <= n)%Z /\ ratios_ok m = true /\ 0 < v_min m /\ v_min m <= v_max m /\ 0 < move_duration m /\
  min_distance <= max_uniform_radius c room margin /\ length l = Z.to_nat n /\
  exists j, forall i q, nth_error l i = Some q -> good m c room margin (azimuth_of (sd_trials d j) (Z.to_nat n) i) (is_moving (sd_moving d) i) q.
Proof.
  intros F En H. unfold constrained_positions in H. destruct (Z.leb_spec n 0); [discriminate|].
  destruct (Z.ltb_spec nm 0); [discriminate|]. destruct (Z.ltb_spec n nm); [discriminate|]. cbn [orb] in H.
  destruct (ratios_ok m); [|discriminate]. cbn [negb] in H. destruct (Rleb (v_min m) 0) eqn:E1; [discriminate|]. apply rleb_false in E1.
  destruct (Rltb (v_max m) _) eqn:E2; [discriminate|]. apply rltb_false in E2. cbn [orb] in H. destruct (Rleb _ 0) eqn:E3; [discriminate|]. apply rleb_false in E3.
  destruct (Rltb _ min_distance) eqn:E4; [discriminate|]. apply rltb_false in E4. apply trials_ok in H as [j H].
  pose proof (mapM_length _ _ _ H) as Ln. rewrite seq_length in Ln.
  split; [lia|]. split; [lia|]. split; [auto|]. split; [auto|]. split; [auto|]. split; [auto|]. split; [auto|]. split; [auto|].
  exists j. intros i q Hq.
  assert (Hi : (i < Z.to_nat n)%nat) by (rewrite <- Ln; apply nth_error_Some; congruence).
  apply place_one_good; auto; [destruct F as (_ & F & _); subst n; apply F|].
  assert (K := mapM_nth (place_one (sd_trials d j) (Z.to_nat n) (sd_moving d) m c room margin min_distance) (seq 0 (Z.to_nat n)) l i 0%nat q H).
  rewrite seq_length, seq_nth in K by auto. change (0 + i)%nat with i in K. rewrite K by auto. f_equal. apply nth_error_nth. auto.
Qed.
Lemma constrained_total a d c n nm m room margin k : fair_scene a d -> n = sa_n a ->
  (0 < n)%Z -> (0 <= nm <= n)%Z -> ratios_ok m = true -> 0 < v_min m -> v_min m <= v_max m -> 0 < move_duration m ->
  min_distance <= max_uniform_radius c room margin -> pz margin < pz room - pz margin ->
  exists l, constrained_positions (sd_trials d) (sd_moving d) n nm m c room margin min_distance (S k) = Ok l.
Proof.
  intros F En H1 H2 H3 H4 H5 H6 H7 H8. unfold constrained_positions.
  destruct (Z.leb_spec n 0); [lia|]. destruct (Z.ltb_spec nm 0); [lia|]. destruct (Z.ltb_spec n nm); [lia|]. rewrite H3, rleb_intro_false, !rltb_intro_false by auto.
  rewrite rleb_intro_false by auto. cbn [orb negb trials].
  destruct (mapM_total (place_one (sd_trials d 0) (Z.to_nat n) (sd_moving d) m c room margin min_distance) (seq 0 (Z.to_nat n))) as [l ->]; [|eauto].
  intros i _. apply place_one_total; auto. destruct F as (_ & F & _). subst n. apply F.
Qed.
Lemma constrained_z d moving n nm m c room margin mr k l : (0 < n)%Z -> constrained_positions d moving n nm m c room margin mr k = Ok l ->
  pz margin < pz room - pz margin.
Proof.
  intros Hn H. unfold constrained_positions in H. repeat (match type of H with (if ?b then _ else _) = _ => destruct b; [discriminate|] end).
  apply trials_ok in H as [j H]. destruct (Z.to_nat n) as [|n'] eqn:E; [lia|]. cbn [seq mapM] in H. unfold place_one at 1 in H. unfold sample_position_on_azimuth at 1 in H.
  destruct (Rleb (pz room - pz margin) (pz margin)) eqn:Ez; [discriminate|]. apply rleb_false in Ez. auto.
Qed.
Lemma ratios_iff m : ratios_ok m = true <-> 0 <= m_start m /\ m_start m < m_end m /\ m_end m <= 1.
Proof.
  unfold ratios_ok. split.
  - intros H. apply andb_true_iff in H as [H H3]. apply andb_true_iff in H as [H1 H2]. apply rleb_true in H1, H3. apply rltb_true in H2. auto.
  - intros (H1 & H2 & H3). rewrite !rleb_intro, rltb_intro by auto. auto.
Qed.
(** ** Trajectories *)
Lemma trajectory_length l c moving ns m tr : source_trajectory l c moving ns m = Ok tr -> length tr = Nat.max 1 (Z.to_nat ns).
Proof.
  unfold source_trajectory. destruct (Z.leb_spec ns 1).
  - intros E. apply Ok_inj in E. subst. cbn [length]. lia.
  - destruct (negb _); [discriminate|]. intros E. apply Ok_inj in E. subst. unfold tabulate. rewrite map_length, seq_length. lia.
Qed.
Lemma nth_error_tab {A} n (f : nat -> A) k : (k < n)%nat -> nth_error (tabulate n f) k = Some (f k).
Proof.
  intros H. rewrite nth_error_nth' with (d := f 0%nat) by (rewrite length_tabulate; auto). rewrite nth_tabulate; auto.
Qed.
Lemma nth_error_tab_inv {A} n (f : nat -> A) k y : nth_error (tabulate n f) k = Some y -> (k < n)%nat /\ y = f k.
Proof.
  intros H. assert (L : (k < n)%nat) by (rewrite <- (length_tabulate n f); apply nth_error_Some; congruence).
  split; auto. rewrite nth_error_tab in H by auto. injection H as <-. auto.
Qed.
(** Position of source [i] at step [k]. *)
Lemma trajectory_at l c moving ns m tr k row i q : source_trajectory l c moving ns m = Ok tr -> nth_error tr k = Some row ->
  nth_error l i = Some q -> nth_error row i = Some (
    if (ns <=? 1)%Z then p_start q
    else if is_moving moving i then
      let th := p_az0 q + (p_az1 q - p_az0 q) * alpha m (timeline (Z.to_nat ns) k) in
      P3 (px c + hnorm (p_start q) c * cos th) (py c + hnorm (p_start q) c * sin th) (pz (p_start q))
    else p_start q).
Proof.
  unfold source_trajectory. destruct (ns <=? 1)%Z.
  - intros E Hk Hi. apply Ok_inj in E. subst tr. destruct k as [|[|k]]; try discriminate. injection Hk as <-. apply map_nth_error. auto.
  - destruct (negb _); [discriminate|]. intros E Hk Hi. apply Ok_inj in E. subst tr. apply nth_error_tab_inv in Hk as [Hk ->].
    assert (Li : (i < length l)%nat) by (apply nth_error_Some; congruence). rewrite nth_error_tab by auto.
    rewrite (nth_error_nth _ _ _ Hi). reflexivity.
Qed.
Lemma trajectory_row l c moving ns m tr k row : source_trajectory l c moving ns m = Ok tr -> nth_error tr k = Some row -> length row = length l.
Proof.
  unfold source_trajectory. destruct (ns <=? 1)%Z.
  - intros E Hk. apply Ok_inj in E. subst tr. destruct k as [|[|k]]; try discriminate. injection Hk as <-. apply map_length.
  - destruct (negb _); [discriminate|]. intros E Hk. apply Ok_inj in E. subst tr. apply nth_error_tab_inv in Hk as [Hk ->]. apply length_tabulate.
Qed.
Lemma trajectory_ratios l c moving ns m : ratios_ok m = true -> exists tr, source_trajectory l c moving ns m = Ok tr.
Proof. intros H. unfold source_trajectory. rewrite H. destruct (ns <=? 1)%Z; cbn; eauto. Qed.
Lemma alpha_range m t : ratios_ok m = true -> 0 <= alpha m t <= 1.
Proof.
  intros H. apply ratios_iff in H as (H1 & H2 & H3). unfold alpha. destruct (Rleb (m_start m) t) eqn:E1; cbn [andb].
  - destruct (Rleb t (m_end m)) eqn:E2; [|destruct (Rltb _ _); lra]. apply rleb_true in E1, E2. split.
    + apply Rmult_le_pos; [lra|]. apply Rlt_le, Rinv_0_lt_compat. lra.
    + apply (Rmult_le_reg_r (m_end m - m_start m)); [lra|]. unfold Rdiv. rewrite Rmult_assoc, Rinv_l by lra. lra.
  - destruct (Rltb _ _); lra.
Qed.
Lemma alpha_before m t : ratios_ok m = true -> t <= m_start m -> alpha m t = 0.
Proof.
  intros H L. apply ratios_iff in H as (H1 & H2 & H3). unfold alpha. destruct (Rleb (m_start m) t) eqn:E1; cbn [andb].
  - apply rleb_true in E1. rewrite rleb_intro by lra. replace (t - m_start m) with 0 by lra. unfold Rdiv. ring.
  - rewrite rltb_intro_false by lra. auto.
Qed.
Lemma alpha_after m t : ratios_ok m = true -> m_end m <= t -> alpha m t = 1.
Proof.
  intros H L. apply ratios_iff in H as (H1 & H2 & H3). unfold alpha. rewrite (rleb_intro (m_start m)) by lra. destruct (Rleb t (m_end m)) eqn:E2; cbn [andb].
  - apply rleb_true in E2. replace (t - m_start m) with (m_end m - m_start m) by lra. field. lra.
  - apply rleb_false in E2. rewrite rltb_intro by auto. auto.
Qed.
Lemma alpha_between m t : ratios_ok m = true -> m_start m <= t <= m_end m -> alpha m t * (m_end m - m_start m) = t - m_start m.
Proof.
  intros H L. apply ratios_iff in H as (H1 & H2 & H3). unfold alpha. rewrite !rleb_intro by lra. cbn [andb]. field. lra.
Qed.

(** ** Microphones *)
Lemma octa_mics edge c mics : place_mics edge c = Ok mics ->
  0 < edge /\ let r := edge / sqrt 2 in
  mics = [P3 (r + px c) (0 + py c) (0 + pz c); P3 (- r + px c) (0 + py c) (0 + pz c); P3 (0 + px c) (r + py c) (0 + pz c);
          P3 (0 + px c) (- r + py c) (0 + pz c); P3 (0 + px c) (0 + py c) (r + pz c); P3 (0 + px c) (0 + py c) (- r + pz c)].
Proof.
  unfold place_mics, polyhedron_array. cbn [v_data v_dtype]. destruct (Rleb _ 0) eqn:E; [discriminate|]. apply rleb_false in E. intros H.
  assert (S : 0 < sqrt 2) by (apply sqrt_lt_R0; lra).
  split; [apply (Rmult_lt_reg_r (/ sqrt 2)); [apply Rinv_0_lt_compat; auto|unfold Rdiv in E; lra]|].
  cbn [length negb Nat.eqb] in H. change (polyhedron_vertices "octahedron") with (Ok [[1; 0; 0]; [-1; 0; 0]; [0; 1; 0]; [0; -1; 0]; [0; 0; 1]; [0; 0; -1]]) in H.
  cbn [bind] in H. apply Ok_inj in H. subst mics. 
  assert (N : forall v, In v [[1; 0; 0]; [-1; 0; 0]; [0; 1; 0]; [0; -1; 0]; [0; 0; 1]; [0; 0; -1]] -> vnorm v = 1).
  { intros v Hv. unfold vnorm. apply sqrt_lem_1; try lra; cbn in Hv; decompose [or] Hv; subst; cbn; try lra; contradiction. }
  cbn [map]. rewrite !N by (cbn; auto 10). unfold shift, scale. cbn.
  repeat (f_equal; try (field; lra)).
Qed.

Lemma center_ok u room margin d r c : u01_3 u -> sample_random_mic_center u room margin d r = Ok c ->
  r <= px c <= px room - r /\ r <= py c <= py room - r /\ r <= pz c <= pz room - r /\
  d <= max_uniform_radius c room margin.
Proof.
  intros (U1 & U2 & U3) H. unfold sample_random_mic_center in H.
  destruct (Rleb _ (Rmax r (px margin + d))) eqn:E1; [discriminate|]. destruct (Rleb _ (Rmax r (py margin + d))) eqn:E2; [discriminate|].
  destruct (Rleb _ r) eqn:E3; [discriminate|]. apply rleb_false in E1, E2, E3. cbn [orb] in H. apply Ok_inj in H. subst c. cbn [px py pz].
  pose proof (unif_bounds _ _ _ U1 (Rlt_le _ _ E1)) as B1. pose proof (unif_bounds _ _ _ U2 (Rlt_le _ _ E2)) as B2. pose proof (unif_bounds _ _ _ U3 (Rlt_le _ _ E3)) as B3.
  pose proof (Rmax_l r (px margin + d)). pose proof (Rmax_r r (px margin + d)). pose proof (Rmax_l r (py margin + d)). pose proof (Rmax_r r (py margin + d)).
  pose proof (Rmin_l (px room - r) (px room - px margin - d)). pose proof (Rmin_r (px room - r) (px room - px margin - d)).
  pose proof (Rmin_l (py room - r) (py room - py margin - d)). pose proof (Rmin_r (py room - r) (py room - py margin - d)).
  repeat (split; [lra|]). apply mu_bounds. cbn [px py]. lra.
Qed.
(** The pieces of a scene. *)
Lemma scene_inv a d g : fair_scene a d -> build_scene_geometry a d = Ok g ->
  place_mics (sa_edge a) (geo_center g) = Ok (geo_mics g) /\
  (if sa_random_center a then sample_random_mic_center (sd_center d) (sa_room a) (sa_margin a) min_distance (sa_edge a / sqrt 2) = Ok (geo_center g)
   else geo_center g = sa_center a) /\
  constrained_positions (sd_trials d) (sd_moving d) (sa_n a) (sa_moving a) (sa_motion a) (geo_center g) (sa_room a) (sa_margin a) min_distance 100 = Ok (geo_sources g) /\
  source_trajectory (geo_sources g) (geo_center g) (sd_moving d) (sa_steps a) (sa_motion a) = Ok (geo_traj g).
Proof.
  intros F H. unfold build_scene_geometry in H. apply bind_ok in H as (b & _ & H). apply bind_ok in H as (c & Hc & H). apply bind_ok in H as (mics & Hm & H).
  apply bind_ok in H as (l & Hl & H). apply bind_ok in H as (tr & Ht & H). apply Ok_inj in H. subst g. cbn [geo_center geo_mics geo_sources geo_traj].
  split; auto. split; [destruct (sa_random_center a); [auto|apply Ok_inj in Hc; auto]|]. auto.
Qed.
Lemma is_moving_spec l i : is_moving l i = true <-> In i l.
Proof.
  unfold is_moving. rewrite existsb_exists. split; [intros (x & Hx & E); apply Nat.eqb_eq in E; subst; auto|intros H; exists i; split; auto; apply Nat.eqb_refl].
Qed.
(** Every position is on the circle through the start, at the height of the start. *)
Lemma good_circle m c room margin az mov q : good m c room margin az mov q -> exists r, min_distance <= r /\ hnorm (p_start q) c = r /\
  p_start q = P3 (px c + r * cos az) (py c + r * sin az) (pz (p_start q)).
Proof.
  intros (r & R1 & R2 & S & Z & A & _). exists r. split; auto. split; auto. rewrite S. apply hnorm_circle. unfold min_distance in R1. lra.
Qed.
