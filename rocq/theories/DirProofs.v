(** Lemmas about directivities, orientations and cosines. *)
From Coq Require Import String Ascii List ZArith Reals Lia Lra Psatz Bool.
From Verif Require Import Prelude PreludeFacts SignalModel FloatModel DirModel DirSpec ImageModel ImageSpec ImageProofs
  AcousticModel AccumModel IsmModel IsmSpec IsmProofs SimProofs SimLocal SimPairs.
Import ListNotations.
Local Open Scope R_scope.
Local Notation length := List.length.

(** ** Spelling *)
Definition lower_char (d : ascii) : Prop := ~ (65 <= nat_of_ascii d <= 90)%nat.
Fixpoint lowercase (s : string) : Prop :=
  match s with EmptyString => True | String c s' => lower_char c /\ lowercase s' end.
Lemma lower_ascii_reads c d : lower_char d -> lower_ascii c = d <-> reads c d.
Proof.
  intros Hd. unfold lower_ascii, reads.
  destruct ((65 <=? nat_of_ascii c) && (nat_of_ascii c <=? 90))%nat eqn:E.
  - apply andb_true_iff in E as [E1 E2]. apply Nat.leb_le in E1, E2. split.
    + intros <-. right. split; auto. apply nat_ascii_embedding. lia.
    + intros [->|[_ H]]; [exfalso; apply Hd; auto|]. rewrite <- H. apply ascii_nat_embedding.
  - split; auto. intros [|[H _]]; auto. apply andb_false_iff in E as [E|E]; apply Nat.leb_gt in E; lia.
Qed.
Lemma lower_spells name : lowercase name -> forall s, lower s = name <-> spells s name.
Proof.
  induction name as [|d name IH]; intros Hl [|c s]; cbn.
  - tauto.
  - split; [discriminate|tauto].
  - split; [discriminate|tauto].
  - destruct Hl as [H1 H2]. rewrite <- (IH H2 s), <- (lower_ascii_reads c d H1). split.
    + intros H; injection H; auto.
    + intros [-> ->]; auto.
Qed.
Lemma str_in_spec s l : str_in (lower s) l = true <-> exists name, In name l /\ lower s = name.
Proof.
  unfold str_in. rewrite existsb_exists. split; intros (n & H1 & H2); exists n; split; auto; apply String.eqb_eq; auto.
Qed.
Lemma str_in_spells s l : Forall lowercase l -> str_in (lower s) l = true <-> exists name, In name l /\ spells s name.
Proof.
  intros Hl. rewrite Forall_forall in Hl. rewrite str_in_spec. split; intros (n & H1 & H2); exists n; split; auto; apply lower_spells; auto.
Qed.
Lemma first_order_names : Forall lowercase (map fst first_order) /\ Forall lowercase half_space.
Proof. split; cbn [map fst first_order half_space]; repeat constructor; unfold lower_char; cbn; lia. Qed.

Lemma gain_first s name a : In (name, a) first_order -> spells s name ->
  exists g, directivity_gain s = Ok g /\ (forall x, g (Some x) = Some (a + (1 - a) * x)).
Proof.
  intros Hin Hs. assert (E : lower s = name).
  { apply lower_spells; auto. destruct first_order_names as [F _]. rewrite Forall_forall in F. apply F.
    apply in_map_iff. exists (name, a). auto. }
  unfold directivity_gain. rewrite E. cbn [first_order In] in Hin.
  repeat destruct Hin as [Hin|Hin]; try contradiction; injection Hin as <- <-; cbn;
    eexists; (split; [reflexivity|]); intros x; cbn; f_equal; lra.
Qed.
Lemma gain_half s name : In name half_space -> spells s name ->
  exists g, directivity_gain s = Ok g /\ (forall x, g (Some x) = Some (if Rlt_dec 0 x then 1 else 0)).
Proof.
  intros Hin Hs. assert (E : lower s = name).
  { apply lower_spells; auto. destruct first_order_names as [_ F]. rewrite Forall_forall in F. apply F; auto. }
  unfold directivity_gain. rewrite E. cbn [half_space In] in Hin.
  repeat destruct Hin as [<-|Hin]; try contradiction; cbn; eexists; (split; [reflexivity|]); intros x; reflexivity.
Qed.
Lemma gain_other s : (forall name, In name (map fst first_order ++ half_space) -> ~ spells s name) ->
  directivity_gain s = Err ValueError.
Proof.
  intros H. unfold directivity_gain.
  assert (G : forall l, incl l (map fst first_order ++ half_space) -> str_in (lower s) l = false).
  { intros l Hi. destruct (str_in (lower s) l) eqn:E; auto. apply str_in_spells in E.
    - destruct E as (n & H1 & H2). exfalso. eapply H; eauto.
    - destruct first_order_names as [F1 F2]. apply Forall_forall. intros n Hn. apply Hi in Hn.
      rewrite Forall_forall in F1, F2. apply in_app_or in Hn as []; auto. }
  rewrite !G; auto; intros n Hn; cbn in *; tauto.
Qed.

(** ** Vectors *)
Lemma vdot_dot a b : vdot a b = dot a b.
Proof. unfold vdot, map2. revert b. induction a; intros [|y b]; cbn; auto. rewrite IHa. auto. Qed.
Lemma vnorm_norm a : vnorm a = norm a.
Proof. unfold vnorm, norm. rewrite vdot_dot. auto. Qed.
Lemma dot_sym a : forall b, dot a b = dot b a.
Proof. induction a; intros [|y b]; cbn; auto. rewrite IHa. ring. Qed.
Lemma dot_nonneg a : 0 <= dot a a.
Proof. induction a; cbn; [lra|]. nra. Qed.
Lemma norm_nonneg a : 0 <= norm a.
Proof. apply sqrt_pos. Qed.
Lemma norm_sq a : norm a * norm a = dot a a.
Proof. apply sqrt_sqrt, dot_nonneg. Qed.
Lemma norm_pos a : norm a <> 0 -> 0 < norm a.
Proof. pose proof (norm_nonneg a). lra. Qed.
Lemma dot_map_r c a : forall b, dot a (map (fun x => x / c) b) = dot a b / c.
Proof. induction a; intros [|y b]; cbn; try (unfold Rdiv; ring). rewrite IHa. unfold Rdiv. ring. Qed.
Lemma dot_map_l c a b : dot (map (fun x => x / c) a) b = dot a b / c.
Proof. rewrite dot_sym, dot_map_r, dot_sym. auto. Qed.
(** Cauchy-Schwarz in squared form: for every t, |a - t b|^2 >= 0. *)
Lemma cauchy_sq a : forall b, dot a b * dot a b <= dot a a * dot b b.
Proof.
  induction a as [|x a IH]; intros [|y b]; cbn.
  - lra.
  - pose proof (dot_nonneg b). nra.
  - pose proof (dot_nonneg a). nra.
  - specialize (IH b). pose proof (dot_nonneg a). pose proof (dot_nonneg b).
    set (p := dot a b) in *. set (A := dot a a) in *. set (B := dot b b) in *.
    (* (xy + p)^2 <= (x^2 + A)(y^2 + B); 2 x y p <= x^2 B + y^2 A *)
    assert (K : 2 * (x * y * p) <= x * x * B + y * y * A).
    { assert (p <= sqrt A * sqrt B /\ - (sqrt A * sqrt B) <= p).
      { assert (S0 : 0 <= sqrt A * sqrt B) by (apply Rmult_le_pos; apply sqrt_pos).
        assert (S1 : (sqrt A * sqrt B) * (sqrt A * sqrt B) = A * B).
        { transitivity ((sqrt A * sqrt A) * (sqrt B * sqrt B)); [ring|]. rewrite !sqrt_sqrt by auto. auto. }
        split; nra. }
      assert (QA : sqrt A * sqrt A = A) by (apply sqrt_sqrt; auto).
      assert (QB : sqrt B * sqrt B = B) by (apply sqrt_sqrt; auto).
      set (u := sqrt A) in *. set (w := sqrt B) in *.
      assert (0 <= u) by apply sqrt_pos. assert (0 <= w) by apply sqrt_pos.
      rewrite <- QA, <- QB. destruct (Rle_dec 0 (x * y)).
      - assert (x * y * p <= x * y * (u * w)) by nra. pose proof (Rle_0_sqr (x * w - y * u)). unfold Rsqr in *. nra.
      - assert (x * y * p <= x * y * - (u * w)) by nra. pose proof (Rle_0_sqr (x * w + y * u)). unfold Rsqr in *. nra. }
    nra.
Qed.
Lemma cauchy a b : Rabs (dot a b) <= norm a * norm b.
Proof.
  pose proof (cauchy_sq a b) as H. rewrite <- !norm_sq in H. pose proof (norm_nonneg a). pose proof (norm_nonneg b).
  assert (0 <= norm a * norm b) by (apply Rmult_le_pos; auto).
  apply Rabs_le. split; nra.
Qed.
Lemma norm_scale c a : 0 < c -> norm (map (fun x => x / c) a) = norm a / c.
Proof.
  intros Hc. unfold norm. rewrite dot_map_l, dot_map_r. replace (dot a a / c / c) with (dot a a / (c * c)) by (field; lra).
  rewrite sqrt_div_alt by nra. rewrite sqrt_square by lra. auto.
Qed.
Lemma norm_vscale c a : 0 <= c -> norm (vscale c a) = c * norm a.
Proof.
  intros Hc. unfold norm, vscale. replace (dot (map (Rmult c) a) (map (Rmult c) a)) with ((c * c) * dot a a).
  - rewrite sqrt_mult by (try apply dot_nonneg; nra). rewrite sqrt_square by auto. auto.
  - induction a; cbn; [ring|]. rewrite <- IHa. ring.
Qed.
Lemma norm_vopp a : norm (vopp a) = norm a.
Proof. unfold norm, vopp. f_equal. induction a; cbn; auto. rewrite IHa. ring. Qed.

(** ** Orientation vectors *)
Definition eps8 : R := / 10 ^ 8.
Lemma eps8_pos : 0 < eps8.
Proof. unfold eps8. apply Rinv_0_lt_compat, pow_lt. lra. Qed.
Lemma normalize_norm v : norm (normalize_orientation v) = Rmin 1 (norm v / eps8).
Proof.
  unfold normalize_orientation. rewrite vnorm_norm. fold eps8. pose proof eps8_pos.
  rewrite norm_scale by (eapply Rlt_le_trans; [exact H|apply Rmax_r]).
  unfold Rmax, Rmin. destruct (Rle_dec (norm v) eps8) as [L|L]; destruct (Rle_dec 1 (norm v / eps8)) as [M|M]; auto.
  - assert (norm v = eps8). { apply Rle_antisym; auto. apply Rmult_le_reg_r with (/ eps8); [apply Rinv_0_lt_compat; auto|]. rewrite Rinv_r by lra. exact M. }
    rewrite H0. field. lra.
  - field. lra.
  - exfalso. apply M. apply Rmult_le_reg_r with eps8; auto. unfold Rdiv. rewrite Rmult_assoc, Rinv_l by lra. lra.
Qed.
Lemma normalize_unit v : eps8 <= norm v -> norm (normalize_orientation v) = 1.
Proof.
  intros H. rewrite normalize_norm. apply Rmin_left. pose proof eps8_pos. apply Rmult_le_reg_r with eps8; auto.
  unfold Rdiv. rewrite Rmult_assoc, Rinv_l by lra. lra.
Qed.
Lemma normalize_parallel v : v = vscale (Rmax (norm v) eps8) (normalize_orientation v).
Proof.
  unfold normalize_orientation, vscale. rewrite vnorm_norm, map_map. fold eps8. pose proof eps8_pos.
  assert (0 < Rmax (norm v) eps8) by (eapply Rlt_le_trans; [exact H|apply Rmax_r]).
  rewrite <- (map_id v) at 1. apply map_ext. intros x. field. lra.
Qed.
Lemma norm_angle a : norm (angle_vec a) = 1.
Proof. unfold norm, angle_vec. cbn. replace (cos a * cos a + (sin a * sin a + 0)) with 1; [apply sqrt_1|]. pose proof (sin2_cos2 a). unfold Rsqr in *. lra. Qed.
Lemma norm_azel a e : norm (azel_vec a e) = 1.
Proof.
  unfold norm, azel_vec. cbn. pose proof (sin2_cos2 a). pose proof (sin2_cos2 e). unfold Rsqr in *.
  replace (cos e * cos a * (cos e * cos a) + (cos e * sin a * (cos e * sin a) + (sin e * sin e + 0)))
    with ((cos e * cos e) * (sin a * sin a + cos a * cos a) + sin e * sin e) by ring.
  rewrite H. replace (cos e * cos e * 1 + sin e * sin e) with 1 by lra. apply sqrt_1.
Qed.
Lemma eps8_lt1 : eps8 < 1.
Proof.
  unfold eps8. assert (1 < 10 ^ 8) by (apply Rlt_pow_R1; [lra|lia]).
  apply Rmult_lt_reg_r with (10 ^ 8); [lra|]. rewrite Rinv_l by lra. lra.
Qed.
Lemma normalize_fix v : norm v = 1 -> normalize_orientation v = v.
Proof.
  intros H. unfold normalize_orientation. rewrite vnorm_norm, H. fold eps8. rewrite Rmax_left by (pose proof eps8_lt1; lra).
  rewrite <- (map_id v) at 2. apply map_ext. intros. field.
Qed.

Lemma cos_between_spec vec ori : norm vec <> 0 ->
  cos_between vec ori = Some (dot vec (normalize_orientation ori) / norm vec).
Proof.
  intros H. unfold cos_between. rewrite vnorm_norm. destruct (Req_EM_T (norm vec) 0); [contradiction|].
  f_equal. rewrite <- dot_map_l. apply (vdot_dot _ (normalize_orientation ori)).
Qed.
Lemma cos_between_cosine vec ori : norm vec <> 0 -> eps8 <= norm ori ->
  cos_between vec ori = Some (cosine vec ori).
Proof.
  intros H H'. rewrite cos_between_spec by auto. f_equal. unfold normalize_orientation, cosine. rewrite vnorm_norm.
  fold eps8. rewrite Rmax_left by auto. rewrite dot_map_r. pose proof eps8_pos. field. lra.
Qed.
Lemma cos_between_bounded vec ori c : cos_between vec ori = Some c -> -1 <= c <= 1.
Proof.
  intros H. destruct (Req_EM_T (norm vec) 0) as [E|E].
  { unfold cos_between in H. rewrite vnorm_norm in H. destruct (Req_EM_T (norm vec) 0); [discriminate|contradiction]. }
  rewrite cos_between_spec in H by auto. injection H as <-.
  pose proof (cauchy vec (normalize_orientation ori)) as C. pose proof (norm_pos _ E) as P.
  assert (N : norm (normalize_orientation ori) <= 1) by (rewrite normalize_norm; apply Rmin_l).
  pose proof (norm_nonneg (normalize_orientation ori)).
  assert (B : Rabs (dot vec (normalize_orientation ori)) <= norm vec) by nra.
  assert (B' : - norm vec <= dot vec (normalize_orientation ori) <= norm vec) by (split_Rabs; lra). split; apply Rmult_le_reg_r with (norm vec); auto; unfold Rdiv;
    rewrite Rmult_assoc, Rinv_l by lra; lra.
Qed.
Lemma cosine_scale c vec ori : 0 < c -> norm ori <> 0 -> cosine vec (vscale c ori) = cosine vec ori.
Proof.
  intros Hc Ho. unfold cosine. rewrite norm_vscale by lra.
  replace (dot vec (vscale c ori)) with (c * dot vec ori).
  - destruct (Req_dec (norm vec) 0) as [E|E]; [rewrite E; rewrite !Rmult_0_l; unfold Rdiv; rewrite Rinv_0; ring|]. field. lra.
  - unfold vscale. clear. revert ori. induction vec; intros [|y o]; cbn; try ring. rewrite <- IHvec. ring.
Qed.

(** ** Unfolded rays *)
Lemma folded_at len q u : 0 < len -> 0 <= u < len ->
  folded len (IZR q * len + u) = if Z.even q then u else len - u.
Proof.
  intros Hl Hu. unfold folded. assert (E : floorZ ((IZR q * len + u) / len) = q).
  { apply floorZ_unique. unfold Rdiv. rewrite Rmult_plus_distr_r, Rmult_assoc, Rinv_r, Rmult_1_r by lra.
    assert (0 <= u * / len < 1); [|lra]. split.
    - apply Rmult_le_pos; [lra|]. apply Rlt_le, Rinv_0_lt_compat; auto.
    - apply Rmult_lt_reg_r with len; auto. rewrite Rmult_assoc, Rinv_l; lra. }
  rewrite E. destruct (Z.even q); ring.
Qed.
Lemma reflected_cell len x n : reflected len x n = IZR n * len + (if Z.even n then x else len - x).
Proof.
  rewrite <- image_coord_reflected. unfold image_coord. destruct (Z.even n) eqn:E.
  - apply Z.even_spec in E as [k ->].
    replace (2 * k mod 2)%Z with 0%Z by (rewrite Z.mul_comm, Z_mod_mult; auto).
    replace ((2 * k + 1) / 2)%Z with k by (apply Z.div_unique with 1%Z; lia).
    replace (0 =? 0)%Z with true by reflexivity. rewrite mult_IZR. ring.
  - rewrite <- Z.negb_odd in E. apply negb_false_iff, Z.odd_spec in E as [k ->].
    replace ((2 * k + 1) mod 2)%Z with 1%Z by (apply Z.mod_unique with k; lia).
    replace ((2 * k + 1 + 1) / 2)%Z with (k + 1)%Z by (apply Z.div_unique with 0%Z; lia).
    replace (1 =? 0)%Z with false by reflexivity. rewrite !plus_IZR, mult_IZR. ring.
Qed.
(** Leaving the image in direction [v] is, in the room, leaving the source in the departure
    direction. *)
Lemma ray_leaves len x n v : 0 < x < len -> exists e, 0 < e /\
  forall t, 0 <= t < e -> folded len (reflected len x n + t * v) = x + t * (if Z.even n then v else - v).
Proof.
  intros Hx. set (m := Rmin x (len - x)). assert (Hm : 0 < m) by (unfold m; apply Rmin_glb_lt; lra).
  assert (m <= x) by apply Rmin_l. assert (m <= len - x) by apply Rmin_r.
  exists (m / (Rabs v + 1)). pose proof (Rabs_pos v). split.
  { apply Rdiv_lt_0_compat; lra. }
  intros t [Ht0 Ht].
  assert (B : t * Rabs v < m).
  { assert (t * (Rabs v + 1) < m); [|nra]. apply Rmult_lt_reg_r with (/ (Rabs v + 1)); [apply Rinv_0_lt_compat; lra|].
    rewrite Rmult_assoc, Rinv_r, Rmult_1_r by lra. exact Ht. }
  assert (B' : Rabs (t * v) < m) by (rewrite Rabs_mult, (Rabs_right t) by lra; auto).
  apply Rabs_def2 in B' as [B1 B2].
  rewrite reflected_cell, Rplus_assoc. destruct (Z.even n) eqn:E; rewrite folded_at, E by lra; ring.
Qed.
(** It ends at the microphone, coming from the unfolded direction unchanged. *)
Lemma ray_arrives len m v : 0 < m < len -> exists e, 0 < e /\ forall t, 0 <= t < e -> folded len (m - t * v) = m - t * v.
Proof.
  intros Hm. destruct (ray_leaves len m 0 (- v) Hm) as (e & He & H). exists e. split; auto.
  intros t Ht. specialize (H t Ht). cbn in H. replace (m - t * v) with (m + t * - v) by ring. exact H.
Qed.
Lemma dot_departure n : forall a b, length a = length n -> length b = length n ->
  dot (departure n a) (departure n b) = dot a b.
Proof.
  induction n as [|k n IH]; intros [|x a] [|y b] Ha Hb; cbn in *; try lia; auto.
  rewrite IH by lia. destruct (Z.even k); ring.
Qed.
Lemma norm_departure n a : length a = length n -> norm (departure n a) = norm a.
Proof. intros. unfold norm. rewrite dot_departure; auto. Qed.
Lemma departure_even n : forall v, length v = length n -> Forall (fun k => Z.even k = true) n -> departure n v = v.
Proof. induction n; intros [|x v] H F; cbn in *; try lia; auto. inversion F; subst. rewrite H2, IHn by (auto; lia). auto. Qed.
Lemma departure_twice n : forall v, length v = length n -> departure n (departure n v) = v.
Proof. induction n; intros [|x v] H; cbn in *; try lia; auto. rewrite IHn by lia. destruct (Z.even a); auto. rewrite Ropp_involutive; auto. Qed.
Lemma cosine_departure n a b : length a = length n -> length b = length n ->
  cosine (departure n a) b = cosine a (departure n b).
Proof.
  intros Ha Hb. unfold cosine. rewrite <- (dot_departure n (departure n a) b), departure_twice by
    (auto; clear -Ha; revert a Ha; induction n; intros [|x v] H; cbn in *; try lia; rewrite IHn by lia; auto).
  rewrite !norm_departure by auto. auto.
Qed.

(** ** Omnidirectional aliases *)
Definition canon (p : string) : string := if str_in (lower p) ["omni"; "omnidirectional"]%string then "omni"%string else p.
Definition canon_dir (d : dirspec) : dirspec :=
  match d with DName p => DName (canon p) | DTuple l => DTuple (map canon l) end.

Lemma side_canon p ds gs : side_of p ds = Ok gs ->
  exists gs', side_of (canon p) (if String.eqb (canon p) "omni" then None else ds) = Ok gs' /\
  (forall n, dirs_fit gs n = true -> dirs_fit gs' n = true) /\
  (gs' = gs \/ (gs' = None /\ exists ds', gs = Some (fun _ => Some 1, ds'))).
Proof.
  unfold side_of. intros H. unfold canon. destruct (str_in (lower p) ["omni"; "omnidirectional"]%string) eqn:E.
  - cbn. exists None. split; auto. split; auto. destruct (String.eqb p "omni"); [injection H as <-; auto|].
    destruct ds as [ds|]; [|discriminate]. right. split; auto. exists ds.
    unfold directivity_gain in H. rewrite E in H. cbn in H. injection H as <-. auto.
  - destruct (String.eqb p "omni") eqn:E'.
    + apply String.eqb_eq in E'. subst. cbn in E. discriminate.
    + exists gs. split; auto.
Qed.
Lemma attenuation_canon gs gs' gm gm' s m v x :
  (gs' = gs \/ (gs' = None /\ exists ds', gs = Some (fun _ => Some 1, ds'))) ->
  (gm' = gm \/ (gm' = None /\ exists ds', gm = Some (fun _ => Some 1, ds'))) ->
  image_attenuation gs' gm' s m v x = image_attenuation gs gm s m v x.
Proof.
  assert (X1 : forall g, xmul g (Some 1) = g) by (intros [y|]; cbn; rewrite ?Rmult_1_r; auto).
  intros [->|[-> [ds ->]]] [->|[-> [ds' ->]]]; auto; unfold image_attenuation; cbv zeta; rewrite ?X1; auto.
Qed.
Lemma map2_ext {A B C} (f g : A -> B -> C) l1 l2 : (forall a b, f a b = g a b) -> map2 f l1 l2 = map2 g l1 l2.
Proof. intros H. unfold map2. apply map_ext. auto. Qed.
Lemma contributions_canon src mic size fs c h nv refl sp mp sd md res :
  contributions_batch src mic size fs c h nv refl sp mp sd md = Ok res ->
  contributions_batch src mic size fs c h nv refl (canon sp) (canon mp)
    (if String.eqb (canon sp) "omni" then None else sd) (if String.eqb (canon mp) "omni" then None else md) = Ok res.
Proof.
  unfold contributions_batch. intros H. destruct (side_of sp sd) as [gs|] eqn:E1; [|discriminate].
  destruct (side_of mp md) as [gm|] eqn:E2; [|discriminate]. cbn [bind] in H.
  destruct (side_canon _ _ _ E1) as (gs' & -> & F1 & D1). destruct (side_canon _ _ _ E2) as (gm' & -> & F2 & D2).
  cbn [bind]. destruct (dirs_fit gs (length src) && dirs_fit gm (length mic)) eqn:E; [|discriminate].
  apply andb_true_iff in E as [G1 G2]. rewrite (F1 _ G1), (F2 _ G2). cbn [negb andb] in *. rewrite <- H. do 2 f_equal.
  apply flat_map_ext_in. intros s _. apply flat_map_ext_in. intros m _. apply map2_ext. intros. apply attenuation_canon; auto.
Qed.
Lemma contributions_time_canon steps src mic ns nm size fs c h nv refl sp mp sd md res :
  contributions_time_batch steps src mic ns nm size fs c h nv refl sp mp sd md = Ok res ->
  contributions_time_batch steps src mic ns nm size fs c h nv refl (canon sp) (canon mp)
    (if String.eqb (canon sp) "omni" then None else sd) (if String.eqb (canon mp) "omni" then None else md) = Ok res.
Proof.
  unfold contributions_time_batch. intros H. destruct (side_of sp sd) as [gs|] eqn:E1; [|discriminate].
  destruct (side_of mp md) as [gm|] eqn:E2; [|discriminate]. cbn [bind] in H.
  destruct (side_canon _ _ _ E1) as (gs' & -> & F1 & D1). destruct (side_canon _ _ _ E2) as (gm' & -> & F2 & D2).
  cbn [bind]. destruct (dirs_fit gs ns && dirs_fit gm nm) eqn:E; [|discriminate].
  apply andb_true_iff in E as [G1 G2]. rewrite (F1 _ G1), (F2 _ G2). cbn [negb andb] in *. rewrite <- H. do 2 f_equal.
  apply flat_map_ext_in. intros t _. apply flat_map_ext_in. intros s _. apply flat_map_ext_in. intros m _.
  apply map2_ext. intros. apply attenuation_canon; auto.
Qed.
Lemma foldM_mono {A B} (f g : B -> A -> result B) l : (forall b a b', f b a = Ok b' -> g b a = Ok b') ->
  forall b r, foldM f l b = Ok r -> foldM g l b = Ok r.
Proof. intros H. induction l; intros b r; cbn; auto. destruct (f b a) eqn:E; [|discriminate]. cbn. rewrite (H _ _ _ E). cbn. apply IHl. Qed.
Lemma bind_mono {A B} (r r' : result A) (f f' : A -> result B) x : bind r f = Ok x ->
  (forall a, r = Ok a -> r' = Ok a) -> (forall a, f a = Ok x -> f' a = Ok x) -> bind r' f' = Ok x.
Proof. destruct r; cbn; [|discriminate]. intros H1 H2 H3. rewrite (H2 a eq_refl). cbn. auto. Qed.
Lemma mic_dirs_canon p o dim md : mic_directions p o dim = Ok md ->
  mic_directions (canon p) o dim = Ok (if String.eqb (canon p) "omni" then None else md).
Proof.
  unfold mic_directions, canon. intros H. destruct (str_in (lower p) ["omni"; "omnidirectional"]%string) eqn:E; [reflexivity|].
  destruct (String.eqb p "omni") eqn:E'; auto.
Qed.
Lemma src_dirs_canon p o dim n sd : src_directions p o dim n = Ok sd ->
  src_directions (canon p) o dim n = Ok (if String.eqb (canon p) "omni" then None else sd).
Proof.
  unfold src_directions, canon. intros H. destruct (str_in (lower p) ["omni"; "omnidirectional"]%string) eqn:E; [reflexivity|].
  destruct (String.eqb p "omni") eqn:E'; auto.
Qed.
Lemma split_canon d a b : split_directivity d = Ok (a, b) -> split_directivity (canon_dir d) = Ok (canon a, canon b).
Proof.
  destruct d as [s|[|x [|y [|z l]]]]; cbn; intros H; try discriminate; injection H as <- <-; auto.
Qed.
Lemma resolve_canon cfg mo tmax d c n t d' : resolve_config cfg mo tmax (Some d) = Ok (c, n, t, d') ->
  d' = d /\ resolve_config cfg mo tmax (Some (canon_dir d)) = Ok (c, n, t, canon_dir d).
Proof.
  unfold resolve_config. intros H. bcase_in H. bcase_in H. bcase_in H. injection H as <- <- <- <-. split; auto. cbn [bind]. rewrite E0. cbn [bind]. rewrite E1. reflexivity.
Qed.

Lemma static_loop_canon dev c n src mic size fs cc nv refl sp mp sd md r :
  static_loop dev c n src mic size fs cc nv refl sp mp sd md = Ok r ->
  static_loop dev c n src mic size fs cc nv refl (canon sp) (canon mp)
    (if String.eqb (canon sp) "omni" then None else sd) (if String.eqb (canon mp) "omni" then None else md) = Ok r.
Proof.
  unfold static_loop. apply foldM_mono. intros b a b' H. bcase_in H. rewrite (contributions_canon _ _ _ _ _ _ _ _ _ _ _ _ _ E). exact H.
Qed.
Lemma dynamic_loop_canon dev c n steps src mic ns nm size fs cc nv refl sp mp sd md r :
  dynamic_loop dev c n steps src mic ns nm size fs cc nv refl sp mp sd md = Ok r ->
  dynamic_loop dev c n steps src mic ns nm size fs cc nv refl (canon sp) (canon mp)
    (if String.eqb (canon sp) "omni" then None else sd) (if String.eqb (canon mp) "omni" then None else md) = Ok r.
Proof.
  unfold dynamic_loop. apply foldM_mono. intros b a b' H. bcase_in H. rewrite (contributions_time_canon _ _ _ _ _ _ _ _ _ _ _ _ _ _ _ _ E). exact H.
Qed.
Lemma simulate_canon X dev r srcs mics mo nb ns tmax tdiff d ori cfg T :
  simulate_rir X dev r srcs mics mo nb ns tmax tdiff (Some d) ori cfg = Ok T ->
  simulate_rir X dev r srcs mics mo nb ns tmax tdiff (Some (canon_dir d)) ori cfg = Ok T.
Proof.
  unfold simulate_rir. intros H. destruct (resolve_config _ _ _ (Some d)) as [[[[c n] t] d']|] eqn:E; [|discriminate].
  destruct (resolve_canon _ _ _ _ _ _ _ _ E) as [-> E']. rewrite E'. cbn [bind] in *.
  bcase_in H. cbn [bind]. destruct (prepare_static r srcs mics ori) as [[[[[[src mic] so] mio] size] dim]|]; [|discriminate].
  cbn [bind] in *. bcase_in H. cbn [bind]. bcase_in H. cbn [bind]. bcase_in H. cbn [bind]. bcase_in H. cbn [bind].
  destruct (split_directivity d) as [[sp mp]|] eqn:Ed; [|discriminate]. rewrite (split_canon _ _ _ Ed). cbn [bind] in *.
  destruct (mic_directions mp mio dim) as [md|] eqn:Em; [|discriminate]. rewrite (mic_dirs_canon _ _ _ _ Em). cbn [bind] in *.
  destruct (src_directions sp so dim _) as [sd|] eqn:Es; [|discriminate]. rewrite (src_dirs_canon _ _ _ _ _ Es). cbn [bind] in *.
  destruct (static_loop _ _ _ _ _ _ _ _ _ _ sp mp sd md) as [l|] eqn:El; [|discriminate]. rewrite (static_loop_canon _ _ _ _ _ _ _ _ _ _ _ _ _ _ _ El).
  exact H.
Qed.
Lemma simulate_dynamic_canon X dev r src mic mo nb ns tmax d ori cfg T :
  simulate_dynamic_rir X dev r src mic mo nb ns tmax (Some d) ori cfg = Ok T ->
  simulate_dynamic_rir X dev r src mic mo nb ns tmax (Some (canon_dir d)) ori cfg = Ok T.
Proof.
  unfold simulate_dynamic_rir. intros H. destruct (resolve_config _ _ _ (Some d)) as [[[[c n] t] d']|] eqn:E; [|discriminate].
  destruct (resolve_canon _ _ _ _ _ _ _ _ E) as [-> E']. rewrite E'. cbn [bind] in *.
  bcase_in H. cbn [bind]. destruct (prepare_dynamic r src mic ori) as [[[[[[src' mic'] so] mio] size] dim]|]; [|discriminate].
  cbn [bind] in *. bcase_in H. cbn [bind]. bcase_in H. cbn [bind]. bcase_in H. cbn [bind]. bcase_in H. cbn [bind].
  destruct (split_directivity d) as [[sp mp]|] eqn:Ed; [|discriminate]. rewrite (split_canon _ _ _ Ed). cbn [bind] in *.
  destruct (mic_directions mp mio dim) as [md|] eqn:Em; [|discriminate]. rewrite (mic_dirs_canon _ _ _ _ Em). cbn [bind] in *.
  destruct (src_directions sp so dim _) as [sd|] eqn:Es; [|discriminate]. rewrite (src_dirs_canon _ _ _ _ _ Es). cbn [bind] in *.
  destruct (dynamic_loop _ _ _ _ _ _ _ _ _ _ _ _ _ sp mp sd md) as [l|] eqn:El; [|discriminate].
  rewrite (dynamic_loop_canon _ _ _ _ _ _ _ _ _ _ _ _ _ _ _ _ _ _ El). exact H.
Qed.
(** Without any orientation a pattern other than exactly "omni" is rejected. *)
Lemma no_orientation X dev r s m mo nb ns tmax tdiff sp mp cfg T : (sp <> "omni" \/ mp <> "omni")%string ->
  simulate_rir X dev r (ETensor s) (ETensor m) mo nb ns tmax tdiff (Some (DTuple [sp; mp])) ONone cfg <> Ok T.
Proof.
  intros Hp H. unfold simulate_rir in H. destruct (resolve_config _ _ _ _) as [[[[c n] t] d']|] eqn:E; [|discriminate].
  destruct (resolve_canon _ _ _ _ _ _ _ _ E) as [-> _]. cbn [bind] in *.
  bcase_in H. unfold prepare_static in H. cbn [prepare_entities bind] in H. destruct (ensure_dim (r_size r)) as [size|]; [|discriminate].
  cbn [bind] in H. bcase_in H. bcase_in H. bcase_in H. bcase_in H. cbn [split_directivity bind] in H.
  unfold mic_directions, src_directions in H. destruct (String.eqb mp "omni") eqn:F1; [|discriminate]. cbn [bind] in H.
  destruct (String.eqb sp "omni") eqn:F2; [|discriminate]. apply String.eqb_eq in F1, F2. tauto.
Qed.

Lemma resolve_dir cfg mo tmax d d0 : resolve_config cfg mo tmax (Some d) =
  match resolve_config cfg mo tmax (Some d0) with Ok (c, n, t, _) => Ok (c, n, t, d) | Err e => Err e end.
Proof.
  unfold resolve_config. destruct (match cfg with Some c => Ok c | None => default_config end) as [c|]; cbn [bind]; auto.
  destruct (cfg_validate c); cbn [bind]; auto. destruct (match mo with Some n => Ok n | None => _ end); cbn [bind]; auto.
Qed.
Definition alias (p : string) : Prop := str_in (lower p) ["omni"; "omnidirectional"]%string = true.
Definition trivial_side (gs : side) (n : nat) : Prop :=
  gs = None \/ exists ds, gs = Some (fun _ => Some 1, ds) /\ dirs_fit gs n = true.
Lemma trivial_attenuation gs gm a b s m v x : trivial_side gs a -> trivial_side gm b ->
  image_attenuation gs gm s m v x = image_attenuation None None s m v x.
Proof.
  intros H1 H2. symmetry. apply attenuation_canon; [destruct H1 as [->|(d & -> & _)]|destruct H2 as [->|(d & -> & _)]]; eauto.
Qed.
Lemma contributions_trivial src mic size fs c h nv refl sp mp sd md gs gm :
  side_of sp sd = Ok gs -> side_of mp md = Ok gm ->
  trivial_side gs (length src) -> trivial_side gm (length mic) ->
  contributions_batch src mic size fs c h nv refl sp mp sd md =
  contributions_batch src mic size fs c h nv refl "omni" "omni" None None.
Proof.
  intros E1 E2 T1 T2. unfold contributions_batch. rewrite E1, E2. cbn [bind side_of String.eqb].
  replace (dirs_fit gs (length src)) with true by (destruct T1 as [->|(d & _ & ->)]; auto).
  replace (dirs_fit gm (length mic)) with true by (destruct T2 as [->|(d & _ & ->)]; auto).
  change (side_of "omni" None) with (Ok (None : side)). cbn [bind dirs_fit negb andb]. do 2 f_equal.
  apply flat_map_ext_in. intros s _. apply flat_map_ext_in. intros m _. apply map2_ext. intros. eapply trivial_attenuation; eauto.
Qed.
Lemma foldM_ext {A B} (f g : B -> A -> result B) l : (forall b a, f b a = g b a) -> forall b, foldM f l b = foldM g l b.
Proof. intros H. induction l; intros b; cbn; auto. rewrite H. destruct (g b a); cbn; auto. Qed.
Lemma static_loop_trivial dev c n src mic size fs cc nv refl sp mp sd md gs gm :
  side_of sp sd = Ok gs -> side_of mp md = Ok gm ->
  trivial_side gs (length src) -> trivial_side gm (length mic) ->
  static_loop dev c n src mic size fs cc nv refl sp mp sd md =
  static_loop dev c n src mic size fs cc nv refl "omni" "omni" None None.
Proof.
  intros. unfold static_loop. apply foldM_ext. intros b a. rewrite (contributions_trivial _ _ _ _ _ _ _ _ _ _ _ _ gs gm); auto.
Qed.
(** A direction vector of the room's dimension converts to one row. *)
Lemma vector_unit o dim : wf o -> shape o = [dim] -> dim = 2%nat \/ dim = 3%nat ->
  orientation_to_unit o dim = Ok (of_rows [] dim [normalize_orientation (data o)]).
Proof.
  intros W S D. unfold orientation_to_unit, ndim, numel, trows, wf in *. rewrite S in *. cbn [last length removelast prodn fold_right] in *.
  assert (L : length (data o) = dim) by (rewrite W; lia).
  assert (E : map (fun i => block (i * dim) dim (data o)) (seq 0 1) = [data o]).
  { cbn. unfold block. cbn [skipn]. rewrite <- L, firstn_all. auto. }
  destruct D; subst dim; cbn [Nat.eqb Nat.mul Nat.add negb andb]; rewrite ?Nat.mul_1_r; cbn [Nat.eqb negb andb]; rewrite E; reflexivity.
Qed.
Lemma vector_sides p o dim n : wf o -> shape o = [dim] -> dim = 2%nat \/ dim = 3%nat -> alias p ->
  (exists md gm, mic_directions p (Some o) dim = Ok md /\ side_of p md = Ok gm /\ trivial_side gm n) /\
  (exists sd gs, src_directions p (Some o) dim n = Ok sd /\ side_of p sd = Ok gs /\ trivial_side gs n).
Proof.
  intros W S D A. unfold mic_directions, src_directions. rewrite (vector_unit o dim) by auto. cbn [bind].
  assert (L : length (normalize_orientation (data o)) = dim).
  { rewrite length_normalize, W, S. cbn. lia. }
  assert (N : ndim (of_rows [] dim [normalize_orientation (data o)]) = 1%nat) by reflexivity. rewrite N.
  rewrite (trows_of_row dim) by auto. cbn [Nat.leb Nat.eqb andb nth].
  assert (SD : forall ds, side_of p (Some ds) = if String.eqb p "omni" then Ok None else Ok (Some (fun _ => Some 1, ds))).
  { intros ds. unfold side_of. destruct (String.eqb p "omni"); auto. unfold directivity_gain. rewrite A. reflexivity. }
  rewrite repeat_length, Nat.eqb_refl. cbn [negb].
  split.
  - destruct (String.eqb p "omni") eqn:E; [exists None, None; unfold side_of; rewrite E; repeat split; left; auto|].
    do 2 eexists. split; [reflexivity|]. rewrite SD. split; [reflexivity|]. right. eexists. split; [reflexivity|].
    cbn. rewrite orb_true_r. auto.
  - destruct (String.eqb p "omni") eqn:E; [exists None, None; unfold side_of; rewrite E; repeat split; left; auto|].
    do 2 eexists. split; [reflexivity|]. rewrite SD. split; [reflexivity|]. right. eexists. split; [reflexivity|].
    cbn. rewrite repeat_length, Nat.eqb_refl. auto.
Qed.
Lemma alias_equal X dev r ps os pm om mo nb ns tmax tdiff p q cfg : let dim := numel (r_size r) in
  alias p -> alias q -> wf os -> wf om -> shape os = [dim] -> shape om = [dim] ->
  simulate_rir X dev r (EObj ps (Some os)) (EObj pm (Some om)) mo nb ns tmax tdiff (Some (DTuple [p; q])) ONone cfg =
  simulate_rir X dev r (EObj ps (Some os)) (EObj pm (Some om)) mo nb ns tmax tdiff (Some (DName "omni")) ONone cfg.
Proof.
  intros dim Ap Aq W1 W2 S1 S2. unfold simulate_rir. rewrite (resolve_dir cfg mo tmax (DTuple [p; q]) (DName "omni")).
  destruct (resolve_config _ _ _ _) as [[[[c n] t] d']|] eqn:E; [|reflexivity]. destruct (resolve_canon _ _ _ _ _ _ _ _ E) as [-> _].
  cbn [bind]. destruct (validate_args _ _ _ _) as [k|]; cbn [bind]; auto.
  unfold prepare_static. cbn [prepare_entities bind]. destruct (ensure_dim (r_size r)) as [size|] eqn:Es; cbn [bind]; auto.
  assert (size = r_size r /\ (dim = 2 \/ dim = 3)%nat) as [-> D].
  { unfold ensure_dim in Es. match type of Es with (if ?b then _ else _) = _ => destruct b eqn:G; [|discriminate] end. injection Es as <-. split; auto.
    apply andb_true_iff in G as [_ G]. apply orb_true_iff in G as [G|G]; apply Nat.eqb_eq in G; auto. }
  fold dim. destruct (validate_pos_shapes _ _ dim); cbn [bind]; auto. destruct (resolve_beta r); cbn [bind]; auto.
  destruct (validate_beta _ dim); cbn [bind]; auto. destruct (image_source_indices _ dim _); cbn [bind]; auto.
  cbn [split_directivity bind].
  destruct (vector_sides q om dim (length (trows (unsqueeze1 pm))) W2 S2 D Aq) as [(md & gm & M1 & M2 & M3) _].
  destruct (vector_sides p os dim (length (trows (unsqueeze1 ps))) W1 S1 D Ap) as [_ (sd & gs & N1 & N2 & N3)].
  rewrite M1. cbn [bind]. rewrite N1. cbn [bind].
  change (mic_directions "omni" (Some om) dim) with (Ok (None : option (list (list R)))).
  change (src_directions "omni" (Some os) dim (length (trows (unsqueeze1 ps)))) with (Ok (None : option (list (list R)))).
  cbn [bind]. rewrite (static_loop_trivial _ _ _ _ _ _ _ _ _ _ _ _ _ _ gs gm); auto.
Qed.
Lemma alias_spells p : spells p "omni" \/ spells p "omnidirectional" <-> alias p.
Proof.
  unfold alias. rewrite str_in_spells.
  - split; [intros [H|H]; eexists; (split; [|exact H]); cbn; auto|]. intros (n & [<-|[<-|[]]] & H); auto.
  - repeat constructor; unfold lower_char; cbn; lia.
Qed.
