(** C90: the scene of the documentation. *)
From Coq Require Import List ZArith Reals Lia Lra Psatz Bool.
From Flocq Require Import Core.
From Verif Require Import Prelude PreludeFacts FloatModel FloatProofs DirModel DirSpec RoomModel GeoModel GeoSpec GeoSampling GsModel GsSpec GsProofs.
Import ListNotations.
Local Open Scope R_scope.
Local Notation length := List.length.

Lemma dist3 x y z u v w : distance [x; y; z] [u; v; w] = sqrt ((u - x) * (u - x) + ((v - y) * (v - y) + ((w - z) * (w - z) + 0))).
Proof. reflexivity. Qed.
Lemma sqrt_ge l x : 0 <= l -> l * l <= x -> l <= sqrt x.
Proof. intros L H. rewrite <- (sqrt_square l L). apply sqrt_le_1_alt. auto. Qed.
Lemma sqrt_le_of l x : 0 <= l -> x <= l * l -> sqrt x <= l.
Proof. intros L H. rewrite <- (sqrt_square l L). apply sqrt_le_1_alt. auto. Qed.
Lemma near3 e a b c x y z : Rabs (a - x) <= e -> Rabs (b - y) <= e -> Rabs (c - z) <= e -> near e [a; b; c] [x; y; z].
Proof. intros. split; auto. intros [|[|[|i]]] Hi; cbn in *; auto; lia. Qed.

(** Center and sources in numbers. *)
Lemma setup_numbers m g k : sound_maths m -> random_draws g ->
  exists x y z ax ay bx by_, mic_center g k = [x; y; z] /\ map (source_at m [x; y; z]) [30; 150] = [[ax; ay; 3 / 2]; [bx; by_; 3 / 2]] /\
    (Rabs (x - 4) <= 3 / 100 + / 10 ^ 5 /\ Rabs (y - 3) <= 3 / 100 + / 10 ^ 5 /\ Rabs (z - 3 / 2) <= 1 / 100 + / 10 ^ 5) /\
    Rabs (ax - (x + side / 2)) <= 4 / 1000000 /\ Rabs (ay - (y + 11 / 10)) <= 4 / 1000000 /\
    Rabs (bx - (x - side / 2)) <= 4 / 1000000 /\ Rabs (by_ - (y + 11 / 10)) <= 4 / 1000000.
Proof.
  intros M G. destruct (center_box g k G) as (x & y & z & E & Hx & Hy & Hz). destruct angles as (C1 & S1 & C2 & S2). pose proof root3 as R3.
  assert (T : / 10 ^ 5 = 1 / 100000) by lra. rewrite T in *.
  assert (Hx1 : Rabs (x - 4) <= 1) by lra. assert (Hy1 : Rabs (y - 3) <= 1) by lra.
  destruct (source_box m [x; y; z] x y z 30 _ _ M eq_refl Hx1 Hy1 C1 S1) as (ax & ay & Ea & Ha1 & Ha2); [apply Rabs_le; lra|apply Rabs_le; lra|].
  destruct (source_box m [x; y; z] x y z 150 _ _ M eq_refl Hx1 Hy1 C2 S2) as (bx & by_ & Eb & Hb1 & Hb2); [apply Rabs_le; lra|apply Rabs_le; lra|].
  exists x, y, z, ax, ay, bx, by_. split; auto. split; [cbn [map]; rewrite Ea, Eb; auto|]. split; [auto|]. unfold side.
  apply Rabs_le_inv in Ha1, Ha2, Hb1, Hb2. split; [|split; [|split]]; apply Rabs_le; lra.
Qed.
Lemma norm2 p q : norm [p; q] = sqrt (p * p + (q * q + 0)).
Proof. reflexivity. Qed.
Lemma radius_ok m p q : sound_maths m -> 19 / 10 <= Rabs p -> 109 / 100 <= q -> 2 <= m_norm m [p; q].
Proof.
  intros (_ & _ & _ & Mn) Hp Hq. destruct (Mn [p; q]) as [N _]. assert (218 / 100 <= norm [p; q]); [|lra]. rewrite norm2. apply sqrt_ge; [lra|].
  assert (19 / 10 * (19 / 10) <= p * p) by (rewrite <- (Rabs_pos_eq (p * p)), Rabs_mult by nra; apply Rmult_le_compat; lra).
  assert (109 / 100 * (109 / 100) <= q * q) by (apply Rmult_le_compat; lra). lra.
Qed.
(** The set-up passes its own checks and is as announced, whatever is drawn. *)
Theorem C90_setup m g k : sound_maths m -> random_draws g ->
  exists c mics src, common_setup m g k = Ok (c, mics, src) /\ setup_ok c mics src.
Proof.
  intros M G. destruct (setup_numbers m g k M G) as (x & y & z & ax & ay & bx & by_ & Ec & Es & (Hx & Hy & Hz) & A1 & A2 & B1 & B2).
  unfold common_setup. rewrite Ec, Es. cbn [binaural_array v_data v_dtype to_dtype length repeat map2 combine map fst snd bind].
  pose proof side_box as SB. assert (T5 : / 10 ^ 5 = 1 / 100000) by lra.
  pose proof Hx as Hx'. pose proof Hy as Hy'. pose proof Hz as Hz'. rewrite T5 in Hx', Hy', Hz'. apply Rabs_le_inv in Hx', Hy', Hz'.
  pose proof A1 as A1'. pose proof A2 as A2'. pose proof B1 as B1'. pose proof B2 as B2'. apply Rabs_le_inv in A1', A2', B1', B2'.
  cbn [forallb firstn]. unfold sub32. cbn [map2 combine map fst snd].
  pose proof (box32 (ax - x) (19 / 10 + 1 / 1000) 2 ltac:(lra) ltac:(lra) ltac:(lra)) as Q1. pose proof (box32 (ay - y) (1099 / 1000) 2 ltac:(lra) ltac:(lra) ltac:(lra)) as Q2.
  pose proof (box32 (bx - x) (-2) (- 19 / 10 - 1 / 1000) ltac:(lra) ltac:(lra) ltac:(lra)) as Q3. pose proof (box32 (by_ - y) (1099 / 1000) 2 ltac:(lra) ltac:(lra) ltac:(lra)) as Q4. rewrite tol6 in *.
  assert (N1 : 2 <= m_norm m [rnd32 (ax - x); rnd32 (ay - y)]) by (apply radius_ok; auto; [rewrite Rabs_pos_eq; lra|lra]).
  assert (N2 : 2 <= m_norm m [rnd32 (bx - x); rnd32 (by_ - y)]) by (apply radius_ok; auto; [rewrite <- Rabs_Ropp, Rabs_pos_eq; lra|lra]).
  unfold Rltb at 1 2. destruct (Rlt_dec _ 2) as [L|_]; [lra|]. destruct (Rlt_dec _ 2) as [L|_]; [lra|]. cbn [negb andb].
  unfold Rltb. destruct (Rlt_dec (Rabs (150 - 30)) 30) as [L|_]; [rewrite Rabs_pos_eq in L; lra|].
  eexists _, _, _. split; [reflexivity|].
  assert (CC : cos (5 * PI / 6) = - (sqrt 3 / 2) /\ sin (5 * PI / 6) = 1 / 2).
  { destruct angles as (_ & _ & C2 & S2). replace (5 * PI / 6) with (150 * PI / 180) by lra. auto. }
  destruct CC as [CC1 CC2].
  constructor.
  - exists x, y, z. auto.
  - eexists _, _. split; [reflexivity|]. split.
    + rewrite dist3. match goal with |- sqrt ?t = _ => replace t with (20 / 100 * (20 / 100)) by lra end. apply sqrt_square. lra.
    + intros [|[|[|i]]] Hi; cbn in *; try lra; lia.
  - exists [ax; ay; 3 / 2], [bx; by_; 3 / 2]. split; auto. cbn [nth]. rewrite cos_PI6, sin_PI6, CC1, CC2. unfold side in *. split; [|split].
    + apply near3; apply Rabs_le; lra.
    + apply near3; apply Rabs_le; lra.
    + cbn [disp]. apply Rle_trans with 0; [|pose proof root3; lra]. unfold cosine.
      assert (D : dot [ax - x; ay - y; 3 / 2 - z] [bx - x; by_ - y; 3 / 2 - z] <= 0).
      { cbn [dot]. assert ((ax - x) * (bx - x) <= - (19 / 10 * (19 / 10))).
        { assert (19 / 10 * (19 / 10) <= (ax - x) * - (bx - x)) by (apply Rmult_le_compat; lra). lra. }
        assert ((ay - y) * (by_ - y) <= 111 / 100 * (111 / 100)) by (apply Rmult_le_compat; lra).
        pose proof (mul_small (3 / 2 - z) (3 / 2 - z) (2 / 100) (2 / 100) ltac:(lra) ltac:(lra)). lra. }
      assert (P : forall v, 0 <= norm v) by (intros; apply sqrt_pos).
      pose proof (Rmult_le_pos _ _ (P [ax - x; ay - y; 3 / 2 - z]) (P [bx - x; by_ - y; 3 / 2 - z])) as PP. set (d := norm _ * norm _) in *.
      destruct (Req_dec d 0) as [->|Nd]; [unfold Rdiv; rewrite Rinv_0; lra|]. unfold Rdiv. assert (0 < / d) by (apply Rinv_0_lt_compat; lra). nra.
  - intros p [<-|[<-|[]]]; rewrite dist3; (apply sqrt_ge; [lra|]).
    + assert (19 / 10 * (19 / 10) <= (ax - x) * (ax - x)) by (apply Rmult_le_compat; lra). assert (109 / 100 * (109 / 100) <= (ay - y) * (ay - y)) by (apply Rmult_le_compat; lra).
      pose proof (Rle_0_sqr (3 / 2 - z)) as Z. unfold Rsqr in Z. lra.
    + assert (19 / 10 * (19 / 10) <= - (bx - x) * - (bx - x)) by (apply Rmult_le_compat; lra). assert (109 / 100 * (109 / 100) <= (by_ - y) * (by_ - y)) by (apply Rmult_le_compat; lra).
      pose proof (Rle_0_sqr (3 / 2 - z)) as Z. unfold Rsqr in Z. lra.
  - intros p Hp. cbn [app In] in Hp. destruct Hp as [<-|[<-|[<-|[<-|[]]]]]; (eexists _, _, _; split; [reflexivity|lra]).
Qed.
(** The sources of a set-up in numbers. *)
Lemma setup_sources m g k c mics src : sound_maths m -> random_draws g -> common_setup m g k = Ok (c, mics, src) ->
  exists ax ay bx by_, src = [[ax; ay; 3 / 2]; [bx; by_; 3 / 2]] /\ 5 <= ax <= 6 /\ 4 <= ay <= 42 / 10 /\ 2 <= bx <= 3 /\ 4 <= by_ <= 42 / 10 /\
    Rabs (ax - bx - side) <= 8 / 1000000 /\ Rabs (ay - by_) <= 8 / 1000000.
Proof.
  intros M G. destruct (setup_numbers m g k M G) as (x & y & z & ax & ay & bx & by_ & Ec & Es & (Hx & Hy & Hz) & A1 & A2 & B1 & B2).
  unfold common_setup. rewrite Ec, Es. destruct (binaural_array _ _) as [mc|]; cbn [bind]; [|discriminate].
  destruct (negb _); [discriminate|]. destruct (Rltb _ _); [discriminate|]. intros E. apply Ok_inj in E. injection E as _ _ <-.
  pose proof side_box. assert (T5 : / 10 ^ 5 = 1 / 100000) by lra. rewrite T5 in *. apply Rabs_le_inv in A1, A2, B1, B2, Hx, Hy.
  exists ax, ay, bx, by_. split; auto. repeat (split; [lra|]). split; apply Rabs_le; lra.
Qed.
Lemma norm_film m r p q s : sound_maths m -> Rabs r <= 1 / 100000 -> (norm [p; q; r] <= s -> m_norm m [p; q; r] <= s * (1001 / 1000)) /\ (s <= norm [p; q; r] -> s * (999 / 1000) <= m_norm m [p; q; r]).
Proof. intros (_ & _ & _ & Mn) Hr. destruct (Mn [p; q; r]). split; intros; lra. Qed.
(** A row of the film in numbers. *)
Lemma film_rows m ax ay bx by_ : sound_maths m -> 5 <= ax <= 6 -> 4 <= ay <= 42 / 10 -> 2 <= bx <= 3 -> 4 <= by_ <= 42 / 10 ->
  Rabs (ax - bx - side) <= 8 / 1000000 -> Rabs (ay - by_) <= 8 / 1000000 ->
  forall k, (k < 128)%nat -> exists e f, moving_source m [ax; ay; 3 / 2] [bx; by_; 3 / 2] k =
    [ax + (- side + INR k / 127 * (side + 35 / 100)) + e; ay + INR k / 127 * (1 / 10) + f; 3 / 2] /\ Rabs e <= 4 / 100000 /\ Rabs f <= 4 / 100000.
Proof.
  intros M H1 H2 H3 H4 H5 H6 k Hk. destruct (moving_box m ax ay bx by_ k M Hk ltac:(lra) ltac:(lra) ltac:(lra) ltac:(lra) H5 H6) as (u & v & E & U & V).
  exists (u - ax - (- side + INR k / 127 * (side + 35 / 100))), (v - ay - INR k / 127 * (1 / 10)). split; auto. rewrite E. f_equal; [lra|]. f_equal. lra.
Qed.
Lemma step_range k : (k < 128)%nat -> 0 <= INR k / 127 <= 1.
Proof. intros H. assert (INR k <= 127) by (replace 127 with (INR 127) by (cbn; lra); apply le_INR; lia). pose proof (pos_INR k). lra. Qed.
(** The film passes its own check and is as announced. *)
Theorem C90_film m g k c mics src : sound_maths m -> random_draws g -> common_setup m g k = Ok (c, mics, src) ->
  exists rows mic_rows, film m mics src = Ok (rows, mic_rows) /\ film_ok mics src rows mic_rows.
Proof.
  intros M G E. destruct (setup_sources m g k c mics src M G E) as (ax & ay & bx & by_ & -> & H1 & H2 & H3 & H4 & H5 & H6).
  pose proof (film_rows m ax ay bx by_ M H1 H2 H3 H4 H5 H6) as F. pose proof side_box as SB. unfold film. cbn [nth].
  match goal with |- context [map ?f (seq 0 128)] => set (row := f) end.
  assert (Nr : forall j, (j < 128)%nat -> nth j (map row (seq 0 128)) [] = row j).
  { intros j Hj. rewrite nth_indep with (d' := row 0%nat) by (rewrite map_length, seq_length; auto). rewrite map_nth, seq_nth by auto. auto. }
  rewrite !Nr by lia. unfold row at 1 2 3 4. cbn [nth].
  destruct (F 0%nat ltac:(lia)) as (e0 & f0 & E0 & B0 & C0). destruct (F 127%nat ltac:(lia)) as (e1 & f1 & E1 & B1 & C1). rewrite E0, E1.
  unfold sub32. cbn [map2 combine map fst snd]. replace (INR 0 / 127) with 0 by (cbn; lra). replace (INR 127 / 127) with 1 by (cbn; lra).
  apply Rabs_le_inv in B0, C0, B1, C1.
  assert (Z : rnd32 (3 / 2 - 3 / 2) = 0) by (replace (3 / 2 - 3 / 2) with 0 by lra; apply rnd32_0). rewrite !Z.
  pose proof (box32 (ax + (- side + 1 * (side + 35 / 100)) + e1 - ax) (34 / 100) (36 / 100) ltac:(lra) ltac:(lra) ltac:(lra)) as P1.
  pose proof (box32 (ay + 1 * (1 / 10) + f1 - ay) (9 / 100) (11 / 100) ltac:(lra) ltac:(lra) ltac:(lra)) as P2.
  pose proof (box32 (ax + (- side + 0 * (side + 35 / 100)) + e0 - ax) (-4) (-38 / 10) ltac:(lra) ltac:(lra) ltac:(lra)) as P3.
  rewrite tol6 in *. match goal with |- context [Rltb (m_norm m [?p; ?q; 0]) (m_norm m [?r; ?s; 0])] => set (p1 := p) in *; set (q1 := q) in *; set (p0 := r) in *; set (q0 := s) in * end.
  assert (L1 : m_norm m [p1; q1; 0] <= 1 * (1001 / 1000)).
  { apply (norm_film m 0 p1 q1 1 M ltac:(rewrite Rabs_R0; lra)). unfold norm. cbn [dot]. apply sqrt_le_of; [lra|].
    assert (p1 * p1 <= 37 / 100 * (37 / 100)) by (apply Rmult_le_compat; lra). assert (q1 * q1 <= 12 / 100 * (12 / 100)) by (apply Rmult_le_compat; lra). lra. }
  assert (L0 : 3 * (999 / 1000) <= m_norm m [p0; q0; 0]).
  { apply (norm_film m 0 p0 q0 3 M ltac:(rewrite Rabs_R0; lra)). unfold norm. cbn [dot]. apply sqrt_ge; [lra|].
    assert (3 * 3 <= - p0 * - p0) by (apply Rmult_le_compat; lra). pose proof (Rle_0_sqr q0) as Q. unfold Rsqr in Q. lra. }
  unfold Rltb. destruct (Rlt_dec _ _) as [_|N]; [|exfalso; lra]. eexists _, _. split; [reflexivity|]. constructor.
  - rewrite map_length, seq_length. auto.
  - auto.
  - intros j Hj. rewrite Nr by auto. unfold row. eexists. split; [reflexivity|]. destruct (F j Hj) as (e & f & Ej & Be & Bf). rewrite Ej. cbn [nth map].
    pose proof (step_range j Hj) as T. set (t := INR j / 127) in *. apply Rabs_le_inv in Be, Bf, H5, H6.
    apply near3.
    + pose proof (mul_small (1 - t) (ax - bx - side) (8 / 1000000) 1 ltac:(lra) ltac:(lra)).
      match goal with |- Rabs ?x <= _ => replace x with ((1 - t) * (ax - bx - side) + e) by ring end. apply Rabs_le. lra.
    + pose proof (mul_small (1 - t) (ay - by_) (8 / 1000000) 1 ltac:(lra) ltac:(lra)).
      match goal with |- Rabs ?x <= _ => replace x with ((1 - t) * (ay - by_) + f) by field end. apply Rabs_le. lra.
    + match goal with |- Rabs ?x <= _ => replace x with 0 by ring end. rewrite Rabs_R0. lra.
  - intros j p Hj. rewrite Nr by auto. unfold row. intros [<-|[<-|[]]]; [eexists _, _, _; split; [reflexivity|lra]|].
    destruct (F j Hj) as (e & f & Ej & Be & Bf). rewrite Ej. pose proof (step_range j Hj) as T. set (t := INR j / 127) in *. apply Rabs_le_inv in Be, Bf, H5, H6.
    eexists _, _, _. split; [reflexivity|].
    assert (0 <= t * (side + 35 / 100)) by (apply Rmult_le_pos; lra). assert (t * (side + 35 / 100) <= 1 * (side + 35 / 100)) by (apply Rmult_le_compat_r; lra). lra.
Qed.
(** "Source 2 moves toward source 1": true for the first 116 steps. *)
Theorem C90_toward_partial m g k c mics src rows mic_rows : sound_maths m -> random_draws g -> common_setup m g k = Ok (c, mics, src) ->
  film m mics src = Ok (rows, mic_rows) -> forall j, (j < 116)%nat -> apart (nth (S j) rows []) < apart (nth j rows []).
Proof.
  intros M G E Ef j Hj. destruct (setup_sources m g k c mics src M G E) as (ax & ay & bx & by_ & -> & H1 & H2 & H3 & H4 & H5 & H6).
  pose proof (film_rows m ax ay bx by_ M H1 H2 H3 H4 H5 H6) as F. unfold film in Ef. cbn [nth] in Ef. revert Ef.
  match goal with |- context [map ?f (seq 0 128)] => set (row := f) end.
  assert (Nr : forall j, (j < 128)%nat -> nth j (map row (seq 0 128)) [] = row j).
  { intros i Hi. rewrite nth_indep with (d' := row 0%nat) by (rewrite map_length, seq_length; auto). rewrite map_nth, seq_nth by auto. auto. }
  destruct (Rltb _ _); [|discriminate]. intros Q. apply Ok_inj in Q. injection Q as <- _. rewrite !Nr by lia. unfold row, apart. cbn [nth].
  destruct (F j ltac:(lia)) as (e & f & Ej & Be & Bf). destruct (F (S j) ltac:(lia)) as (e' & f' & Ej' & Be' & Bf'). rewrite Ej, Ej'. rewrite !dist3.
  assert (T : 0 <= INR j <= 115) by (split; [apply pos_INR|replace 115 with (INR 115) by (cbn; lra); apply le_INR; lia]).
  pose proof (step_dec (INR j) e e' f f' T Be Be' Bf Bf') as D. cbv zeta in D. rewrite S_INR. apply sqrt_lt_1_alt. split.
  - repeat (apply Rplus_le_le_0_compat; [apply Rle_0_sqr|]). lra.
  - eapply Rle_lt_trans; [|eapply Rlt_le_trans; [exact D|]]; apply Req_le; ring.
Qed.
(** In the last eleven steps it moves away again: it passes the first source within ten
    centimetres and stops 36 cm behind it. *)
Theorem C90_toward_refuted m g k c mics src rows mic_rows : sound_maths m -> random_draws g -> common_setup m g k = Ok (c, mics, src) ->
  film m mics src = Ok (rows, mic_rows) ->
  (forall j, (116 <= j < 127)%nat -> apart (nth j rows []) < apart (nth (S j) rows [])) /\ apart (nth 116 rows []) <= 1 / 10 /\ 36 / 100 <= apart (nth 127 rows []).
Proof.
  intros M G E Ef. destruct (setup_sources m g k c mics src M G E) as (ax & ay & bx & by_ & -> & H1 & H2 & H3 & H4 & H5 & H6).
  pose proof (film_rows m ax ay bx by_ M H1 H2 H3 H4 H5 H6) as F. unfold film in Ef. cbn [nth] in Ef. revert Ef.
  match goal with |- context [map ?f (seq 0 128)] => set (row := f) end.
  assert (Nr : forall j, (j < 128)%nat -> nth j (map row (seq 0 128)) [] = row j).
  { intros i Hi. rewrite nth_indep with (d' := row 0%nat) by (rewrite map_length, seq_length; auto). rewrite map_nth, seq_nth by auto. auto. }
  destruct (Rltb _ _); [|discriminate]. intros Q. apply Ok_inj in Q. injection Q as <- _. pose proof side_box as SB. split; [|split].
  - intros j Hj. rewrite !Nr by lia. unfold row, apart. cbn [nth].
    destruct (F j ltac:(lia)) as (e & f & Ej & Be & Bf). destruct (F (S j) ltac:(lia)) as (e' & f' & Ej' & Be' & Bf'). rewrite Ej, Ej'. rewrite !dist3.
    assert (T : 116 <= INR j <= 127) by (split; [replace 116 with (INR 116) by (cbn; lra)|replace 127 with (INR 127) by (cbn; lra)]; apply le_INR; lia).
    pose proof (step_inc (INR j) e e' f f' T Be Be' Bf Bf') as D. cbv zeta in D. rewrite S_INR. apply sqrt_lt_1_alt. split.
    + repeat (apply Rplus_le_le_0_compat; [apply Rle_0_sqr|]). lra.
    + eapply Rle_lt_trans; [|eapply Rlt_le_trans; [exact D|]]; apply Req_le; ring.
  - rewrite Nr by lia. unfold row, apart. cbn [nth]. destruct (F 116%nat ltac:(lia)) as (e & f & Ej & Be & Bf). rewrite Ej, dist3. replace (INR 116) with 116 by (cbn; lra). apply sqrt_le_of; [lra|].
    apply Rabs_le_inv in Be, Bf.
    match goal with |- ?x * ?x + (?y * ?y + _) <= _ => pose proof (mul_small x x (2 / 100) (2 / 100) ltac:(lra) ltac:(lra)); pose proof (mul_small y y (93 / 1000) (93 / 1000) ltac:(lra) ltac:(lra)) end. lra.
  - rewrite Nr by lia. unfold row, apart. cbn [nth]. destruct (F 127%nat ltac:(lia)) as (e & f & Ej & Be & Bf). rewrite Ej, dist3. replace (INR 127) with 127 by (cbn; lra). apply sqrt_ge; [lra|].
    apply Rabs_le_inv in Be, Bf.
    match goal with |- _ <= ?x * ?x + (?y * ?y + _) => pose proof (Rmult_le_compat (3499 / 10000) x (3499 / 10000) x ltac:(lra) ltac:(lra) ltac:(lra) ltac:(lra)); pose proof (Rmult_le_compat (999 / 10000) y (999 / 10000) y ltac:(lra) ltac:(lra) ltac:(lra) ltac:(lra)) end. lra.
Qed.
(** Elementary functions without any error are sound. *)
Definition exact_maths : maths := mkMaths (fun d => cos (d * PI / 180)) (fun d => sin (d * PI / 180)) (fun n k => INR k / (INR n - 1)) norm.
Example C90_maths_example : sound_maths exact_maths.
Proof.
  unfold exact_maths. split; [intros; cbn [m_cos]; rewrite Rminus_eq_0, Rabs_R0; lra|]. split; [intros; cbn [m_sin]; rewrite Rminus_eq_0, Rabs_R0; lra|]. split.
  - intros n k Hk. cbn [m_lin]. rewrite Rminus_eq_0, Rabs_R0. split; [|lra]. assert (Hn : INR k <= INR n - 1) by (apply Nat.le_succ_l, le_INR in Hk; rewrite S_INR in Hk; lra). pose proof (pos_INR k).
    destruct (Req_dec (INR n - 1) 0) as [Z|Z]; [rewrite Z in *; unfold Rdiv; rewrite Rinv_0; lra|]. assert (0 < INR n - 1) by lra.
    split; [apply Rmult_le_pos; [lra|apply Rlt_le, Rinv_0_lt_compat; lra]|]. apply Rmult_le_reg_r with (INR n - 1); auto. unfold Rdiv. rewrite Rmult_assoc, Rinv_l; lra.
  - intros v. cbn [m_norm]. assert (0 <= norm v) by apply sqrt_pos. lra.
Qed.
Example C90_draws_example : random_draws (fun _ => 1 / 2).
Proof. intros k. assert (/ 2 ^ 53 <= / 2) by (apply Rinv_le_contravar; [lra|]; rewrite <- (pow_1 2) at 1; apply Rle_pow; [lra|lia]). lra. Qed.
Print Assumptions C90_setup.
Print Assumptions C90_film.
Print Assumptions C90_toward_partial.
Print Assumptions C90_toward_refuted.
