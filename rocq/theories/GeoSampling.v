(** Proofs about the random samplers, clamping and trajectories. *)
From Coq Require Import String List ZArith Reals Lia Lra Psatz Bool.
From Flocq Require Import Core Plus_error Relative.
From Verif Require Import Prelude PreludeFacts FloatModel FloatProofs DirModel DirSpec DirProofs RoomModel GeoModel GeoSpec GeoProofs.
Import ListNotations.
Local Open Scope R_scope.
Local Notation length := List.length.

(** ** Rounding *)
Local Instance p53 : Prec_gt_0 53. Proof. unfold Prec_gt_0. lia. Qed.
Local Instance p24 : Prec_gt_0 24. Proof. unfold Prec_gt_0. lia. Qed.
Lemma double_format x : double x -> generic_format radix2 (FLT_exp (-1074) 53) x.
Proof. intros H. unfold double, rnd64 in H. rewrite <- H. apply generic_format_round; typeclasses eauto. Qed.
Lemma single_format x : single x -> generic_format radix2 (FLT_exp (-149) 24) x.
Proof. intros H. unfold single, rnd32 in H. rewrite <- H. apply generic_format_round; typeclasses eauto. Qed.
Lemma rnd64_format x : generic_format radix2 (FLT_exp (-1074) 53) (rnd64 x).
Proof. apply generic_format_round; typeclasses eauto. Qed.
Lemma rnd64_double x : double (rnd64 x).
Proof. apply round_generic; [typeclasses eauto|]. apply rnd64_format. Qed.
Lemma rnd32_single x : single (rnd32 x).
Proof. apply round_generic; [typeclasses eauto|]. apply generic_format_round; typeclasses eauto. Qed.

(** [uniform] stays between its bounds, whatever the roundings. *)
Lemma uniform_bounds a b r : double a -> double b -> a <= b -> 0 <= r <= 1 - / 2 ^ 53 -> a <= uniform a b r <= b.
Proof.
  intros Da Db Hab Hr. unfold uniform. set (X := rnd64 (b - a)). set (P := rnd64 (X * r)).
  assert (HX : 0 <= X) by (apply rnd64_nonneg; lra).
  assert (HP : 0 <= P) by (apply rnd64_nonneg; nra).
  unfold double in Da, Db.
  split; [rewrite <- Da at 1; apply rnd64_le; lra|].
  apply Rle_trans with (rnd64 b); [|lra]. apply rnd64_le. enough (P <= b - a) by lra.
  apply double_format in Da as Fa. apply double_format in Db as Fb.
  destruct (Req_dec X 0) as [X0|X0].
  { unfold P. rewrite X0, Rmult_0_l, rnd64_0. lra. }
  assert (FX : generic_format radix2 (FLT_exp (-1074) 53) X) by apply rnd64_format.
  set (Y := pred radix2 (FLT_exp (-1074) 53) X).
  assert (FY : generic_format radix2 (FLT_exp (-1074) 53) Y) by (apply generic_format_pred; auto; typeclasses eauto).
  assert (YX : Y < X) by (apply pred_lt_id; auto).
  assert (Y0 : 0 <= Y) by (apply pred_ge_0; auto; try typeclasses eauto; lra).
  assert (YS : succ radix2 (FLT_exp (-1074) 53) Y = X) by (apply succ_pred; auto; typeclasses eauto).
  assert (YU : Y + ulp radix2 (FLT_exp (-1074) 53) Y = X) by (apply pred_plus_ulp; auto; try typeclasses eauto; lra).
  destruct (Rle_or_lt (bpow radix2 (-1074 + 53 - 1)) Y) as [L|L].
  - pose proof (ulp_FLT_le radix2 (-1074) 53 Y) as U. rewrite Rabs_right in U by lra. specialize (U L).
    assert (B52 : bpow radix2 (1 - 53) = 2 * / 2 ^ 53) by (cbn; lra).
    assert (P <= Y).
    { unfold P, rnd64. apply round_N_le_midp; [typeclasses eauto|exact FY|]. change fexp64 with (FLT_exp (-1074) 53). rewrite YS.
      rewrite B52 in U. assert (0 < / 2 ^ 53) by (apply Rinv_0_lt_compat, pow_lt; lra). nra. }
    enough (Y <= b - a) by lra. apply Rnot_lt_le. intros C.
    assert (X <= Y); [|lra]. unfold X. rewrite <- (round_generic radix2 (FLT_exp (-1074) 53) ZnearestE Y) by auto. apply rnd64_le. lra.
  - assert (E : X = b - a).
    { apply round_generic; [typeclasses eauto|]. apply FLT_format_plus_small; auto; [typeclasses eauto|apply generic_format_opp; auto|].
      rewrite Rabs_right by lra. apply Rnot_lt_le. intros C.
      assert (bpow radix2 (53 + -1074) <= X).
      { unfold X. rewrite <- (round_generic radix2 (FLT_exp (-1074) 53) ZnearestE (bpow radix2 (53 + -1074))).
        - apply rnd64_le. lra.
        - apply generic_format_FLT_bpow; [typeclasses eauto|lia]. }
      assert (ulp radix2 (FLT_exp (-1074) 53) Y <= bpow radix2 (-1074 + 53 - 1)).
      { rewrite ulp_FLT_small; [|typeclasses eauto|].
        - apply bpow_le. lia.
        - rewrite Rabs_right by lra. apply Rlt_trans with (1 := L). apply bpow_lt. lia. }
      assert (bpow radix2 (53 + -1074) = 2 * bpow radix2 (-1074 + 53 - 1)).
      { replace (53 + -1074)%Z with ((-1074 + 53 - 1) + 1)%Z by lia. rewrite bpow_plus. change (bpow radix2 1) with 2. lra. }
      lra. }
    unfold P. rewrite <- E. unfold X at 2. rewrite <- (rnd64_double (b - a)). apply rnd64_le. fold X. nra.
Qed.

(** ** Samplers *)
Lemma nth_highs size margin i : (i < length size)%nat -> nth i (highs size margin) 0 = rnd64 (nth i size 0 - margin).
Proof. intros H. unfold highs. rewrite (nth_indep _ 0 (rnd64 (0 - margin))) by (rewrite map_length; auto). apply (map_nth (fun s => rnd64 (s - margin))). Qed.
Lemma draw_point_spec rng k size margin : random_draws rng -> spacious size margin ->
  length (draw_point rng k size margin) = length size /\
  forall i, (i < length size)%nat -> margin <= nth i (draw_point rng k size margin) 0 <= rnd64 (nth i size 0 - margin).
Proof.
  intros Hr [Dm Hs]. unfold draw_point. split; [rewrite map_length, seq_length; auto|]. intros i Hi. rewrite nth_tab by auto.
  rewrite nth_highs by auto. apply uniform_bounds; auto; [apply rnd64_double|]. rewrite Forall_forall in Hs. apply Hs, nth_In; auto.
Qed.
Lemma nth_map_rnd32 p i : nth i (map rnd32 p) 0 = rnd32 (nth i p 0).
Proof. rewrite <- rnd32_0 at 1. apply map_nth. Qed.
Lemma box_rnd32 size margin p : length p = length size ->
  (forall i, (i < length size)%nat -> margin <= nth i p 0 <= rnd64 (nth i size 0 - margin)) ->
  in_box (low_corner size margin) (high_corner size margin) (map rnd32 p).
Proof.
  intros L H. unfold in_box, low_corner, high_corner. rewrite !map_length. split; [auto|]. split; [auto|]. intros i Hi.
  rewrite nth_map_rnd32. rewrite L in Hi. specialize (H i Hi).
  rewrite (nth_indep (map (fun _ => _) size) 0 (rnd32 margin)) by (rewrite map_length; auto). rewrite (map_nth (fun _ => rnd32 margin) size 0).
  rewrite (nth_indep (map (fun s => _) size) 0 (rnd32 (rnd64 (0 - margin)))) by (rewrite map_length; auto).
  rewrite (map_nth (fun s => rnd32 (rnd64 (s - margin)))). split; apply rnd32_le; lra.
Qed.
Lemma sample_positions_spec rng k num size margin : random_draws rng -> spacious size margin ->
  length (fst (sample_positions rng k num size margin)) = Z.to_nat num /\
  forall p, In p (fst (sample_positions rng k num size margin)) -> in_box (low_corner size margin) (high_corner size margin) p.
Proof.
  intros Hr Hs. cbn [sample_positions fst]. unfold sample_positions, draw_points. cbn [fst]. split; [rewrite !map_length, seq_length; auto|].
  intros p Hp. apply in_map_iff in Hp as (q & <- & Hq). apply in_map_iff in Hq as (j & <- & _).
  destruct (draw_point_spec rng (k + j * length size) size margin Hr Hs). apply box_rnd32; auto.
Qed.
Lemma z_bounds_spec size margin zmin zmax : spacious size margin -> double zmin -> double zmax -> z_feasible size margin zmin zmax ->
  let b := z_bounds size margin (zmin, zmax) in
  double (fst b) /\ double (snd b) /\ fst b < snd b /\ margin <= fst b /\ zmin <= fst b /\ snd b <= zmax /\ snd b <= rnd64 (nth 2 size 0 - margin).
Proof.
  intros [Dm _] D1 D2 [_ F]. cbn. split; [unfold Rmax; destruct (Rle_dec _ _); auto|].
  split; [unfold Rmin; destruct (Rle_dec _ _); auto; apply rnd64_double|]. split; [auto|].
  repeat split; auto using Rmax_l, Rmax_r, Rmin_l, Rmin_r.
Qed.
Lemma rleb_false a b : Rleb a b = false <-> b < a.
Proof. unfold Rleb. destruct (Rle_dec a b); split; intros; try discriminate; auto; lra. Qed.
Lemma rleb_true a b : Rleb a b = true <-> a <= b.
Proof. unfold Rleb. destruct (Rle_dec a b); split; intros; try discriminate; auto; lra. Qed.
Lemma rltb_true a b : Rltb a b = true <-> a < b.
Proof. unfold Rltb. destruct (Rlt_dec a b); split; intros; try discriminate; auto; lra. Qed.
Lemma Ok_inj {A} (a b : A) : Ok a = Ok b -> a = b.
Proof. intros H. injection H. auto. Qed.
Lemma length_upd_nth {A} k (f : A -> A) l : length (upd_nth k f l) = length l.
Proof. revert k. induction l; intros [|k]; cbn; auto. Qed.
Lemma box_upd size margin p z : in_box (low_corner size margin) (high_corner size margin) p -> (3 <= length size)%nat ->
  rnd32 margin <= z <= rnd32 (rnd64 (nth 2 size 0 - margin)) ->
  in_box (low_corner size margin) (high_corner size margin) (upd_nth 2 (fun _ => z) p).
Proof.
  intros (L1 & L2 & B) L3 Z. unfold in_box. rewrite length_upd_nth. split; auto. split; auto. intros i Hi.
  assert (Ls : length p = length size) by (unfold low_corner in L1; rewrite map_length in L1; auto).
  destruct (Nat.eq_dec i 2) as [Qi|Qi].
  - subst i. rewrite nth_upd_nth_eq by lia. unfold low_corner, high_corner.
    rewrite (nth_indep (map (fun _ => _) size) 0 (rnd32 margin)) by (rewrite map_length; lia). rewrite (map_nth (fun _ => rnd32 margin) size 0).
    rewrite (nth_indep (map (fun s => _) size) 0 (rnd32 (rnd64 (0 - margin)))) by (rewrite map_length; lia).
    rewrite (map_nth (fun s => rnd32 (rnd64 (s - margin)))). auto.
  - rewrite nth_upd_nth_neq by auto. apply B; auto.
Qed.
Lemma z_range_spec rng k num size zmin zmax margin pts : random_draws rng -> spacious size margin -> double zmin -> double zmax ->
  sample_positions_with_z_range rng k num size (zmin, zmax) margin = Ok pts ->
  length pts = Z.to_nat num /\ forall p, In p pts ->
    in_box (low_corner size margin) (high_corner size margin) p /\
    (z_feasible size margin zmin zmax -> rnd32 zmin <= nth 2 p 0 <= rnd32 zmax).
Proof.
  intros Hr Hs D1 D2 H. unfold sample_positions_with_z_range in H.
  destruct (sample_positions_spec rng k num size margin Hr Hs) as [SL SB].
  destruct (sample_positions rng k num size margin) as [pos k'] eqn:Es. cbn [fst] in SL, SB.
  destruct (Nat.ltb_spec (length size) 3) as [L3|L3].
  { injection H as <-. split; auto. intros p Hp. split; auto. intros [F _]. lia. }
  destruct (z_bounds size margin (zmin, zmax)) as [zl zh] eqn:Ez.
  assert (Ez1 : zl = Rmax margin zmin) by (unfold z_bounds in Ez; cbn in Ez; congruence).
  assert (Ez2 : zh = Rmin (rnd64 (nth 2 size 0 - margin)) zmax) by (unfold z_bounds in Ez; cbn in Ez; congruence).
  destruct (Rleb zh zl) eqn:Ef.
  { injection H as <-. split; auto. intros p Hp. split; auto. intros [_ F]. apply rleb_true in Ef. rewrite Ez1, Ez2 in Ef. lra. }
  apply rleb_false in Ef.
  assert (ZF : z_feasible size margin zmin zmax) by (split; auto; rewrite <- Ez1, <- Ez2; auto).
  destruct pos as [|p0 pos']; [discriminate|]. apply Ok_inj in H. subst pts. set (pos := p0 :: pos') in *.
  split; [rewrite map_length, seq_length; auto|]. intros p Hp. apply in_map_iff in Hp as (j & <- & Hj). apply in_seq in Hj.
  pose proof (z_bounds_spec size margin zmin zmax Hs D1 D2 ZF) as B. cbv zeta in B. rewrite Ez in B. cbn [fst snd] in B. destruct B as (B1 & B2 & B3 & B4 & B5 & B6 & B7).
  pose proof (uniform_bounds zl zh (rng (k' + j)%nat) B1 B2 ltac:(lra) (Hr _)) as U.
  assert (Ip : In (nth j pos []) pos) by (apply nth_In; lia).
  split.
  - apply box_upd; auto. split; apply rnd32_le; lra.
  - intros _. destruct (SB _ Ip) as (Lp & _ & _). rewrite nth_upd_nth_eq by (unfold low_corner in Lp; rewrite map_length in Lp; lia).
    split; apply rnd32_le; lra.
Qed.

(** Minimum distance: candidate [i] and the number of draws per candidate. *)
Lemma attempt_draws rng k size zr margin : snd (attempt rng k size zr margin) =
  (k + (snd (attempt rng 0 size zr margin)))%nat.
Proof.
  unfold attempt. destruct zr as [zr|]; [|cbn; lia]. destruct (3 <=? length size)%nat; [|cbn; lia].
  destruct (z_bounds size margin zr) as [a b]. destruct (Rltb a b); cbn; lia.
Qed.
Definition accepts (nrm : list R -> R) (center : list R) (md : R) (p : list R) : bool :=
  Rleb md (nrm (map2 (fun x c => rnd32 (rnd32 x - c)) p center)).
Lemma attempts_spec nrm rng num size center md zr margin : forall fuel k coords made,
  let w := snd (attempt rng 0 size zr margin) in
  let cands := map (fun i => fst (attempt rng (k + i * w)%nat size zr margin)) (seq 0 fuel) in
  exists used, (used <= fuel)%nat /\
    attempts nrm rng fuel k num size center md zr margin coords made =
      (coords ++ filter (accepts nrm center md) (firstn used cands), (made + used)%nat) /\
    ((Z.of_nat (length coords) <= num)%Z -> (Z.of_nat (length (coords ++ filter (accepts nrm center md) (firstn used cands))) <= num)%Z) /\
    ((used < fuel)%nat -> (num <= Z.of_nat (length (coords ++ filter (accepts nrm center md) (firstn used cands))))%Z).
Proof.
  induction fuel as [|fuel IH]; intros k coords made w cands.
  - exists 0%nat. cbn. rewrite app_nil_r, Nat.add_0_r. repeat split; auto. lia.
  - cbn [attempts]. destruct (Z.ltb_spec (Z.of_nat (length coords)) num) as [Hn|Hn].
    2:{ exists 0%nat. cbn [firstn filter]. rewrite app_nil_r, Nat.add_0_r. repeat split; auto; lia. }
    destruct (attempt rng k size zr margin) as [p k'] eqn:Ea.
    assert (Ek : k' = (k + w)%nat). { pose proof (attempt_draws rng k size zr margin) as A. rewrite Ea in A. exact A. }
    set (c' := if Rleb md (nrm (map2 (fun x c => rnd32 (rnd32 x - c)) p center)) then coords ++ [p] else coords).
    destruct (IH k' c' (S made)) as (used & U1 & U2 & U3 & U4). fold w in U2, U3, U4.
    assert (Ec : cands = p :: map (fun i => fst (attempt rng (k' + i * w)%nat size zr margin)) (seq 0 fuel)).
    { unfold cands. cbn [seq map]. rewrite Nat.mul_0_l, Nat.add_0_r, Ea. cbn [fst]. f_equal. rewrite <- seq_shift, map_map. apply map_ext. intros i. rewrite Ek. do 2 f_equal. lia. }
    assert (Ef : c' ++ filter (accepts nrm center md) (firstn used (map (fun i => fst (attempt rng (k' + i * w)%nat size zr margin)) (seq 0 fuel))) =
                 coords ++ filter (accepts nrm center md) (firstn (S used) cands)).
    { rewrite Ec. cbn [firstn filter]. unfold c'. change (Rleb md (nrm (map2 (fun x c => rnd32 (rnd32 x - c)) p center))) with (accepts nrm center md p).
      destruct (accepts nrm center md p); [rewrite <- app_assoc|]; reflexivity. }
    exists (S used). rewrite <- Ef. repeat split.
    + lia.
    + rewrite U2. f_equal. lia.
    + intros _. apply U3. unfold c'. destruct (Rleb _ _); [rewrite app_length; cbn [length]; lia|lia].
    + intros Hu. apply U4. lia.
Qed.
Lemma firstn_subset {A} (x : A) n l : In x (firstn n l) -> In x l.
Proof. intros H. rewrite <- (firstn_skipn n l). apply in_or_app. auto. Qed.
Lemma filter_length_le {A} (f : A -> bool) l : (length (filter f l) <= length l)%nat.
Proof. induction l as [|a l IH]; cbn; [lia|]. destruct (f a); cbn; lia. Qed.
Lemma filter_firstn_prefix {A} (f : A -> bool) (l : list A) n : filter f (firstn n l) = firstn (length (filter f (firstn n l))) (filter f l).
Proof.
  revert n. induction l as [|a l IH]; intros [|n]; cbn; auto. destruct (f a); cbn; auto. f_equal. auto.
Qed.

Lemma attempt_spec rng k size zr margin : random_draws rng -> spacious size margin ->
  match zr with Some (zmin, zmax) => double zmin /\ double zmax | None => True end ->
  let p := fst (attempt rng k size zr margin) in
  in_box (low_corner size margin) (high_corner size margin) (map rnd32 p) /\ length p = length size /\
  match zr with Some (zmin, zmax) => z_feasible size margin zmin zmax -> zmin <= nth 2 p 0 <= zmax | None => True end.
Proof.
  intros Hr Hs Hz. destruct (draw_point_spec rng k size margin Hr Hs) as [DL DB]. unfold attempt.
  destruct zr as [[zmin zmax]|]; [|cbn; auto using box_rnd32]. destruct Hz as [D1 D2].
  destruct (Nat.leb_spec 3 (length size)) as [L3|L3]; [|cbn; split; [|split]; auto using box_rnd32; intros [F _]; lia].
  destruct (z_bounds size margin (zmin, zmax)) as [zl zh] eqn:Ez.
  assert (Ez1 : zl = Rmax margin zmin) by (unfold z_bounds in Ez; cbn in Ez; congruence).
  assert (Ez2 : zh = Rmin (rnd64 (nth 2 size 0 - margin)) zmax) by (unfold z_bounds in Ez; cbn in Ez; congruence).
  destruct (Rltb zl zh) eqn:Ef.
  2:{ cbn; split; [|split]; auto using box_rnd32. intros [_ F]. rewrite <- Ez1, <- Ez2 in F. apply rltb_true in F. congruence. }
  apply rltb_true in Ef. cbv zeta. cbn [fst].
  assert (ZF : z_feasible size margin zmin zmax) by (split; auto; rewrite <- Ez1, <- Ez2; auto).
  pose proof (z_bounds_spec size margin zmin zmax Hs D1 D2 ZF) as B. cbv zeta in B. rewrite Ez in B. cbn [fst snd] in B. destruct B as (B1 & B2 & B3 & B4 & B5 & B6 & B7).
  pose proof (uniform_bounds zl zh (rng (k + length size)%nat) B1 B2 ltac:(lra) (Hr _)) as U.
  split; [apply box_rnd32|split].
  - rewrite length_upd_nth. auto.
  - intros i Hi. destruct (Nat.eq_dec i 2) as [Qi|Qi]; [subst i; rewrite nth_upd_nth_eq by lia; lra|]. rewrite nth_upd_nth_neq by auto. auto.
  - rewrite length_upd_nth. auto.
  - intros _. rewrite nth_upd_nth_eq by lia. lra.
Qed.
Lemma tested_distance p c : length p = length c -> Forall single c ->
  norm (map2 (fun x y => rnd32 (rnd32 x - y)) p c) <= (1 + / 2 ^ 24) * distance c (map rnd32 p).
Proof.
  intros L S. unfold distance.
  assert (K : 0 < / 2 ^ 24) by (apply Rinv_0_lt_compat, pow_lt; lra).
  assert (N : norm (scale (1 + / 2 ^ 24) (disp c (map rnd32 p))) = (1 + / 2 ^ 24) * norm (disp c (map rnd32 p))) by (rewrite norm_scale, Rabs_right by lra; auto).
  rewrite <- N. unfold norm. apply sqrt_le_1_alt. clear N. unfold map2, scale. revert c L S. induction p as [|x p IH]; intros [|y c] L S; try discriminate; [cbn; lra|].
  inversion S; subst. cbn [combine map disp dot fst snd]. apply Rplus_le_compat; [|apply IH; auto].
  set (t := rnd32 x - y). assert (B : Rabs (rnd32 t) <= (1 + / 2 ^ 24) * Rabs t).
  { destruct (FLT_plus_error_N_ex radix2 (-149) 24 (fun z => negb (Z.even z)) (rnd32 x) (- y)) as (eps & He & E).
    - apply single_format, rnd32_single.
    - apply generic_format_opp, single_format; auto.
    - unfold t, rnd32 at 1. unfold Rminus. change fexp32 with (FLT_exp (-149) 24). change ZnearestE with (Znearest (fun z => negb (Z.even z))). rewrite E, Rabs_mult.
      rewrite Rmult_comm. apply Rmult_le_compat_r; [apply Rabs_pos|]. apply Rle_trans with (1 := Rabs_triang _ _). rewrite Rabs_R1. apply Rplus_le_compat_l.
      apply Rle_trans with (1 := He). unfold u_ro. cbn [bpow Z.add Z.opp Z.pos_sub]. cbn. 
      apply Rle_trans with (/ 2 * / 8388608 / 1); [|lra]. unfold Rdiv. apply Rmult_le_compat_l; [lra|]. apply Rinv_le; lra. }
  assert (B2 : rnd32 t * rnd32 t <= ((1 + / 2 ^ 24) * Rabs t) * ((1 + / 2 ^ 24) * Rabs t)).
  { rewrite <- (Rabs_right (rnd32 t * rnd32 t)) by nra. rewrite Rabs_mult. apply Rmult_le_compat; auto using Rabs_pos. }
  assert (B3 : Rabs t * Rabs t = t * t) by (rewrite <- Rabs_mult; apply Rabs_right; nra). fold t. nra.
Qed.
Definition candidates rng k size zr margin n : list (list R) :=
  map (fun i => fst (attempt rng (k + i * snd (attempt rng 0 size zr margin))%nat size zr margin)) (seq 0 n).
Lemma min_distance_spec nrm rng k num size center md zr margin mx : length center = length size ->
  let cands := candidates rng k size zr margin (Z.to_nat mx) in
  let good := filter (accepts nrm (map rnd32 center) md) cands in
  (sample_positions_min_distance nrm rng k num size center md zr margin mx = Err RuntimeError /\ (Z.of_nat (length good) < num)%Z) \/
  (exists made, sample_positions_min_distance nrm rng k num size center md zr margin mx =
     Ok (map (map rnd32) (firstn (Z.to_nat num) good), made) /\ (made <= Z.to_nat mx)%nat /\ (num <= Z.of_nat (length good))%Z).
Proof.
  intros L cands good. unfold sample_positions_min_distance. cbv zeta. rewrite map_length, L, Nat.eqb_refl. cbn [negb].
  destruct (attempts_spec nrm rng num size (map rnd32 center) md zr margin (Z.to_nat mx) k [] 0) as (used & U1 & U2 & U3 & U4).
  fold (candidates rng k size zr margin (Z.to_nat mx)) in U2, U3, U4. fold cands in U2, U3, U4. rewrite U2. cbn [app Nat.add] in *.
  pose proof (filter_firstn_prefix (accepts nrm (map rnd32 center) md) cands used) as FP. fold good in FP.
  set (got := filter (accepts nrm (map rnd32 center) md) (firstn used cands)) in *.
  assert (Lg : (length got <= length good)%nat) by (rewrite FP, firstn_length; lia).
  assert (Full : used = Z.to_nat mx -> got = good).
  { intros E. unfold got. rewrite firstn_all2; auto. unfold cands, candidates. rewrite map_length, seq_length. lia. }
  destruct (Z.ltb_spec (Z.of_nat (length got)) num) as [Hn|Hn].
  - left. split; auto. destruct (Nat.eq_dec used (Z.to_nat mx)) as [E|E]; [rewrite <- Full; auto|]. specialize (U4 ltac:(lia)). lia.
  - right. exists used. split; [|split; [auto|lia]].
    destruct (Z.le_gt_cases 0 num) as [P|P].
    + cbn in U3. specialize (U3 P). rewrite FP. replace (Z.to_nat num) with (length got) by lia. auto.
    + (* nothing requested *)
      destruct (Nat.eq_dec used 0) as [E|E]; [|].
      * subst used. replace (Z.to_nat num) with 0%nat by lia. reflexivity.
      * exfalso. clear - U2 P E. destruct (Z.to_nat mx); cbn [attempts] in U2; [injection U2; lia|].
        destruct (Z.ltb_spec (Z.of_nat (length (@nil (list R)))) num) as [Q|Q]; [cbn in Q; lia|]. injection U2. lia.
Qed.

(** ** Clamping *)
Lemma nth_clamp pos size margin i : (i < length pos)%nat -> (i < length (v_data size))%nat ->
  nth i (clamp_positions pos size margin) 0 = Rmax (Rmin (nth i pos 0) (nth i (v_data size) 0 - margin)) (to_dtype (v_dtype size) margin).
Proof. intros. unfold clamp_positions. rewrite (nth_map2 _ _ _ _ 0 0 0) by auto. auto. Qed.
Lemma length_clamp pos size margin : length pos = length (v_data size) -> length (clamp_positions pos size margin) = length pos.
Proof. intros H. unfold clamp_positions. rewrite length_map2. lia. Qed.
