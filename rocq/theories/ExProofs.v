(** Proofs for C88. *)
From Coq Require Import String List ZArith Reals Lia Lra Psatz Bool Sorting.
From Flocq Require Import Core.
From Verif Require Import Prelude PreludeFacts FloatModel FloatProofs DirModel DirSpec RoomModel RoomProofs GeoModel GeoSpec GeoProofs GeoSampling GeoProps BldProofs ExModel ExSpec.
Import ListNotations.
Local Open Scope R_scope.
Local Notation length := List.length.

(** ** Rounding *)

Lemma rnd32_half : rnd32 (1 / 2) = 1 / 2.
Proof.
  apply round_generic; [apply valid_rnd_N|]. apply generic_format_FLT. exists (Defs.Float radix2 1 (-1)); unfold F2R; cbn; try lia; lra.
Qed.
Lemma double_half : double (1 / 2).
Proof. apply single_double. exact rnd32_half. Qed.
Lemma double_low : double (3 / 2).
Proof.
  apply round_generic; [apply valid_rnd_N|]. apply generic_format_FLT. exists (Defs.Float radix2 3 (-1)); unfold F2R; cbn; try lia; lra.
Qed.
Lemma rnd32_IZR z : (Z.abs z <= 2 ^ 24)%Z -> rnd32 (IZR z) = IZR z.
Proof.
  intros H. apply round_generic; [apply valid_rnd_N|]. destruct (Z.eq_dec (Z.abs z) (2 ^ 24)) as [E|E].
  - apply generic_format_FLT. exists (Defs.Float radix2 (Z.sgn z) 24).
    + unfold F2R. cbn [Fnum Fexp]. change (bpow radix2 24) with (IZR (2 ^ 24)). rewrite <- mult_IZR. f_equal. lia.
    + cbn. destruct z; cbn; lia.
    + cbn. lia.
  - apply generic_format_FLT. exists (Defs.Float radix2 z 0); unfold F2R; cbn [Fnum Fexp]; try lia.
    + change (bpow radix2 0) with 1. lra.
    + cbn. lia.
Qed.
Lemma side_bounds s : 1 <= s <= 10 ^ 6 -> 1 <= rnd32 s <= 10 ^ 6.
Proof.
  intros [A B]. assert (E1 : rnd32 1 = 1) by (apply (rnd32_IZR 1); lia). assert (E2 : rnd32 (10 ^ 6) = 10 ^ 6).
  { replace (10 ^ 6) with (IZR 1000000) by lra. apply rnd32_IZR. lia. }
  split; [rewrite <- E1 at 1|rewrite <- E2]; apply rnd32_le; auto.
Qed.
Lemma side_exact x : single x -> 1 <= x <= 10 ^ 6 -> single (x - 1 / 2).
Proof.
  intros S [A B]. apply round_generic; [apply valid_rnd_N|]. pose proof (single_format _ S) as G.
  unfold generic_format in G. set (m := Ztrunc (scaled_mantissa radix2 (FLT_exp (-149) 24) x)) in *.
  set (ex := cexp radix2 (FLT_exp (-149) 24) x) in *.
  assert (M1 : (1 <= mag radix2 x)%Z) by (apply mag_ge_bpow; cbn; rewrite Rabs_pos_eq; lra).
  assert (M2 : (mag radix2 x <= 20)%Z).
  { apply mag_le_bpow; [lra|]. change (bpow radix2 20) with (IZR 1048576). rewrite Rabs_pos_eq; lra. }
  assert (Hex : (-23 <= ex <= -4)%Z) by (unfold ex, cexp, FLT_exp; lia).
  assert (P : forall k : nat, bpow radix2 (-1) = IZR (2 ^ (-1 - ex)) * bpow radix2 ex).
  { intros _. replace (IZR (2 ^ (-1 - ex))) with (bpow radix2 (-1 - ex)) by (symmetry; apply (IZR_Zpower radix2); lia). rewrite <- bpow_plus. f_equal. lia. }
  apply generic_format_FLT. exists (Defs.Float radix2 (m - 2 ^ (-1 - ex)) ex).
  - unfold F2R. cbn [Fnum Fexp]. rewrite minus_IZR. unfold F2R in G. cbn [Fnum Fexp] in G.
    rewrite G at 1. specialize (P 0%nat). cbn [bpow] in P. change (Z.pow_pos radix2 1) with 2%Z in P. lra.
  - cbn [Fnum]. unfold F2R in G. cbn [Fnum Fexp] in G.
    assert (Q : 0 < bpow radix2 ex) by apply bpow_gt_0. specialize (P 0%nat).
    assert (Hm : (m < 2 ^ 24)%Z).
    { apply lt_IZR. apply Rmult_lt_reg_r with (bpow radix2 ex); auto. rewrite <- G.
      pose proof (bpow_mag_gt radix2 x) as K. rewrite Rabs_pos_eq in K by lra. eapply Rlt_le_trans; [exact K|].
      replace (IZR (2 ^ 24)) with (bpow radix2 24) by (symmetry; apply (IZR_Zpower radix2); lia). rewrite <- bpow_plus. apply bpow_le. unfold ex, cexp, FLT_exp. lia. }
    assert (Hp : (0 < m - 2 ^ (-1 - ex))%Z).
    { apply lt_IZR. rewrite minus_IZR. apply Rmult_lt_reg_r with (bpow radix2 ex); auto. rewrite Rmult_0_l, Rmult_minus_distr_r, <- P, <- G. cbn. lra. }
    assert (0 < 2 ^ (-1 - ex))%Z by (apply Z.pow_pos_nonneg; lia). rewrite Z.abs_eq by lia. change (radix2 ^ 24)%Z with (2 ^ 24)%Z. lia.
  - cbn [Fexp]. lia.
Qed.
Lemma top_height : rnd32 (snd heights) <= 9 / 5.
Proof.
  set (F := IZR 15099494 * bpow radix2 (-23)).
  assert (FF : generic_format radix2 fexp32 F).
  { apply generic_format_FLT. exists (Defs.Float radix2 15099494 (-23)); unfold F2R, F; cbn; try lia; lra. }
  assert (E64 : rnd64 (18 / 10) <= IZR 15099494 * bpow radix2 (-23) + 7 * bpow radix2 (-27)).
  { set (u := IZR 15099494 * bpow radix2 (-23) + 7 * bpow radix2 (-27)).
    assert (D : rnd64 u = u).
    { apply round_generic; [apply valid_rnd_N|]. apply generic_format_FLT. exists (Defs.Float radix2 241591911 (-27)); unfold F2R, u; cbn; try lia; lra. }
    rewrite <- D. apply rnd64_le. unfold u. cbn. lra. }
  apply Rle_trans with F; [|unfold F; cbn; lra].
  unfold rnd32. apply round_N_le_midp; [apply FLT_exp_valid; apply p24|exact FF|].
  cbn [snd heights]. rewrite succ_eq_pos by (unfold F; cbn; lra).
  assert (U : ulp radix2 fexp32 F = bpow radix2 (-23)).
  { rewrite ulp_neq_0 by (unfold F; cbn; lra). f_equal. unfold cexp. rewrite (mag_unique radix2 F 1); [reflexivity|].
    unfold F. cbn. rewrite Rabs_pos_eq; lra. }
  rewrite U. unfold F. cbn in E64 |- *. lra.
Qed.

(** ** Rooms *)

Lemma usual_spacious room : usual_room room -> spacious (room_size room) (1 / 2).
Proof.
  intros [_ F]. split; [apply double_half|]. unfold room_size. rewrite Forall_forall in *. intros x Hx.
  apply in_map_iff in Hx as (s & <- & Hs). specialize (F _ Hs). apply side_bounds in F.
  apply Rle_trans with (rnd64 (1 / 2)); [rewrite double_half; lra|]. apply rnd64_le. lra.
Qed.
Lemma nth_room room i : (i < length room)%nat -> nth i (room_size room) 0 = rnd32 (nth i room 0).
Proof. intros H. unfold room_size. rewrite (nth_indep _ 0 (rnd32 0)) by (rewrite map_length; auto). apply map_nth. Qed.
Lemma usual_side room i : usual_room room -> (i < length room)%nat -> 1 <= rnd32 (nth i room 0) <= 10 ^ 6.
Proof. intros [_ F] H. rewrite Forall_forall in F. apply side_bounds, F, nth_In; auto. Qed.
Lemma kept_box room p : usual_room room ->
  in_box (low_corner (room_size room) (1 / 2)) (high_corner (room_size room) (1 / 2)) p <-> kept room p.
Proof.
  intros U. unfold in_box, kept, low_corner, high_corner.
  assert (L : length (room_size room) = length room) by apply map_length. rewrite !map_length, L.
  assert (E : forall i, (i < length room)%nat ->
    nth i (map (fun _ => rnd32 (1 / 2)) (room_size room)) 0 = 1 / 2 /\
    nth i (map (fun s => rnd32 (rnd64 (s - 1 / 2))) (room_size room)) 0 = rnd32 (nth i room 0) - 1 / 2).
  { intros i Hi. split.
    - rewrite (nth_indep _ 0 (rnd32 (1 / 2))) by (rewrite map_length; lia). rewrite (map_nth (fun _ => rnd32 (1 / 2)) _ 0). apply rnd32_half.
    - rewrite (nth_indep _ 0 (rnd32 (rnd64 (0 - 1 / 2)))) by (rewrite map_length; lia). rewrite (map_nth (fun s => rnd32 (rnd64 (s - 1 / 2)))).
      rewrite nth_room by auto. assert (S : single (rnd32 (nth i room 0) - 1 / 2)) by (apply side_exact; [apply rnd32_single|apply usual_side; auto]).
      rewrite (single_double _ S). exact S. }
  split.
  - intros (H1 & H2 & H3). split; [lia|]. intros i Hi. destruct (E i Hi) as [E1 E2]. specialize (H3 i ltac:(lia)). rewrite E1, E2 in H3. exact H3.
  - intros (H1 & H2). split; [lia|]. split; [lia|]. intros i Hi. destruct (E i ltac:(lia)) as [E1 E2]. rewrite E1, E2. apply H2. lia.
Qed.
Lemma feasible_iff room : usual_room room -> length room = 3%nat -> 2 < rnd32 (nth 2 room 0) ->
  z_feasible (room_size room) (1 / 2) (fst heights) (snd heights).
Proof.
  intros U L H. split; [unfold room_size; rewrite map_length; lia|]. rewrite nth_room by lia.
  assert (S : single (rnd32 (nth 2 room 0) - 1 / 2)) by (apply side_exact; [apply rnd32_single|apply usual_side; auto; lia]).
  rewrite (single_double _ S). cbn [fst snd heights]. rewrite Rmax_right by lra. apply Rmin_glb_lt; [lra|].
  apply Rlt_le_trans with (rnd64 (7 / 4)).
  - assert (D : rnd64 (7 / 4) = 7 / 4).
    { apply round_generic; [apply valid_rnd_N|]. apply generic_format_FLT. exists (Defs.Float radix2 7 (-2)); unfold F2R; cbn; try lia; lra. }
    rewrite D. lra.
  - apply rnd64_le. lra.
Qed.
Lemma heights_box room z : (length room = 3%nat -> 2 < rnd32 (nth 2 room 0) -> z_feasible (room_size room) (1 / 2) (fst heights) (snd heights)) ->
  (z_feasible (room_size room) (1 / 2) (fst heights) (snd heights) -> rnd32 (fst heights) <= nth 2 z 0 <= rnd32 (snd heights)) -> mouth_height room z.
Proof.
  intros F H L T. specialize (H (F L T)). pose proof top_height.
  assert (E : rnd32 (fst heights) = 3 / 2).
  { cbn [fst heights]. apply round_generic; [apply valid_rnd_N|]. apply generic_format_FLT. exists (Defs.Float radix2 3 (-1)); unfold F2R; cbn; try lia; lra. }
  lra.
Qed.
Lemma example_room_cases room fs : (sound_room room fs /\ exists r, example_room room fs = Ok r) \/
  (~ sound_room room fs /\ example_room room fs = Err ValueError).
Proof.
  assert (X : forall l, mapM (convert Float) (map (fun x => PyFloat (Fin x)) l) = Ok (map Fin l)).
  { induction l as [|x l IH]; cbn; [auto|]. rewrite IH. reflexivity. }
  assert (I : infer_dtype (map (fun x => PyFloat (Fin x)) room) = Float) by (destruct room; reflexivity).
  assert (A0 : as_tensor (fun _ => 0%Z) (VNest [length room] (map (fun x => PyFloat (Fin x)) room)) None = Ok (mkN [length room] Float (map Fin room))).
  { cbn [as_tensor]. rewrite I, X. reflexivity. }
  unfold example_room, shoebox. rewrite A0. cbn [bind].
  destruct (Nat.eq_dec (length room) 2) as [L2|L2]; [|destruct (Nat.eq_dec (length room) 3) as [L3|L3]].
  3:{ right. split; [intros ([A|A] & _); lia|]. unfold nensure_dim. unfold nndim, nnumel; cbn [nshape List.length prodn fold_right Nat.eqb negb orb].
      rewrite Nat.mul_1_r. apply Nat.eqb_neq in L2, L3. rewrite L2, L3. reflexivity. }
  - destruct room as [|a [|b [|? ?]]]; try discriminate. cbn. unfold sound_room, Rltb, Rleb. cbn.
    destruct (Rle_dec a 0) as [Ha|Ha]; [right; split; [intros (_ & F & _); inversion_clear F; lra|auto]|].
    destruct (Rle_dec b 0) as [Hb|Hb]; [right; split; [intros (_ & F & _); inversion_clear F; inversion_clear H0; lra|auto]|].
    destruct (Rle_dec (IZR fs) 0) as [Hf|Hf]; [right; split; [intros (_ & _ & F); apply (IZR_lt 0) in F; lra|auto]|].
    destruct (Rle_dec 343 0) as [H3|_]; [lra|]. destruct (Rlt_dec (9 / 10) 0) as [H3|_]; [lra|]. destruct (Rlt_dec 1 (9 / 10)) as [H3|_]; [lra|].
    cbn. left. split; [|eauto]. split; auto. split; [repeat constructor; lra|]. apply lt_IZR. lra.
  - destruct room as [|a [|b [|c [|? ?]]]]; try discriminate. cbn. unfold sound_room, Rltb, Rleb. cbn.
    destruct (Rle_dec a 0) as [Ha|Ha]; [right; split; [intros (_ & F & _); inversion_clear F; lra|auto]|].
    destruct (Rle_dec b 0) as [Hb|Hb]; [right; split; [intros (_ & F & _); inversion_clear F; inversion_clear H0; lra|auto]|].
    destruct (Rle_dec c 0) as [Hc|Hc]; [right; split; [intros (_ & F & _); inversion_clear F; inversion_clear H0; inversion_clear H2; lra|auto]|].
    destruct (Rle_dec (IZR fs) 0) as [Hf|Hf]; [right; split; [intros (_ & _ & F); apply (IZR_lt 0) in F; lra|auto]|].
    destruct (Rle_dec 343 0) as [H3|_]; [lra|]. destruct (Rlt_dec (9 / 10) 0) as [H3|_]; [lra|]. destruct (Rlt_dec 1 (9 / 10)) as [H3|_]; [lra|].
    cbn. left. split; [|eauto]. split; auto. split; [repeat constructor; lra|]. apply lt_IZR. lra.
Qed.
Lemma usual_sound room fs : usual_room room -> (0 < fs)%Z -> sound_room room fs.
Proof. intros [L F] H. split; auto. split; auto. eapply Forall_impl; [|exact F]. cbn. intros; lra. Qed.

(** ** Points *)

Lemma one_point_spec g k room : random_draws g -> usual_room room ->
  kept room (fst (one_point g k (room_size room))) /\ Forall single (fst (one_point g k (room_size room))).
Proof.
  intros Hg U. destruct (sample_positions_spec g k 1 (room_size room) (1 / 2) Hg (usual_spacious _ U)) as (L & B).
  unfold one_point. cbn [fst].
  destruct (fst (sample_positions g k 1 (room_size room) (1 / 2))) as [|p [|q l]] eqn:E; cbn in L; try discriminate.
  cbn [nth]. split; [apply kept_box; auto; apply B; left; auto|].
  unfold sample_positions in E. cbn [fst] in E. change (Z.to_nat 1) with 1%nat in E. cbn in E. injection E as <-.
  apply Forall_forall. intros x Hx. apply in_map_iff in Hx as (y & <- & _). apply rnd32_single.
Qed.
Lemma map_single l : Forall single l -> map rnd32 l = l.
Proof. induction 1; cbn; [auto|]. rewrite IHForall. f_equal. auto. Qed.
Lemma far_points_inv nrm e g k n room c pts k' : random_draws g -> usual_room room -> 0 <= e -> (forall v, nrm v <= (1 + e) * norm v) ->
  Forall single c -> far_points nrm g k n (room_size room) c = Ok (pts, k') ->
  length pts = Z.to_nat n /\ forall p, In p pts -> source_place room e c p.
Proof.
  intros Hg U He Hn Sc H. unfold far_points in H.
  destruct (sample_positions_min_distance nrm g k n (room_size room) c (3 / 2) (Some heights) (1 / 2) 1000) as [[l made]|] eqn:E; [|discriminate].
  cbn [bind fst snd] in H. apply Ok_inj in H. injection H as -> _.
  destruct (C44_min_distance_partial nrm e g k n (room_size room) c (3 / 2) (Some heights) (1 / 2) 1000 pts made Hg (usual_spacious _ U) He Hn) as (L & _ & P); auto.
  { split; [exact double_low|apply rnd64_double]. }
  split; auto. intros p Hp. destruct (P p Hp) as (B & D & Z). split; [apply kept_box; auto|]. split.
  - apply heights_box; [intros; apply feasible_iff; auto|exact Z].
  - unfold far. rewrite (map_single _ Sc) in D. exact D.
Qed.
Lemma far_points_cases nrm g k n room c : length c = length room ->
  (exists r, far_points nrm g k n (room_size room) c = Ok r) \/ far_points nrm g k n (room_size room) c = Err RuntimeError.
Proof.
  intros L. destruct (C44_exactly_num nrm g k (room_size room) c (3 / 2) (Some heights) (1 / 2) 1000) as (good & _ & G); [unfold room_size; rewrite map_length; auto|].
  unfold far_points. destruct (G n) as [[-> _]|(made & -> & _)]; cbn; eauto.
Qed.
Lemma end_points_spec g k n room : random_draws g -> usual_room room -> (1 <= n)%Z -> exists pts k', end_points g k n (room_size room) = Ok (pts, k') /\
  length pts = Z.to_nat n /\ forall p, In p pts -> kept room p /\ mouth_height room p.
Proof.
  intros Hg U Hn. unfold end_points.
  destruct (sample_positions_with_z_range g k n (room_size room) heights (1 / 2)) as [pts|x] eqn:E.
  - cbn [bind]. destruct (z_bounds (room_size room) (1 / 2) heights) as [lo hi]. do 2 eexists. split; [reflexivity|].
    destruct (C44_z_range_partial g k n (room_size room) (fst heights) (snd heights) (1 / 2) pts Hg (usual_spacious _ U) double_low) as (L & B); auto.
    { apply rnd64_double. }
    split; auto. intros p Hp. destruct (B p Hp) as [K Z]. split; [apply kept_box; auto|]. apply heights_box; [intros; apply feasible_iff; auto|exact Z].
  - exfalso. unfold sample_positions_with_z_range in E.
    destruct (sample_positions_spec g k n (room_size room) (1 / 2) Hg (usual_spacious _ U)) as (L & _).
    destruct (sample_positions g k n (room_size room) (1 / 2)) as [pos k2]. cbn [fst] in L.
    destruct (length (room_size room) <? 3)%nat; [discriminate|]. destruct (z_bounds (room_size room) (1 / 2) heights) as [lo hi].
    destruct (Rleb hi lo); [discriminate|]. destruct pos; [cbn in L; lia|discriminate].
Qed.

(** ** Microphones *)

Lemma length_clamp' room p : length p = length room -> length (clamp (room_size room) p) = length p.
Proof. intros L. unfold clamp. apply length_clamp. cbn. unfold room_size. rewrite map_length. auto. Qed.
Lemma nth_clamp' room p i : length p = length room -> (i < length room)%nat ->
  nth i (clamp (room_size room) p) 0 = Rmax (Rmin (nth i p 0) (rnd32 (nth i room 0) - 1 / 10)) (1 / 10).
Proof.
  intros L H. unfold clamp. rewrite nth_clamp; cbn [v_data v_dtype to_dtype]; [|lia|unfold room_size; rewrite map_length; lia].
  rewrite nth_room by auto. auto.
Qed.
Lemma clamp_kept room p : usual_room room -> kept room p -> clamp (room_size room) p = p.
Proof.
  intros U [L K]. apply nth_ext with (d := 0) (d' := 0); [apply length_clamp'; auto|]. intros i Hi. rewrite length_clamp' in Hi by auto.
  rewrite nth_clamp' by lia. specialize (K i ltac:(lia)). rewrite Rmin_left, Rmax_left by lra. auto.
Qed.
Lemma minmax x s : 1 <= s -> Rmax (Rmin x (s - 1 / 10)) (1 / 10) = Rmin (Rmax x (1 / 10)) (s - 1 / 10).
Proof. intros H. unfold Rmax, Rmin. repeat destruct (Rle_dec _ _); lra. Qed.
Lemma nth_axis dim i : (0 < i < dim)%nat -> nth i (axis_vec dim 0) 0 = 0.
Proof.
  intros H. unfold axis_vec. rewrite nth_tab by lia. destruct (Nat.eqb_spec i 0); [lia|auto].
Qed.
Lemma row_at_clamped room c n (pos : nat -> list R) : usual_room room -> kept room c ->
  (forall j, (j < n)%nat -> length (pos j) = length room /\ nth 0 (pos j) 0 = nth 0 c 0 + (INR j - (INR n - 1) / 2) * gap n /\
     forall i, (0 < i < length room)%nat -> nth i (pos j) 0 = nth i c 0) ->
  row_at room c n (map (clamp (room_size room)) (map pos (seq 0 n))).
Proof.
  intros U [Lc K] H. split; [rewrite !map_length, seq_length; auto|]. intros j Hj. destruct (H j Hj) as (L & X & O).
  rewrite map_map, nth_tab by auto. assert (D : (0 < length room)%nat) by (destruct U as [[->| ->] _]; lia).
  split; [rewrite length_clamp'; auto|]. split.
  - rewrite nth_clamp' by auto. rewrite X. apply minmax. apply usual_side; auto.
  - intros i Hi. rewrite nth_clamp' by lia. rewrite (O i Hi). specialize (K i ltac:(lia)). rewrite Rmin_left, Rmax_left by lra. auto.
Qed.
Lemma mics_at_spec room c n : usual_room room -> kept room c -> (1 <= n)%Z -> exists m, mics_at n c = Ok m /\
  row_at room c (Z.to_nat n) (map (clamp (room_size room)) m).
Proof.
  intros U Hc Hn. destruct Hc as [Lc K] eqn:Ek. assert (Hc' : kept room c) by (split; auto). clear Ek Hc.
  assert (D : (2 <= length room)%nat) by (destruct U as [[->| ->] _]; lia).
  unfold mics_at. destruct (Z.leb_spec n 0); [lia|]. destruct (Z.eqb_spec n 2) as [->|N2].
  - destruct c as [|c0 rest]; [cbn in Lc; lia|]. unfold binaural_array. cbn [v_data v_dtype to_dtype]. eexists. split; [reflexivity|].
    pose proof (row_at_clamped room (c0 :: rest) 2 (fun j => if Nat.eqb j 0 then map2 Rminus (c0 :: rest) (8 / 100 :: repeat 0 (length rest)) else map2 Rplus (c0 :: rest) (8 / 100 :: repeat 0 (length rest)))) as R.
    change (Z.to_nat 2) with 2%nat. apply R; auto. intros j Hj.
    assert (Lr : length (8 / 100 :: repeat 0 (length rest)) = length (c0 :: rest)) by (cbn [length]; rewrite repeat_length; auto).
    assert (G : gap 2 = 16 / 100) by (unfold gap; destruct (Nat.eq_dec 2 2); [auto|lia]). rewrite G.
    assert (Z0 : forall i, (0 < i < length room)%nat -> nth i (8 / 100 :: repeat 0 (length rest)) 0 = 0).
    { intros [|i] Hi; [lia|]. cbn [nth]. apply nth_repeat. }
    destruct j as [|[|j]]; [| |lia]; cbn [Nat.eqb].
    + split; [rewrite length_map2, Lr; cbn [length] in *; lia|]. split; [cbn; lra|].
      intros i Hi. rewrite (nth_map2 _ _ _ _ 0 0 0) by (rewrite ?Lr; lia). rewrite Z0 by auto. lra.
    + split; [rewrite length_map2, Lr; cbn [length] in *; lia|]. split; [cbn; lra|].
      intros i Hi. rewrite (nth_map2 _ _ _ _ 0 0 0) by (rewrite ?Lr; lia). rewrite Z0 by auto. lra.
  - unfold linear_array. destruct (Z.leb_spec n 0); [lia|].
    replace (Rleb (8 / 100) 0) with false by (symmetry; apply rleb_false; lra). cbn [v_data v_dtype].
    destruct (Z.ltb_spec 0 0); [lia|]. replace (0 >=? Z.of_nat (length c))%Z with false by (symmetry; rewrite Z.geb_leb; apply Z.leb_gt; lia). cbn [orb bind].
    cbn [option_map]. eexists. split; [reflexivity|]. apply row_at_clamped; auto. intros j Hj. change (Z.to_nat 0) with 0%nat.
    destruct (axis_vec_spec (length c) 0 ltac:(lia)) as (La & _ & _).
    split; [rewrite length_shift; [auto|]; rewrite length_scale; auto|].
    assert (G : gap (Z.to_nat n) = 8 / 100) by (unfold gap; destruct (Nat.eq_dec (Z.to_nat n) 2); [lia|auto]). rewrite G.
    assert (In_ : INR (Z.to_nat n) = IZR n) by (rewrite INR_IZR_INZ; f_equal; lia). rewrite In_.
    split.
    + rewrite nth_shift_scale by lia. replace (nth 0 (axis_vec (length c) 0) 0) with 1; [lra|]. unfold axis_vec. rewrite nth_tab by lia. auto.
    + intros i Hi. rewrite nth_shift_scale by lia. rewrite nth_axis by lia. lra.
Qed.

(** ** Tracks *)

Definition ntrack (l : list xpoint) (t : nat) : xpoint := nth t l None.
Lemma nth_some (l : list (list R)) t : (t < length l)%nat -> ntrack (map Some l) t = Some (nth t l []).
Proof.
  revert t. induction l as [|x l IH]; intros [|t] H; cbn in H; try lia; unfold ntrack; cbn; auto. apply IH. lia.
Qed.
Lemma on_way_kept room a b f p : 0 <= f <= 1 -> kept room a -> kept room b -> on_way a b f p -> kept room p.
Proof.
  intros Hf [La Ka] [Lb Kb] [L P]. split; [congruence|]. intros i Hi. rewrite P by lia. specialize (Ka i Hi). specialize (Kb i Hi). nra.
Qed.
Lemma on_way_height room a b f p : 0 <= f <= 1 -> length a = length room -> mouth_height room a -> mouth_height room b -> on_way a b f p -> mouth_height room p.
Proof.
  intros Hf La Ha Hb [L P] L3 T. specialize (Ha L3 T). specialize (Hb L3 T). rewrite P by lia. nra.
Qed.
Lemma fraction t n : (2 <= n)%nat -> (t < n)%nat -> 0 <= INR t / (INR n - 1) <= 1.
Proof.
  intros Hn Ht. assert (1 <= INR n - 1) by (apply le_INR in Hn; change (INR 2) with 2 in Hn; lra).
  assert (INR t <= INR n - 1) by (pose proof (le_INR (t + 1) n ltac:(lia)) as Q; rewrite plus_INR in Q; change (INR 1) with 1 in Q; lra).
  split; [apply Rmult_le_pos; [apply pos_INR|]; apply Rlt_le, Rinv_0_lt_compat; lra|].
  apply Rmult_le_reg_r with (INR n - 1); [lra|]. unfold Rdiv. rewrite Rmult_assoc, Rinv_l by lra. lra.
Qed.
Lemma path_spec a b steps : length a = length b -> (2 <= steps)%Z -> exists l, path a b steps = Ok (map Some l) /\ length l = Z.to_nat steps /\
  nth 0 l [] = a /\ straight (Z.to_nat steps) a b (ntrack (map Some l)).
Proof.
  intros L H. destruct (C46_segment a b steps L H) as (pts & E & Lp & H0 & _ & _). unfold path. rewrite E. cbn [bind].
  exists pts. split; auto. split; auto. split; auto.
  intros t Ht. exists (nth t pts []). split.
  - apply nth_some. lia.
  - unfold linear_trajectory in E. destruct (Z.leb_spec steps 0); [lia|]. destruct (Z.eqb_spec steps 1); [lia|].
    apply Ok_inj in E. apply Some_inj in E. subst pts. rewrite nth_tab by auto.
    assert (En : INR (Z.to_nat steps) = IZR steps) by (rewrite INR_IZR_INZ; f_equal; lia). rewrite En.
    split; [rewrite length_map2; lia|]. intros i Hi. rewrite (nth_map2 _ _ _ _ 0 0 0) by lia. unfold Rdiv. ring.
Qed.

(** ** Tables *)

Lemma stack_spec tracks T : tracks <> [] -> (forall t, In t tracks -> length t = T) ->
  exists rows, stack_tracks tracks = Ok rows /\ length rows = T /\
    (forall row, In row rows -> length row = length tracks) /\
    forall i t, (i < length tracks)%nat -> (t < T)%nat -> track_of rows i t = nth t (nth i tracks []) None.
Proof.
  intros N L. destruct tracks as [|t0 ts] eqn:E; [congruence|]. rewrite <- E in *. unfold stack_tracks. rewrite E. rewrite <- E.
  assert (L0 : length t0 = T) by (apply L; rewrite E; left; auto). rewrite L0.
  replace (forallb (fun t => (length t =? T)%nat) tracks) with true
    by (symmetry; apply forallb_forall; intros t Ht; apply Nat.eqb_eq; auto).
  eexists. split; [reflexivity|]. split; [rewrite map_length, seq_length; auto|]. split.
  - intros row Hr. apply in_map_iff in Hr as (k & <- & _). apply map_length.
  - intros i t Hi Ht. unfold track_of. rewrite nth_tab by auto.
    rewrite (nth_indep (A:=xpoint) _ None ((fun tr => nth t tr None) [])) by (rewrite map_length; auto).
    apply (map_nth (fun tr : list xpoint => nth t tr None)).
Qed.
Lemma clamp_track room rows i t : usual_room room -> (forall p, track_of rows i t = Some p -> kept room p) ->
  track_of (clamp_rows (room_size room) rows) i t = track_of rows i t.
Proof.
  intros U K. unfold track_of, clamp_rows in *.
  set (f := option_map (clamp (room_size room)) : xpoint -> xpoint).
  pose proof (map_nth (map f) rows [] t) as E1. pose proof (map_nth f (nth t rows []) None i) as E2.
  transitivity (f (nth i (nth t rows []) None)).
  - etransitivity; [|exact E2]. exact (f_equal (fun l => nth i l None) E1).
  - unfold f. destruct (nth i (nth t rows []) None) as [p|]; [|auto]. cbn [option_map]. f_equal. apply clamp_kept; auto.
Qed.
Lemma length_clamp_rows size rows : length (clamp_rows size rows) = length rows.
Proof. apply map_length. Qed.
Lemma clamp_rows_rows size rows n : (forall row, In row rows -> length row = n) -> forall row, In row (clamp_rows size rows) -> length row = n.
Proof. intros H row Hr. apply in_map_iff in Hr as (r & <- & Hr). rewrite map_length. auto. Qed.
Lemma straight_kept room T a b track t p : (2 <= T)%nat -> kept room a -> kept room b -> straight T a b track -> (t < T)%nat -> track t = Some p -> kept room p.
Proof.
  intros HT Ka Kb S Ht E. destruct (S t Ht) as (q & Eq & W). assert (q = p) by congruence. subst q.
  eapply on_way_kept; [apply fraction; eauto|exact Ka|exact Kb|exact W].
Qed.
Lemma kept_length room p : kept room p -> length p = length room.
Proof. intros [L _]; auto. Qed.

(** ** Scenes *)

Lemma static_spec nrm e g room fs n m : random_draws g -> usual_room room -> (0 < fs)%Z -> 0 <= e -> (forall v, nrm v <= (1 + e) * norm v) -> (1 <= m)%Z ->
  static_scene nrm g room fs n m = Err RuntimeError \/
  exists c srcs mics, static_scene nrm g room fs n m = Ok (c, srcs, mics) /\ kept room c /\ length srcs = Z.to_nat n /\
    (forall p, In p srcs -> source_place room e c p) /\ row_at room c (Z.to_nat m) mics.
Proof.
  intros Hg U Hf He Hn Hm. unfold static_scene.
  destruct (example_room_cases room fs) as [[_ (r & ->)]|[X _]]; [|exfalso; apply X, usual_sound; auto]. cbn [bind]. cbv zeta.
  destruct (one_point_spec g 0 room Hg U) as [Kc Sc]. destruct (one_point g 0 (room_size room)) as [c k]. cbn [fst] in Kc, Sc.
  destruct (far_points_cases nrm g k n room c (kept_length _ _ Kc)) as [((srcs & k') & E)| ->]; [|left; reflexivity].
  rewrite E. cbn [bind fst]. destruct (far_points_inv _ _ _ _ _ _ _ _ _ Hg U He Hn Sc E) as [L P].
  destruct (mics_at_spec room c m U Kc Hm) as (mics & -> & R). cbn [bind]. right. exists c, srcs. eexists. split; [reflexivity|]. auto.
Qed.
Lemma level_end room p q : kept room p -> kept room q -> length room = 3%nat -> mouth_height room p ->
  let q' := upd_nth 2 (fun _ => nth 2 p 0) q in kept room q' /\ mouth_height room q' /\ nth 2 q' 0 = nth 2 p 0.
Proof.
  intros [Lp Kp] [Lq Kq] L3 Hp. rewrite L3 in Lq. destruct q as [|x [|y [|z [|w q]]]]; try discriminate Lq. cbn [upd_nth].
  cbv zeta. split; [|split]; [|intros A B; cbn; apply (Hp A B)|reflexivity].
  split; [cbn; congruence|]. intros i Hi. destruct i as [|[|[|i]]]; [apply (Kq 0%nat); lia|apply (Kq 1%nat); lia| |lia]. apply (Kp 2%nat). lia.
Qed.
Lemma moving_sources_spec nrm e g level moves room fs n m steps : random_draws g -> usual_room room -> (0 < fs)%Z -> 0 <= e ->
  (forall v, nrm v <= (1 + e) * norm v) -> (1 <= n)%Z -> (1 <= m)%Z ->
  moving_sources nrm g level moves room fs n m steps = Err RuntimeError \/
  exists d, moving_sources nrm g level moves room fs n m steps = Ok d /\
    moving_sources_scene e room level moves (Z.to_nat n) (Z.to_nat m) (steps_of steps) d.
Proof.
  intros Hg U Hf He Hn H1 Hm. unfold moving_sources.
  destruct (example_room_cases room fs) as [[_ (r & ->)]|[X _]]; [|exfalso; apply X, usual_sound; auto]. cbn [bind]. cbv zeta.
  destruct (one_point_spec g 0 room Hg U) as [Kc Sc]. destruct (one_point g 0 (room_size room)) as [c k]. cbn [fst] in Kc, Sc.
  destruct (mics_at_spec room c m U Kc Hm) as (mics & -> & R). cbn [bind].
  destruct (far_points_cases nrm g k n room c (kept_length _ _ Kc)) as [((srcs & k') & E)| ->]; [|left; reflexivity].
  rewrite E. cbn [bind]. destruct (far_points_inv _ _ _ _ _ _ _ _ _ Hg U He Hn Sc E) as [L P].
  destruct (end_points_spec g k' n room Hg U H1) as (ends0 & k2 & -> & Le & Pe). cbn [bind fst].
  set (ends := if level && (length (room_size room) =? 3)%nat then _ else ends0).
  assert (Ls : length (room_size room) = length room) by apply map_length.
  assert (S_ : forall i, (i < Z.to_nat n)%nat -> source_place room e c (nth i srcs [])) by (intros i Hi; apply P, nth_In; lia).
  assert (B : forall i, (i < Z.to_nat n)%nat -> kept room (nth i ends []) /\ mouth_height room (nth i ends []) /\
    (level = true -> length room = 3%nat -> nth 2 (nth i ends []) 0 = nth 2 (nth i srcs []) 0)).
  { intros i Hi. assert (Q : In (nth i ends0 []) ends0) by (apply nth_In; lia). destruct (Pe _ Q) as [Q1 Q2].
    destruct (S_ i Hi) as (S1 & S2 & _). unfold ends. rewrite Ls. destruct level; cbn [andb]; [|split; auto; split; auto; discriminate].
    destruct (Nat.eqb_spec (length room) 3) as [L3|L3]; [|split; auto; split; auto; lia].
    rewrite nth_tab by lia. destruct (level_end room _ _ S1 Q1 L3 S2) as (A1 & A2 & A3). auto. }
  set (T := Z.max 2 steps). assert (HT : (2 <= T)%Z) by lia.
  set (f := fun i => if moves i then path (nth i srcs []) (nth i ends []) T else Ok (still T (Some (nth i srcs [])))).
  assert (F : forall i, (i < Z.to_nat n)%nat -> exists tr, f i = Ok tr /\ length tr = steps_of steps /\
     if moves i then straight (steps_of steps) (nth i srcs []) (nth i ends []) (ntrack tr)
     else forall t, (t < steps_of steps)%nat -> ntrack tr t = Some (nth i srcs [])).
  { intros i Hi. unfold f. destruct (moves i).
    - destruct (path_spec (nth i srcs []) (nth i ends []) T) as (l & -> & Ll & _ & St); [|auto|].
      + destruct (B i Hi) as (B1 & _). destruct (S_ i Hi) as (S1 & _). rewrite (kept_length _ _ B1), (kept_length _ _ S1). auto.
      + exists (map Some l). split; auto. split; [rewrite map_length; auto|]. exact St.
    - eexists. split; [reflexivity|]. split; [apply repeat_length|]. intros t Ht. unfold ntrack, still. apply nth_repeat_lt. exact Ht. }
  destruct (mapM_total f (seq 0 (Z.to_nat n))) as (tracks & Et).
  { intros i Hi. apply in_seq in Hi. destruct (F i ltac:(lia)) as (tr & Q & _). eauto. }
  rewrite Et. cbn [bind].
  assert (Lt : length tracks = Z.to_nat n) by (rewrite (mapM_length _ _ _ Et), seq_length; auto).
  assert (Tr : forall i, (i < Z.to_nat n)%nat -> f i = Ok (nth i tracks [])).
  { intros i Hi. pose proof (mapM_nth f _ _ i 0%nat [] Et) as Q. rewrite seq_nth in Q by auto. apply Q. rewrite seq_length. auto. }
  destruct (stack_spec tracks (steps_of steps)) as (rows & -> & Lr & Rr & Tt).
  { intros ->. cbn in Lt. lia. }
  { intros tr Htr. destruct (In_nth _ _ [] Htr) as (i & Hi & <-). rewrite Lt in Hi. destruct (F i Hi) as (tr' & Q & Q2 & _). rewrite (Tr i Hi) in Q. apply Ok_inj in Q. congruence. }
  cbn [bind]. right. eexists. split; [reflexivity|]. constructor; cbn [dy_sources dy_mics dy_src dy_mic].
  - exists c. auto.
  - auto.
  - reflexivity.
  - rewrite length_clamp_rows. auto.
  - apply clamp_rows_rows. intros row Hr. rewrite (Rr _ Hr). auto.
  - intros i Hi. cbv zeta. destruct (F i Hi) as (tr & Q & Ltr & M). rewrite (Tr i Hi) in Q. apply Ok_inj in Q. subst tr.
    destruct (S_ i Hi) as (S1 & S2 & _). destruct (B i Hi) as (B1 & B2 & B3).
    assert (HT' : (2 <= steps_of steps)%nat) by (unfold steps_of; lia).
    destruct (moves i).
    + exists (nth i ends []). split; auto. split; auto. split; auto. intros t Ht. destruct (M t Ht) as (p & Ep & W). exists p. split; auto.
      rewrite clamp_track; auto; rewrite Tt by lia; auto. intros q Hq. eapply (straight_kept room (steps_of steps) _ _ _ t q HT' S1 B1 M Ht). exact Hq.
    + intros t Ht. rewrite clamp_track; auto; rewrite Tt by lia; [apply M; auto|]. intros q Hq. unfold ntrack in M. rewrite M in Hq by auto. congruence.
Qed.

(** ** Moving microphones *)

Lemma moving_mics_spec nrm e g level room fs n m steps : random_draws g -> usual_room room -> (0 < fs)%Z -> 0 <= e ->
  (forall v, nrm v <= (1 + e) * norm v) -> (1 <= m)%Z ->
  moving_mics nrm g level room fs n m steps = Err RuntimeError \/
  exists d, moving_mics nrm g level room fs n m steps = Ok d /\
    moving_mics_scene e room level (Z.to_nat n) (Z.to_nat m) (steps_of steps) d.
Proof.
  intros Hg U Hf He Hn Hm. unfold moving_mics.
  destruct (example_room_cases room fs) as [[_ (r & ->)]|[X _]]; [|exfalso; apply X, usual_sound; auto]. cbn [bind]. cbv zeta.
  destruct (one_point_spec g 0 room Hg U) as [Kc Sc]. destruct (one_point g 0 (room_size room)) as [c0 k]. cbn [fst] in Kc, Sc.
  destruct (one_point_spec g k room Hg U) as [Kc1 _]. destruct (one_point g k (room_size room)) as [c1' k1]. cbn [fst] in Kc1.
  set (c1 := if level && (length (room_size room) =? 3)%nat then _ else c1').
  assert (Ls : length (room_size room) = length room) by apply map_length.
  assert (B : kept room c1 /\ (level = true -> length room = 3%nat -> nth 2 c1 0 = nth 2 c0 0)).
  { unfold c1. rewrite Ls. destruct level; cbn [andb]; [|split; auto; discriminate].
    destruct (Nat.eqb_spec (length room) 3) as [L3|L3]; [|split; auto; lia].
    destruct Kc as [Lp Kp]. destruct Kc1 as [Lq Kq]. rewrite L3 in Lq. destruct c1' as [|x [|y [|z [|w q]]]]; try discriminate Lq. cbn [upd_nth].
    split; [|reflexivity]. split; [cbn; congruence|]. intros i Hi. destruct i as [|[|[|i]]]; [apply (Kq 0%nat); lia|apply (Kq 1%nat); lia| |lia]. apply (Kp 2%nat). lia. }
  clearbody c1. destruct B as [B1 B2].
  destruct (far_points_cases nrm g k1 n room c0 (kept_length _ _ Kc)) as [((srcs & k') & E)| ->]; [|left; reflexivity].
  rewrite E. cbn [bind fst]. destruct (far_points_inv _ _ _ _ _ _ _ _ _ Hg U He Hn Sc E) as [L P].
  destruct (Z.leb_spec m 0); [lia|].
  assert (HT' : (2 <= steps_of steps)%nat) by (unfold steps_of; lia).
  destruct (path_spec c0 c1 (Z.max 2 steps)) as (l & -> & Ll & _ & St); [rewrite (kept_length _ _ Kc), (kept_length _ _ B1); auto|lia|].
  change (Z.to_nat (Z.max 2 steps)) with (steps_of steps) in Ll, St.
  cbn [bind].
  match goal with |- context [mapM ?F _] => set (f := F) end.
  assert (Kt : forall t, (t < steps_of steps)%nat -> on_way c0 c1 (INR t / (INR (steps_of steps) - 1)) (nth t l []) /\ kept room (nth t l [])).
  { intros t Ht. destruct (St t Ht) as (p & Ep & W). rewrite nth_some in Ep by lia. apply Some_inj in Ep. rewrite Ep. split; auto.
    eapply on_way_kept; [apply fraction; [|exact Ht]; auto|exact Kc|exact B1|exact W]. }
  assert (F : forall t, (t < steps_of steps)%nat -> exists mics, f (Some (nth t l [])) = Ok (map Some mics) /\ row_at room (nth t l []) (Z.to_nat m) mics).
  { intros t Ht. destruct (Kt t Ht) as [_ K]. destruct (mics_at_spec room _ m U K Hm) as (mics & Em & R). exists (map (clamp (room_size room)) mics).
    split; auto. unfold f. rewrite Em. cbn [bind]. rewrite map_map. auto. }
  destruct (mapM_total f (map Some l)) as (rows & Er).
  { intros x Hx. apply in_map_iff in Hx as (p & <- & Hp). destruct (In_nth _ _ [] Hp) as (t & Ht & <-). destruct (F t ltac:(lia)) as (mics & Q & _). eauto. }
  rewrite Er. cbn [bind].
  assert (Lr : length rows = steps_of steps) by (rewrite (mapM_length _ _ _ Er), map_length; auto).
  assert (Rt : forall t, (t < steps_of steps)%nat -> exists mics, nth t rows [] = map Some mics /\ row_at room (nth t l []) (Z.to_nat m) mics).
  { intros t Ht. destruct (F t Ht) as (mics & Q & R). exists mics. split; auto.
    pose proof (mapM_nth f _ _ t (None : xpoint) [] Er ltac:(rewrite map_length; lia)) as Q2.
    assert (Q3 : nth t (map Some l) (None : xpoint) = Some (nth t l [])) by (apply nth_some; lia).
    rewrite Q3, Q in Q2. apply Ok_inj in Q2. auto. }
  right. eexists. split; [reflexivity|]. constructor; cbn [dy_sources dy_mics dy_src dy_mic].
  - auto.
  - reflexivity.
  - auto.
  - destruct (Rt 0%nat ltac:(lia)) as (mics & Q & _). rewrite Q, !map_map. auto.
  - exists c0, c1. split; auto. split; auto. split; auto. split; auto. intros t Ht. destruct (Rt t Ht) as (mics & Q & R). destruct (Kt t Ht) as [W _].
    exists (nth t l []), mics. auto.
Qed.

(** ** Motions *)

Lemma motion_ext room n start tr tr' mode : (2 <= n)%nat -> (forall t, (t < n)%nat -> tr' t = tr t) -> motion room n start tr mode -> motion room n start tr' mode.
Proof.
  intros H2 E [H|e K M S|m e s K1 M1 K2 M2 Es A B C].
  - apply stands. intros t Ht. rewrite E; auto.
  - apply (goes _ _ _ _ e); auto. intros t Ht. rewrite E by auto. auto.
  - assert (s <= n)%nat by (rewrite Es; apply Nat.max_lub; auto; apply Nat.div_le_upper_bound; lia).
    apply (turns _ _ _ _ m e s); auto.
    + intros t Ht. rewrite E by lia. auto.
    + intros Hs t Ht. rewrite E by lia. auto.
    + intros Hs. rewrite E by lia. auto.
Qed.
Lemma fraction' k d : (k <= d)%nat -> (0 < d)%nat -> 0 <= INR k / INR d <= 1.
Proof.
  intros H D. apply le_INR in H. apply lt_INR in D. cbn in D. split; [apply Rmult_le_pos; [apply pos_INR|]; apply Rlt_le, Rinv_0_lt_compat; auto|].
  apply Rmult_le_reg_r with (INR d); auto. unfold Rdiv. rewrite Rmult_assoc, Rinv_l by lra. lra.
Qed.
Lemma motion_kept room n start tr mode t p : (2 <= n)%nat -> kept room start -> motion room n start tr mode -> (t < n)%nat -> tr t = Some p -> kept room p.
Proof.
  intros H2 K0 [H|e K M S|m e s K1 M1 K2 M2 Es A B C] Ht Ep.
  - rewrite H in Ep by auto. congruence.
  - exact (straight_kept room n start e tr t p H2 K0 K S Ht Ep).
  - assert (s <= n)%nat by (rewrite Es; apply Nat.max_lub; auto; apply Nat.div_le_upper_bound; lia).
    assert (2 <= s)%nat by lia.
    destruct (Nat.lt_ge_cases (t + 1) s) as [Q|Q].
    + destruct (A t Q) as (q & Eq & W). assert (q = p) by congruence. subst q. eapply on_way_kept; [apply (fraction t s); auto; lia|exact K0|exact K1|exact W].
    + destruct (Nat.eq_dec n s) as [Q2|Q2].
      * assert (t = s - 1)%nat by lia. subst t. rewrite C in Ep by auto. discriminate.
      * destruct (B ltac:(lia) t ltac:(lia)) as (q & Eq & W). assert (q = p) by congruence. subst q.
        eapply on_way_kept; [apply (fraction' (t - (s - 1)) (n - s)); lia|exact K1|exact K2|exact W].
Qed.
Lemma on_way_zero a b k p : on_way a b (INR 0 / k) p -> p = a.
Proof.
  intros [L P]. apply nth_ext with (d := 0) (d' := 0); auto. intros i Hi. rewrite P by lia. cbn [INR]. unfold Rdiv. ring.
Qed.
Lemma motion_first room n start tr mode : (2 <= n)%nat -> motion room n start tr mode -> tr 0%nat = Some start.
Proof.
  intros H2 [H|e K M S|m e s K1 M1 K2 M2 Es A B C].
  - apply H. lia.
  - destruct (S 0%nat ltac:(lia)) as (p & -> & W). f_equal. exact (on_way_zero _ _ _ _ W).
  - destruct (A 0%nat ltac:(lia)) as (p & -> & W). f_equal. exact (on_way_zero _ _ _ _ W).
Qed.
Lemma one_end_spec g k room : random_draws g -> usual_room room -> exists e k', one_end g k (room_size room) = Ok (e, k') /\ kept room e /\ mouth_height room e.
Proof.
  intros Hg U. destruct (end_points_spec g k 1 room Hg U ltac:(lia)) as (pts & k' & E & L & P). unfold one_end. rewrite E. cbn [bind fst snd].
  eexists _, _. split; [reflexivity|]. apply P. apply nth_In. rewrite L. cbn. lia.
Qed.
Lemma removelast_nth {A} (l : list A) d t : (t + 1 < length l)%nat -> nth t (removelast l) d = nth t l d.
Proof.
  revert t. induction l as [|x l IH]; intros t H; [cbn in H; lia|]. destruct l as [|y l]; [cbn in H; lia|].
  change (removelast (x :: y :: l)) with (x :: removelast (y :: l)). destruct t as [|t]; auto. cbn [nth]. apply IH. cbn in *. lia.
Qed.
Lemma removelast_length {A} (l : list A) : length (removelast l) = (length l - 1)%nat.
Proof.
  induction l as [|x l IH]; auto. destruct l as [|y l]; auto. change (removelast (x :: y :: l)) with (x :: removelast (y :: l)). cbn [length]. rewrite IH. cbn. lia.
Qed.
Lemma trajectory_spec g zz k start room steps : random_draws g -> usual_room room -> kept room start -> (2 <= steps)%Z ->
  exists tr k', random_trajectory g zz k start (room_size room) steps = Ok (tr, if zz then "zigzag" else "linear", k')%string /\
    length tr = Z.to_nat steps /\ motion room (Z.to_nat steps) start (ntrack tr) (if zz then "zigzag" else "linear")%string.
Proof.
  intros Hg U K H2. unfold random_trajectory. destruct zz; cbn [negb].
  - destruct (one_end_spec g k room Hg U) as (m & k1 & -> & Km & Mm). cbn [bind fst snd].
    destruct (one_end_spec g k1 room Hg U) as (e & k2 & -> & Ke & Me). cbn [bind fst snd]. cbv zeta.
    set (s := Z.max 2 (steps / 2)).
    assert (Hs : (2 <= s <= steps)%Z) by (unfold s; split; [lia|]; apply Z.max_lub; auto; apply Z.div_le_upper_bound; lia).
    assert (Es : Z.to_nat s = Nat.max 2 (Z.to_nat steps / 2)).
    { unfold s. rewrite Z2Nat.inj_max. f_equal. rewrite Z2Nat.inj_div by lia. reflexivity. }
    destruct (path_spec start m s) as (l1 & -> & L1 & _ & S1); [rewrite (kept_length _ _ K), (kept_length _ _ Km); auto|lia|]. cbn [bind].
    assert (A : forall second t, (t + 1 < Z.to_nat s)%nat -> exists p, ntrack (removelast (map Some l1) ++ second) t = Some p /\ on_way start m (INR t / (INR (Z.to_nat s) - 1)) p).
    { intros second t Ht. destruct (S1 t ltac:(lia)) as (p & Ep & W). exists p. split; auto. unfold ntrack in *.
      rewrite app_nth1 by (rewrite removelast_length, map_length; lia). rewrite removelast_nth by (rewrite map_length; lia). auto. }
    assert (Ln : forall second : list xpoint, length second = Z.to_nat (steps - s + 1) -> length (removelast (map Some l1) ++ second) = Z.to_nat steps).
    { intros second H. cbv delta [xpoint] in *. rewrite app_length, removelast_length, map_length. lia. }
    assert (Bt : forall (second : list xpoint) t, (Z.to_nat s - 1 <= t)%nat -> ntrack (removelast (map Some l1) ++ second) t = ntrack second (t - (Z.to_nat s - 1))).
    { intros second t Ht. unfold ntrack. rewrite app_nth2 by (rewrite removelast_length, map_length; lia). rewrite removelast_length, map_length, L1. auto. }
    destruct (Z.eq_dec s steps) as [Q|Q].
    + unfold path. rewrite (proj2 (C46_short m e (steps - s + 1))) by lia. cbn [bind].
      eexists _, _. split; [reflexivity|]. split; [apply Ln, repeat_length|].
      apply (turns _ _ _ _ m e (Z.to_nat s)); auto; [lia|].
      intros _. rewrite Bt by lia. replace (steps - s + 1)%Z with 1%Z by lia. rewrite Nat.sub_diag. reflexivity.
    + destruct (path_spec m e (steps - s + 1)) as (l2 & -> & L2 & _ & S2); [rewrite (kept_length _ _ Ke), (kept_length _ _ Km); auto|lia|]. cbn [bind].
      eexists _, _. split; [reflexivity|]. split; [apply Ln; rewrite map_length; auto|].
      apply (turns _ _ _ _ m e (Z.to_nat s)); auto; [|lia].
      intros _ t Ht. destruct (S2 (t - (Z.to_nat s - 1))%nat ltac:(lia)) as (p & Ep & W). exists p. rewrite Bt by lia. split; auto.
      replace (INR (Z.to_nat steps - Z.to_nat s)) with (INR (Z.to_nat (steps - s + 1)) - 1); auto.
      replace (Z.to_nat (steps - s + 1)) with (Z.to_nat steps - Z.to_nat s + 1)%nat by lia. rewrite plus_INR. change (INR 1) with 1. lra.
  - destruct (one_end_spec g k room Hg U) as (e & k1 & -> & Ke & Me). cbn [bind fst snd].
    destruct (path_spec start e steps) as (l & -> & L & _ & St); [rewrite (kept_length _ _ K), (kept_length _ _ Ke); auto|auto|]. cbn [bind].
    eexists _, _. split; [reflexivity|]. split; [rewrite map_length; auto|]. apply (goes _ _ _ _ e); auto.
Qed.

(** ** The data set *)

Definition mode_of (d : draws) (moves : nat -> bool) (i : nat) : string :=
  if moves i then if d_zigzag d i then "zigzag" else "linear" else "static".
Lemma tracks_spec d moves starts room steps : random_draws (d_uniform d) -> usual_room room -> (2 <= steps)%Z -> forall l k,
  (forall i, In i l -> kept room (nth i starts [])) ->
  exists ts, source_tracks d moves starts (room_size room) steps l k = Ok ts /\
    Forall2 (fun i t => snd t = mode_of d moves i /\ length (fst t) = Z.to_nat steps /\
                        motion room (Z.to_nat steps) (nth i starts []) (ntrack (fst t)) (mode_of d moves i)) l ts.
Proof.
  intros Hg U H2. induction l as [|i l IH]; intros k K; cbn [source_tracks].
  - exists []. auto.
  - assert (Ki : kept room (nth i starts [])) by (apply K; left; auto). unfold mode_of at 1 2.
    destruct (moves i) eqn:Em.
    + destruct (trajectory_spec (d_uniform d) (d_zigzag d i) k (nth i starts []) room steps Hg U Ki H2) as (tr & k' & -> & Lt & M). cbn [bind].
      destruct (IH k') as (ts & -> & F); [intros j Hj; apply K; right; auto|]. cbn [bind]. eexists. split; [reflexivity|]. constructor; auto.
      cbn [fst snd]. unfold mode_of. rewrite Em. auto.
    + cbn [bind]. destruct (IH k) as (ts & -> & F); [intros j Hj; apply K; right; auto|]. cbn [bind]. eexists. split; [reflexivity|]. constructor; auto.
      cbn [fst snd]. unfold mode_of. rewrite Em. split; auto. split; [apply repeat_length|]. apply stands. intros t Ht. apply nth_repeat_lt. exact Ht.
Qed.
Lemma same_length {A B} (Q : A -> B -> Prop) l l' : Forall2 Q l l' -> length l = length l'.
Proof. induction 1; cbn; congruence. Qed.
Lemma sorted_filter f a n : StronglySorted lt (filter f (seq a n)).
Proof.
  revert a. induction n as [|n IH]; intros a; cbn [seq filter]; [constructor|]. destruct (f a); auto. constructor; auto.
  apply Forall_forall. intros x Hx. apply filter_In in Hx as [Hx _]. apply in_seq in Hx. lia.
Qed.
Lemma filter_none {A} (l : list A) : filter (fun _ => false) l = [].
Proof. induction l; auto. Qed.
Lemma picked_count d n k : fair_pick d -> (k <= n)%nat -> length (filter (picked d n k) (seq 0 n)) = k.
Proof.
  intros Fp H. destruct (Fp n k H) as (L & N & F). rewrite <- L at 2. rewrite Forall_forall in F.
  apply Permutation.Permutation_length. apply Permutation.NoDup_Permutation; auto; [apply NoDup_filter, seq_NoDup|].
  intros x. rewrite filter_In. unfold picked. rewrite existsb_exists. split.
  - intros (_ & y & Hy & Q). apply Nat.eqb_eq in Q. congruence.
  - intros Hx. split; [apply in_seq; specialize (F x Hx); lia|]. exists x. split; auto. apply Nat.eqb_refl.
Qed.
Lemma nth_map_fst {A B} (l : list (A * B)) i a b : nth i (map fst l) a = fst (nth i l (a, b)).
Proof. exact (map_nth fst l (a, b) i). Qed.
Lemma nth_map_snd {A B} (l : list (A * B)) i a b : nth i (map snd l) b = snd (nth i l (a, b)).
Proof. exact (map_nth snd l (a, b) i). Qed.
Lemma trajectories_spec nrm e d n n_moving room c steps : random_draws (d_uniform d) -> fair_pick d -> usual_room room -> 0 <= e ->
  (forall v, nrm v <= (1 + e) * norm v) -> kept room c -> Forall single c -> (1 <= n)%Z -> (2 <= steps)%Z ->
  source_trajectories nrm d n n_moving (room_size room) c steps = Err RuntimeError \/
  exists rows modes moving starts, source_trajectories nrm d n n_moving (room_size room) c steps = Ok (rows, modes, moving) /\
    source_motions e room c (Z.to_nat n) (Z.to_nat (Z.min n n_moving)) (Z.to_nat steps) rows modes moving starts.
Proof.
  intros Hg Fp U He Hn Kc Sc H1 H2. unfold source_trajectories.
  destruct (far_points_cases nrm (d_uniform d) 0 n room c (kept_length _ _ Kc)) as [((starts & k) & E)| ->]; [|left; reflexivity].
  rewrite E. cbn [bind fst]. cbv zeta. destruct (far_points_inv _ _ _ _ _ _ _ _ _ Hg U He Hn Sc E) as [L P].
  set (moves := if (0 <? Z.max 0 (Z.min n n_moving))%Z then _ else _).
  assert (Ks : forall i, (i < Z.to_nat n)%nat -> kept room (nth i starts [])) by (intros i Hi; apply P, nth_In; lia).
  destruct (tracks_spec d moves starts room steps Hg U H2 (seq 0 (Z.to_nat n)) k) as (ts & -> & F).
  { intros i Hi. apply in_seq in Hi. apply Ks. lia. }
  cbn [bind]. assert (Lt : length ts = Z.to_nat n) by (rewrite <- (same_length _ _ _ F), seq_length; auto).
  assert (Ft : forall i, (i < Z.to_nat n)%nat -> nth i (map snd ts) ""%string = mode_of d moves i /\ length (nth i (map fst ts) []) = Z.to_nat steps /\
    motion room (Z.to_nat steps) (nth i starts []) (ntrack (nth i (map fst ts) [])) (mode_of d moves i)).
  { intros i Hi. rewrite (nth_map_fst _ _ _ ""%string), (nth_map_snd _ _ [] _).
    assert (Q : forall l ts', Forall2 (fun i t => snd t = mode_of d moves i /\ length (fst t) = Z.to_nat steps /\
       motion room (Z.to_nat steps) (nth i starts []) (ntrack (fst t)) (mode_of d moves i)) l ts' -> forall j, (j < length l)%nat ->
       (fun i t => snd t = mode_of d moves i /\ length (fst t) = Z.to_nat steps /\
       motion room (Z.to_nat steps) (nth i starts []) (ntrack (fst t)) (mode_of d moves i)) (nth j l 0%nat) (nth j ts' ([], ""%string))).
    { induction 1 as [|x y l' ts' Hxy _ IH]; intros j Hj; cbn in Hj; [lia|]. destruct j as [|j]; auto. cbn [nth]. apply IH. lia. }
    specialize (Q _ _ F i). rewrite seq_length, seq_nth in Q by auto. exact (Q Hi). }
  destruct (stack_spec (map fst ts) (Z.to_nat steps)) as (rows & -> & Lr & Rr & Tt).
  { intros Q. apply (f_equal (@length _)) in Q. rewrite map_length, Lt in Q. cbn in Q. lia. }
  { intros tr Htr. destruct (In_nth _ _ [] Htr) as (i & Hi & <-). rewrite map_length, Lt in Hi. apply Ft. auto. }
  rewrite map_length, Lt in Rr, Tt. cbn [bind]. right.
  assert (Tc : forall i t, (i < Z.to_nat n)%nat -> (t < Z.to_nat steps)%nat -> track_of (clamp_rows (room_size room) rows) i t = ntrack (nth i (map fst ts) []) t).
  { intros i t Hi Ht. rewrite clamp_track; auto; rewrite Tt by auto; auto. intros p Hp. destruct (Ft i Hi) as (_ & _ & M).
    refine (motion_kept _ _ _ _ _ _ _ _ _ M Ht Hp); [lia|]. auto. }
  eexists _, _, _, starts. split; [reflexivity|]. constructor.
  - auto.
  - assert (L0 : length (nth 0 (clamp_rows (room_size room) rows) []) = Z.to_nat n).
    { apply (clamp_rows_rows (room_size room) rows); auto. apply nth_In. rewrite length_clamp_rows. lia. }
    refine (nth_ext (A:=xpoint) _ _ None None _ _); [rewrite map_length, L; exact L0|].
    intros i Hi. rewrite L0 in Hi. change (track_of (clamp_rows (room_size room) rows) i 0 = ntrack (map Some starts) i).
    rewrite Tc by lia. destruct (Ft i Hi) as (_ & _ & M). rewrite nth_some by lia. refine (motion_first _ _ _ _ _ _ M). lia.
  - rewrite length_clamp_rows. auto.
  - apply clamp_rows_rows. auto.
  - rewrite map_length. auto.
  - intros i Hi. destruct (Ft i Hi) as (-> & _ & M). refine (motion_ext _ _ _ _ _ _ _ _ M); [lia|]. intros t Ht. apply Tc; auto.
  - intros i. rewrite filter_In, in_seq. split.
    + intros [Hi Hm]. split; [lia|]. rewrite (proj1 (Ft i ltac:(lia))). unfold mode_of. rewrite Hm. destruct (d_zigzag d i); discriminate.
    + intros [Hi Hm]. rewrite (proj1 (Ft i Hi)) in Hm. unfold mode_of in Hm. split; [lia|]. destruct (moves i); [auto|congruence].
  - apply sorted_filter.
  - unfold moves. destruct (Z.ltb_spec 0 (Z.max 0 (Z.min n n_moving))) as [Q|Q].
    + rewrite Z.max_r by lia. apply picked_count; auto. lia.
    + rewrite filter_none. cbn. lia.
Qed.
Lemma mapM_outcome {A B} (f : A -> result B) e (Q : B -> Prop) l : (forall x, In x l -> f x = Err e \/ exists y, f x = Ok y /\ Q y) ->
  mapM f l = Err e \/ exists ys, mapM f l = Ok ys /\ length ys = length l /\ Forall Q ys.
Proof.
  induction l as [|x l IH]; intros H; cbn [mapM].
  - right. exists []. auto.
  - destruct (H x (or_introl eq_refl)) as [->|(y & -> & Hy)]; [left; reflexivity|]. cbn [bind].
    destruct IH as [->|(ys & -> & L & F)]; [intros z Hz; apply H; right; auto|left; reflexivity|]. cbn [bind]. right. eexists. split; [reflexivity|]. cbn. auto.
Qed.
Lemma dataset_spec nrm e fresh loaded room seed n_scenes n n_moving m steps :
  (forall s, random_draws (fresh s)) -> (forall s, random_draws (d_uniform (loaded s)) /\ fair_pick (loaded s)) -> usual_room room -> 0 <= e ->
  (forall v, nrm v <= (1 + e) * norm v) -> (1 <= n)%Z -> (1 <= m)%Z ->
  dataset_scenes nrm fresh loaded room seed n_scenes n n_moving m steps = Err RuntimeError \/
  exists c scenes, dataset_scenes nrm fresh loaded room seed n_scenes n n_moving m steps = Ok scenes /\ length scenes = Z.to_nat n_scenes /\
    Forall (dataset_scene e room c (Z.to_nat n) (Z.to_nat m) (steps_of steps)) scenes.
Proof.
  intros Hf Hl U He Hn H1 Hm. unfold dataset_scenes.
  destruct (example_room_cases room 16000) as [[_ (r & ->)]|[X _]]; [|exfalso; apply X, usual_sound; auto; lia]. cbn [bind]. cbv zeta.
  destruct (one_point_spec (fresh seed) 0 room (Hf seed) U) as [Kc Sc]. destruct (one_point (fresh seed) 0 (room_size room)) as [c k]. cbn [fst] in Kc, Sc.
  destruct (mics_at_spec room c m U Kc Hm) as (mics & -> & Rw). cbn [bind].
  match goal with |- mapM ?F ?l = _ \/ _ => destruct (mapM_outcome F RuntimeError (dataset_scene e room c (Z.to_nat n) (Z.to_nat m) (steps_of steps)) l) as [->|(ys & -> & L & Fs)] end;
    [|left; reflexivity|right; exists c, ys; rewrite seq_length in L; auto].
  intros idx _. destruct (Hl (seed + Z.of_nat idx)%Z) as [Hg Fp].
  destruct (trajectories_spec nrm e (loaded (seed + Z.of_nat idx)%Z) n n_moving room c (Z.max 2 steps) Hg Fp U He Hn Kc Sc H1 ltac:(lia)) as [->|(rows & modes & moving & starts & -> & M)];
    [left; reflexivity|]. cbn [bind fst]. right. eexists. split; [reflexivity|]. destruct M as [[M1 M2] M3 M4 M5 M6 M7 _ _ _].
  match goal with |- context [mkDyn ?S] => assert (Es : S = starts) by (rewrite M3, map_map; apply map_id) end. rewrite Es.
  constructor; cbn [dy_sources dy_mics dy_src dy_mic]; auto.
  intros i Hi. eexists. apply M7. auto.
Qed.
