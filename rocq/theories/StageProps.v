(** Properties of the stages around the image sum: C31 (diffuse tail), C32 (high-pass
    filter), C33 (configuration and output length), C34 (Sabine). *)
From Coq Require Import String List ZArith Reals Lia Lra Psatz Bool.
From Verif Require Import Prelude PreludeFacts SignalModel FloatModel FloatProofs DirModel ImageModel ImageSpec AcousticModel
  AccumModel IsmModel IsmSpec ImageProofs AccumProofs IsmProofs SimProofs SimLocal SimSteps SimPairs StageSpec SimStages IsmProps.
Import ListNotations.
Local Open Scope R_scope.
Local Notation length := List.length.

(** ** C31 *)
(** First sample of the tail. *)
Definition tail_at (fs td : R) (n : nat) : Z := Z.min (Z.of_nat n - 1) (floorZ (rnd64 (td * fs))).
(** What the tail stage may do to a response, row by row: nothing when [td] is not before
    [tmax] or [tmax] is unknown. *)
Theorem C31_inactive : forall X dev r srcs mics mo nb ns tmax td dir ori c, r_fs r <> 0 ->
  (forall tm, first tmax (cfg_tmax c) = Some tm -> tm <= td) ->
  simulate_rir X dev r srcs mics mo nb ns tmax (Some td) dir ori (Some c) =
  simulate_rir X dev r srcs mics mo nb ns tmax None dir ori (Some c).
Proof.
  intros X dev r srcs mics mo nb ns tmax td dir ori c Hf H.
  destruct (simulate_stages X dev r srcs mics mo nb ns tmax dir ori (Some c) Hf)
    as [(e & E)|(c' & N & tm & d & z & beta & base & ER & EV & _ & _ & _ & E)]; [rewrite !E; auto|].
  destruct E as (_ & _ & E). rewrite !E. unfold tail_stage.
  apply resolve_config_cases in ER as (_ & [Ec|[Ec _]] & _ & Et); [|discriminate]. injection Ec as <-.
  fold (first tmax (cfg_tmax c)) in Et. destruct tm as [tm|]; auto. destruct (Rlt_dec td tm); auto.
  specialize (H tm (eq_sym Et)). lra.
Qed.
Theorem C31_tail_partial : forall X dev r srcs mics mo nb ns tmax td tm dir ori c T, 0 < r_fs r -> wf (r_size r) ->
  cfg_hpf_enable c = false -> first tmax (cfg_tmax c) = Some tm -> td < tm ->
  simulate_rir X dev r srcs mics mo nb ns tmax None dir ori (Some c) = Ok T ->
  exists S M n T' k beta,
    simulate_rir X dev r srcs mics mo nb ns tmax (Some td) dir ori (Some c) = Ok T' /\
    xshape T = [S; M; n] /\ xshape T' = [S; M; n] /\ 0 < k /\
    (exists t60, resolve_beta r = Ok beta /\ estimate_t60_from_beta (r_size r) beta = Ok t60 /\ k = tail_rate t60) /\
    ((tail_at (r_fs r) td n <= 0)%Z -> T' = T) /\
    forall s m, (s < S)%nat -> (m < M)%nat -> (0 < tail_at (r_fs r) td n)%Z ->
      let i0 := Z.to_nat (tail_at (r_fs r) td n) in
      (forall j, (j < i0)%nat -> xget T' [s; m; j] = xget T [s; m; j]) /\
      forall i, (i0 + i < n)%nat ->
        let noise := nth ((s * M + m) * (n - i0) + i)
          (x_randn X (match cfg_seed c with Some sd => sd | None => 0%Z end) (S * M * (n - i0))%nat) 0 in
        xget T' [s; m; (i0 + i)%nat] =
          option_map (fun e => noise * exp (- (k * (INR i / r_fs r))) * (Rabs e + / 10 ^ 8)) (xget T [s; m; (i0 - 1)%nat]).
Proof.
  intros X dev r srcs mics mo nb ns tmax td tm dir ori c T Hf Hw Hh Ht Hlt HT.
  destruct (simulate_stages X dev r srcs mics mo nb ns tmax dir ori (Some c)) as
    [(e & E)|(c' & N & tm' & d & z & beta & base & ER & EV & Ed & Eb & Lb & E)]; [lra|rewrite E in HT; discriminate|].
  cbv zeta in E. destruct E as (Lbase & Hrows & E).
  apply resolve_config_cases in ER as (_ & [Ec|[Ec _]] & _ & Et); [|discriminate]. injection Ec as <-.
  fold (first tmax (cfg_tmax c)) in Et. rewrite Ht in Et. subst tm'.
  destruct (t60_ok _ _ Ed Hw Lb) as (t60 & E60).
  destruct (tail_spec (x_randn X) _ _ base r beta td (cfg_seed c) t60 Lbase E60) as (out & Eo & Lo & Hinact & Hact).
  rewrite E in HT. unfold tail_stage, apply_rir_hpf in HT. rewrite Hh in HT. cbn in HT. injection HT as <-.
  set (S := count srcs) in *. set (M := count mics) in *. set (n := Z.to_nat z) in *.
  exists S, M, n, (mkX [S; M; n] out), (tail_rate t60), beta. split.
  { rewrite E. unfold tail_stage, apply_rir_hpf. destruct (Rlt_dec td tm); [|lra]. rewrite Eo. cbn [bind]. rewrite Hh. reflexivity. }
  split; [reflexivity|]. split; [reflexivity|]. split; [apply rate_pos|]. split; [eauto|].
  split; [intros H; rewrite Hinact; auto|].
  intros s m Hs Hm Ha. cbv zeta. set (i0 := Z.to_nat (tail_at (r_fs r) td n)).
  assert (Hq : (s * M + m < S * M)%nat) by nia.
  assert (X3 : forall l j, xget (mkX [S; M; n] l) [s; m; j] = nth ((s * M + m) * n + j) l None).
  { intros. unfold xget. cbn [xshape xdata ravel prodn fold_right]. f_equal. nia. }
  assert (I0 : (0 < i0 < n)%nat) by (unfold i0, tail_at in *; lia).
  split.
  - intros j Hj. rewrite !X3. rewrite Hact by (auto; lia). cbv zeta. unfold tail_start.
    fold (tail_at (r_fs r) td n). fold i0. destruct (Nat.ltb_spec j i0); [auto|lia].
  - intros i Hi. rewrite !X3. rewrite Hact by (auto; lia). cbv zeta. unfold tail_start.
    fold (tail_at (r_fs r) td n). fold i0. destruct (Nat.ltb_spec (i0 + i) i0); [lia|].
    replace (i0 + i - i0)%nat with i by lia. rewrite decay_rate.
    destruct (nth ((s * M + m) * n + (i0 - 1)) base None); reflexivity.
Qed.

(** With the length taken from [tmax], every sample before [floor (td * fs)] is unchanged
    (unless the two products round to the same number). *)
Theorem C31_early_unchanged_partial : forall X dev r srcs mics mo nb tmax td tm dir ori c T, 0 < r_fs r -> wf (r_size r) ->
  cfg_hpf_enable c = false -> first tmax (cfg_tmax c) = Some tm -> td < tm -> rnd64 (td * r_fs r) < rnd64 (tm * r_fs r) ->
  simulate_rir X dev r srcs mics mo nb None tmax None dir ori (Some c) = Ok T ->
  exists S M n T', simulate_rir X dev r srcs mics mo nb None tmax (Some td) dir ori (Some c) = Ok T' /\
    xshape T = [S; M; n] /\ xshape T' = [S; M; n] /\
    forall s m j, (s < S)%nat -> (m < M)%nat -> (Z.of_nat j < floorZ (rnd64 (td * r_fs r)%R))%Z ->
      xget T' [s; m; j] = xget T [s; m; j].
Proof.
  intros X dev r srcs mics mo nb tmax td tm dir ori c T Hf Hw Hh Ht Hlt Hr HT.
  destruct (C31_tail_partial X dev r srcs mics mo nb None tmax td tm dir ori c T Hf Hw Hh Ht Hlt HT)
    as (S & M & n & T' & k & beta & E & Sh & Sh' & _ & _ & Hin & Hac).
  exists S, M, n, T'. repeat (split; [auto; fail|]). intros s m j Hs Hm Hj.
  assert (Hn : Z.of_nat n = ceilZ (rnd64 (tm * r_fs r))).
  { destruct (simulate_stages X dev r srcs mics mo nb None tmax dir ori (Some c)) as
      [(e & G)|(c' & N & tm' & d & z & beta' & base & ER & EV & _ & _ & _ & G)]; [lra|rewrite G in HT; discriminate|].
    cbv zeta in G. destruct G as (_ & _ & G). rewrite G in HT. bcase_in HT. bcase_in HT. injection HT as <-.
    cbn [xshape] in Sh. injection Sh as _ _ <-. pose proof (validate_args_pos _ _ _ _ _ EV) as [P _]. rewrite Z2Nat.id by lia.
    apply resolve_config_cases in ER as (_ & [Ec|[Ec _]] & _ & Et); [|discriminate]. injection Ec as <-.
    fold (first tmax (cfg_tmax c)) in Et. rewrite Ht in Et. subst tm'.
    unfold validate_args in EV. cbn [bind] in EV. destruct (_ <=? _)%Z in EV; [discriminate|]. destruct (_ <? _)%Z in EV; congruence. }
  assert (floorZ (rnd64 (td * r_fs r)) < Z.of_nat n)%Z.
  { rewrite Hn. apply lt_IZR. pose proof (floorZ_spec (rnd64 (td * r_fs r))). pose proof (ceilZ_spec (rnd64 (tm * r_fs r))). lra. }
  assert (TA : tail_at (r_fs r) td n = floorZ (rnd64 (td * r_fs r))) by (unfold tail_at; lia).
  destruct (Hac s m Hs Hm) as [Q _]; [lia|]. apply Q. rewrite TA. lia.
Qed.
(** The decay starts at 1 and stays in (0, 1]. *)
Theorem C31_decay_bounded : forall fs k i, 0 < fs -> 0 < k ->
  0 < exp (- (k * (INR i / fs))) <= 1 /\ exp (- (k * (INR 0 / fs))) = 1.
Proof.
  intros fs k i Hf Hk. split; [apply exp_rate; auto|]. cbn [INR]. unfold Rdiv. rewrite Rmult_0_l, Rmult_0_r, Ropp_0. apply exp_0.
Qed.
(** The result is a function of the seed; no seed and seed 0 coincide. *)
Definition with_seed (c : config) (s : option Z) : config :=
  mkConfig (cfg_fs c) (cfg_max_order c) (cfg_tmax c) (cfg_directivity c) (cfg_device c) s (cfg_use_lut c)
    (cfg_mixed_precision c) (cfg_fdl c) (cfg_gran c) (cfg_img_chunk c) (cfg_acc_chunk c) (cfg_use_compile c)
    (cfg_hpf_enable c) (cfg_hpf_fc c) (cfg_hpf_n c).
Theorem C31_default_seed : forall X dev r srcs mics mo nb ns tmax tdiff dir ori c,
  simulate_rir X dev r srcs mics mo nb ns tmax tdiff dir ori (Some (with_seed c None)) =
  simulate_rir X dev r srcs mics mo nb ns tmax tdiff dir ori (Some (with_seed c (Some 0%Z))).
Proof.
  intros. unfold simulate_rir, resolve_config. cbn [bind].
  change (cfg_validate (with_seed c (Some 0%Z))) with (cfg_validate (with_seed c None)).
  destruct (cfg_validate (with_seed c None)); [|reflexivity]. cbn [bind with_seed cfg_max_order cfg_tmax cfg_directivity].
  destruct (match mo with Some n => Ok n | None => _ end); reflexivity.
Qed.

(** Refuted: with an explicit [nsample] shorter than [tdiff * fs] the last sample, although
    before [floor (tdiff * fs)], is replaced. *)
Lemma tmax_unused X dev r srcs mics mo nb n tmax tmax' dir ori c :
  simulate_rir X dev r srcs mics mo nb (Some n) tmax None dir ori (Some c) =
  simulate_rir X dev r srcs mics mo nb (Some n) tmax' None dir ori (Some c).
Proof.
  unfold simulate_rir, resolve_config. cbn [bind]. destruct (cfg_validate c); [|reflexivity]. cbn [bind].
  destruct (match mo with Some n => Ok n | None => _ end); reflexivity.
Qed.
Theorem C31_early_unchanged_refuted : exists X T T',
  simulate_rir X Cpu ex_room ex_src ex_mic (Some 0%Z) None (Some 20%Z) (Some 20) None (Some (DName "omni")) ONone (Some ex_cfg) = Ok T /\
  simulate_rir X Cpu ex_room ex_src ex_mic (Some 0%Z) None (Some 20%Z) (Some 20) (Some 15) (Some (DName "omni")) ONone (Some ex_cfg) = Ok T' /\
  15 < 20 /\ (19 < floorZ (15 * r_fs ex_room)%R)%Z /\
  xget T [0; 0; 19]%nat = Some 0 /\ xget T' [0; 0; 19]%nat = Some (/ 10 ^ 8).
Proof.
  set (X := mkExt unit (fun _ _ => Ok tt) (fun _ l => Ok l) (fun _ n => repeat 1 n)). exists X.
  destruct (C22_example X) as (T & H & V). rewrite (tmax_unused _ _ _ _ _ _ _ _ _ (Some 20)) in H.
  destruct (C31_tail_partial X Cpu ex_room ex_src ex_mic (Some 0%Z) None (Some 20%Z) (Some 20) 15 20 (Some (DName "omni")) ONone ex_cfg T)
    with (6 := H) as (S & M & n & T' & k & beta & E & Sh & Sh' & _ & _ & Hin & Hac); try reflexivity; try (cbn; lra).
  exists T, T'. split; auto. split; auto. split; [lra|].
  assert (F : 15 * r_fs ex_room = IZR 30) by (cbn; lra). split; [rewrite F, floorZ_IZR; lia|].
  split; [rewrite V by lia; reflexivity|].
  assert (Hn : n = 20%nat /\ S = 1%nat /\ M = 1%nat).
  { pose proof (simulate_omni X Cpu ex_room ex_src ex_mic 0 None 20 ex_cfg 2 _ _ ex_scene ex_cfg_valid eq_refl
      ltac:(lia) ltac:(lia) eq_refl) as G. change (Z.of_nat 20) with 20%Z in G.
    rewrite (tmax_unused _ _ _ _ _ _ _ _ _ (Some 20)) in G. rewrite H in G. injection G as ->.
    cbn [xshape] in Sh. injection Sh as <- <- <-. auto. }
  destruct Hn as (-> & -> & ->).
  assert (TA : tail_at (r_fs ex_room) 15 20 = 19%Z).
  { unfold tail_at. rewrite F, rnd64_IZR, floorZ_IZR; [reflexivity|]. cbn. lia. }
  destruct (Hac 0%nat 0%nat) as [_ Q]; [lia|lia|rewrite TA; lia|]. cbv zeta in Q. rewrite TA in Q.
  change (Z.to_nat 19) with 19%nat in Q. specialize (Q 0%nat ltac:(lia)). change (19 + 0)%nat with 19%nat in Q. rewrite Q.
  rewrite V by lia. cbn [Nat.eqb option_map Nat.sub]. f_equal.
  assert (D : exp (- (k * (INR 0 / r_fs ex_room))) = 1).
  { cbn [INR]. unfold Rdiv. rewrite Rmult_0_l, Rmult_0_r, Ropp_0. apply exp_0. }
  rewrite D, Rabs_R0. cbn [x_randn X Nat.mul Nat.add Nat.sub repeat nth]. lra.
Qed.
Example C31_example : exists X T,
  simulate_rir X Cpu ex_room ex_src ex_mic (Some 0%Z) None (Some 20%Z) (Some 20) (Some 6) (Some (DName "omni")) ONone (Some ex_cfg) = Ok T /\
  xget T [0; 0; 11]%nat = Some (/ 5) /\ xget T [0; 0; 12]%nat = Some (3 * (/ 5 + / 10 ^ 8)).
Proof.
  set (X := mkExt unit (fun _ _ => Ok tt) (fun _ l => Ok l) (fun _ n => repeat 3 n)). exists X.
  destruct (C22_example X) as (T & H & V). rewrite (tmax_unused _ _ _ _ _ _ _ _ _ (Some 20)) in H.
  destruct (C31_tail_partial X Cpu ex_room ex_src ex_mic (Some 0%Z) None (Some 20%Z) (Some 20) 6 20 (Some (DName "omni")) ONone ex_cfg T)
    with (6 := H) as (S & M & n & T' & k & beta & E & Sh & Sh' & _ & _ & Hin & Hac); try reflexivity; try (cbn; lra).
  exists T'. split; auto.
  assert (Hn : n = 20%nat /\ S = 1%nat /\ M = 1%nat).
  { pose proof (simulate_omni X Cpu ex_room ex_src ex_mic 0 None 20 ex_cfg 2 _ _ ex_scene ex_cfg_valid eq_refl
      ltac:(lia) ltac:(lia) eq_refl) as G. change (Z.of_nat 20) with 20%Z in G.
    rewrite (tmax_unused _ _ _ _ _ _ _ _ _ (Some 20)) in G. rewrite H in G. injection G as ->.
    cbn [xshape] in Sh. injection Sh as <- <- <-. auto. }
  destruct Hn as (-> & -> & ->).
  assert (F : 6 * r_fs ex_room = IZR 12) by (cbn; lra).
  assert (TA : tail_at (r_fs ex_room) 6 20 = 12%Z).
  { unfold tail_at. rewrite F, rnd64_IZR, floorZ_IZR; [reflexivity|]. cbn. lia. }
  destruct (Hac 0%nat 0%nat) as [Q' Q]; [lia|lia|rewrite TA; lia|]. cbv zeta in Q. rewrite TA in Q, Q'.
  change (Z.to_nat 12) with 12%nat in Q, Q'. split; [rewrite Q' by lia; rewrite V by lia; reflexivity|].
  specialize (Q 0%nat ltac:(lia)). change (12 + 0)%nat with 12%nat in Q. rewrite Q.
  rewrite V by lia. cbn [Nat.eqb option_map Nat.sub]. f_equal.
  assert (D : exp (- (k * (INR 0 / r_fs ex_room))) = 1).
  { cbn [INR]. unfold Rdiv. rewrite Rmult_0_l, Rmult_0_r, Ropp_0. apply exp_0. }
  rewrite D, Rabs_right by lra. cbn [x_randn X Nat.mul Nat.add Nat.sub repeat nth]. lra.
Qed.
Print Assumptions C31_inactive.
Print Assumptions C31_tail_partial.
Print Assumptions C31_early_unchanged_partial.
Print Assumptions C31_decay_bounded.
Print Assumptions C31_default_seed.
Print Assumptions C31_early_unchanged_refuted.

(** ** C32 *)
Definition with_hpf (c : config) (on : bool) : config :=
  mkConfig (cfg_fs c) (cfg_max_order c) (cfg_tmax c) (cfg_directivity c) (cfg_device c) (cfg_seed c) (cfg_use_lut c)
    (cfg_mixed_precision c) (cfg_fdl c) (cfg_gran c) (cfg_img_chunk c) (cfg_acc_chunk c) (cfg_use_compile c)
    on (cfg_hpf_fc c) (cfg_hpf_n c).
Theorem C32_disabled : forall X rows n rir fs c, cfg_hpf_enable c = false ->
  apply_rir_hpf (x_design X) (x_filt X) rows n rir fs c = Ok rir.
Proof. intros X rows n rir fs c H. unfold apply_rir_hpf. rewrite H. reflexivity. Qed.
Lemma cutoff_band fs fc : 0 < fs -> (negb (Rltb 0 (2 * fc / fs) && Rltb (2 * fc / fs) 1) = false <-> 0 < fc < fs / 2).
Proof.
  intros Hf. assert (P : 0 < / fs) by (apply Rinv_0_lt_compat; auto). unfold Rltb.
  assert (I : fs * / fs = 1) by (apply Rinv_r; lra).
  destruct (Rlt_dec 0 (2 * fc / fs)) as [A|A]; destruct (Rlt_dec (2 * fc / fs) 1) as [B|B]; cbn; split; intros H; try discriminate; auto.
  - split; unfold Rdiv in *; nra.
  - exfalso. apply B. unfold Rdiv. nra.
  - exfalso. apply A. unfold Rdiv. nra.
  - exfalso. apply A. unfold Rdiv. nra.
Qed.
(** Outside the band the call is rejected; inside it the row filter designed for the
    normalised cutoff runs on every row. *)
Theorem C32_cutoff_rejected : forall X rows n rir fs c, 0 < fs -> cfg_hpf_enable c = true ->
  ~ (0 < cfg_hpf_fc c < fs / 2) ->
  apply_rir_hpf (x_design X) (x_filt X) rows n rir fs c = Err ValueError.
Proof.
  intros X rows n rir fs c Hf Hh H. unfold apply_rir_hpf, design_hpf_sos. rewrite Hh. cbn [negb].
  destruct (negb (_ && _)) eqn:G; [reflexivity|]. apply cutoff_band in G; auto. contradiction.
Qed.
Theorem C32_cutoff_accepted : forall X rows n rir fs c, 0 < fs -> cfg_hpf_enable c = true -> 0 < cfg_hpf_fc c < fs / 2 ->
  (forall k w, exists s, x_design X k w = Ok s) -> (forall s row, exists o, x_filt X s row = Ok o) ->
  exists out, apply_rir_hpf (x_design X) (x_filt X) rows n rir fs c = Ok out.
Proof.
  intros X rows n rir fs c Hf Hh H HD HF. unfold apply_rir_hpf, design_hpf_sos. rewrite Hh. cbn [negb].
  apply cutoff_band in H; auto. rewrite H. destruct (HD (cfg_hpf_n c) (2 * cfg_hpf_fc c / fs)) as (s & ->). cbn [bind].
  assert (G : forall l, exists os, mapM (fun i => x_filt X s (block (i * n) n rir)) l = Ok os).
  { induction l as [|a l (os & IH)]; [exists []; reflexivity|]. cbn [mapM]. destruct (HF s (block (a * n) n rir)) as (o & ->). cbn [bind].
    rewrite IH. cbn [bind]. eauto. }
  destruct (G (seq 0 rows)) as (os & ->). cbn [bind]. eauto.
Qed.
Theorem C32_rows_filtered : forall X rows n rir fs c out, 0 < fs -> cfg_hpf_enable c = true -> filt_length X ->
  length rir = (rows * n)%nat -> (0 < rows)%nat ->
  apply_rir_hpf (x_design X) (x_filt X) rows n rir fs c = Ok out ->
  length out = length rir /\ 0 < cfg_hpf_fc c < fs / 2 /\
  exists s, x_design X (cfg_hpf_n c) (cfg_hpf_fc c / (fs / 2)) = Ok s /\
    forall i, (i < rows)%nat -> x_filt X s (block (i * n) n rir) = Ok (block (i * n) n out).
Proof.
  intros X rows n rir fs c out Hf Hh HX Hl Hr H. destruct (hpf_rows X _ _ _ _ _ _ HX Hl H) as [L R].
  split; [lia|]. unfold apply_rir_hpf, design_hpf_sos in *. rewrite Hh in *. cbn [negb] in *.
  destruct (negb (_ && _)) eqn:G; [discriminate|]. apply cutoff_band in G; auto. split; auto.
  replace (cfg_hpf_fc c / (fs / 2)) with (2 * cfg_hpf_fc c / fs) by (field; lra).
  destruct (x_design X _ _) as [s|]; [|discriminate]. exists s. split; auto. intros i Hi.
  specialize (R i 1%nat ltac:(lia)). rewrite !Nat.mul_1_l in R. cbn [bind seq mapM] in R.
  replace (block (0 * n) n (block (i * n) n rir)) with (block (i * n) n rir) in R.
  - destruct (x_filt X s (block (i * n) n rir)) as [o|]; [|discriminate]. cbn [bind] in R. injection R as R. cbn in R.
    rewrite app_nil_r in R. congruence.
  - rewrite block_block by lia. f_equal. lia.
Qed.
Lemma hpf_last X dev r srcs mics mo nb ns tmax tdiff dir ori c :
  simulate_rir X dev r srcs mics mo nb ns tmax tdiff dir ori (Some c) =
  do T0 <- simulate_rir X dev r srcs mics mo nb ns tmax tdiff dir ori (Some (with_hpf c false));
  do out <- apply_rir_hpf (x_design X) (x_filt X) (nth 0 (xshape T0) 0 * nth 1 (xshape T0) 0)%nat (nth 2 (xshape T0) 0)%nat
    (xdata T0) (r_fs r) c;
  Ok (mkX (xshape T0) out).
Proof.
  unfold simulate_rir, resolve_config. cbn [bind].
  change (cfg_validate (with_hpf c false)) with (cfg_validate c). destruct (cfg_validate c); [|reflexivity].
  cbn [bind with_hpf cfg_max_order cfg_tmax cfg_directivity].
  destruct (match mo with Some n => Ok n | None => _ end); [|reflexivity]. cbn [bind].
  set (tm := match tmax with Some t => Some t | None => cfg_tmax c end).
  destruct (validate_args _ _ _ _); [|reflexivity]. cbn [bind].
  destruct (prepare_static _ _ _ _) as [[[[[[? ?] ?] ?] ?] ?]|]; [|reflexivity]. cbn [bind].
  destruct (validate_pos_shapes _ _ _); [|reflexivity]. cbn [bind]. destruct (resolve_beta r); [|reflexivity]. cbn [bind].
  destruct (validate_beta _ _); [|reflexivity]. cbn [bind]. destruct (image_source_indices _ _ _); [|reflexivity]. cbn [bind].
  destruct (split_directivity _) as [[? ?]|]; [|reflexivity]. cbn [bind]. destruct (mic_directions _ _ _); [|reflexivity]. cbn [bind].
  destruct (src_directions _ _ _ _); [|reflexivity]. cbn [bind].
  change (static_loop dev (with_hpf c false)) with (static_loop dev c).
  destruct (static_loop _ _ _ _ _ _ _ _ _ _ _ _ _ _); [|reflexivity]. cbn [bind].
  change (cfg_seed (mkConfig _ _ _ _ _ _ _ _ _ _ _ _ _ _ _ _)) with (cfg_seed c).
  destruct (match tdiff with Some _ => _ | None => _ end); reflexivity.
Qed.
(** The same at the level of the simulation: the filter acts on the unfiltered result, one
    (source, mic) row at a time. *)
Theorem C32_simulation : forall X dev r srcs mics mo nb ns tmax tdiff dir ori c T, 0 < r_fs r -> filt_length X ->
  wf (r_size r) -> cfg_hpf_enable c = true ->
  simulate_rir X dev r srcs mics mo nb ns tmax tdiff dir ori (Some c) = Ok T ->
  exists T0 S M n f, simulate_rir X dev r srcs mics mo nb ns tmax tdiff dir ori (Some (with_hpf c false)) = Ok T0 /\
    xshape T0 = [S; M; n] /\ xshape T = [S; M; n] /\ x_design X (cfg_hpf_n c) (cfg_hpf_fc c / (r_fs r / 2)) = Ok f /\
    forall s m, (s < S)%nat -> (m < M)%nat ->
      x_filt X f (block ((s * M + m) * n) n (xdata T0)) = Ok (block ((s * M + m) * n) n (xdata T)).
Proof.
  intros X dev r srcs mics mo nb ns tmax tdiff dir ori c T Hf HX Hw Hh H.
  rewrite hpf_last in H. bcase_in H. bcase_in H. injection H as <-.
  destruct (simulate_stages X dev r srcs mics mo nb ns tmax dir ori (Some (with_hpf c false))) as
    [(e & G)|(c' & N & tm' & d & z & beta & base & ER & EV & Ed & Eb & Lb & G)]; [lra|rewrite G in E; discriminate|].
  cbv zeta in G. destruct G as (Lbase & Hrows & G). rewrite G in E. bcase_in E. bcase_in E. injection E as <-.
  apply resolve_config_cases in ER as (_ & [Ec|[Ec _]] & _ & Et); [|discriminate]. injection Ec as <-.
  injection E2 as <-.
  assert (La : length a1 = (count srcs * count mics * Z.to_nat z)%nat).
  { unfold tail_stage in E1. destruct tdiff as [td|]; [|congruence]. destruct tm' as [tm|]; [|congruence].
    destruct (Rlt_dec td tm); [|congruence]. destruct (t60_ok _ _ Ed Hw Lb) as (t60 & E60).
    destruct (tail_spec (x_randn X) _ _ base r beta td (cfg_seed c) t60 Lbase E60) as (out & Eo & Lo & _).
    cbn [with_hpf cfg_seed] in E1. congruence. }
  cbn [xshape xdata nth] in *.
  destruct (C32_rows_filtered X _ _ _ _ _ _ Hf Hh HX La Hrows E0) as (_ & _ & f & Ef & R).
  exists (mkX [count srcs; count mics; Z.to_nat z] a1), (count srcs), (count mics), (Z.to_nat z), f.
  split; [reflexivity|]. repeat (split; [auto; fail|]). intros s m Hs Hm. apply R. nia.
Qed.
Example C32_example : exists X out,
  apply_rir_hpf (x_design X) (x_filt X) 2 2 [Some 1; Some 2; Some 3; Some 4] 100 (with_hpf ex_cfg true) = Ok out /\
  out = [Some 2; Some 4; Some 6; Some 8] /\
  apply_rir_hpf (x_design X) (x_filt X) 2 2 [Some 1; Some 2; Some 3; Some 4] 20 (with_hpf ex_cfg true) = Err ValueError.
Proof.
  set (X := mkExt unit (fun _ _ => Ok tt) (fun _ l => Ok (map (xscale 2) l)) (fun _ n => repeat 1 n)). exists X.
  eexists. split.
  - unfold apply_rir_hpf, design_hpf_sos. cbn [with_hpf cfg_hpf_enable negb cfg_hpf_fc ex_cfg].
    rewrite (proj2 (cutoff_band 100 10 ltac:(lra))) by lra. reflexivity.
  - split.
    + cbn [map xscale option_map app concat block firstn skipn Nat.mul Nat.add]. repeat f_equal; lra.
    + apply C32_cutoff_rejected; [lra|reflexivity|]. cbn. lra.
Qed.
Print Assumptions C32_disabled.
Print Assumptions C32_cutoff_rejected.
Print Assumptions C32_cutoff_accepted.
Print Assumptions C32_rows_filtered.
Print Assumptions C32_simulation.

(** ** C33 *)
Lemma opt_test_given {A} (o : option A) p (P : A -> Prop) : (forall a, p a = false <-> P a) ->
  (opt_test o p = false <-> given o P).
Proof.
  intros H. unfold given, opt_test. destruct o as [a|]; split; intros G.
  - intros b E. injection E as <-. apply H; auto.
  - apply H. auto.
  - discriminate.
  - reflexivity.
Qed.
Lemma Rleb_false x y : Rleb x y = false <-> y < x.
Proof. unfold Rleb. destruct (Rle_dec x y); split; intros; try discriminate; auto; lra. Qed.
Theorem C33_config_valid_iff : forall c, cfg_validate c = Ok tt <-> valid_config c.
Proof.
  intros c. unfold cfg_validate, valid_config.
  rewrite <- (opt_test_given (cfg_fs c) (fun x => Rleb x 0)) by (intros; apply Rleb_false).
  rewrite <- (opt_test_given (cfg_max_order c) (fun n => n <? 0)%Z) by (intros; apply Z.ltb_ge).
  rewrite <- (opt_test_given (cfg_tmax c) (fun x => Rleb x 0)) by (intros; apply Rleb_false).
  rewrite <- (opt_test_given (cfg_seed c) (fun n => n <? 0)%Z) by (intros; apply Z.ltb_ge).
  rewrite <- (opt_test_given (cfg_hpf_n c) (fun n => n <=? 0)%Z) by (intros; apply Z.leb_gt).
  rewrite <- Rleb_false.
  assert (O : (cfg_fdl c mod 2 =? 0)%Z = false <-> Z.Odd (cfg_fdl c)).
  { rewrite Zmod_even, <- Z.odd_spec, <- Z.negb_even. destruct (Z.even (cfg_fdl c)); cbn; split; auto; discriminate. }
  rewrite <- O. rewrite <- !Z.leb_gt.
  destruct (opt_test (cfg_fs c) _); [intuition discriminate|]. destruct (opt_test (cfg_max_order c) _); [intuition discriminate|].
  destruct (opt_test (cfg_tmax c) _); [intuition discriminate|]. destruct (opt_test (cfg_seed c) _); [intuition discriminate|].
  destruct (cfg_fdl c <=? 0)%Z; [intuition discriminate|]. destruct (cfg_fdl c mod 2 =? 0)%Z; [intuition discriminate|]. cbn [orb].
  destruct (cfg_gran c <=? 0)%Z; [intuition discriminate|]. destruct (cfg_img_chunk c <=? 0)%Z; [intuition discriminate|].
  destruct (cfg_acc_chunk c <=? 0)%Z; [intuition discriminate|]. destruct (Rleb _ _); [intuition discriminate|].
  destruct (opt_test _ _); [intuition discriminate|]. intuition.
Qed.
Lemma cfg_validate_cases c : cfg_validate c = Ok tt \/ cfg_validate c = Err ValueError.
Proof. unfold cfg_validate. repeat (destruct (opt_test _ _) || destruct (_ <=? _)%Z || destruct (_ || _) || destruct (Rleb _ _)); auto. Qed.
Theorem C33_invalid_rejected : forall X dev r srcs mics src mic mo nb ns tmax tdiff dir ori c, ~ valid_config c ->
  simulate_rir X dev r srcs mics mo nb ns tmax tdiff dir ori (Some c) = Err ValueError /\
  simulate_dynamic_rir X dev r src mic mo nb ns tmax dir ori (Some c) = Err ValueError.
Proof.
  intros. destruct (cfg_validate_cases c) as [E|E]; [apply C33_config_valid_iff in E; contradiction|].
  unfold simulate_rir, simulate_dynamic_rir, resolve_config. cbn [bind]. rewrite E. split; reflexivity.
Qed.
Theorem C33_default_valid : default_config = Ok default_config_value /\ valid_config default_config_value.
Proof.
  assert (V : valid_config default_config_value).
  { unfold valid_config, given. cbn. repeat split; try discriminate; try lia; try lra.
    - exists 40%Z. reflexivity.
    - intros a E. injection E as <-. lia. }
  split; auto. unfold default_config. apply C33_config_valid_iff in V. rewrite V. reflexivity.
Qed.
Theorem C33_replace : forall c', cfg_replace c' = Ok c' <-> valid_config c'.
Proof.
  intros c'. unfold cfg_replace. rewrite <- C33_config_valid_iff.
  destruct (cfg_validate c') as [[]|]; cbn; split; auto; discriminate.
Qed.
(** No configuration means the default one. *)
Theorem C33_default_used : forall X dev r srcs mics src mic mo nb ns tmax tdiff dir ori,
  simulate_rir X dev r srcs mics mo nb ns tmax tdiff dir ori None =
    simulate_rir X dev r srcs mics mo nb ns tmax tdiff dir ori (Some default_config_value) /\
  simulate_dynamic_rir X dev r src mic mo nb ns tmax dir ori None =
    simulate_dynamic_rir X dev r src mic mo nb ns tmax dir ori (Some default_config_value).
Proof.
  intros. unfold simulate_rir, simulate_dynamic_rir, resolve_config. destruct C33_default_valid as [-> _]. split; reflexivity.
Qed.
Theorem C33_missing_order : forall X dev r srcs mics src mic nb ns tmax tdiff dir ori c, cfg_max_order c = None ->
  simulate_rir X dev r srcs mics None nb ns tmax tdiff dir ori (Some c) = Err ValueError /\
  simulate_dynamic_rir X dev r src mic None nb ns tmax dir ori (Some c) = Err ValueError.
Proof.
  intros. unfold simulate_rir, simulate_dynamic_rir, resolve_config. cbn [bind].
  destruct (cfg_validate_cases c) as [->| ->]; cbn [bind]; [|auto]. rewrite H. auto.
Qed.
Theorem C33_missing_length : forall X dev r srcs mics src mic mo nb tdiff dir ori c, cfg_tmax c = None ->
  simulate_rir X dev r srcs mics mo nb None None tdiff dir ori (Some c) = Err ValueError /\
  simulate_dynamic_rir X dev r src mic mo nb None None dir ori (Some c) = Err ValueError.
Proof.
  intros. unfold simulate_rir, simulate_dynamic_rir, resolve_config. cbn [bind].
  destruct (cfg_validate_cases c) as [->| ->]; cbn [bind]; [|auto].
  destruct mo as [n|]; [|destruct (cfg_max_order c) as [n|]]; cbn [bind]; auto; unfold validate_args; rewrite H; auto.
Qed.
Theorem C33_bad_values : forall X dev r srcs mics src mic mo nb ns tmax tdiff dir ori c,
  ((exists N, mo = Some N /\ N < 0) \/ (exists n, ns = Some n /\ n <= 0))%Z ->
  simulate_rir X dev r srcs mics mo nb ns tmax tdiff dir ori (Some c) = Err ValueError /\
  simulate_dynamic_rir X dev r src mic mo nb ns tmax dir ori (Some c) = Err ValueError.
Proof.
  intros X dev r srcs mics src mic mo nb ns tmax tdiff dir ori c B.
  unfold simulate_rir, simulate_dynamic_rir, resolve_config. cbn [bind].
  destruct (cfg_validate_cases c) as [->| ->]; cbn [bind]; [|auto].
  assert (G : forall N, (mo = Some N \/ mo = None) -> validate_args (r_fs r) ns
     (match tmax with Some t => Some t | None => cfg_tmax c end) N = Err ValueError).
  { intros N HN. unfold validate_args.
    destruct B as [(N' & -> & L)|(n & -> & L)].
    - destruct HN as [HN|HN]; [|discriminate]. injection HN as ->.
      destruct ns; [|destruct (match tmax with Some t => Some t | None => cfg_tmax c end); [|reflexivity]]; cbn [bind];
        (destruct (_ <=? _)%Z; auto); destruct (Z.ltb_spec N 0); auto; lia.
    - cbn [bind]. destruct (Z.leb_spec n 0); auto. lia. }
  destruct mo as [N|].
  - cbn [bind]. rewrite G by auto. auto.
  - destruct (cfg_max_order c) as [N|]; [|auto]. cbn [bind]. rewrite G by auto. auto.
Qed.
(** Explicit arguments override the configuration: passing them is the same as putting them
    into the configuration. *)
Definition put (c : config) (mo : option Z) (tmax : option R) (dir : option dirspec) : config :=
  mkConfig (cfg_fs c) (first mo (cfg_max_order c)) (first tmax (cfg_tmax c)) (first dir (cfg_directivity c))
    (cfg_device c) (cfg_seed c) (cfg_use_lut c)
    (cfg_mixed_precision c) (cfg_fdl c) (cfg_gran c) (cfg_img_chunk c) (cfg_acc_chunk c) (cfg_use_compile c)
    (cfg_hpf_enable c) (cfg_hpf_fc c) (cfg_hpf_n c).
Definition truthy (d : dirspec) : Prop := d <> DName "" /\ d <> DTuple [].
Theorem C33_arguments_override : forall X dev r srcs mics src mic mo nb ns tmax tdiff dir ori c,
  given mo (fun n => (0 <= n)%Z) -> given tmax (fun t => 0 < t) -> given dir truthy ->
  valid_config c ->
  simulate_rir X dev r srcs mics mo nb ns tmax tdiff dir ori (Some c) =
    simulate_rir X dev r srcs mics None nb ns None tdiff None ori (Some (put c mo tmax dir)) /\
  simulate_dynamic_rir X dev r src mic mo nb ns tmax dir ori (Some c) =
    simulate_dynamic_rir X dev r src mic None nb ns None None ori (Some (put c mo tmax dir)).
Proof.
  intros X dev r srcs mics src mic mo nb ns tmax tdiff dir ori c Hm Ht Hd V.
  assert (V' : valid_config (put c mo tmax dir)).
  { unfold valid_config in *. cbn. destruct V as (V1 & V2 & V3 & V). split; auto. split; [|split; auto].
    - destruct mo; auto.
    - destruct tmax; auto. }
  apply C33_config_valid_iff in V, V'.
  assert (D : match first dir (cfg_directivity c) with
              | Some (DName "") => DName "omni" | Some (DTuple []) => DName "omni" | Some d => d | None => DName "omni" end =
              match dir with Some d => d | None =>
                match cfg_directivity c with Some (DName "") => DName "omni" | Some (DTuple []) => DName "omni"
                | Some d => d | None => DName "omni" end end).
  { destruct dir as [d|]; [|reflexivity]. destruct (Hd d eq_refl) as [N1 N2]. cbn [first].
    destruct d as [s|l]; [destruct s|destruct l]; congruence. }
  unfold simulate_rir, simulate_dynamic_rir, resolve_config. cbn [bind]. rewrite V, V'. cbn [bind put cfg_max_order cfg_tmax cfg_directivity].
  rewrite D. unfold first. destruct mo as [n|]; [cbn [bind]; destruct tmax; split; reflexivity|].
  destruct (cfg_max_order c); cbn [bind]; destruct tmax; split; reflexivity.
Qed.
(** Options that have no effect on the result: the sampling rate of the configuration (the
    room's is used) and [mixed_precision]. *)
Definition with_unused (c : config) (fs : option R) (mp : bool) : config :=
  mkConfig fs (cfg_max_order c) (cfg_tmax c) (cfg_directivity c) (cfg_device c) (cfg_seed c) (cfg_use_lut c)
    mp (cfg_fdl c) (cfg_gran c) (cfg_img_chunk c) (cfg_acc_chunk c) (cfg_use_compile c)
    (cfg_hpf_enable c) (cfg_hpf_fc c) (cfg_hpf_n c).
Theorem C33_unused_options : forall X dev r srcs mics src mic mo nb ns tmax tdiff dir ori c fs mp,
  valid_config c -> given fs (fun x => 0 < x) ->
  simulate_rir X dev r srcs mics mo nb ns tmax tdiff dir ori (Some (with_unused c fs mp)) =
    simulate_rir X dev r srcs mics mo nb ns tmax tdiff dir ori (Some c) /\
  simulate_dynamic_rir X dev r src mic mo nb ns tmax dir ori (Some (with_unused c fs mp)) =
    simulate_dynamic_rir X dev r src mic mo nb ns tmax dir ori (Some c).
Proof.
  intros X dev r srcs mics src mic mo nb ns tmax tdiff dir ori c fs mp V Hf.
  assert (V' : valid_config (with_unused c fs mp)) by (unfold valid_config in *; cbn; tauto).
  apply C33_config_valid_iff in V, V'.
  unfold simulate_rir, simulate_dynamic_rir, resolve_config. cbn [bind]. rewrite V, V'.
  cbn [bind with_unused cfg_max_order cfg_tmax cfg_directivity].
  destruct (match mo with Some n => Ok n | None => _ end); split; reflexivity.
Qed.
(** Length and shape of the results. *)
Definition wanted_length (fs : R) (ns : option Z) (tmax : option R) (n : nat) : Prop :=
  match ns with
  | Some k => k = Z.of_nat n
  | None => exists tm, tmax = Some tm /\ Z.of_nat n = ceilZ (rnd64 (tm * fs))
  end.
Lemma validate_args_length fs ns tm N z : validate_args fs ns tm N = Ok z -> wanted_length fs ns tm (Z.to_nat z).
Proof.
  intros H. pose proof (validate_args_pos _ _ _ _ _ H) as [P _]. unfold validate_args in H. unfold wanted_length.
  rewrite Z2Nat.id by lia. bcase_in H. destruct (_ <=? _)%Z in H; [discriminate|]. destruct (_ <? _)%Z in H; [discriminate|].
  injection H as ->. destruct ns as [k|]; [congruence|]. destruct tm as [t|]; [|discriminate]. exists t. split; congruence.
Qed.
Theorem C33_static_shape : forall X dev r srcs mics mo nb ns tmax tdiff dir ori c T, r_fs r <> 0 ->
  simulate_rir X dev r srcs mics mo nb ns tmax tdiff dir ori (Some c) = Ok T ->
  exists n, xshape T = [count srcs; count mics; n] /\ (0 < n)%nat /\ wanted_length (r_fs r) ns (first tmax (cfg_tmax c)) n /\
    valid_config c.
Proof.
  intros X dev r srcs mics mo nb ns tmax tdiff dir ori c T Hf H.
  destruct (simulate_stages X dev r srcs mics mo nb ns tmax dir ori (Some c) Hf) as
    [(e & E)|(c' & N & tm' & d & z & beta & base & ER & EV & _ & _ & _ & E)]; [rewrite E in H; discriminate|].
  cbv zeta in E. destruct E as (_ & _ & E). rewrite E in H. bcase_in H. bcase_in H. injection H as <-.
  apply resolve_config_cases in ER as (Hv & [Ec|[Ec _]] & _ & Et); [|discriminate]. injection Ec as <-.
  fold (first tmax (cfg_tmax c)) in Et. subst tm'. exists (Z.to_nat z). split; auto.
  pose proof (validate_args_pos _ _ _ _ _ EV) as [P _]. split; [lia|]. split; [eapply validate_args_length; eauto|].
  apply C33_config_valid_iff; auto.
Qed.
Theorem C33_dynamic_shape : forall X dev r src mic mo nb ns tmax dir ori c T,
  simulate_dynamic_rir X dev r src mic mo nb ns tmax dir ori (Some c) = Ok T ->
  exists Tn S M n d, shape (unsqueeze_traj src) = [Tn; S; d] /\ shape (unsqueeze_traj mic) = [Tn; M; d] /\
    xshape T = [Tn; S; M; n] /\ (0 < n)%nat /\ wanted_length (r_fs r) ns (first tmax (cfg_tmax c)) n /\ valid_config c.
Proof.
  intros X dev r src mic mo nb ns tmax dir ori c T H. unfold simulate_dynamic_rir in H.
  bcase_in H. destruct a as [[[c' N] tm] d]. bcase_in H.
  apply resolve_config_cases in E as (Hv & [Ec|[Ec _]] & _ & Et); [|discriminate]. injection Ec as <-.
  fold (first tmax (cfg_tmax c)) in Et. subst tm. unfold prepare_dynamic in H. bcase_in H. bcase_in E. destruct a1 as [so mio]. bcase_in E.
  injection E as <-.
  unfold validate_traj_shapes, ndim in H.
  destruct (negb _) eqn:N1 in H; [discriminate|]. destruct (negb _) eqn:N2 in H; [discriminate|].
  destruct (negb _) eqn:N3 in H; [discriminate|]. destruct (negb _) eqn:N4 in H; [discriminate|].
  destruct (negb _) eqn:N5 in H; [discriminate|].
  apply negb_false_iff, Nat.eqb_eq in N1, N2, N3, N4, N5.
  destruct (shape (unsqueeze_traj src)) as [|t1 [|s1 [|d1 [|]]]]; try discriminate.
  destruct (shape (unsqueeze_traj mic)) as [|t2 [|s2 [|d2 [|]]]]; try discriminate. cbn [nth] in *. subst.
  cbn [bind] in H. repeat (bcase_in H; try match goal with p : (_ * _)%type |- _ => destruct p end). injection H as <-.
  do 5 eexists. repeat (split; [reflexivity|]). pose proof (validate_args_pos _ _ _ _ _ E0) as [P _]. split; [lia|].
  split; [eapply validate_args_length; eauto|]. apply C33_config_valid_iff; auto.
Qed.
Example C33_example : forall X,
  (exists T, simulate_rir X Cpu ex_room ex_src ex_mic (Some 0%Z) None (Some 20%Z) None None (Some (DName "omni")) ONone
    (Some ex_cfg) = Ok T /\ xshape T = [1; 1; 20]%nat) /\
  simulate_rir X Cpu ex_room ex_src ex_mic (Some 0%Z) None None None None (Some (DName "omni")) ONone (Some ex_cfg) = Err ValueError /\
  simulate_rir X Cpu ex_room ex_src ex_mic None None (Some 20%Z) None None (Some (DName "omni")) ONone (Some ex_cfg) = Err ValueError /\
  wanted_length 1000 None (Some (1/4)) 250.
Proof.
  intros X. split; [|split; [|split]].
  - destruct (C22_example X) as (T & H & _). exists T. split; auto.
    destruct (C33_static_shape X Cpu ex_room ex_src ex_mic _ _ _ _ _ _ _ _ T ltac:(cbn; lra) H) as (n & Sh & _ & L & _).
    cbn [wanted_length] in L. rewrite Sh. change 20%Z with (Z.of_nat 20) in L. apply Nat2Z.inj in L. subst n. reflexivity.
  - refine (proj1 (C33_missing_length _ _ _ _ _ (mkT [] []) (mkT [] []) _ _ _ _ _ ex_cfg eq_refl)).
  - refine (proj1 (C33_missing_order _ _ _ _ _ (mkT [] []) (mkT [] []) _ _ _ _ _ _ ex_cfg eq_refl)).
  - exists (1/4). split; auto. replace (1/4 * 1000) with (IZR 250) by lra. rewrite rnd64_IZR, ceilZ_IZR; [reflexivity|]. cbn. lia.
Qed.
Print Assumptions C33_config_valid_iff.
Print Assumptions C33_invalid_rejected.
Print Assumptions C33_default_valid.
Print Assumptions C33_replace.
Print Assumptions C33_default_used.
Print Assumptions C33_missing_order.
Print Assumptions C33_missing_length.
Print Assumptions C33_bad_values.
Print Assumptions C33_arguments_override.
Print Assumptions C33_unused_options.
Print Assumptions C33_static_shape.
Print Assumptions C33_dynamic_shape.

(** ** C34 *)
Theorem C34_uniform_beta : forall size t, size_ok size -> 0 < t ->
  exists b, estimate_beta_from_t60 size t = Ok (repeat b (2 * length (data size))) /\ 0 < b < 1 /\
    1 - b ^ 2 = Rmin (sabine (data size) t) 0.999.
Proof.
  intros size t H Ht. rewrite beta_closed by auto. pose proof (sabine_pos size t H Ht) as P. eexists. split; [reflexivity|].
  assert (Q : 0 < Rmin (sabine (data size) t) 0.999 <= 0.999) by (split; [apply Rmin_glb_lt; lra|apply Rmin_r]).
  set (a := Rmin _ _) in *. split.
  - split; [apply sqrt_lt_R0; lra|]. assert (U : sqrt (1 - a) < sqrt 1) by (apply sqrt_lt_1_alt; lra). rewrite sqrt_1 in U. auto.
  - rewrite pow2_sqrt by lra. lra.
Qed.
Theorem C34_round_trip : forall size t, size_ok size -> 0 < t -> sabine (data size) t <= 0.999 ->
  exists beta, estimate_beta_from_t60 size t = Ok beta /\ estimate_t60_from_beta size beta = Ok (Some t).
Proof.
  intros size t H Ht Hs. destruct (C34_uniform_beta size t H Ht) as (b & E & Hb & Eb). eexists. split; [exact E|].
  rewrite t60_closed by auto. rewrite Eb, Rmin_left by auto. pose proof (sabine_pos size t H Ht) as P.
  destruct (volume_pos size H) as [V S]. destruct (Rle_dec _ 0) as [L|L].
  - exfalso. assert (0 < surface (data size) * sabine (data size) t) by (apply Rmult_lt_0_compat; auto). lra.
  - do 2 f_equal. unfold sabine. field. split; lra.
Qed.
Theorem C34_saturated : forall size t, size_ok size -> 0 < t -> 0.999 < sabine (data size) t ->
  exists beta t', estimate_beta_from_t60 size t = Ok beta /\ estimate_t60_from_beta size beta = Ok (Some t') /\
    t < t' /\ t' = t * (sabine (data size) t / 0.999) /\ sabine (data size) t' = 0.999.
Proof.
  intros size t H Ht Hs. destruct (C34_uniform_beta size t H Ht) as (b & E & Hb & Eb). do 2 eexists. split; [exact E|].
  rewrite t60_closed by auto. rewrite Eb, Rmin_right by lra.
  destruct (volume_pos size H) as [V S]. destruct (Rle_dec _ 0) as [L|L]; [exfalso; lra|]. split; [reflexivity|].
  assert (Q : 0.161 * volume (data size) / (surface (data size) * 0.999) = t * (sabine (data size) t / 0.999)) by (unfold sabine; field; lra).
  rewrite Q. split; [|split; auto].
  - assert (1 < sabine (data size) t / 0.999) by lra. nra.
  - rewrite <- Q. unfold sabine. field. lra.
Qed.
Theorem C34_increasing : forall size t t' b b', size_ok size -> 0 < t -> t < t' -> sabine (data size) t <= 0.999 ->
  estimate_beta_from_t60 size t = Ok (repeat b (2 * length (data size))) ->
  estimate_beta_from_t60 size t' = Ok (repeat b' (2 * length (data size))) -> b < b'.
Proof.
  intros size t t' b b' H Ht Htt Hs. rewrite !beta_closed by (auto; lra). destruct (volume_pos size H) as [V S].
  assert (L : (0 < 2 * length (data size))%nat) by (destruct H as (d & _ & [->| ->] & -> & _); lia).
  destruct (2 * length (data size))%nat as [|k]; [lia|]. cbn [repeat]. intros E E'. injection E as <- _. injection E' as <- _.
  assert (M : sabine (data size) t' < sabine (data size) t).
  { unfold sabine, Rdiv. apply Rmult_lt_compat_l; [lra|]. apply Rinv_lt_contravar; [|apply Rmult_lt_compat_r; auto].
    apply Rmult_lt_0_compat; apply Rmult_lt_0_compat; lra. }
  rewrite !Rmin_left by lra. apply sqrt_lt_1_alt. lra.
Qed.
Theorem C34_nonpositive_rejected : forall size t, t <= 0 -> estimate_beta_from_t60 size t = Err ValueError.
Proof. intros size t H. unfold estimate_beta_from_t60. destruct (Rle_dec t 0); [reflexivity|lra]. Qed.
Example C34_example : size_ok (mkT [3%nat] [6; 4; 3]) /\ sabine [6; 4; 3] (161/375) = 1/4 /\
  estimate_beta_from_t60 (mkT [3%nat] [6; 4; 3]) (161/375) = Ok (repeat (sqrt (3/4)) 6) /\
  estimate_t60_from_beta (mkT [3%nat] [6; 4; 3]) (repeat (sqrt (3/4)) 6) = Ok (Some (161/375)).
Proof.
  assert (S : size_ok (mkT [3%nat] [6; 4; 3])).
  { exists 3%nat. cbn. repeat split; auto. repeat constructor; lra. }
  assert (V : sabine [6; 4; 3] (161/375) = 1/4) by (unfold sabine, volume, surface; replace 0.161 with (161 / 1000) by lra; field).
  assert (E : estimate_beta_from_t60 (mkT [3%nat] [6; 4; 3]) (161/375) = Ok (repeat (sqrt (3/4)) 6)).
  { rewrite beta_closed by (auto; lra). cbn [data]. rewrite V, Rmin_left by lra. replace (1 - 1/4) with (3/4) by lra. reflexivity. }
  repeat (split; [assumption|]).
  destruct (C34_round_trip (mkT [3%nat] [6; 4; 3]) (161/375)) as (b & Eb & Et); auto; [lra|cbn [data]; rewrite V; lra|].
  congruence.
Qed.
(** Every wall counts with its own area and its own coefficient. *)
Theorem C34_walls : forall size beta, size_ok size -> length beta = (2 * length (data size))%nat ->
  (absorbed (data size) beta <= 0 /\ estimate_t60_from_beta size beta = Ok None) \/
  (0 < absorbed (data size) beta /\ exists t, estimate_t60_from_beta size beta = Ok (Some t) /\ 0 < t /\
     t * absorbed (data size) beta = 0.161 * volume (data size)).
Proof.
  intros size beta H L. destruct (volume_pos size H) as [V _].
  assert (E : estimate_t60_from_beta size beta =
    Ok (if Rle_dec (absorbed (data size) beta) 0 then None else Some (0.161 * volume (data size) / absorbed (data size) beta))).
  { unfold estimate_t60_from_beta, t60_of_absorption, absorbed.
    destruct (size_cases size H) as [(x & y & S & D & A & B)|(x & y & z & S & D & A & B & C)];
      unfold ensure_dim, ndim, numel; rewrite S; cbn [length prodn fold_right Nat.eqb Nat.mul Nat.add andb orb bind]; rewrite D in *.
    - destruct beta as [|b0 [|b1 [|b2 [|b3 [|]]]]]; try discriminate L.
      cbn [length Nat.mul Nat.add Nat.eqb negb map map2 combine fst snd lsum volume seq nth]. unfold Rsqr.
      match goal with |- Ok (if Rle_dec ?a 0 then _ else Some (?v / _)) = Ok (if Rle_dec ?a' 0 then _ else Some (?v' / _)) =>
        replace a with a' by (cbn; field; lra); replace v with v' by ring end. reflexivity.
    - unfold extend_size, numel. rewrite S. cbn [prodn fold_right Nat.mul Nat.add Nat.eqb bind]. rewrite D.
      destruct beta as [|b0 [|b1 [|b2 [|b3 [|b4 [|b5 [|]]]]]]]; try discriminate L.
      cbn [length Nat.mul Nat.add Nat.eqb negb map map2 combine fst snd lsum volume seq nth]. unfold Rsqr.
      match goal with |- Ok (if Rle_dec ?a 0 then _ else Some (?v / _)) = Ok (if Rle_dec ?a' 0 then _ else Some (?v' / _)) =>
        replace a with a' by (cbn; field; lra); replace v with v' by ring end. reflexivity. }
  rewrite E. destruct (Rle_dec _ 0) as [Q|Q]; [left; auto|right]. split; [lra|]. eexists. split; [reflexivity|]. split.
  - apply Rdiv_lt_0_compat; lra.
  - field. lra.
Qed.
(** One dead end wall in a box of 6 x 4 x 3: of the 108 square metres 12 absorb. *)
Example C34_walls_example : estimate_t60_from_beta (mkT [3%nat] [6; 4; 3]) [0; 1; 1; 1; 1; 1] = Ok (Some 0.966).
Proof.
  destruct (C34_walls (mkT [3%nat] [6; 4; 3]) [0; 1; 1; 1; 1; 1]) as [[A _]|(_ & t & -> & _ & E)]; auto.
  - exists 3%nat. cbn. repeat split; auto. repeat constructor; lra.
  - unfold absorbed, Rsqr in A. cbn in A. lra.
  - unfold absorbed, Rsqr in E. cbn in E. do 2 f_equal. lra.
Qed.
Theorem C34_wrong_count_rejected : forall size beta, size_ok size -> length beta <> (2 * length (data size))%nat ->
  estimate_t60_from_beta size beta = Err ValueError.
Proof.
  intros size beta H L. unfold estimate_t60_from_beta.
  destruct (size_cases size H) as [(x & y & S & D & _)|(x & y & z & S & D & _)];
    unfold ensure_dim, ndim, numel; rewrite S; cbn [length prodn fold_right Nat.eqb Nat.mul Nat.add andb orb bind]; rewrite D in *; cbn in L.
  - destruct (Nat.eqb_spec (length beta) 4); [lia|reflexivity].
  - unfold extend_size, numel. rewrite S. cbn [prodn fold_right Nat.mul Nat.add Nat.eqb bind].
    destruct (Nat.eqb_spec (length beta) 6); [lia|reflexivity].
Qed.
(** The time of an attenuation is the moment at which the energy has dropped by it. *)
Theorem C34_attenuation : forall db t60, 0 < db -> 0 < t60 ->
  exists t, attenuation_db_to_time_sabine db t60 = Ok t /\ 0 < t /\ energy_left t60 t = of_db db.
Proof.
  intros db t60 Hd Ht. unfold attenuation_db_to_time_sabine. destruct (Rle_dec t60 0); [lra|]. destruct (Rle_dec db 0); [lra|].
  eexists. split; [reflexivity|]. split.
  - apply Rmult_lt_0_compat; lra.
  - unfold energy_left, of_db. f_equal. field. lra.
Qed.
Example C34_attenuation_example : attenuation_db_to_time_sabine 15 0.4 = Ok 0.1 /\ energy_left 0.4 0.1 = of_db 15.
Proof.
  destruct (C34_attenuation 15 0.4) as (t & E & _ & Q); try lra. rewrite E.
  unfold attenuation_db_to_time_sabine in E. destruct (Rle_dec 0.4 0); [lra|]. destruct (Rle_dec 15 0); [lra|].
  injection E as <-. replace (15 / 60 * 0.4) with 0.1 in * by lra. auto.
Qed.
Theorem C34_attenuation_rejected : forall db t60, db <= 0 \/ t60 <= 0 ->
  attenuation_db_to_time_sabine db t60 = Err ValueError.
Proof.
  intros db t60 H. unfold attenuation_db_to_time_sabine. destruct (Rle_dec t60 0); [reflexivity|].
  destruct (Rle_dec db 0); [reflexivity|lra].
Qed.
(** A plane room gets height 1, a room in space stays as it is, everything else is rejected. *)
Theorem C34_extend : forall size dim, wf size ->
  (numel size = dim -> extend_size size dim = Ok size) /\
  (numel size = 2%nat -> exists u, extend_size size 3 = Ok u /\ shape u = [3%nat] /\ volume (data u) = volume (data size) /\ nth 2 (data u) 0 = 1 /\ forall i, (i < 2)%nat -> nth i (data u) 0 = nth i (data size) 0) /\
  (numel size <> dim -> ~ (numel size = 2%nat /\ dim = 3%nat) -> extend_size size dim = Err ValueError).
Proof.
  intros size dim W. unfold extend_size. split; [|split].
  - intros ->. rewrite Nat.eqb_refl. reflexivity.
  - intros N. rewrite N. cbn. eexists. split; [reflexivity|]. unfold wf in W. fold (numel size) in W. rewrite N in W. destruct (data size) as [|x [|y [|]]]; try discriminate W.
    split; [reflexivity|]. split; [unfold volume; cbn; lra|]. split; [reflexivity|]. intros [|[|]] Hi; try lia; reflexivity.
  - intros N M. replace (numel size =? dim)%nat with false by (symmetry; apply Nat.eqb_neq; auto).
    destruct (Nat.eqb_spec (numel size) 2), (Nat.eqb_spec dim 3); cbn [andb]; try reflexivity. tauto.
Qed.
Example C34_extend_example : extend_size (mkT [2%nat] [6; 4]) 3 = Ok (mkT [3%nat] [6; 4; 1]) /\ extend_size (mkT [3%nat] [6; 4; 3]) 2 = Err ValueError.
Proof. split; reflexivity. Qed.
Print Assumptions C34_uniform_beta.
Print Assumptions C34_round_trip.
Print Assumptions C34_saturated.
Print Assumptions C34_increasing.
Print Assumptions C34_nonpositive_rejected.
Print Assumptions C34_walls.
Print Assumptions C34_wrong_count_rejected.
Print Assumptions C34_attenuation.
Print Assumptions C34_attenuation_rejected.
Print Assumptions C34_extend.
