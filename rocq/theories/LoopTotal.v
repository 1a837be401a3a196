(** Lemmas for C83: stability in the bound on the rounds, and runs that complete. *)
From Coq Require Import Ascii String List ZArith Reals Lia Lra Bool Permutation.
From Verif Require Import Prelude PreludeFacts SignalModel SignalSpec ConvProofs ConvMore SegProofs FloatModel DirModel IsmModel IsmSpec IsmProofs SimProofs SimLocal SimSteps StageSpec RoomModel RoomProofs
  GeoModel DsModel DsSpec DsProofs GeoProofs GeoSampling BldModel BldSpec BldProofs BldAudio MetaModel LoopModel LoopSpec LoopNames LoopProofs LoopAudio SceneSpec LoopMeta TotalSpec.
From Verif Require MetaSpec MetaProps StageProps BldProps.
Import ListNotations.
Local Notation length := List.length.
Local Open Scope R_scope.

(** ** More rounds change nothing *)
Definition stable {A} (m : nat -> run A) : Prop := forall f f' t r, (f <= f')%nat -> m f = (t, Some r) -> m f' = (t, Some r).
Lemma stable_const {A} (m : run A) : stable (fun _ => m). Proof. intros f f' t r _ H. exact H. Qed.
Lemma stable_bind {A B} (m : nat -> run A) (g : nat -> A -> run B) : stable m -> (forall a, stable (fun f => g f a)) ->
  stable (fun f => rbind (m f) (g f)).
Proof.
  intros M G f f' t r L H. unfold rbind in *. destruct (m f) as [t1 [[a|e]|]] eqn:E; try discriminate.
  - rewrite (M _ _ _ _ L E). destruct (g f a) as [t2 [r2|]] eqn:E2; [|discriminate]. pose proof (G a _ _ _ _ L E2) as G'. cbn beta in G'. rewrite G'. exact H.
  - rewrite (M _ _ _ _ L E). exact H.
Qed.
Lemma fixed_stable c g target spk f : forall order idx total st r f', (f <= f')%nat -> fixed_loop c g target spk f order idx total st = Some r ->
  fixed_loop c g target spk f' order idx total st = Some r.
Proof.
  induction f as [|f IH]; intros order idx total st r f' L H; [discriminate|]. destruct f' as [|f']; [lia|]. cbn [fixed_loop] in *.
  destruct (negb _); auto. destruct (if (length order <=? idx)%nat then _ else _) as [[o i] k]. destruct (nth_error o i); auto.
  destruct (audio_of c spk s) as [[a q]|e]; auto. apply IH with (f' := f') in H; auto. lia.
Qed.
Lemma load_fixed_stable c g target spk k f f' r : (f <= f')%nat -> load_fixed_length_signal c g target f k spk = Some r ->
  load_fixed_length_signal c g target f' k spk = Some r.
Proof.
  intros L H. unfold load_fixed_length_signal in *. destruct (utts c spk) as [[|u l]|e]; auto.
  destruct (fixed_loop c g target spk f _ _ _ _) as [x|] eqn:E; [|discriminate]. rewrite (fixed_stable _ _ _ _ _ _ _ _ _ _ _ L E). exact H.
Qed.
Lemma load_all_stable E c target l : forall k, stable (fun f => load_all E c target f k l).
Proof.
  induction l as [|spk l IH]; intros k f f' t r L H; cbn [load_all] in *; [exact H|].
  destruct (load_fixed_length_signal _ _ _ f _ _) as [x|] eqn:Ex; [|discriminate]. rewrite (load_fixed_stable _ _ _ _ _ _ _ _ L Ex).
  destruct x as [[[k' row] ids]|e]; [|exact H].
  refine (stable_bind (fun f => load_all E c target f k' l) (fun _ r => let '(k'', rows, info) := r in rret (k'', row :: rows, (spk, ids) :: info)) (IH k') _ f f' t r L H).
  intros a. apply stable_const.
Qed.
Lemma compute_stable E u k d : stable (fun f => compute_scene E u f k d).
Proof.
  unfold compute_scene. apply stable_bind; [apply stable_const|]. intros center. apply stable_bind; [apply stable_const|]. intros mics.
  apply stable_bind; [apply load_all_stable|]. intros [[k1 rows] who]. apply stable_const.
Qed.
Lemma scene_stable E u idx st : stable (fun f => build_scene E u f idx st).
Proof.
  unfold build_scene. destruct st as [g k]. destruct (e_draw E (su_scene u) g) as [d g'].
  apply stable_bind; [apply stable_const|]. intros _. apply stable_bind; [apply compute_stable|]. intros r. apply stable_const.
Qed.
Lemma scenes_stable E u n : forall idx st, stable (fun f => build_scenes E u f n idx st).
Proof.
  induction n as [|n IH]; intros idx st; cbn [build_scenes]; [apply stable_const|].
  apply (stable_bind (fun f => build_scene E u f idx st) (fun f st' => build_scenes E u f n (S idx) st')); [apply scene_stable|]. intros. apply IH.
Qed.

(** ** Runs that end *)
Definition ends {A} (m : nat -> run A) (P : A -> Prop) : Prop := exists f t a, m f = (t, Some (Ok a)) /\ P a.
Lemma ends_const {A} (m : run A) (P : A -> Prop) t a : m = (t, Some (Ok a)) -> P a -> ends (fun _ => m) P.
Proof. intros H Q. exists 0%nat, t, a. auto. Qed.
Lemma ends_bind {A B} (m : nat -> run A) (g : nat -> A -> run B) P Q : stable m -> (forall a, stable (fun f => g f a)) ->
  ends m P -> (forall a, P a -> ends (fun f => g f a) Q) -> ends (fun f => rbind (m f) (g f)) Q.
Proof.
  intros M G (f1 & t1 & a & E1 & Pa) H. destruct (H a Pa) as (f2 & t2 & b & E2 & Qb). exists (Nat.max f1 f2), (t1 ++ t2), b. split; auto.
  assert (E1' : m (Nat.max f1 f2) = (t1, Some (Ok a))) by (eapply M; [|exact E1]; lia).
  assert (E2' : g (Nat.max f1 f2) a = (t2, Some (Ok b))) by (apply (G a f2 (Nat.max f1 f2) t2 (Ok b)); [lia|exact E2]).
  unfold rbind. rewrite E1', E2'. reflexivity.
Qed.

(** ** Signals *)
Lemma fixed_no_error c g target spk all f : fair g -> all <> [] -> (forall v, In v all -> exists x q, audio_of c spk v = Ok (x, q)) ->
  forall order idx total st e, Permutation all order -> (idx <= length order)%nat -> fixed_loop c g target spk f order idx total st <> Some (Err e).
Proof.
  intros [G _] N A. induction f as [|f IH]; intros order idx total st e P L H; [discriminate|]. cbn [fixed_loop] in H. destruct (negb _); [discriminate|].
  destruct (if (length order <=? idx)%nat then _ else _) as [[o i] k] eqn:Eo.
  assert (Q : Permutation all o /\ (i < length o)%nat).
  { destruct (Nat.leb_spec (length order) idx) as [Le|Lt]; injection Eo as <- <- _; [|auto].
    assert (P' : Permutation all (shuffle g (g_shuffles st) order)) by (eapply perm_trans; [exact P|apply G]). split; auto.
    rewrite <- (Permutation_length P'). destruct all; [contradiction|cbn; lia]. }
  destruct Q as [P' Li]. destruct (nth_error o i) as [v|] eqn:Ev; [|apply nth_error_None in Ev; lia].
  destruct (A v) as (x & q & Ex). { eapply Permutation_in; [apply Permutation_sym, P'|eapply nth_error_In; eauto]. }
  rewrite Ex in H. revert H. apply IH; auto.
Qed.
Lemma load_fixed_ends c g target k spk u us : fair g -> (0 < target)%Z -> utts c spk = Ok (u :: us) ->
  (forall v, In v (u :: us) -> exists x q, audio_of c spk v = Ok (x, q)) -> (exists v x q, In v (u :: us) /\ audio_of c spk v = Ok (x, q) /\ x <> []) ->
  exists f r, load_fixed_length_signal c g target f k spk = Some (Ok r).
Proof.
  intros G T U A (v & x & q & Iv & Ev & Nx). destruct (BldProps.C56_fixed_terminates c g target k spk (u :: us) G U) as (f & r & H); [discriminate| |].
  { exists v. split; auto. intros a f Ea. rewrite Ev in Ea. injection Ea as <- _. auto. }
  exists f. unfold load_fixed_length_signal in *. rewrite U in *. assert (P : Permutation (u :: us) (shuffle g k (u :: us))) by apply (proj1 G).
  destruct (fixed_loop c g target spk f (shuffle g k (u :: us)) 0 0 (mkGot (S k) None [] [])) as [[st|e]|] eqn:E; [| |discriminate].
  - apply (fixed_loop_spec c g target spk (u :: us)) in E; auto.
    + destruct E as (o' & i' & _ & Le). destruct (g_segs st) as [|s0 ss] eqn:Es; [cbn in Le; lia|]. unfold cut. eauto.
    + split; [auto|]. split; [lia|]. cbn. split; [exists []; auto|]. split; auto. split; auto. intros [|] ? Q; discriminate.
  - exfalso. revert E. apply fixed_no_error with (all := u :: us); auto; [discriminate|lia].
Qed.
Lemma load_all_ends E c target l rate : fair_calls E -> (0 < target)%Z -> corpus_good c l rate ->
  forall k, ends (fun f => load_all E c target f k l) (fun _ => True).
Proof.
  intros F T. induction l as [|spk l IH]; intros C k; [exists 0%nat, [], (k, [], []); auto|].
  destruct (C spk (or_introl eq_refl)) as (u & us & a & U & _ & A & V).
  destruct (load_fixed_ends c (mkRng (e_sample E 0) (e_shuffle E)) target k spk u us (F 0%nat) T U A V) as (f1 & [[k1 row] ids] & E1).
  destruct (IH (fun s I => C s (or_intror I)) k1) as (f2 & t2 & [[k2 rows] who] & E2 & _).
  exists (Nat.max f1 f2), (t2 ++ []), (k2, row :: rows, (spk, ids) :: who). split; auto. cbn [load_all].
  rewrite (load_fixed_stable _ _ _ _ _ f1 (Nat.max f1 f2) _ ltac:(lia) E1).
  assert (E2' : load_all E c target (Nat.max f1 f2) k1 l = (t2, Some (Ok (k2, rows, who)))) by (apply (load_all_stable E c target l k1 f2 (Nat.max f1 f2) t2); [lia|exact E2]).
  rewrite E2'. reflexivity.
Qed.

(** ** Responses *)
Lemma default_valid : cfg_validate default_config_value = Ok tt.
Proof.
  unfold cfg_validate, default_config_value. cbn [cfg_fs cfg_max_order cfg_tmax cfg_seed opt_test].
  repeat first [reflexivity | match goal with |- context [Rleb ?a ?b] => let H := fresh in destruct (Rleb a b) eqn:H; [apply rleb_true in H; cbn in H; lra|] end | progress cbn].
Qed.
Lemma default_arguments X dev r srcs mics N ns : simulate_rir X dev r srcs mics (Some N) None (Some ns) None None None ONone None =
  simulate_rir X dev r srcs mics (Some N) None (Some ns) None None (Some (DName "omni")) ONone (Some default_config_value).
Proof. unfold simulate_rir. f_equal. unfold resolve_config, default_config. rewrite default_valid. cbn [bind]. rewrite default_valid. reflexivity. Qed.
Lemma points_scene p sr c t60 ps ms : 0 < px p -> 0 < py p -> 0 < pz p -> 0 < sr -> 0 < t60 -> ps <> [] -> ms <> [] ->
  exists beta, scene (mkRoom (mkT [3%nat] [px p; py p; pz p]) sr c None (Some t60)) (ETensor (points ps)) (ETensor (points ms)) 3 beta.
Proof.
  intros X Y Z S T Np Nm. destruct (StageProps.C34_uniform_beta (mkT [3%nat] [px p; py p; pz p]) t60) as (b & Eb & _); auto.
  { exists 3%nat. cbn. repeat split; auto. }
  cbn [data length] in Eb. exists (repeat b (2 * 3)). constructor; cbn [r_size r_fs]; auto.
  - reflexivity.
  - destruct ps; [contradiction|]. cbn. lia.
  - destruct ms; [contradiction|]. cbn. lia.
Qed.
Lemma filter_runs X rate L : (20 < rate)%Z -> filter_works X rate L -> hpf_runs X (IZR rate) L default_config_value.
Proof.
  intros Hr (sos & Ds & Fs) _. apply IZR_lt in Hr. cbn [default_config_value cfg_hpf_fc cfg_hpf_n].
  replace (2 * 10 / IZR rate) with (20 / IZR rate) by (unfold Rdiv; ring). split.
  - split; [apply Rmult_lt_0_compat; [lra|apply Rinv_0_lt_compat; lra]|]. apply (Rmult_lt_reg_r (IZR rate)); [lra|]. unfold Rdiv. rewrite Rmult_assoc, Rinv_l by lra. lra.
  - eauto.
Qed.
Lemma responses_exist X p rate c t60 N L tr ms n : 0 < px p -> 0 < py p -> 0 < pz p -> (20 < rate)%Z -> 0 < t60 -> (0 <= N)%Z -> (0 < L)%Z ->
  filter_works X rate (Z.to_nat L) -> filt_length X -> (0 < length tr)%nat -> (forall row, In row tr -> length row = n) -> (0 < n)%nat -> (0 < length ms)%nat ->
  exists T, simulate_dynamic_rir X Cpu (mkRoom (mkT [3%nat] [px p; py p; pz p]) (IZR rate) c None (Some t60)) (track n tr) (track (length ms) (repeat ms (length tr)))
    (Some N) None (Some L) None None ONone None = Ok T.
Proof.
  intros Hx Hy Hz Hr Ht HN HL HW HF Lt Rows Hn Hm. assert (R0 : 0 < IZR rate) by (apply (IZR_lt 0); lia).
  apply (static_gives_dynamic X Cpu _ (track n tr) (track (length ms) (repeat ms (length tr))) _ _ _ _ _ _ _ (length tr) n (length ms) 3); auto; cbn [r_fs]; [lra| |].
  { rewrite track_shape, repeat_length. reflexivity. }
  intros t Hlt. rewrite (step_track n tr t Rows Hlt). rewrite step_track by (try apply shape_repeat; rewrite repeat_length; auto). rewrite nth_repeat_lt by auto.
  rewrite default_arguments. assert (Nt : nth t tr [] <> []). { intros E. pose proof (Rows (nth t tr []) (nth_In _ _ Hlt)) as Q. rewrite E in Q. cbn in Q. lia. }
  assert (Nm : ms <> []) by (intros ->; cbn in Hm; lia).
  destruct (points_scene p (IZR rate) c t60 (nth t tr []) ms Hx Hy Hz R0 Ht Nt Nm) as (beta & Sc).
  destruct (nb_images N 3 None HN I) as (images & Ei).
  destruct (simulate_omni_any X Cpu _ _ _ N None (Some L) None default_config_value 3 beta images (Z.to_nat L) Sc default_valid HN) as (T & ET & _); eauto.
  - apply wanted_validate; auto; lia.
  - cbn [r_fs]. apply filter_runs; auto.
Qed.
Lemma responses_need X r src mic N ns T : r_fs r <> 0 ->
  simulate_dynamic_rir X Cpu r src mic (Some N) None (Some ns) None None ONone None = Ok T -> (0 <= N)%Z /\ 20 / r_fs r < 1.
Proof.
  intros Hfs H. rewrite simulate_dynamic_closed in H by auto. unfold resolve_config, default_config in H. rewrite default_valid in H. cbn [bind] in H. rewrite default_valid in H. cbn [bind] in H.
  apply bind_ok in H as (n & En & H). apply validate_args_pos in En as [_ HN]. split; auto. cbv zeta in H.
  apply bind_ok in H as ([[[[[s0 m0] so] mo'] size] dim] & _ & H). apply bind_ok in H as (? & _ & H). apply bind_ok in H as (beta & _ & H). apply bind_ok in H as (beta' & _ & H).
  apply bind_ok in H as (nv & _ & H). apply bind_ok in H as ([sp mp] & _ & H). apply bind_ok in H as (md & _ & H). apply bind_ok in H as (sd & _ & H).
  apply bind_ok in H as (rirs & _ & H). apply bind_ok in H as (out & Eo & _). unfold apply_rir_hpf in Eo. cbn [default_config_value cfg_hpf_enable negb cfg_hpf_fc] in Eo.
  apply bind_ok in Eo as (sos & Es & _). unfold design_hpf_sos in Es. destruct (negb _) eqn:B; [discriminate|]. apply negb_false_iff, andb_true_iff in B as [_ B].
  unfold Rltb in B. destruct (Rlt_dec _ _) as [l|]; [|discriminate]. replace (20 / r_fs r) with (2 * 10 / r_fs r) by (unfold Rdiv; ring). exact l.
Qed.

(** ** Stems and files *)
Lemma stem_runs row h T L N : shape h = [T; 1%nat; 6%nat; L] -> wf h -> (0 < T)%nat -> (Z.of_nat T <= 2 ^ 51)%Z -> length row = N -> (0 < N)%nat -> (0 < L)%nat ->
  exists o, stem_of 6 row h = Ok o /\ length (data o) = ((N + L - 1) * 6)%nat.
Proof.
  intros Sh W HT Ht Lr HN L0.
  assert (V : sig_rows (mkT [1%nat; length row] row) = 1%nat /\ sig_len (mkT [1%nat; length row] row) = N /\ dyn_steps h = T /\ dyn_srcs h = 1%nat /\ dyn_mics h = 6%nat /\ rir_len h = L).
  { unfold sig_rows, sig_len, dyn_steps, dyn_srcs, dyn_mics, rir_len. rewrite Sh. cbn. auto 10. }
  destruct V as (V1 & V2 & V3 & V4 & V5 & V6).
  destruct (traj_default Cpu (mkT [1%nat; length row] row) h None) as (w & t & P & Lw & Es & Et & So & Wt & Ov).
  { unfold traj_ok, dyn_ranks_ok, sig_rank_ok, dyn_rank_ok, ndim. rewrite V1, V3, V6, Sh. cbn [length shape]. split; [split; [auto|split; [auto|discriminate]]|].
    split; [unfold wf, prodn; cbn; lia|]. split; [exact W|]. split; [exact L0|]. split; auto. }
  rewrite V2, V3 in *. rewrite V5, V6 in *. clear Ov. unfold out_shape in So. change (6 =? 1)%nat with false in So. cbv iota in So.
  unfold stem_of, convolver_convolve. cbn [cv_mode cv_timestamps cv_fs]. cbn [String.eqb Ascii.eqb Bool.eqb orb negb]. rewrite Et. cbn [bind].
  assert (Ld : length (data t) = ((N + L - 1) * 6)%nat) by (unfold wf in Wt; rewrite Wt, So; unfold prodn; cbn [fold_right]; lia).
  unfold to_time_channel_audio, squeeze. rewrite So. cbn [filter]. change (6 =? 1)%nat with false. cbn [negb].
  destruct (Nat.eqb_spec (N + L - 1) 1) as [E1|N1]; cbn [negb shape].
  - eexists. split; [reflexivity|]. cbn [data]. exact Ld.
  - destruct (Nat.eqb_spec (N + L - 1) 6) as [E6|N6]; [eexists; split; [reflexivity|]; exact Ld|].
    change (6 =? 6)%nat with true. cbv iota. eexists. split; [reflexivity|]. unfold transpose2. cbn [shape data]. rewrite (length_flat_rows _ _ 6); auto.
Qed.
Lemma stems_run E dry rirs T n L N : (0 < T)%nat -> (Z.of_nat T <= 2 ^ 51)%Z -> (0 < N)%nat -> (0 < L)%nat ->
  length dry = n -> (forall row, In row dry -> length row = N) -> Forall number (xdata rirs) -> xshape rirs = [T; n; 6%nat; L] -> length (xdata rirs) = (T * (n * 6 * L))%nat ->
  exists stems, stems_of E 6 dry rirs = Ok stems /\ length stems = n /\ forall o, In o stems -> length (data o) = ((N + L - 1) * 6)%nat.
Proof.
  intros HT Ht HN HL Ld Rows Nu Sh Lx. unfold stems_of. rewrite (all_numbers_ok _ Nu), Sh.
  set (D := map (fun x => match x with Some r => r | None => 0 end) (xdata rirs)). set (h := mkT [T; n; 6%nat; L] D).
  assert (Wh : wf h) by (unfold wf, h, D, prodn; cbn [data shape fold_right]; transitivity (length (xdata rirs)); [apply map_length|rewrite Lx; lia]).
  assert (K : forall s, (s < n)%nat -> exists o, stem_of 6 (nth s dry []) (of_source h s) = Ok o /\ length (data o) = ((N + L - 1) * 6)%nat).
  { intros s Hs. destruct (of_source_wf h s T n 6 L eq_refl Wh Hs) as (So & Wo & _). apply (stem_runs _ _ T L N); auto. apply Rows, nth_In. lia. }
  destruct (mapM_total (fun s => stem_of 6 (nth s dry []) (of_source h s)) (seq 0 (length dry))) as [stems Es].
  { intros s Hs. apply in_seq in Hs. destruct (K s) as (o & Eo & _); [lia|]. eauto. }
  exists stems. split; [exact Es|]. pose proof (mapM_length _ _ _ Es) as Lm. rewrite seq_length in Lm. split; [congruence|].
  intros o Ho. apply In_nth with (d := mkT [] []) in Ho as (i & Hi & <-). destruct (K i) as (o & Eo & Lo); [lia|].
  pose proof (mapM_nth _ _ _ i 0%nat (mkT [] []) Es) as Q. rewrite seq_length, seq_nth in Q by lia. specialize (Q ltac:(lia)). cbn [Nat.add] in Q. rewrite Eo in Q. apply Ok_inj in Q. rewrite <- Q. exact Lo.
Qed.
Lemma audio_run stems sr n : stems <> [] -> (0 < n)%nat -> (forall o, In o stems -> length (data o) = n) -> exists fs, audio_files stems sr = Ok fs.
Proof.
  intros N P L. unfold audio_files. destruct (BldProps.C62_total (map data stems) n) as [[out mix] ->]; auto.
  - destruct stems; [contradiction|discriminate].
  - intros s Hs. apply in_map_iff in Hs as (o & <- & Ho). auto.
  - cbn [bind]. eauto.
Qed.
Lemma stack_run rows N : rows <> [] -> (forall r, In r rows -> length r = N) -> stack_rows rows = Ok rows.
Proof.
  intros Nr H. unfold stack_rows. destruct rows as [|r rows]; [contradiction|]. replace (forallb _ (r :: rows)) with true; auto.
  symmetry. apply forallb_forall. intros x Hx. apply Nat.eqb_eq. rewrite (H x Hx), (H r); cbn; auto.
Qed.
Lemma geometry_parts s d g : build_scene_geometry s d = Ok g ->
  scene_center s d = Ok (geo_center g) /\ place_mics (sa_edge s) (geo_center g) = Ok (geo_mics g) /\
  constrained_positions (sd_trials d) (sd_moving d) (sa_n s) (sa_moving s) (sa_motion s) (geo_center g) (sa_room s) (sa_margin s) min_distance 100 = Ok (geo_sources g) /\
  source_trajectory (geo_sources g) (geo_center g) (sd_moving d) (sa_steps s) (sa_motion s) = Ok (geo_traj g).
Proof.
  unfold build_scene_geometry, scene_center. intros H. apply bind_ok in H as (base & _ & H). apply bind_ok in H as (c & Hc & H). apply bind_ok in H as (m & Hm & H).
  apply bind_ok in H as (l & Hl & H). apply bind_ok in H as (tr & Ht & H). apply Ok_inj in H. subst g. cbn. auto.
Qed.

(** ** One scene *)
Record settled (E : env) (b : build_args) (o : options) (w : bworld) (u : setup) (room center margin : p3) (rate : Z) : Prop := {
  st_sound : sound E u; st_scene : su_scene u = scene_of b room center margin; st_speakers : su_speakers u = ba_speakers b; st_rir : su_rir u = ba_rir b;
  st_opt : su_opt u = o; st_corpus : su_corpus u = e_corpus E w; st_rate : su_rate u = rate; st_target : su_target u = target_samples (m_dur (sa_motion (su_scene u))) rate;
  st_room : su_room u = mkRoom (mkT [3%nat] [px room; py room; pz room]) (IZR rate) (o_c o) None (Some (o_t60 o)) }.
Lemma compute_ends E b o w u room center margin rate k d : settled E b o w u room center margin rate -> arguments_fit b o (scene_of b room center margin) rate ->
  (sa_steps (ba_scene b) <= 2 ^ 51)%Z -> corpus_good (e_corpus E w) (ba_speakers b) rate -> filter_works (e_ext E) rate (Z.to_nat (ba_rir b)) ->
  filt_length (e_ext E) -> keeps_numbers (e_ext E) -> fair_scene (su_scene u) d ->
  ends (fun f => compute_scene E u f k d) (fun _ => True).
Proof.
  intros St Af H51 Cg Fw HF HK Fd. pose proof (st_scene _ _ _ _ _ _ _ _ _ St) as Es. pose proof (st_room _ _ _ _ _ _ _ _ _ St) as Er. pose proof (st_sound _ _ _ _ _ _ _ _ _ St) as Snd.
  destruct (proj2 (BldProps.C60_feasible (su_scene u) d Fd)) as [g Hg].
  { rewrite Es. split; [apply (af_sensible _ _ _ _ Af)|apply (af_place _ _ _ _ Af)]. }
  destruct (geometry_parts _ _ _ Hg) as (G1 & G2 & G3 & G4). destruct (BldProps.C61_shape _ _ _ Fd Hg) as (Lt & Ln & Rows & _).
  assert (Lm : length (geo_mics g) = 6%nat) by (apply octa_mics in G2 as [_ ->]; reflexivity).
  set (n := Z.to_nat (sa_n (su_scene u))) in *. assert (Ln' : length (geo_sources g) = n) by (unfold n; lia).
  assert (n0 : (0 < sa_n (su_scene u))%Z) by (rewrite Es; apply (af_sensible _ _ _ _ Af)).
  assert (T0 : (0 < sa_steps (su_scene u) <= 2 ^ 51)%Z) by (rewrite Es; split; [apply (af_steps _ _ _ _ Af)|exact H51]).
  set (T := Z.to_nat (sa_steps (su_scene u))) in *. rewrite Nat.max_r in Lt by lia.
  pose proof (af_size _ _ _ _ Af) as (Sx & Sy & Sz). cbn [scene_of sa_room] in Sx, Sy, Sz.
  destruct (responses_exist (e_ext E) room rate (o_c o) (o_t60 o) (o_order o) (ba_rir b) (geo_traj g) (geo_mics g) n) as (rirs & Hr); auto; try apply Af; try lia.
  { intros row Hrow. rewrite (Rows row Hrow). exact Ln'. }
  rewrite <- Ln' in Hr at 1. rewrite Lt in Hr. rewrite <- Er in Hr. rewrite <- (st_opt _ _ _ _ _ _ _ _ _ St), <- (st_rir _ _ _ _ _ _ _ _ _ St) in Hr.
  assert (Hfs : r_fs (su_room u) <> 0). { rewrite Er. cbn [r_fs]. pose proof (af_rate _ _ _ _ Af). apply not_0_IZR. lia. }
  destruct (omni_numbers _ _ _ _ _ _ _ _ Hfs Hr) as (Nu & Sh & L0). specialize (Nu HK). rewrite !track_shape in Sh. cbn [nth] in Sh. rewrite Lt, Lm, Ln' in Sh.
  destruct (dynamic_is_static _ _ _ _ _ _ _ _ _ _ _ _ _ Hfs HF Hr) as (T' & S' & M' & n' & _ & Sh' & Ldat & _). rewrite Sh in Sh'. injection Sh' as <- <- <- <-.
  assert (N0 : (0 < su_target u)%Z) by apply Snd.
  assert (Ch : length (e_sample E k (su_speakers u) n) = n /\ forall s, In s (e_sample E k (su_speakers u) n) -> In s (ba_speakers b)).
  { destruct Snd as (Fc & _ & Ls). destruct (Fc k) as [_ Sm]. cbn [sample] in Sm. destruct (Sm (su_speakers u) n Ls) as [A [rest B]]. split; auto. intros s Hs.
    rewrite <- (st_speakers _ _ _ _ _ _ _ _ _ St). eapply Permutation_in; [apply Permutation_sym, B|]. apply in_app_iff. auto. }
  destruct Ch as [Lc Ic].
  destruct (load_all_ends E (su_corpus u) (su_target u) (e_sample E k (su_speakers u) n) rate (proj1 Snd) N0) with (k := S k) as (f & t & [[k' rows] who] & EL & _).
  { rewrite (st_corpus _ _ _ _ _ _ _ _ _ St). intros spk Hs. apply Cg. auto. }
  pose proof EL as EL'. apply load_all_ok in EL' as [Lw F2]; [|apply Snd|auto]. pose proof (forall2_length _ _ _ F2) as L2. pose proof (f_equal (@length _) Lw) as Lw'. rewrite map_length, Lc in Lw'.
  assert (RowL : forall r, In r rows -> length r = Z.to_nat (su_target u)).
  { clear - F2. induction F2 as [|a r la lb Hab _ IH]; intros q Hq; [destruct Hq|]. destruct Hq as [<-|Hq]; [apply Hab|auto]. }
  assert (Nr : rows <> []) by (intros ->; cbn in L2; lia).
  destruct (stems_run E rows rirs T n (Z.to_nat (su_rir u)) (Z.to_nat (su_target u))) as (stems & Hs & Ls & Ds); auto; try lia.
  destruct (audio_run stems (su_rate u) ((Z.to_nat (su_target u) + Z.to_nat (su_rir u) - 1) * 6)%nat) as (fs & Hf); auto; try lia.
  { intros ->. cbn in Ls. lia. }
  exists f. unfold compute_scene. rewrite G1. unfold rlift at 1. cbn [rbind]. rewrite G2. unfold rlift at 1. cbn [rbind]. fold n. rewrite EL. cbn [rbind].
  rewrite (stack_run rows _ Nr RowL). unfold rlift at 1. cbn [rbind]. rewrite G3. unfold rlift at 1. cbn [rbind]. rewrite G4. unfold rlift at 1. cbn [rbind].
  unfold repeat_mics. fold T. rewrite Hr. unfold rlift at 1. cbn [rbind]. rewrite Lm, Hs. unfold rlift at 1. cbn [rbind]. rewrite Hf. unfold rlift at 1. cbn [rbind rret]. eauto.
Qed.

(** ** Writing *)
Lemma save_all_runs E dir l : (forall d f, e_save E d f = None) -> exists t, save_all E dir l = (t, Some (Ok tt)).
Proof.
  intros H. induction l as [|[f p] l [t IH]]; [eexists; reflexivity|]. cbn [save_all]. unfold save. rewrite H. unfold rlog. cbn [rbind]. rewrite IH. eauto.
Qed.
Lemma metadata_runs s o rate geo rirs dir d info N rir :
  length (geo_sources geo) = Z.to_nat (sa_n s) -> length (geo_traj geo) = Z.to_nat (sa_steps s) ->
  (forall row, In row (geo_traj geo) -> length row = Z.to_nat (sa_n s)) -> (0 < rate)%Z ->
  xshape rirs = [Z.to_nat (sa_steps s); Z.to_nat (sa_n s); 6%nat; Z.to_nat rir] ->
  let room := room_of s o rate in
  exists md, build_metadata (mkMd (r_size room) (r_c room) None (r_t60 room) (r_fs room) (table (map p_start (geo_sources geo))) None (table (geo_mics geo)) Float None (xshape rirs)
    (Some (track (length (geo_sources geo)) (geo_traj geo))) (Some (track (length (geo_mics geo)) (repeat_mics (sa_steps s) (geo_mics geo))))
    None (Some N) (Some info) (Some (scene_extra s dir (geo_center geo) (sd_moving d) (geo_sources geo)))) = Ok md.
Proof.
  intros Lg Lt Rows Hrate Sh room. set (a := mkMd _ _ _ _ _ _ _ _ _ _ _ _ _ _ _ _ _).
  assert (Rm : forall r, In r (repeat_mics (sa_steps s) (geo_mics geo)) -> length r = length (geo_mics geo)) by apply shape_repeat.
  assert (Rg : forall r, In r (geo_traj geo) -> length r = length (geo_sources geo)) by (intros; rewrite Lg; auto).
  assert (D : MetaProps.described a 3).
  { constructor; unfold a; cbn [md_rirs_shape md_fs md_mic_dtype md_mic md_size md_src_traj md_src md_mic_traj MetaSpec.proper room room_of r_fs r_size]; auto.
    - rewrite Sh. discriminate.
    - apply IZR_lt. auto.
    - do 2 eexists. reflexivity.
    - split; [apply track_wf; auto|]. right. do 2 eexists. reflexivity.
    - split; [apply track_wf; auto|]. right. do 2 eexists. reflexivity. }
  assert (C : MetaSpec.compatible (MetaSpec.steps (md_src_traj a)) (MetaSpec.steps (md_mic_traj a))).
  { left. unfold a. cbn [md_src_traj md_mic_traj MetaSpec.steps track shape hd]. unfold repeat_mics. rewrite repeat_length. auto. }
  destruct (MetaProps.built a 3 D C) as (md & _ & _ & Hm & _). eauto.
Qed.
Lemma write_runs E b o w u room center margin rate fuel k d k' x stems dir : settled E b o w u room center margin rate -> (0 < rate)%Z -> (0 < sa_steps (su_scene u))%Z ->
  (forall d f, e_save E d f = None) -> computed E u fuel k d k' x stems -> exists t, write_scene E u dir d x = (t, Some (Ok tt)).
Proof.
  intros St Hr Hst Sv C. destruct (computed_geometry _ _ _ _ _ _ _ _ C) as (_ & Lp & Lm & Lt & Rows). rewrite Nat.max_r in Lt by lia.
  pose proof (st_room _ _ _ _ _ _ _ _ _ St) as Er.
  assert (Er' : su_room u = room_of (su_scene u) o rate) by (rewrite Er, (st_scene _ _ _ _ _ _ _ _ _ St); reflexivity).
  assert (Hfs : r_fs (su_room u) <> 0) by (rewrite Er; cbn [r_fs]; apply not_0_IZR; lia).
  destruct (omni_numbers _ _ _ _ _ _ _ _ Hfs (cm_rirs _ _ _ _ _ _ _ _ C)) as (_ & Sh & L0). rewrite !track_shape in Sh. cbn [nth] in Sh. rewrite Lt, Lm, Lp in Sh.
  destruct (metadata_runs (su_scene u) o rate (mkGeo (sn_center x) (sn_mics x) (sn_placed x) (sn_traj x)) (sn_rirs x) dir d
    (source_info (sa_motion (su_scene u)) (sd_moving d) (sn_placed x) (sn_who x)) (su_target u) (su_rir u) Lp Lt Rows Hr Sh) as (md & Hm).
  cbv zeta in Hm. cbn [geo_center geo_mics geo_sources geo_traj] in Hm. rewrite <- Er' in Hm.
  unfold write_scene. destruct (save_all_runs E dir (sn_files x) Sv) as [t1 ->]. cbn [rbind].
  change (metadata_args u dir d x) with (mkMd (r_size (su_room u)) (r_c (su_room u)) None (r_t60 (su_room u)) (r_fs (su_room u))
    (table (map p_start (sn_placed x))) None (table (sn_mics x)) Float None (xshape (sn_rirs x))
    (Some (track (length (sn_placed x)) (sn_traj x))) (Some (track (length (sn_mics x)) (repeat_mics (sa_steps (su_scene u)) (sn_mics x))))
    None (Some (su_target u)) (Some (source_info (sa_motion (su_scene u)) (sd_moving d) (sn_placed x) (sn_who x)))
    (Some (scene_extra (su_scene u) dir (sn_center x) (sd_moving d) (sn_placed x)))).
  rewrite Hm. destruct (save_all_runs E dir [("metadata.json"%string, Json md);
                  ("source_info.json"%string, Json (source_info (sa_motion (su_scene u)) (sd_moving d) (sn_placed x) (sn_who x)))] Sv) as [t2 Es].
  destruct (o_images (su_opt u)), (o_mp4 (su_opt u)); unfold rlog, rret, rlift; cbn [rbind]; rewrite Es; eauto.
Qed.

(** ** All scenes *)
Lemma scene_ends E b o w u room center margin rate idx g k : settled E b o w u room center margin rate -> arguments_fit b o (scene_of b room center margin) rate ->
  (sa_steps (ba_scene b) <= 2 ^ 51)%Z -> corpus_good (e_corpus E w) (ba_speakers b) rate -> filter_works (e_ext E) rate (Z.to_nat (ba_rir b)) ->
  filt_length (e_ext E) -> keeps_numbers (e_ext E) -> (forall d f, e_save E d f = None) -> fair_scene (su_scene u) (fst (e_draw E (su_scene u) g)) ->
  ends (fun f => build_scene E u f idx (g, k)) (fun st => fst st = snd (e_draw E (su_scene u) g)).
Proof.
  intros St Af H51 Cg Fw HF HK Sv Fd. pose proof (compute_ends E b o w u room center margin rate k _ St Af H51 Cg Fw HF HK Fd) as Ce.
  destruct Ce as (f & t & [k' x] & Ec & _). exists f. unfold build_scene. destruct (e_draw E (su_scene u) g) as [d g'] eqn:Ed. cbn [fst snd] in *.
  unfold rlog. cbn [rbind]. rewrite Ec. cbn [rbind snd fst]. apply compute_ok in Ec as (-> & stems & C).
  destruct (write_runs E b o w u room center margin rate f k d k' x stems (scene_name idx) St) as [t2 Ew]; auto.
  { pose proof (af_rate _ _ _ _ Af). lia. }
  { rewrite (st_scene _ _ _ _ _ _ _ _ _ St). apply (af_steps _ _ _ _ Af). }
  rewrite Ew. cbn [rbind rret]. do 2 eexists. split; [reflexivity|reflexivity].
Qed.
Lemma scenes_end E b o w u room center margin rate n : settled E b o w u room center margin rate -> arguments_fit b o (scene_of b room center margin) rate ->
  (sa_steps (ba_scene b) <= 2 ^ 51)%Z -> corpus_good (e_corpus E w) (ba_speakers b) rate -> filter_works (e_ext E) rate (Z.to_nat (ba_rir b)) ->
  filt_length (e_ext E) -> keeps_numbers (e_ext E) -> (forall d f, e_save E d f = None) -> (forall i, fair_scene (su_scene u) (draws_for E (su_scene u) i)) ->
  forall idx g k, g = Nat.iter idx (fun g => snd (e_draw E (su_scene u) g)) (e_gen0 E) ->
  ends (fun f => build_scenes E u f n idx (g, k)) (fun _ => True).
Proof.
  intros St Af H51 Cg Fw HF HK Sv Fd. induction n as [|n IH]; intros idx g k Eg; cbn [build_scenes].
  - eapply ends_const; [reflexivity|auto].
  - apply (ends_bind (fun f => build_scene E u f idx (g, k)) (fun f st => build_scenes E u f n (S idx) st) (fun st => fst st = snd (e_draw E (su_scene u) g))).
    + apply scene_stable.
    + intros. apply scenes_stable.
    + eapply scene_ends; eauto. rewrite Eg. apply Fd.
    + intros [g' k'] Q. cbn [fst] in Q. apply IH. rewrite Q, Eg. reflexivity.
Qed.

(** ** The setup *)
Lemma open_rates c l rate : l <> [] -> (forall s, In s l -> first_rate c s = Ok rate) -> open_speakers (first_rate c) l = Ok rate.
Proof.
  intros N F. unfold open_speakers. set (step := fun (acc : option Z) spk => _).
  assert (K : forall l', (forall s, In s l' -> first_rate c s = Ok rate) -> foldM step l' (Some rate) = Ok (Some rate)).
  { induction l' as [|s l' IH]; intros F'; [reflexivity|]. cbn [foldM]. unfold step at 1. rewrite (F' s) by (left; auto). cbn [bind]. rewrite Z.eqb_refl. cbn [negb]. apply IH. intros; apply F'; right; auto. }
  destruct l as [|s l]; [contradiction|]. cbn [foldM]. unfold step at 1. rewrite (F s) by (left; auto). cbn [bind]. rewrite K; [reflexivity|]. intros; apply F; right; auto.
Qed.
Lemma open_good c l rate : l <> [] -> corpus_good c l rate -> open_speakers (first_rate c) l = Ok rate.
Proof.
  intros N G. apply open_rates; auto.
  intros s Hs. destruct (G s Hs) as (u & us & a & U & A & _). unfold first_rate. rewrite U. cbn [bind]. rewrite A. reflexivity.
Qed.
Lemma shoebox_runs p sr c t60 : 0 < px p -> 0 < py p -> 0 < pz p -> 0 < IZR sr -> 0 < c -> 0 < t60 ->
  shoebox_room p sr c t60 = Ok (mkRoom (mkT [3%nat] [px p; py p; pz p]) (IZR sr) c None (Some t60)).
Proof.
  intros X Y Z S C T. assert (Q : forall x, 0 < x -> Rleb x 0 = false) by (intros x Hx; destruct (Rleb x 0) eqn:Ex; auto; apply rleb_true in Ex; lra).
  unfold shoebox_room, shoebox. cbn [as_tensor]. cbn [mapM map xyz convert bind]. unfold nensure_dim at 1, nndim, nnumel. cbn [nshape length Nat.eqb ndata prodn fold_right Nat.mul Nat.add negb orb bind].
  unfold make_room, nensure_dim, nndim, nnumel. cbn [nshape length Nat.eqb ndata prodn fold_right Nat.mul Nat.add negb orb bind].
  cbn [forallb num_finite andb negb existsb orb num_le0]. rewrite !Q by auto. reflexivity.
Qed.
Lemma early_runs b o room center margin rate : ba_room_list b = [px room; py room; pz room] -> ba_center_list b = [px center; py center; pz center] ->
  ba_margin_list b = [px margin; py margin; pz margin] -> arguments_fit b o (scene_of b room center margin) rate -> early_checks b = Ok (room, center, margin).
Proof.
  intros E1 E2 E3 Af. unfold early_checks. rewrite E1, E2, E3. cbn [as_triplet bind].
  destruct Af as [A1 A2 A3 A4 A5 (B1 & B2 & B3 & _ & _ & _ & _ & _ & B4 & _) _ _ _ _ _ _ _]. cbn [scene_of sa_n sa_moving sa_steps sa_motion sa_edge] in *.
  destruct (Z.leb_spec (ba_scenes b) 0); [lia|]. destruct (Z.leb_spec (sa_n (ba_scene b)) 0); [lia|].
  destruct (Z.ltb_spec (sa_moving (ba_scene b)) 0); [lia|]. destruct (Z.ltb_spec (sa_n (ba_scene b)) (sa_moving (ba_scene b))); [lia|]. cbn [orb].
  destruct (Z.ltb_spec (Z.of_nat (length (ba_speakers b))) (sa_n (ba_scene b))); [lia|]. destruct (Z.leb_spec (sa_steps (ba_scene b)) 0); [lia|].
  destruct (Rleb (m_dur (sa_motion (ba_scene b))) 0) eqn:D; [apply rleb_true in D; lra|]. destruct (Z.leb_spec (ba_rir b) 0); [lia|].
  destruct room, center, margin. reflexivity.
Qed.
Lemma setup_runs_gen E b o w room center margin rate d : fair_calls E -> arguments_fit b o (scene_of b room center margin) rate ->
  open_speakers (first_rate (e_corpus E w)) (ba_speakers b) = Ok rate ->
  fair_scene (scene_of b room center margin) d -> exists u, make_setup E b o w room center margin = Ok u /\ settled E b o w u room center margin rate.
Proof.
  intros Fc Af Cg Fd. pose proof (af_sensible _ _ _ _ Af) as Sn.
  destruct (proj2 (BldProps.C60_feasible _ d Fd)) as [g Hg]; [split; [exact Sn|apply (af_place _ _ _ _ Af)]|].
  destruct (geometry_parts _ _ _ Hg) as (_ & G2 & _ & _). pose proof G2 as G2'. unfold place_mics in G2'. apply bind_ok in G2' as (base & Hb & G2'). apply Ok_inj in G2'.
  assert (Lb : length base = 6%nat). { apply octa_mics in G2 as [_ G2]. apply (f_equal (@length _)) in G2. rewrite <- G2', map_length in G2. exact G2. }
  cbn [scene_of sa_edge] in Hb.
  assert (Sz := af_size _ _ _ _ Af). cbn [scene_of sa_room] in Sz. destruct Sz as (Sx & Sy & Sz).
  assert (R0 : 0 < IZR rate) by (apply (IZR_lt 0); pose proof (af_rate _ _ _ _ Af); lia).
  pose proof (af_samples _ _ _ _ Af) as Ts. cbn [scene_of sa_motion] in Ts. pose proof (af_mics _ _ _ _ Af) as Tm. cbn [scene_of sa_n] in Tm.
  unfold make_setup. rewrite Cg. cbn [bind]. destruct (Z.leb_spec (target_samples (m_dur (sa_motion (ba_scene b))) rate) 0); [lia|].
  rewrite Hb. cbn [bind]. rewrite Lb. destruct (Z.ltb_spec (Z.of_nat 6) (sa_n (ba_scene b))); [lia|]. rewrite shoebox_runs by (auto; apply Af). cbn [bind].
  eexists. split; [reflexivity|]. constructor; cbn [su_scene su_speakers su_rir su_opt su_corpus su_rate su_target su_room]; auto.
  unfold sound. cbn [su_target su_scene su_speakers sa_n]. pose proof (af_speakers _ _ _ _ Af) as As. cbn [scene_of sa_n] in As. split; [auto|]. split; [auto|lia].
Qed.
Lemma setup_runs E b o w room center margin rate d : fair_calls E -> arguments_fit b o (scene_of b room center margin) rate -> corpus_good (e_corpus E w) (ba_speakers b) rate ->
  fair_scene (scene_of b room center margin) d -> exists u, make_setup E b o w room center margin = Ok u /\ settled E b o w u room center margin rate.
Proof.
  intros Fc Af Cg Fd. apply (setup_runs_gen E b o w room center margin rate d); auto. apply open_good; auto.
  pose proof (af_speakers _ _ _ _ Af) as A. destruct (af_sensible _ _ _ _ Af) as (_ & Sn & _). intros Q. rewrite Q in A. cbn [length] in A. lia.
Qed.
