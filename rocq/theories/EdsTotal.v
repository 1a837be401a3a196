(** Proofs for C93: runs that end well. *)
From Coq Require Import Ascii String List ZArith Reals Lia Lra Bool Permutation.
From Flocq Require Import Core.
From Verif Require Import Prelude PreludeFacts SignalModel SignalSpec FloatModel FloatProofs DirModel DirSpec IsmModel IsmSpec IsmProofs SimProofs SimLocal SimSteps RoomModel RoomSpec RoomProofs GeoModel GeoSpec IoModel MetaModel.
From Verif Require DsModel DsSpec DsProofs DsProps CorpModel LoopModel RefModel RefProps MetaProps LoopTotal TotalSpec BldProofs StageProps.
From Verif Require Import GeoSampling RefSpec LoopSpec LoopNames ExModel ExSpec ExProofs EdsModel EdsSpec EdsProofs EdsScene EdsRun.
Import ListNotations.
Local Notation length := List.length.
Local Notation app := List.app.
Local Open Scope R_scope.
Local Open Scope list_scope.

(** ** Speech *)
Section speech.
Import DsModel DsSpec DsProofs.
Lemma loop_runs c g dur spk all q fuel : fair g -> all <> [] -> (forall v, In v all -> exists x, audio_of c spk v = Ok (x, q)) ->
  forall order idx total st r, Permutation all order -> (idx <= length order)%nat -> g_fs st = None \/ g_fs st = Some q ->
  load_loop c g dur spk fuel order idx total st = Some r -> exists st', r = Ok st' /\ g_fs st' = Some q.
Proof.
  intros [G _] N A. induction fuel as [|f IH]; intros order idx total st r P L F H; [discriminate|]. cbn [load_loop] in H. cbv zeta in H.
  destruct (negb _) eqn:Eg. { injection H as <-. exists st. split; auto. destruct F as [F|F]; auto. rewrite F in Eg. discriminate. }
  destruct (if (length order <=? idx)%nat then _ else _) as [[o i] k] eqn:Eo.
  assert (Q : Permutation all o /\ (i < length o)%nat).
  { destruct (Nat.leb_spec (length order) idx) as [Le|Lt]; injection Eo as <- <- _; [|auto].
    assert (P' : Permutation all (shuffle g (g_shuffles st) order)) by (eapply perm_trans; [exact P|apply G]). split; auto.
    rewrite <- (Permutation_length P'). destruct all; [contradiction|cbn; lia]. }
  destruct Q as [P' Li]. destruct (nth_error o i) as [v|] eqn:Ev; [|apply nth_error_None in Ev; lia].
  destruct (A v) as (x & Ex). { eapply Permutation_in; [apply Permutation_sym, P'|eapply nth_error_In; eauto]. }
  rewrite Ex in H. destruct F as [F|F]; rewrite F in H; [|rewrite Z.eqb_refl in H; cbn [negb] in H]; (eapply IH; [| | |exact H]; [exact P'|lia|right; reflexivity]).
Qed.
Lemma speaker_runs c g dur q spk fuel k fs r : fair g -> speaker_ready c q spk -> (0 < target_samples dur q)%Z -> fs = None \/ fs = Some q ->
  load_speaker c g dur fuel k fs spk = Some r -> exists k' row ids, r = Ok (k', Some q, row, ids).
Proof.
  intros G (us & Eu & Nu & Au & _) T F H. unfold load_speaker in H. rewrite Eu in H. destruct us as [|u l']; [contradiction|]. set (l := u :: l') in *.
  destruct (load_loop _ _ _ _ _ _ _ _ _) as [r'|] eqn:EL; [|discriminate].
  assert (P : Permutation l (shuffle g k l)) by apply (proj1 G).
  assert (EL' := EL). apply (loop_runs c g dur spk l q fuel G Nu Au) in EL' as (st & -> & Fs); [|auto|lia|auto].
  rewrite Fs in H. apply (load_loop_spec c g dur spk l) in EL; auto.
  - destruct EL as (f & o' & i' & A1 & _ & _ & A3). rewrite Fs in A1. injection A1 as <-. unfold cut in H. destruct (g_segs st) eqn:Es; [cbn in A3; lia|]. injection H as <-. eauto.
  - split; auto. split; [lia|]. cbn. split; [exists []; auto|]. split; auto. destruct F as [->| ->]; auto. split; auto. intros [|] ? E; discriminate.
Qed.
Lemma speakers_run c g dur q fuel l : fair g -> (forall spk, In spk l -> speaker_ready c q spk) -> (0 < target_samples dur q)%Z -> forall k fs r,
  fs = None \/ fs = Some q -> load_speakers c g dur fuel k fs l = Some r -> exists fs' rows info, r = Ok (fs', rows, info) /\ (l <> [] -> fs' = Some q).
Proof.
  intros G. induction l as [|spk l IH]; intros A T k fs r F H; cbn [load_speakers] in H; [injection H as <-; exists fs, [], []; split; [auto|contradiction]|].
  destruct (load_speaker c g dur fuel k fs spk) as [r1|] eqn:E1; [|discriminate].
  destruct (speaker_runs _ _ _ _ _ _ _ _ _ G (A spk (or_introl eq_refl)) T F E1) as (k' & row & ids & ->).
  destruct (load_speakers c g dur fuel k' (Some q) l) as [r2|] eqn:E2; [|discriminate].
  destruct (IH (fun s I => A s (or_intror I)) T _ _ _ (or_intror eq_refl) E2) as (fs' & rows & info & -> & Q). injection H as <-. exists fs', (row :: rows), ((spk, ids) :: info).
  split; auto. intros _. destruct l; [cbn in E2; congruence|apply Q; discriminate].
Qed.
Lemma load_runs c n dur g q T : fair g -> NoDup (speakers c) -> (forall spk, In spk (speakers c) -> speaker_ready c q spk) ->
  (1 <= n <= Z.of_nat (length (speakers c)))%Z -> whole_samples dur q T -> (0 < T)%nat ->
  exists fuel0, forall fuel, (fuel0 <= fuel)%nat -> exists dry info, load_dataset_sources c n dur g fuel = Some (Ok (dry, q, info)).
Proof.
  intros G ND A Hn W HT. destruct (DsProps.C56_terminates c n dur g G) as (f0 & r & H).
  { intros spk all Hs Eu Na. destruct (A spk Hs) as (us & Eu' & _ & _ & (u & x & Iu & Ex & Nx)). rewrite Eu in Eu'. injection Eu' as <-. exists u. split; auto. intros y f Hy. rewrite Ex in Hy. injection Hy as <- _. auto. }
  exists f0. intros fuel Hf. specialize (H fuel Hf). rewrite H. unfold load_dataset_sources in H.
  assert (Tg : target_samples dur q = Z.of_nat T) by (apply target_whole; auto).
  assert (Ec : choose_speakers c n g = Ok (sample g (speakers c) (Z.to_nat n))).
  { unfold choose_speakers. destruct (speakers c) as [|s l] eqn:Es; [cbn in Hn; lia|]. rewrite <- Es in *. destruct (Z.ltb_spec (Z.of_nat (length (speakers c))) n); [lia|]. destruct (Z.ltb_spec n 0); [lia|auto]. }
  rewrite Ec in H. destruct (proj2 G (speakers c) (Z.to_nat n)) as [Ls [rest P]]; [lia|]. set (l := sample g (speakers c) (Z.to_nat n)) in *.
  destruct (load_speakers c g dur fuel 0 None l) as [r1|] eqn:El; [|discriminate].
  assert (T0 : (0 < target_samples dur q)%Z) by lia.
  assert (Al : forall spk, In spk l -> speaker_ready c q spk) by (intros spk Hs; apply A; eapply Permutation_in; [apply Permutation_sym; exact P|apply in_or_app; auto]).
  destruct (speakers_run _ _ _ _ _ _ G Al T0 _ _ _ (or_introl eq_refl) El) as (fs' & rows & info & -> & Q).
  assert (Nl : l <> []) by (intros E; rewrite E in Ls; cbn in Ls; lia). rewrite (Q Nl) in *.
  destruct (load_speakers_spec _ _ _ _ G _ _ _ _ _ _ El) as (B1 & B2 & B3). destruct l as [|l0 l1] eqn:EL; [contradiction|]. rewrite <- EL in *.
  destruct B3 as (f & Ef & _ & B3 & _). injection Ef as <-. specialize (B3 ltac:(lia)).
  assert (Rows : forall row, In row rows -> length row = T).
  { intros row Hr. apply In_nth_error in Hr as (j & Hj). assert (Hj' : (j < length info)%nat) by (rewrite <- (map_length fst), B1, <- B2; apply nth_error_Some; congruence).
    apply nth_error_Some in Hj'. destruct (nth_error info j) as [[spk ids]|] eqn:Ei; [|contradiction]. destruct (B3 j row spk ids Hj Ei) as [Lr _]. rewrite Lr, Tg. lia. }
  unfold stack_rows in H. destruct rows as [|r0 rs] eqn:Er; [rewrite EL in B2; discriminate|]. rewrite <- Er in *.
  replace (forallb _ rows) with true in H; [injection H as <-; eauto|]. symmetry. apply forallb_forall. intros x Hx. apply Nat.eqb_eq. rewrite !Rows; auto. rewrite Er. cbn. auto.
Qed.
End speech.

(** ** Responses *)
Lemma plain_scene room ps ms : usual_room room -> (forall q, In q ps -> length q = length room) -> (forall q, In q ms -> length q = length room) -> ps <> [] -> ms <> [] ->
  exists beta, scene (the_room room) (ETensor (mkT [length ps; length room] (concat ps))) (ETensor (mkT [length ms; length room] (concat ms))) (length room) beta.
Proof.
  intros [D F] _ _ Np Nm. exists (repeat (9 / 10) (walls room)).
  assert (Lw : walls room = (2 * length room)%nat) by (unfold walls; destruct D as [-> | ->]; reflexivity).
  constructor; cbn [the_room r_size r_fs shape]; auto.
  all: try reflexivity.
  - unfold wf, prodn. cbn. lia.
  - lra.
  - rewrite repeat_length. auto.
  - destruct ps; [contradiction|cbn; lia].
  - destruct ms; [contradiction|cbn; lia].
Qed.
Lemma tmax_arguments X dev r srcs mics N tm : simulate_rir X dev r srcs mics (Some N) None None (Some tm) None None ONone None =
  simulate_rir X dev r srcs mics (Some N) None None (Some tm) None (Some (DName "omni")) ONone (Some default_config_value).
Proof. unfold simulate_rir. f_equal. unfold resolve_config, default_config. rewrite LoopTotal.default_valid. cbn [bind]. rewrite LoopTotal.default_valid. reflexivity. Qed.
Lemma responses_run X dev room K n p ms N tm : usual_room room -> (0 < K)%nat -> (0 < n)%nat -> length p = K -> (forall r, In r p -> length r = n) -> (forall r q, In r p -> In q r -> length q = length room) ->
  ms <> [] -> (forall q, In q ms -> length q = length room) -> (0 <= N)%Z -> (0 < ceilZ (rnd64 (tm * 16000)))%Z -> filt_length X ->
  TotalSpec.filter_works X 16000 (Z.to_nat (ceilZ (rnd64 (tm * 16000)))) ->
  exists T, simulate_dynamic_rir X dev (the_room room) (grid n (length room) p) (grid (length ms) (length room) (repeat ms K)) (Some N) None None (Some tm) None ONone None = Ok T.
Proof.
  intros U HK Hn Lp Rp Dp Nm Dm HN HL HF HW. set (L := Z.to_nat (ceilZ (rnd64 (tm * 16000)))) in *.
  assert (Rm : forall r, In r (repeat ms K) -> r = ms) by (intros r Hr; apply repeat_spec in Hr; auto).
  apply (static_gives_dynamic X dev _ _ _ _ _ _ _ _ _ _ K n (length ms) (length room)); auto.
  - cbn. lra.
  - unfold grid, unsqueeze_traj. cbn [ndim shape length Nat.eqb]. rewrite Lp. reflexivity.
  - unfold grid, unsqueeze_traj. cbn [ndim shape length Nat.eqb]. rewrite repeat_length. reflexivity.
  - intros t Ht. rewrite grid_step; [|auto|auto|lia].
    rewrite grid_step; [|intros r Hr; rewrite (Rm r Hr); auto|intros r q Hr Hq; rewrite (Rm r Hr) in Hq; auto|rewrite repeat_length; auto].
    rewrite repeat_nth' by auto. rewrite tmax_arguments.
    assert (It : In (nth t p []) p) by (apply nth_In; lia). assert (Lt : length (nth t p []) = n) by auto.
    destruct (plain_scene room (nth t p []) ms U) as (beta & Sc); auto; [intros q Hq; eapply Dp; eauto|intros E; rewrite E in Lt; cbn in Lt; lia|]. rewrite Lt in Sc.
    destruct (nb_images N (length room) None HN I) as (images & Ei).
    destruct (simulate_omni_any X dev _ _ _ N None None (Some tm) default_config_value (length room) beta images L Sc LoopTotal.default_valid HN) as (T & ET & _); eauto.
    + apply wanted_validate; auto; [lia|]. exists tm. split; [reflexivity|]. cbn. unfold L. lia.
    + change (r_fs (the_room room)) with (IZR 16000). apply LoopTotal.filter_runs; auto. lia.
Qed.

(** ** A scene *)
Lemma snd_bind {A B} (m : erun A) (f : A -> erun B) a : snd m = Some (Ok a) -> snd (ebind m f) = snd (f a).
Proof. destruct m as [t r]. cbn [snd]. intros ->. cbn [ebind]. destruct (f a). reflexivity. Qed.
Lemma save_runs W f i : ew_save W f = None -> snd (save W f i) = Some (Ok tt).
Proof. intros H. unfold save. rewrite H. reflexivity. Qed.
Lemma sound_runs W f q w w' : ew_save W f = None -> save_samples (ew_float W) true 1 w = Ok w' -> snd (save_sound W f q w) = Some (Ok tt).
Proof. intros H E. unfold save_sound. rewrite E, ebind_lift_ok. apply save_runs; auto. Qed.
Lemma references_run W u i rirs h sg q info : ew_float W = (fun x => x) -> (forall f, ew_save W f = None) -> LoopModel.all_numbers rirs = Some h -> forall l refs,
  mapM (fun s => do x <- RefModel.index0 sg s; do r <- RefModel.slice1 h s; do ref <- convolver_convolve (mkConvolver "trajectory" None None None) (fx_device u) x r; RefModel.scene_file (fun x => x) (RefModel.ref_name (scene_prefix i) s) ref) l = Ok refs ->
  (forall s, In s l -> (s < length info)%nat) ->
  snd (references W u i rirs sg q info l) = Some (Ok (map (entry i info) l)).
Proof.
  intros Hf Hs Hn l. induction l as [|s l IH]; intros refs H B; cbn [mapM] in H; [reflexivity|].
  apply bind_ok in H as (k & Hk & H). apply bind_ok in H as (ks & Hks & H). apply Ok_inj in H. subst refs. specialize (IH ks Hks ltac:(intros; apply B; cbn; auto)).
  apply bind_ok in Hk as (x & Ex & Hk). apply bind_ok in Hk as (r & Er & Hk). apply bind_ok in Hk as (ref & Eref & Hk). unfold RefModel.scene_file in Hk.
  apply bind_ok in Hk as (w & Ew & Hk). apply Ok_inj in Hk. subst k. cbn [references map].
  unfold heard. rewrite Ex. cbn [bind]. rewrite Hn, Er. cbn [bind]. rewrite Eref. cbn [bind]. rewrite ebind_lift_ok.
  rewrite (snd_bind _ _ tt) by (eapply sound_runs; [auto|rewrite Hf; exact Ew]).
  destruct (nth_error info s) as [[spk ids]|] eqn:Ei; [|apply nth_error_None in Ei; specialize (B s (or_introl eq_refl)); lia]. rewrite ebind_lift_ok.
  rewrite (snd_bind _ _ _ IH). unfold eret. cbn [snd fst]. unfold entry at 2. rewrite (nth_error_nth _ _ (""%string, []) Ei). reflexivity.
Qed.
Lemma scene_runs W a u fuel i dry q info rows modes moving rirs h files md :
  ew_float W = (fun x => x) -> (forall f, ew_save W f = None) ->
  DsModel.load_dataset_sources (ew_corpus W) (ea_n a) (ea_duration a) (ew_rng W (ea_seed a + Z.of_nat i)) fuel = Some (Ok (dry, q, info)) ->
  source_trajectories (ew_norm W) (ew_after W (ea_seed a + Z.of_nat i)) (ea_n a) (ea_moving a) (fx_size u) (fx_center u) (run_steps a) = Ok (rows, modes, moving) ->
  responses W a u i rows = Ok rirs -> LoopModel.all_numbers rirs = Some h ->
  RefModel.dynamic_files (fun x => x) (fx_device u) (scene_prefix i) (Z.to_nat (ea_n a)) (signal_of dry) h = Ok files ->
  length info = Z.to_nat (ea_n a) ->
  description W a u i rows rirs (length (hd [] dry)) info modes moving (map (entry i info) (seq 0 (Z.to_nat (ea_n a)))) = Ok md ->
  snd (example_scene W a u fuel i) = Some (Ok tt).
Proof.
  intros Hf Hs El Et Er En Ef Li Ed. unfold example_scene. rewrite El. cbv zeta. rewrite Et, ebind_lift_ok, Er, ebind_lift_ok. fold (signal_of dry).
  unfold RefModel.dynamic_files, RefModel.audio_files in Ef. apply bind_ok in Ef as (y & Ey & Ef). apply bind_ok in Ef as (refs & Erefs & Ef). apply bind_ok in Ef as (mix & Em & Ef). clear Ef.
  unfold RefModel.scene_file in Em. apply bind_ok in Em as (w & Ew & _).
  unfold heard at 1. cbn [bind]. rewrite En. cbn [bind]. rewrite Ey. cbn [bind]. rewrite ebind_lift_ok.
  rewrite (snd_bind _ _ _ (references_run W u i rirs h (signal_of dry) q info Hf Hs En _ refs Erefs ltac:(intros s Hin; apply in_seq in Hin; lia))).
  rewrite (snd_bind _ _ tt) by (eapply sound_runs; [auto|rewrite Hf; exact Ew]). rewrite Ed, ebind_lift_ok. apply save_runs; auto.
Qed.
Lemma parts_responses W e a u fuel i dry q info rows modes moving starts p rirs h L : prepared W a u ->
  scene_parts W e a u fuel i dry q info rows modes moving starts p rirs h L -> responses W a u i rows = Ok rirs.
Proof. intros PU SP. unfold responses. rewrite (sp_points _ _ _ _ _ _ _ _ _ _ _ _ _ _ _ _ _ SP), (pr_room _ _ _ PU). apply (sp_rirs _ _ _ _ _ _ _ _ _ _ _ _ _ _ _ _ _ SP). Qed.
Lemma scene_spec W e a u fuel i : usual_world W e -> usual_args a -> prepare W a = Ok u ->
  (fst (example_scene W a u fuel i) = [] /\ snd (example_scene W a u fuel i) <> Some (Ok tt) /\ stopped W a u fuel i) \/
  exists q info, (exists dry, DsModel.load_dataset_sources (ew_corpus W) (ea_n a) (ea_duration a) (ew_rng W (ea_seed a + Z.of_nat i)) fuel = Some (Ok (dry, q, info))) /\
    forall T, DsSpec.whole_samples (ea_duration a) q T -> (0 < T)%nat -> exists files md,
      scene_made W e a (fx_center u) (fx_mics u) i T q info files md /\
      tracks (example_scene W a u fuel i) (sounds q files ++ [((scene_prefix i ++ "_metadata.json")%string, Json md)]) (fun _ => True) /\
      ((forall f, ew_save W f = None) -> snd (example_scene W a u fuel i) = Some (Ok tt)).
Proof.
  intros UW UA Eu. assert (PU : prepared W a u) by (eapply prepare_spec; [exact UW|apply (ua_room _ UA)|apply (ua_mics _ UA)|exact Eu]).
  destruct (scene_cases W e a u fuel i UW UA PU) as [Q|(dry & q & info & rows & modes & moving & starts & p & rirs & h & L & SP)]; [left; exact Q|right].
  exists q, info. split; [exists dry; apply (sp_load _ _ _ _ _ _ _ _ _ _ _ _ _ _ _ _ _ SP)|]. intros T WS HT.
  destruct (scene_contents W e a u fuel i dry q info rows modes moving starts p rirs h L T UW UA PU SP WS HT)
    as (w & files & m & md & Pw & Lw & Sa & Hm & D & F1 & F2 & F3 & F4 & F5 & F6 & F7 & F8 & F9 & F10 & Ef & Ed & Tr).
  exists files, md. split; [|split; [exact Tr|]].
  2:{ intros Hs. eapply scene_runs; eauto; try apply (uw_float _ _ UW).
      - apply (sp_load _ _ _ _ _ _ _ _ _ _ _ _ _ _ _ _ _ SP).
      - apply (sp_tracks _ _ _ _ _ _ _ _ _ _ _ _ _ _ _ _ _ SP).
      - eapply parts_responses; eauto.
      - apply (sp_h _ _ _ _ _ _ _ _ _ _ _ _ _ _ _ _ _ SP).
      - apply (sp_info _ _ _ _ _ _ _ _ _ _ _ _ _ _ _ _ _ SP). }
  destruct (DsProps.C56_sources _ _ _ _ _ _ _ _ (uw_rng _ _ UW _) (uw_speakers _ _ UW) (sp_load _ _ _ _ _ _ _ _ _ _ _ _ _ _ _ _ _ SP)) as (Ld & Li & Nd & _ & Rw).
  assert (EK : run_steps a = ea_steps a) by (unfold run_steps; pose proof (ua_steps _ UA); lia).
  assert (Nf : forall j, (j < Z.to_nat (ea_n a))%nat -> nth_error (map fst files) j = Some (RefModel.ref_name (scene_prefix i) j)).
  { intros j Hj. destruct (sa_refs _ _ _ _ _ _ Sa j Hj) as (d & pk & wv & Wd & E & _). rewrite nth_error_map, E. cbn [option_map fst]. f_equal. unfold RefModel.ref_name.
    assert (d = LoopModel.padded 2 (j + 1)) as -> by (eapply writes_fun; [|exact Wd|apply padded_writes]; lia). reflexivity. }
  pose proof (note_spec W e a u fuel i dry q info rows modes moving starts p rirs h L T (map fst files) m md UW UA PU SP HT Hm D F1 F2 F3 F4 F5 F6 F7 F8 F9 F10 Nf) as Nt.
  destruct SP as [S1 S2 S3 S4 S5 S6 S7 S8 S9 S10 S11 S12 S13 S14 S15 S16 S17 S18 S19]. destruct PU as [Pr Ps Pc Psg Pm].
  unfold scene_made. exists dry, rows, modes, moving, starts, h, w, L, (LoopModel.padded 3 i). cbv zeta. rewrite EK in *.
  split; [auto|]. split; [auto|]. split; [auto|]. split.
  { intros j spk ids Hj. assert (Hj' : (j < length dry)%nat) by (rewrite <- Li; apply nth_error_Some; congruence). apply (Rw T WS j); auto. apply nth_error_nth'; auto. }
  split; [exact S3|]. split.
  { assert (Rm : forall r, In r (repeat (fx_mics u) (Z.to_nat (run_steps a))) -> r = fx_mics u) by (intros r Hr; apply repeat_spec in Hr; auto).
    assert (DM := mics_dim _ _ _ _ Pm). assert (LM : length (fx_mics u) = Z.to_nat (ea_mics a)) by apply Pm.
    exists (fx_device u), (grid (Z.to_nat (ea_n a)) (length (ea_room a)) p), (mic_grid a u). split; [apply prepare_device; auto|].
    split; [unfold grid; cbn [shape]; rewrite S5; reflexivity|]. split; [apply grid_wf; auto|]. split.
    { intros t j k x Ht Hj Hk Hx. rewrite (S8 t j Ht Hj) in Hx. injection Hx as <-. apply grid_get; auto. lia. }
    split; [unfold mic_grid, grid; cbn [shape]; rewrite repeat_length, LM, EK; reflexivity|].
    split; [apply grid_wf; [intros r Hr; rewrite (Rm r Hr); auto|intros r x Hr Hq; rewrite (Rm r Hr) in Hq; auto]|]. split.
    { intros t j k Ht Hj Hk. unfold mic_grid. rewrite grid_get; [rewrite repeat_nth'; auto; rewrite EK; auto|intros r Hr; rewrite (Rm r Hr); auto|intros r x Hr Hq; rewrite (Rm r Hr) in Hq; auto|rewrite repeat_length, EK; auto|lia|auto]. }
    split; [|auto]. rewrite <- S15, <- S16. assert (E : mkX (xshape rirs) (xdata rirs) = rirs) by (destruct rirs; reflexivity). rewrite E.
    rewrite <- S10. f_equal. unfold the_room, walls. destruct (Nat.eq_dec (length (ea_room a)) 3) as [E3|N3]; [rewrite E3; reflexivity|]. apply Nat.eqb_neq in N3. rewrite N3. reflexivity. }
  split; [auto|]. split; [auto|]. split; [apply padded_writes; lia|]. split; [exact Sa|exact Nt].
Qed.

(** ** A run *)
Lemma prepare_runs W e a q T : usual_world W e -> usual_args a -> run_ready W a q T -> exists u, prepare W a = Ok u.
Proof.
  intros UW UA RR. destruct (rr_device _ _ _ _ RR) as (d & Ed). pose proof (ua_room _ UA) as U. unfold prepare. rewrite Ed. cbn [bind].
  destruct (example_room_plain _ U) as (r & Er & Ep). rewrite Er. cbn [bind]. rewrite Ep. cbn [bind]. cbv zeta.
  destruct (one_point_spec (ew_fresh W (ea_seed a)) 0 (ea_room a) (uw_fresh _ _ UW _) U) as [K S].
  destruct (mics_at_spec _ _ _ U K (ua_mics _ UA)) as (m & Em & _). rewrite Em. cbn [bind].
  unfold named_subset. destruct (rr_dataset _ _ _ _ RR) as [-> | ->]; eexists; reflexivity.
Qed.
Lemma ceil_pos x : 0 < x -> (0 < ceilZ x)%Z.
Proof. intros H. apply lt_IZR. eapply Rlt_le_trans; [exact H|]. unfold ceilZ. rewrite opp_IZR. pose proof (floorZ_spec (- x)). lra. Qed.
Lemma scene_ends W e a u fuel i q T dry info : usual_world W e -> usual_args a -> run_ready W a q T -> prepare W a = Ok u -> (i < Z.to_nat (ea_scenes a))%nat ->
  DsModel.load_dataset_sources (ew_corpus W) (ea_n a) (ea_duration a) (ew_rng W (ea_seed a + Z.of_nat i)) fuel = Some (Ok (dry, q, info)) ->
  snd (example_scene W a u fuel i) = Some (Ok tt).
Proof.
  intros UW UA RR Eu Hi El. destruct (rr_samples _ _ _ _ RR) as [WS HT].
  destruct (scene_spec W e a u fuel i UW UA Eu) as [(_ & _ & St)|(q' & info' & (dry' & El') & H)].
  - exfalso. destruct St as [St|[St|(rows & p & x & Ap & Lp & Rp & Dp & Er)]].
    + apply (St dry q info El).
    + apply (rr_places _ _ _ _ RR u i Eu ltac:(lia) St).
    + assert (PU : prepared W a u) by (eapply prepare_spec; [exact UW|apply (ua_room _ UA)|apply (ua_mics _ UA)|exact Eu]).
      destruct PU as [Pr Ps Pc Psg Pm]. assert (LM : length (fx_mics u) = Z.to_nat (ea_mics a)) by apply Pm. pose proof (ua_n _ UA). pose proof (ua_mics _ UA). pose proof (ua_steps _ UA).
      destruct (responses_run (ew_ext W) (fx_device u) (ea_room a) (Z.to_nat (run_steps a)) (Z.to_nat (ea_n a)) p (fx_mics u) (ea_order a) (ea_tmax a)) as (t & E); auto.
      * apply (ua_room _ UA).
      * unfold run_steps; lia.
      * lia.
      * intros E. rewrite E in LM. cbn in LM. lia.
      * apply (mics_dim _ _ _ _ Pm).
      * apply (rr_order _ _ _ _ RR).
      * apply ceil_pos, (rr_length _ _ _ _ RR).
      * apply (uw_filter _ _ UW).
      * apply (rr_filter _ _ _ _ RR).
      * unfold responses in Er. rewrite Ap, Pr in Er. unfold mic_grid in Er. rewrite E in Er. discriminate.
  - rewrite El in El'. injection El' as <- <- <-. destruct (H T WS HT) as (files & md & _ & _ & Q). apply Q. apply (rr_save _ _ _ _ RR).
Qed.
Lemma scenes_end W a u fuel n : forall i, (forall j, (i <= j < i + n)%nat -> snd (example_scene W a u fuel j) = Some (Ok tt)) -> snd (example_scenes W a u fuel n i) = Some (Ok tt).
Proof.
  induction n as [|n IH]; intros i H; cbn [example_scenes]; [reflexivity|]. rewrite (snd_bind _ _ tt) by (apply H; lia). apply IH. intros j Hj. apply H. lia.
Qed.
Lemma common_fuel (P : nat -> nat -> Prop) n : (forall i, (i < n)%nat -> exists f0, forall f, (f0 <= f)%nat -> P i f) -> exists f0, forall f, (f0 <= f)%nat -> forall i, (i < n)%nat -> P i f.
Proof.
  induction n as [|n IH]; intros H; [exists 0%nat; intros; lia|]. destruct IH as (f1 & H1); [intros; apply H; lia|]. destruct (H n ltac:(lia)) as (f2 & H2).
  exists (Nat.max f1 f2). intros f Hf i Hi. destruct (Nat.eq_dec i n) as [->|]; [apply H2; lia|apply H1; lia].
Qed.
Lemma run_ends W e a q T : usual_world W e -> usual_args a -> run_ready W a q T -> exists fuel0, forall fuel, (fuel0 <= fuel)%nat -> finished (build W a fuel).
Proof.
  intros UW UA RR. destruct (prepare_runs W e a q T UW UA RR) as (u & Eu). destruct (rr_samples _ _ _ _ RR) as [WS HT].
  destruct (common_fuel (fun i fuel => snd (example_scene W a u fuel i) = Some (Ok tt)) (Z.to_nat (ea_scenes a))) as (f0 & H).
  { intros i Hi. destruct (load_runs (ew_corpus W) (ea_n a) (ea_duration a) (ew_rng W (ea_seed a + Z.of_nat i)) q T) as (f0 & H); auto.
    - apply (uw_rng _ _ UW).
    - apply (uw_speakers _ _ UW).
    - apply (rr_speakers _ _ _ _ RR).
    - pose proof (ua_n _ UA). pose proof (rr_enough _ _ _ _ RR). lia.
    - exists f0. intros fuel Hf. destruct (H fuel Hf) as (dry & info & El). eapply scene_ends; eauto. }
  exists f0. intros fuel Hf. unfold finished, build. rewrite Eu, ebind_lift_ok. rewrite (snd_bind _ _ tt) by (apply save_runs, (rr_save _ _ _ _ RR)).
  apply scenes_end. intros j Hj. apply H; auto. lia.
Qed.
