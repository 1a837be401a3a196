(** Proofs for C86: the builder's table and [main]. *)
From Coq Require Import Ascii String List ZArith Reals Bool Lia Lra.
From Verif Require Import Prelude FloatModel RoomModel BldModel LoopModel CliModel CliSpec CliProofs CliTriple.
Import ListNotations.
Local Notation length := List.length.
Local Open Scope string_scope.
Local Open Scope list_scope.

Definition hasb (c : ascii) (s : string) : bool := existsb (Ascii.eqb c) (list_ascii_of_string s).
Lemma hasb_spec : forall c s, hasb c s = false -> ~ has c s.
Proof.
  intros c s H I. unfold has in I. assert (hasb c s = true); [|congruence]. apply existsb_exists. exists c. split; [exact I|apply Ascii.eqb_refl].
Qed.
Fixpoint nodupb (l : list string) : bool := match l with [] => true | a :: r => negb (existsb (String.eqb a) r) && nodupb r end.
Lemma nodupb_spec : forall l, nodupb l = true -> NoDup l.
Proof.
  induction l as [|a r IH]; intros H; [constructor|]. cbn in H. apply andb_true_iff in H. destruct H as [H1 H2]. constructor; [|auto].
  intros I. apply negb_true_iff in H1. assert (existsb (String.eqb a) r = true); [|congruence]. apply existsb_exists. exists a. split; [exact I|apply String.eqb_refl].
Qed.
Definition name_okb (o : opt) : bool :=
  negb (hasb "=" (o_name o)) && negb (hasb " " (o_name o)) &&
  (match o_name o with String a (String b (String _ _)) => Ascii.eqb a "-" && Ascii.eqb b "-" | _ => false end ||
   (String.eqb (o_name o) "-h" && match o_kind o with KHelp => true | _ => false end)).
Lemma name_okb_spec : forall o, name_okb o = true -> ~ has "=" (o_name o) /\ ~ has " " (o_name o) /\
     ((exists c r, o_name o = String "-" (String "-" (String c r))) \/ (o_name o = "-h" /\ o_kind o = KHelp)).
Proof.
  intros o H. unfold name_okb in H. apply andb_true_iff in H. destruct H as [H H3]. apply andb_true_iff in H. destruct H as [H1 H2].
  split; [apply hasb_spec, negb_true_iff, H1|]. split; [apply hasb_spec, negb_true_iff, H2|].
  apply orb_true_iff in H3. destruct H3 as [H3|H3].
  - left. destruct (o_name o) as [|a [|b [|c r]]]; try discriminate. apply andb_true_iff in H3. destruct H3 as [Ha Hb].
    apply Ascii.eqb_eq in Ha, Hb. subst. eauto.
  - right. apply andb_true_iff in H3. destruct H3 as [Ha Hb]. apply String.eqb_eq in Ha. split; [exact Ha|]. destruct (o_kind o); try discriminate. reflexivity.
Qed.
Lemma builder_table : table_ok builder_options.
Proof.
  split; [apply nodupb_spec; vm_compute; reflexivity|]. split.
  { intros o I. apply name_okb_spec. assert (F : forallb name_okb builder_options = true) by (vm_compute; reflexivity).
    rewrite forallb_forall in F. apply F, I. }
  split; [exists (mkO "-h" "help" KHelp TText None false); split; [left; reflexivity|reflexivity]|].
  exists (mkO "--help" "help" KHelp TText None false), (mkO "--cmu-root" "cmu_root" KOne TPath None true).
  split; [right; left; reflexivity|]. split; [right; right; left; reflexivity|]. repeat split; [exists "help"; reflexivity|exists "cmu-root"; reflexivity|discriminate].
Qed.
Definition dest_okb (T : list opt) (names : list string) (d : string) : bool :=
  forallb (fun o => Bool.eqb (existsb (String.eqb (o_name o)) names) (String.eqb (o_dest o) d)) T.
Lemma dest_okb_spec : forall T names d, dest_okb T names d = true -> forall o, In o T -> (In (o_name o) names <-> o_dest o = d).
Proof.
  intros T names d H o I. unfold dest_okb in H. rewrite forallb_forall in H. specialize (H o I). apply eqb_prop in H. split.
  - intros J. apply String.eqb_eq. rewrite <- H. apply existsb_exists. exists (o_name o). split; [exact J|apply String.eqb_refl].
  - intros J. apply String.eqb_eq in J. rewrite J in H. apply existsb_exists in H. destruct H as [x [Ix Ex]]. apply String.eqb_eq in Ex. subst. exact Ix.
Qed.
Lemma said_in : forall X T argv l, said X T argv l -> forall p, In p l -> In (i_opt (fst p)) T.
Proof. intros X T argv l [_ [F _]] p I. eapply meant_in; eauto. Qed.
Lemma final_or : forall X T D argv l names d v0, said X T argv l -> dest_okb T names d = true -> lookup D d = Some v0 ->
  lookup (final D l) d = Some (last_or l names v0).
Proof.
  intros X T D argv l names d v0 S K E. rewrite (final_lookup T D names d) with (l := l); [|apply dest_okb_spec, K|eapply said_in; eauto].
  unfold last_or. destruct (last_said l names); [reflexivity|exact E].
Qed.
Lemma last_said_in : forall l names v, last_said l names = Some v -> exists it, In (it, v) l /\ In (o_name (i_opt it)) names.
Proof.
  induction l as [|[it v'] l IH]; intros names v H; [discriminate|]. cbn in H. destruct (last_said l names) as [x|] eqn:E.
  - injection H as <-. destruct (IH names x E) as [j [H1 H2]]. exists j. auto using in_cons.
  - destruct (in_dec string_dec _ names) as [I|_]; [|discriminate]. injection H as <-. exists it. split; [left; reflexivity|exact I].
Qed.
Definition typed_by (P : opt -> bool) (T : list opt) (names : list string) : bool :=
  forallb (fun o => negb (existsb (String.eqb (o_name o)) names) || P o) T.
Lemma typed_in : forall P T names o, typed_by P T names = true -> In o T -> In (o_name o) names -> P o = true.
Proof.
  intros P T names o H I J. unfold typed_by in H. rewrite forallb_forall in H. specialize (H o I). apply orb_true_iff in H. destruct H as [H|H]; [|exact H].
  apply negb_true_iff in H. assert (existsb (String.eqb (o_name o)) names = true); [|congruence]. apply existsb_exists. exists (o_name o). split; [exact J|apply String.eqb_refl].
Qed.
Definition is_one (t : type) (o : opt) : bool := match o_kind o, o_type o, t with KOne, TText, TText | KOne, TPath, TPath | KOne, TInt, TInt | KOne, TFloat, TFloat => true | _, _, _ => false end.
Definition is_flag (o : opt) : bool := match o_kind o with KFlag _ => true | _ => false end.
Definition is_many (o : opt) : bool := match o_kind o, o_type o with KMany, TText => true | _, _ => false end.
Section T.
Variables (X : texts) (T : list opt) (argv : list string) (l : list (item * val)).
Hypothesis S : said X T argv l.
Lemma said_meant : forall it v, In (it, v) l -> meant X T it v.
Proof. intros it v I. destruct S as [_ [F _]]. rewrite Forall_forall in F. apply (F (it, v) I). Qed.
Lemma or_one : forall names v0 t, typed_by (is_one t) T names = true ->
  (last_or l names v0 = v0) \/ exists s it, In (it, last_or l names v0) l /\ In (o_name (i_opt it)) names /\ o_type (i_opt it) = t /\ reads X (i_opt it) s (last_or l names v0).
Proof.
  intros names v0 t K. unfold last_or. destruct (last_said l names) as [v|] eqn:E; [|auto]. right.
  destruct (last_said_in _ _ _ E) as [it [I J]]. pose proof (said_meant it v I) as M. destruct M as [[IT Rf] M].
  pose proof (typed_in _ _ _ _ K IT J) as Q. unfold is_one in Q. destruct (o_kind (i_opt it)); try discriminate.
  destruct M as [s [_ [_ M]]]. exists s, it. repeat split; auto; try apply M. destruct (o_type (i_opt it)), t; congruence || reflexivity.
Qed.
Lemma or_int : forall names z0, typed_by (is_one TInt) T names = true -> exists z, last_or l names (VInt z0) = VInt z.
Proof. intros names z0 K. destruct (or_one names (VInt z0) TInt K) as [H|[s [it [_ [_ [Q H]]]]]]; [eauto|]. unfold reads in H. rewrite Q in H. destruct H as [[z [_ H]] _]. eauto. Qed.
Lemma or_float : forall names v0, typed_by (is_one TFloat) T names = true -> last_or l names v0 = v0 \/ exists x, last_or l names v0 = VFloat x.
Proof. intros names z0 K. destruct (or_one names z0 TFloat K) as [H|[s [it [_ [_ [Q H]]]]]]; [auto|]. unfold reads in H. rewrite Q in H. destruct H as [[z [_ H]] _]. eauto. Qed.
Lemma or_text : forall names v0, typed_by (is_one TText) T names = true -> exists z, last_or l names (VText v0) = VText z.
Proof. intros names z0 K. destruct (or_one names (VText z0) TText K) as [H|[s [it [_ [_ [Q H]]]]]]; [eauto|]. unfold reads in H. rewrite Q in H. destruct H as [H _]. eauto. Qed.
Lemma or_path : forall names v0, typed_by (is_one TPath) T names = true -> last_or l names v0 = v0 \/ exists z, last_or l names v0 = VPath z.
Proof. intros names z0 K. destruct (or_one names z0 TPath K) as [H|[s [it [_ [_ [Q H]]]]]]; [eauto|]. unfold reads in H. rewrite Q in H. destruct H as [H _]. eauto. Qed.
Lemma or_bool : forall names v0, typed_by is_flag T names = true -> exists b, last_or l names (VBool v0) = VBool b.
Proof.
  intros names v0 K. unfold last_or. destruct (last_said l names) as [v|] eqn:E; [|eauto].
  destruct (last_said_in _ _ _ E) as [it [I J]]. pose proof (said_meant it v I) as M. destruct M as [[IT Rf] M].
  pose proof (typed_in _ _ _ _ K IT J) as Q. unfold is_flag in Q. destruct (o_kind (i_opt it)); try discriminate.
  destruct M as [_ [_ ->]]. eauto.
Qed.
Lemma or_texts : forall names v0, typed_by is_many T names = true -> exists b, last_or l names (VList (map VText v0)) = VList (map VText b).
Proof.
  intros names v0 K. unfold last_or. destruct (last_said l names) as [v|] eqn:E; [|eauto].
  destruct (last_said_in _ _ _ E) as [it [I J]]. pose proof (said_meant it v I) as M. destruct M as [[IT Rf] M].
  pose proof (typed_in _ _ _ _ K IT J) as Q. unfold is_many in Q. destruct (o_kind (i_opt it)); try discriminate.
  destruct (o_type (i_opt it)) eqn:Ht; try discriminate.
  destruct M as [_ [_ [vs [-> F]]]]. exists (i_vals it). f_equal. clear E I. induction F as [|s x ss xs H F IH]; [reflexivity|]. cbn. rewrite IH. f_equal.
  unfold reads in H. rewrite Ht in H. apply H.
Qed.
End T.
Lemma texts_back : forall l, mapM (fun v => match v with VText s => Ok s | _ => Err TypeError end) (map VText l) = Ok l.
Proof. induction l as [|a l IH]; [reflexivity|]. cbn [map mapM]. cbn [bind]. rewrite IH. reflexivity. Qed.

Section M.
Variables (X : texts) (argv : list string) (l : list (item * val)).
Hypothesis S : said X builder_options argv l.
Let ns := final builder_defaults l.
Ltac fo n d v := exact (final_or X builder_options builder_defaults argv l n d v S eq_refl eq_refl).
Lemma v_scenes : lookup ns "n_scenes" = Some (last_or l ["--n-scenes"] (VInt 10)).
Proof. fo ["--n-scenes"] "n_scenes" (VInt 10). Qed.
Lemma v_root : lookup ns "dataset_root" = Some (last_or l ["--dataset-root"] (VPath "outputs/cmu_arctic_torchrir_dynamic_dataset")).
Proof. eapply final_or; [exact S|reflexivity|reflexivity]. Qed.
Lemma v_speakers : lookup ns "speakers" = Some (last_or l ["--speakers"] (VList (map VText fixed_speakers))).
Proof. eapply final_or; [exact S|reflexivity|reflexivity]. Qed.
Lemma v_sources : lookup ns "n_sources" = Some (last_or l ["--n-sources"] (VInt 3)).
Proof. eapply final_or; [exact S|reflexivity|reflexivity]. Qed.
Lemma v_moving : lookup ns "n_moving_sources" = Some (last_or l ["--n-moving-sources"] (VInt 1)).
Proof. eapply final_or; [exact S|reflexivity|reflexivity]. Qed.
Lemma v_duration : lookup ns "duration_sec" = Some (last_or l ["--duration-sec"] (double 20 0)).
Proof. eapply final_or; [exact S|reflexivity|reflexivity]. Qed.
Lemma v_room : lookup ns "room_size" = Some (last_or l ["--room-size"] (VText "8.0,6.0,3.0")).
Proof. eapply final_or; [exact S|reflexivity|reflexivity]. Qed.
Lemma v_center : lookup ns "mic_center" = Some (last_or l ["--mic-center"] (VText "4.0,3.0,1.5")).
Proof. eapply final_or; [exact S|reflexivity|reflexivity]. Qed.
Lemma v_margin : lookup ns "source_margin" = Some (last_or l ["--source-margin"] (VText "0.5,0.5,0.3")).
Proof. eapply final_or; [exact S|reflexivity|reflexivity]. Qed.
Lemma v_random : lookup ns "randomize_mic_center" = Some (last_or l ["--randomize-mic-center"; "--no-randomize-mic-center"] (VBool true)).
Proof. eapply final_or; [exact S|reflexivity|reflexivity]. Qed.
Lemma v_edge : lookup ns "octa_edge_m" = Some (last_or l ["--octa-edge-m"] (double 1 0)).
Proof. eapply final_or; [exact S|reflexivity|reflexivity]. Qed.
Lemma v_steps : lookup ns "trajectory_steps" = Some (last_or l ["--trajectory-steps"] (VInt 1024)).
Proof. eapply final_or; [exact S|reflexivity|reflexivity]. Qed.
Lemma v_rir : lookup ns "rir_samples" = Some (last_or l ["--rir-samples"] (VInt 4096)).
Proof. eapply final_or; [exact S|reflexivity|reflexivity]. Qed.
Lemma v_rt60 : lookup ns "rt60" = Some (last_or l ["--rt60"] (double 3 1)).
Proof. eapply final_or; [exact S|reflexivity|reflexivity]. Qed.
Lemma v_sound : lookup ns "sound_speed" = Some (last_or l ["--sound-speed"] (double 343 0)).
Proof. eapply final_or; [exact S|reflexivity|reflexivity]. Qed.
Lemma v_order : lookup ns "max_order" = Some (last_or l ["--max-order"] (VInt 6)).
Proof. eapply final_or; [exact S|reflexivity|reflexivity]. Qed.
Lemma v_seed : lookup ns "seed" = Some (last_or l ["--seed"] (VInt 42)).
Proof. eapply final_or; [exact S|reflexivity|reflexivity]. Qed.
Lemma v_download : lookup ns "download_cmu" = Some (last_or l ["--download-cmu"; "--no-download-cmu"] (VBool false)).
Proof. eapply final_or; [exact S|reflexivity|reflexivity]. Qed.
Lemma v_overwrite : lookup ns "overwrite_dataset" = Some (last_or l ["--overwrite-dataset"] (VBool false)).
Proof. eapply final_or; [exact S|reflexivity|reflexivity]. Qed.
Lemma v_images : lookup ns "save_layout_images" = Some (last_or l ["--save-layout-images"; "--no-save-layout-images"] (VBool true)).
Proof. eapply final_or; [exact S|reflexivity|reflexivity]. Qed.
Lemma v_images_3d : lookup ns "save_layout_images_3d" = Some (last_or l ["--save-layout-images-3d"; "--no-save-layout-images-3d"] (VBool true)).
Proof. eapply final_or; [exact S|reflexivity|reflexivity]. Qed.
Lemma v_mp4 : lookup ns "save_layout_mp4" = Some (last_or l ["--save-layout-mp4"; "--no-save-layout-mp4"] (VBool true)).
Proof. eapply final_or; [exact S|reflexivity|reflexivity]. Qed.
Lemma v_mp4_3d : lookup ns "save_layout_mp4_3d" = Some (last_or l ["--save-layout-mp4-3d"; "--no-save-layout-mp4-3d"] (VBool true)).
Proof. eapply final_or; [exact S|reflexivity|reflexivity]. Qed.
Lemma v_fps : lookup ns "layout_video_fps" = Some (last_or l ["--layout-video-fps"] VNone).
Proof. eapply final_or; [exact S|reflexivity|reflexivity]. Qed.
Lemma v_no_audio : lookup ns "layout_video_no_audio" = Some (last_or l ["--layout-video-no-audio"] (VBool false)).
Proof. eapply final_or; [exact S|reflexivity|reflexivity]. Qed.
Lemma v_no_annotate : lookup ns "no_annotate_source_indices" = Some (last_or l ["--no-annotate-source-indices"] (VBool false)).
Proof. eapply final_or; [exact S|reflexivity|reflexivity]. Qed.
Lemma v_level : lookup ns "log_level" = Some (last_or l ["--log-level"] (VText "INFO")).
Proof. eapply final_or; [exact S|reflexivity|reflexivity]. Qed.
Lemma v_cmu : exists d, last_said l ["--cmu-root"] = Some (VPath d) /\ lookup ns "cmu_root" = Some (VPath d).
Proof.
  destruct S as [_ [F Rq]]. destruct (Rq (mkO "--cmu-root" "cmu_root" KOne TPath None true)) as [p [Ip Ep]]; [right; right; left; reflexivity|reflexivity|].
  assert (G : exists v, last_said l ["--cmu-root"] = Some v).
  { clear -Ip Ep. induction l as [|[it v] r IH]; [destruct Ip|]. cbn [last_said]. destruct Ip as [<-|Ip].
    - destruct (last_said r _); [eauto|]. cbn in Ep. rewrite Ep. cbn. eauto.
    - destruct (IH Ip) as [x ->]. eauto. }
  destruct G as [v G]. pose proof (final_or X builder_options builder_defaults argv l ["--cmu-root"] "cmu_root" VNone S eq_refl eq_refl) as L.
  destruct (or_path X builder_options argv l S ["--cmu-root"] VNone eq_refl) as [Q|[z Q]]; unfold last_or in Q, L; rewrite G in Q, L.
  - destruct (last_said_in _ _ _ G) as [it [I J]]. pose proof (said_meant X builder_options argv l S it v I) as M. destruct M as [[IT _] M].
    pose proof (typed_in (is_one TPath) builder_options ["--cmu-root"] _ eq_refl IT J) as K. unfold is_one in K. destruct (o_kind (i_opt it)); try discriminate.
    destruct M as [s [_ [_ [M _]]]]. destruct (o_type (i_opt it)); try discriminate. subst v. discriminate.
  - subst v. eauto.
Qed.
(** What [main] does with the texts that it reads itself. *)
Lemma main_call_said : forall level room center margin,
  last_or l ["--log-level"] (VText "INFO") = VText level -> last_or l ["--room-size"] (VText "8.0,6.0,3.0") = VText room ->
  last_or l ["--mic-center"] (VText "4.0,3.0,1.5") = VText center -> last_or l ["--source-margin"] (VText "0.5,0.5,0.3") = VText margin ->
  match configure_logging level with
  | Err e => main_call X ns = Err e
  | Ok _ => match parse_triplet X room, parse_triplet X center, parse_triplet X margin with
            | Ok _, Ok _, Ok _ => exists c, main_call X ns = Ok c
            | _, _, _ => main_call X ns = Err ValueError
            end
  end.
Proof.
  intros level room center margin H1 H2 H3 H4. unfold main_call.
  unfold get_text. rewrite v_level, H1. cbn [bind]. destruct (configure_logging level); [|reflexivity]. cbn [bind].
  rewrite v_room, H2. cbn [bind].
  destruct (parse_triplet X room) eqn:E1; [|cbn [bind]; rewrite (triplet_else _ _ _ E1); reflexivity]. cbn [bind].
  rewrite v_center, H3. cbn [bind]. destruct (parse_triplet X center) eqn:E2; [|cbn [bind]; rewrite (triplet_else _ _ _ E2); reflexivity]. cbn [bind].
  rewrite v_margin, H4. cbn [bind]. destruct (parse_triplet X margin) eqn:E3; [|cbn [bind]; rewrite (triplet_else _ _ _ E3); reflexivity]. cbn [bind].
  unfold get_path. destruct v_cmu as [cmu [_ Hc]]. rewrite v_root, Hc.
  destruct (or_path X _ argv l S ["--dataset-root"] (VPath "outputs/cmu_arctic_torchrir_dynamic_dataset") eq_refl) as [->|[? ->]]; cbn [bind];
  unfold get_texts; rewrite v_speakers; destruct (or_texts X _ argv l S ["--speakers"] fixed_speakers eq_refl) as [sp ->]; rewrite texts_back; cbn [bind];
  unfold get_int; rewrite v_scenes; destruct (or_int X _ argv l S ["--n-scenes"] 10%Z eq_refl) as [? ->]; cbn [bind];
  rewrite v_sources; destruct (or_int X _ argv l S ["--n-sources"] 3%Z eq_refl) as [? ->]; cbn [bind];
  rewrite v_moving; destruct (or_int X _ argv l S ["--n-moving-sources"] 1%Z eq_refl) as [? ->]; cbn [bind];
  rewrite v_steps; destruct (or_int X _ argv l S ["--trajectory-steps"] 1024%Z eq_refl) as [? ->]; cbn [bind];
  rewrite v_rir; destruct (or_int X _ argv l S ["--rir-samples"] 4096%Z eq_refl) as [? ->]; cbn [bind];
  rewrite v_order; destruct (or_int X _ argv l S ["--max-order"] 6%Z eq_refl) as [? ->]; cbn [bind];
  rewrite v_seed; destruct (or_int X _ argv l S ["--seed"] 42%Z eq_refl) as [? ->]; cbn [bind];
  unfold get_float, get_bool, get_float_or_none;
  rewrite v_download, v_overwrite, v_random, v_mp4, v_mp4_3d, v_no_audio, v_images, v_images_3d, v_no_annotate, v_duration, v_edge, v_rt60, v_sound, v_fps;
  destruct (or_bool X _ argv l S ["--download-cmu"; "--no-download-cmu"] false eq_refl) as [? ->];
  destruct (or_bool X _ argv l S ["--overwrite-dataset"] false eq_refl) as [? ->];
  destruct (or_bool X _ argv l S ["--randomize-mic-center"; "--no-randomize-mic-center"] true eq_refl) as [? ->];
  destruct (or_bool X _ argv l S ["--save-layout-mp4"; "--no-save-layout-mp4"] true eq_refl) as [? ->];
  destruct (or_bool X _ argv l S ["--save-layout-mp4-3d"; "--no-save-layout-mp4-3d"] true eq_refl) as [? ->];
  destruct (or_bool X _ argv l S ["--layout-video-no-audio"] false eq_refl) as [? ->];
  destruct (or_bool X _ argv l S ["--save-layout-images"; "--no-save-layout-images"] true eq_refl) as [? ->];
  destruct (or_bool X _ argv l S ["--save-layout-images-3d"; "--no-save-layout-images-3d"] true eq_refl) as [? ->];
  destruct (or_bool X _ argv l S ["--no-annotate-source-indices"] false eq_refl) as [? ->];
  assert (G : forall names a k, typed_by (is_one TFloat) builder_options names = true -> exists x, last_or l names (double a k) = VFloat x)
    by (let n := fresh in let a1 := fresh in let k1 := fresh in let K := fresh in let x := fresh in intros n a1 k1 K; destruct (or_float X _ argv l S n (double a1 k1) K) as [->|[x ->]]; [unfold double|]; eauto);
  destruct (G ["--duration-sec"] 20%Z 0%nat eq_refl) as [? ->]; destruct (G ["--octa-edge-m"] 1%Z 0%nat eq_refl) as [? ->];
  destruct (G ["--rt60"] 3%Z 1%nat eq_refl) as [? ->]; destruct (G ["--sound-speed"] 343%Z 0%nat eq_refl) as [? ->];
  destruct (or_float X _ argv l S ["--layout-video-fps"] VNone eq_refl) as [->|[? ->]]; cbn [bind]; eexists; reflexivity.
Qed.
Lemma main_call_as_said : forall path level b o seed download,
  last_or l ["--log-level"] (VText "INFO") = VText level -> (exists z, configure_logging level = Ok z) ->
  last_or l ["--seed"] (VInt 42) = VInt seed -> last_or l ["--download-cmu"; "--no-download-cmu"] (VBool false) = VBool download ->
  as_said X path l b o -> exists c, main_call X ns = Ok c /\ as_build path c = Some (b, o) /\ path (c_cmu c) = ba_cmu b /\ c_seed c = seed /\ c_download c = download.
Proof.
  intros path level b o seed download H1 [lv H2] H3 H4 A.
  destruct A as [[cmu [A1 A1']] [[root [A2 A2']] [A3 [A4 [A5 [A6 [A7 [[t1 [x1 [y1 [z1 [B1 [C1 [D1 E1]]]]]]] [[t2 [x2 [y2 [z2 [B2 [C2 [D2 E2]]]]]]]
    [[t3 [x3 [y3 [z3 [B3 [C3 [D3 E3]]]]]]] [A11 [A12 [A13 [A14 [A15 [A16 [A17 [A18 [A19 [A20 [A21 [A22 [A23 [A24 [A25 A26]]]]]]]]]]]]]]]]]]]]]]]]].
  destruct v_cmu as [cmu' [Q1 Q2]]. assert (cmu' = cmu) as -> by congruence. clear Q1.
  apply triplet_spec in C1, C2, C3.
  eexists. split; [|split].
  - unfold main_call, get_text, get_path, get_texts, get_int, get_float, get_bool, get_float_or_none.
    rewrite v_level, H1. cbn [bind]. rewrite H2. cbn [bind]. rewrite v_room, B1. cbn [bind]. rewrite C1. cbn [bind].
    rewrite v_center, B2. cbn [bind]. rewrite C2. cbn [bind]. rewrite v_margin, B3. cbn [bind]. rewrite C3. cbn [bind].
    rewrite v_root, A2. cbn [bind]. rewrite Q2. cbn [bind]. rewrite v_speakers, A3, texts_back. cbn [bind].
    rewrite v_scenes, A4, v_sources, A5, v_moving, A6, v_duration, A7, v_edge, A12, v_steps, A13, v_rir, A14, v_rt60, A15, v_sound, A16,
      v_order, A17, v_seed, H3, v_download, H4, v_overwrite, A18, v_random, A11, v_mp4, A21, v_mp4_3d, A22, v_fps, A23, v_no_audio, A24,
      v_images, A19, v_images_3d, A20, v_no_annotate, A25. cbn [bind].
    replace (match match o_fps o with Some r => VFloat (Fin r) | None => VNone end with
             | VFloat x => Ok (Some x) | VNone => Ok None | _ => Err TypeError end) with (@Ok (option num) (option_map Fin (o_fps o)))
      by (destruct (o_fps o); reflexivity).
    cbn [bind]. rewrite !negb_involutive. reflexivity.
  - unfold as_build. cbn [c_duration c_room c_center c_edge c_margin c_rt60 c_sound c_fps fin fin3 c_root c_cmu c_speakers c_scenes c_sources c_moving c_steps c_random c_rir c_overwrite c_order c_mp4 c_mp4_3d c_mux c_images c_images_3d c_annotate].
    replace (match option_map Fin (o_fps o) with None => Some None | Some x => match fin x with Some r => Some (Some r) | None => None end end) with (Some (o_fps o))
      by (destruct (o_fps o); reflexivity).
    destruct b as [b1 b2 b3 b4 [s1 s2 s3 s4 s5 s6 s7 s8 s9] b6 b7 b8 b9 b10], o. cbn in *. subst. rewrite <- A26. reflexivity.
  - cbn. auto.
Qed.
End M.
Lemma level_spec : forall s, (exists z, configure_logging s = Ok z) <-> ~ bad_level s.
Proof.
  intros s. unfold configure_logging, bad_level. destruct (find _ _) as [p|] eqn:F.
  - split; [|eauto]. intros _. apply find_some in F. destruct F as [I E]. apply String.eqb_eq in E. rewrite <- E.
    clear E. cbn in I. repeat destruct I as [<-|I]; try (cbn; intros [|]; discriminate). destruct I.
  - destruct (String.eqb_spec (UtlModel.upper s) "BASIC_FORMAT") as [E|N]; [split; [intros [? ?]; discriminate|intros H; exfalso; apply H; auto]|].
    destruct (String.eqb_spec (UtlModel.upper s) "_STYLES") as [E|N']; [split; [intros [? ?]; discriminate|intros H; exfalso; apply H; auto]|].
    split; [intros _ [H|H]; auto|eauto].
Qed.
Lemma level_error : forall s e, configure_logging s = Err e -> (UtlModel.upper s = "BASIC_FORMAT" /\ e = ValueError) \/ (UtlModel.upper s = "_STYLES" /\ e = TypeError).
Proof.
  intros s e. unfold configure_logging. destruct (find _ _); [discriminate|].
  destruct (String.eqb_spec (UtlModel.upper s) "BASIC_FORMAT"); [intros [= <-]; auto|].
  destruct (String.eqb_spec (UtlModel.upper s) "_STYLES"); [intros [= <-]; auto|]. discriminate.
Qed.
Lemma level_bad : forall s, (UtlModel.upper s = "BASIC_FORMAT" -> configure_logging s = Err ValueError) /\ (UtlModel.upper s = "_STYLES" -> configure_logging s = Err TypeError).
Proof. intros s. unfold configure_logging. split; intros ->; reflexivity. Qed.
