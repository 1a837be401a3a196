(** C93: runs of the example that builds a data set. *)
From Coq Require Import Ascii String List ZArith Reals Lia Lra Bool Permutation.
From Flocq Require Import Core.
From Verif Require Import Prelude PreludeFacts SignalModel SignalSpec FloatModel DirModel DirSpec IsmModel RoomModel GeoModel GeoSpec IoModel MetaModel MetaSpec.
From Verif Require FloatProofs.
From Verif Require DsModel DsSpec DsProofs DsProps CorpModel CorpSpec CorpProps LoopModel RefModel LoopTotal TotalSpec.
From Verif Require Import GeoSampling RefSpec LoopSpec LoopNames ExModel ExSpec ExProofs ExProps EdsModel EdsSpec EdsProofs EdsScene EdsRun EdsTotal.
Import ListNotations.
Local Notation length := List.length.
Local Notation app := List.app.
Local Open Scope R_scope.
Local Open Scope list_scope.

(** ** Names *)
(** The names of the files are known beforehand, in this order: a run writes the first of them, and
    all of them when it ends without an exception. *)
Theorem C93_layout W a fuel l : run_names (Z.to_nat (ea_n a)) (Z.to_nat (ea_scenes a)) l ->
  (exists rest, l = names (build W a fuel) ++ rest) /\ (finished (build W a fuel) -> names (build W a fuel) = l).
Proof.
  intros H. apply run_names_list in H. subst l. destruct (follows_build W a fuel) as [[r E] F]. split; [exists r; exact E|]. intros H. apply (F tt H).
Qed.
(** There is one such list, and no name occurs twice, however many scenes and sources there are. *)
Theorem C93_distinct n count : exists l, run_names n count l /\ NoDup l /\ forall l', run_names n count l' -> l' = l.
Proof.
  exists (run_list n count). split; [apply run_list_names|]. split; [apply run_nodup|]. intros l' H. apply run_names_list; auto.
Qed.
(** The description is the last file of a scene: when it is there, so are the audio files of the
    scene, all files of the scenes before and the notice. *)
Lemma prefix_cut {A} (p r x y : list A) z : p ++ r = x ++ z :: y -> NoDup (x ++ z :: y) -> In z p -> exists t, p = x ++ z :: t.
Proof.
  revert p. induction x as [|c x IH]; intros p E N I; cbn in *.
  - destruct p as [|d p]; [destruct I|]. injection E as -> _. exists p. auto.
  - destruct p as [|d p]; [destruct I|]. injection E as -> E. inversion N as [|? ? Nc N']; subst. destruct I as [->|I].
    + destruct Nc. apply in_or_app. right. cbn. auto.
    + destruct (IH p E N' I) as (t & ->). exists t. auto.
Qed.
Theorem C93_marker W a fuel i d l : scene_names (Z.to_nat (ea_n a)) i l -> writes 3 i d -> In (description_file d) (names (build W a fuel)) ->
  In "ATTRIBUTION.txt"%string (names (build W a fuel)) /\
  forall j l', (j <= i)%nat -> scene_names (Z.to_nat (ea_n a)) j l' -> forall f, In f l' -> In f (names (build W a fuel)).
Proof.
  intros Hl Hd H. set (n := Z.to_nat (ea_n a)) in *. destruct (follows_build W a fuel) as [[r E] _]. fold n in E.
  assert (d = LoopModel.padded 3 i) as -> by (eapply writes_fun; [|exact Hd|apply padded_writes]; lia).
  assert (Hi : (i < Z.to_nat (ea_scenes a))%nat).
  { unfold names in H. apply in_map_iff in H as ([f it] & Ef & H). cbn in Ef. subst f.
    destruct (member_build W a fuel i n (description_file (LoopModel.padded 3 i)) it) as (u & _ & Hi & _); auto. apply in_or_app. right. right. left. reflexivity. }
  set (N := Z.to_nat (ea_scenes a)) in *.
  assert (S : exists y, run_list n N = ("ATTRIBUTION.txt"%string :: concat (map (scene_list n) (seq 0 i)) ++ map (RefModel.ref_name (scene_prefix i)) (seq 0 n) ++ [(scene_prefix i ++ ".wav")%string]) ++ description_file (LoopModel.padded 3 i) :: y).
  { exists (concat (map (scene_list n) (seq (S i) (N - S i)))). unfold run_list. replace N with (i + (1 + (N - S i)))%nat at 1 by lia. rewrite !seq_app, !map_app, !concat_app. cbn [seq map concat Nat.add].
    rewrite app_nil_r. unfold scene_list at 2. change (scene_prefix i ++ "_metadata.json")%string with (description_file (LoopModel.padded 3 i)).
    replace (i + 1)%nat with (S i) by lia. cbn [app]. f_equal. rewrite <- !app_assoc. cbn [app]. reflexivity. }
  destruct S as (y & S). pose proof (run_nodup n N) as ND. rewrite S in ND, E. symmetry in E. destruct (prefix_cut _ _ _ _ _ E ND H) as (t & ->). split; [left; reflexivity|].
  intros j l' Hj Hl' f Hf. apply scene_names_list in Hl'. subst l'. destruct (Nat.eq_dec j i) as [->|].
  - apply in_app_or in Hf as [Hf|[<-|[<-|[]]]].
    + apply in_or_app. left. right. apply in_or_app. right. apply in_or_app. auto.
    + apply in_or_app. left. right. apply in_or_app. right. apply in_or_app. cbn. auto.
    + apply in_or_app. right. left. reflexivity.
  - apply in_or_app. left. right. apply in_or_app. left. apply in_concat. exists (scene_list n j). split; auto. apply in_map. apply in_seq. lia.
Qed.

(** ** Several runs *)
(** More scenes leave the earlier ones as they are, but for the number of scenes in the
    descriptions; a run that stops early stops in the same way. *)
Theorem C93_more_scenes W a n n' fuel : (n <= n')%Z ->
  let x := build W (with_count a n) fuel in let y := build W (with_count a n') fuel in
  (exists rest, map forget_count (fst y) = map forget_count (fst x) ++ rest) /\
  (~ finished x -> map forget_count (fst y) = map forget_count (fst x) /\ snd y = snd x).
Proof.
  intros L x y. destruct (more_scenes W a n n' fuel L) as [[r E] F]. split; [exists r; exact E|].
  intros N. destruct F as [F1 F2]; [|split; symmetry; auto]. intros [] Q. apply N. exact Q.
Qed.
(** What a directory holds afterwards: the files of the run, and old files with other names. *)
Lemma afterwards_app old (l : list (string * item)) f :
  fold_left (fun (d : directory) e f => if String.eqb f (fst e) then Some (snd e) else d f) l old f =
  match find (fun e => String.eqb f (fst e)) (rev l) with Some e => Some (snd e) | None => old f end.
Proof.
  revert old. induction l as [|e l IH]; intros old; cbn [fold_left rev find]; auto. rewrite IH. clear IH.
  assert (Q : forall l', find (fun e => String.eqb f (fst e)) (l' ++ [e]) = match find (fun e => String.eqb f (fst e)) l' with Some x => Some x | None => if String.eqb f (fst e) then Some e else None end).
  { induction l' as [|x l' IH]; cbn; [destruct (String.eqb f (fst e)); auto|]. destruct (String.eqb f (fst x)); auto. }
  rewrite Q. destruct (find _ (rev l)); auto. destruct (String.eqb f (fst e)); auto.
Qed.
Theorem C93_directory W a fuel old f :
  (forall it, In (f, it) (fst (build W a fuel)) -> afterwards old (build W a fuel) f = Some it) /\
  (~ In f (names (build W a fuel)) -> afterwards old (build W a fuel) f = old f).
Proof.
  unfold afterwards. rewrite afterwards_app. assert (ND : NoDup (names (build W a fuel))).
  { destruct (follows_build W a fuel) as [[r E] _]. pose proof (run_nodup (Z.to_nat (ea_n a)) (Z.to_nat (ea_scenes a))) as N. rewrite E in N. clear - N. revert N. generalize (names (build W a fuel)). intros l. induction l as [|x l IH]; intros N; [constructor|]. inversion N as [|? ? Nx N']; subst. constructor; auto. intros I. apply Nx, in_or_app. auto. }
  unfold names in *. split.
  - intros it H. destruct (find _ _) as [[g it']|] eqn:Ef.
    + apply find_some in Ef as [I Q]. apply in_rev in I. cbn [fst] in Q. apply String.eqb_eq in Q. subst g. cbn [snd]. f_equal.
      revert ND I H. generalize (fst (build W a fuel)). intros l. induction l as [|[g x] l IH]; intros N I H; [destruct I|]. cbn in N. inversion N as [|? ? Ng N']; subst.
      destruct I as [I|I], H as [H|H].
      * congruence.
      * injection I as -> ->. destruct Ng. apply in_map_iff. exists (f, it). auto.
      * injection H as -> ->. destruct Ng. apply in_map_iff. exists (f, it'). auto.
      * apply IH; auto.
    + exfalso. apply in_rev in H. apply (find_none _ _ Ef) in H. cbn in H. rewrite String.eqb_refl in H. discriminate.
  - intros N. destruct (find _ _) as [[g it']|] eqn:Ef; auto. exfalso. apply find_some in Ef as [I Q]. apply in_rev in I. cbn [fst] in Q. apply String.eqb_eq in Q. subst g.
    apply N. apply in_map_iff. exists (f, it'). auto.
Qed.
(** Scenes of an earlier, longer run stay, next to descriptions that count fewer scenes. *)
Theorem C93_stale_unchecked W a fuel old n i l f : (Z.to_nat (ea_scenes a) <= i)%nat -> scene_names n i l -> In f l ->
  afterwards old (build W a fuel) f = old f.
Proof.
  intros Hi Hl Hf. apply scene_names_list in Hl. subst l. apply C93_directory. intros H. unfold names in H. apply in_map_iff in H as ([g it] & Eg & H). cbn in Eg. subst g.
  destruct (member_build W a fuel i n f it Hf H) as (u & _ & L & _). lia.
Qed.

(** ** Contents *)
(** The rate of a scene is that of some recording. *)
Definition recorded (c : DsModel.corpus) (q : Z) : Prop := exists spk u x, DsModel.audio_of c spk u = Ok (x, q).
Lemma loop_rate c g dur spk fuel : forall order idx total st st', (forall q, DsModel.g_fs st = Some q -> recorded c q) ->
  DsModel.load_loop c g dur spk fuel order idx total st = Some (Ok st') -> forall q, DsModel.g_fs st' = Some q -> recorded c q.
Proof.
  induction fuel as [|fuel IH]; intros order idx total st st' R H; cbn [DsModel.load_loop] in H; [discriminate|]. destruct (negb _); [injection H as <-; exact R|].
  destruct (if (length order <=? idx)%nat then _ else _) as [[order' idx'] k']. destruct (nth_error order' idx') as [u|]; [|discriminate]. destruct (DsModel.audio_of c spk u) as [[x r]|] eqn:Ea; [|discriminate].
  destruct (DsModel.g_fs st) as [f|] eqn:Ef; [destruct (negb (r =? f)%Z); [discriminate|]|].
  - refine (IH _ _ _ _ _ _ H). cbn. intros q Q. injection Q as <-. apply R. reflexivity.
  - refine (IH _ _ _ _ _ _ H). cbn. intros q Q. injection Q as <-. exists spk, u, x. exact Ea.
Qed.
Lemma speakers_rate c g dur fuel l : forall k fs fs' rows info, (forall q, fs = Some q -> recorded c q) -> DsModel.load_speakers c g dur fuel k fs l = Some (Ok (fs', rows, info)) ->
  forall q, fs' = Some q -> recorded c q.
Proof.
  induction l as [|spk l IH]; intros k fs fs' rows info R H; cbn [DsModel.load_speakers] in H; [injection H as <- _ _; exact R|].
  destruct (DsModel.load_speaker c g dur fuel k fs spk) as [[[[[k1 fs1] s] ids]|e]|] eqn:E1; try discriminate.
  destruct (DsModel.load_speakers c g dur fuel k1 fs1 l) as [[[[fs2 rows2] info2]|e]|] eqn:E2; try discriminate. injection H as <- _ _.
  refine (IH _ _ _ _ _ _ E2). unfold DsModel.load_speaker in E1. destruct (DsModel.utts c spk) as [[|u0 us]|]; try discriminate.
  destruct (DsModel.load_loop _ _ _ _ _ _ _ _ _) as [[st|e]|] eqn:El; try discriminate. destruct (DsModel.g_fs st) as [f|] eqn:Ef; [|discriminate]. destruct (DsModel.cut _ _); [|discriminate].
  injection E1 as _ <- _ _. intros q Q. injection Q as <-. refine (loop_rate _ _ _ _ _ _ _ _ _ _ _ El f Ef). exact R.
Qed.
Lemma load_rate c n dur g fuel dry q info : DsModel.load_dataset_sources c n dur g fuel = Some (Ok (dry, q, info)) -> recorded c q.
Proof.
  intros H. unfold DsModel.load_dataset_sources in H. destruct (DsModel.choose_speakers c n g) as [l|]; [|discriminate].
  destruct (DsModel.load_speakers c g dur fuel 0 None l) as [[[[fs rs] inf]|e]|] eqn:El; try discriminate. destruct (DsModel.stack_rows rs); [|discriminate]. destruct fs as [f|]; [|discriminate].
  assert (f = q) as <- by congruence. refine (speakers_rate _ _ _ _ _ _ _ _ _ _ _ El f eq_refl). discriminate.
Qed.
(** All scenes of a run share the row of microphones; every file of scene [i] is one of those of
    [scene_made], with the rate of the recordings. *)
Theorem C93_scene W e a fuel : usual_world W e -> usual_args a -> names (build W a fuel) <> [] ->
  exists c mics, kept (ea_room a) c /\ row_at (ea_room a) c (Z.to_nat (ea_mics a)) mics /\
    forall i l d, scene_names (Z.to_nat (ea_n a)) i l -> writes 3 i d -> (exists f, In f l /\ In f (names (build W a fuel))) ->
    exists q info, (exists spk u x, DsModel.audio_of (ew_corpus W) spk u = Ok (x, q)) /\ forall T, DsSpec.whole_samples (ea_duration a) q T -> (0 < T)%nat ->
      exists files md, scene_made W e a c mics i T q info files md /\
        forall f it, In (f, it) (fst (build W a fuel)) -> In f l ->
          (exists w, In (f, w) files /\ it = Sound w q) \/ (f = description_file d /\ it = Json md).
Proof.
  intros UW UA N. destruct (prepare W a) as [u|x] eqn:Eu; [|exfalso; apply N; unfold build; rewrite Eu; reflexivity].
  assert (PU : prepared W a u) by (eapply prepare_spec; [exact UW|apply (ua_room _ UA)|apply (ua_mics _ UA)|exact Eu]).
  exists (fx_center u), (fx_mics u). split; [apply (pr_center _ _ _ PU)|]. split; [apply (pr_mics _ _ _ PU)|].
  intros i l d Hl Hd (f0 & Hf0 & H0). apply scene_names_list in Hl. subst l.
  assert (d = LoopModel.padded 3 i) as -> by (eapply writes_fun; [|exact Hd|apply padded_writes]; lia).
  unfold names in H0. apply in_map_iff in H0 as ([f it0] & Ef & H0). cbn in Ef. subst f.
  destruct (member_build W a fuel i _ f0 it0 Hf0 H0) as (u' & Eu' & _ & H1). rewrite Eu in Eu'. apply Ok_inj in Eu'. subst u'.
  destruct (scene_spec W e a u fuel i UW UA Eu) as [(E & _)|(q & info & (dry & El) & H)]; [rewrite E in H1; destruct H1|].
  exists q, info. split; [exact (load_rate _ _ _ _ _ _ _ _ El)|]. intros T WS HT. destruct (H T WS HT) as (files & md & Sm & [[r Tr] _] & _). exists files, md. split; auto.
  intros f it H2 Hf. destruct (member_build W a fuel i _ f it Hf H2) as (u' & Eu' & _ & H3). rewrite Eu in Eu'. apply Ok_inj in Eu'. subst u'.
  assert (I : In (f, it) (sounds q files ++ [((scene_prefix i ++ "_metadata.json")%string, Json md)])) by (rewrite Tr; apply in_or_app; auto).
  apply in_app_or in I as [I|[I|[]]].
  - left. unfold sounds in I. apply in_map_iff in I as ([g w] & Eg & I). cbn in Eg. injection Eg as -> <-. exists w. auto.
  - right. injection I as <- <-. split; reflexivity.
Qed.
(** With enough speakers, readable recordings, a filter that runs and places for the sources the
    run ends without an exception. *)
Theorem C93_completes W e a q T : usual_world W e -> usual_args a -> run_ready W a q T ->
  exists fuel0, forall fuel, (fuel0 <= fuel)%nat -> finished (build W a fuel).
Proof. apply run_ends. Qed.
(** The audio has the rate [q] of the recordings; rate, time axis and times of the description are
    always those of 16000 samples per second.  With another rate the last time is not that of the
    last sample. *)
Theorem C93_rate_unchecked W e a c mics i T q info files md : usual_args a -> scene_made W e a c mics i T q info files md ->
  (2 <= T)%nat -> (0 < q)%Z -> q <> 16000%Z ->
  field md ["room"; "fs"]%string = Some (number 16000) /\
  exists v x, field md ["timestamps"]%string = Some v /\ MetaSpec.item v [(Z.to_nat (ea_steps a) - 1)%nat] = Some (number x) /\ x <> (INR T - 1) / IZR q.
Proof.
  intros UA (dry & rows & modes & moving & starts & h & w & L & d & H) HT Hq Nq. cbv zeta in H. destruct H as (_ & _ & _ & _ & _ & _ & _ & _ & _ & _ & Nt).
  split; [apply (sn_rate _ _ _ _ _ _ _ _ _ _ _ _ _ _ _ Nt)|]. destruct (sn_times _ _ _ _ _ _ _ _ _ _ _ _ _ _ _ Nt) as (v & Ev & Iv). pose proof (ua_steps _ UA) as Hs.
  set (K := Z.to_nat (ea_steps a)) in *. assert (HK : (3 <= K)%nat) by (unfold K; lia). exists v, ((INR T - 1) / 16000). split; [exact Ev|]. split.
  - rewrite Iv by lia. do 2 f_equal. rewrite minus_INR by lia. cbn [INR]. assert (2 <= INR K) by (apply (le_INR 2); lia). field. lra.
  - apply (le_INR 2) in HT. cbn in HT. assert (Q0 : 0 < IZR q) by (apply (IZR_lt 0); auto). intros E. apply Nq. apply eq_IZR.
    apply (Rmult_eq_reg_l (INR T - 1)); [|lra]. replace ((INR T - 1) * IZR q) with ((INR T - 1) / 16000 * (16000 * IZR q)) by field. rewrite E. field. lra.
Qed.

(** ** Seeds and arguments *)
(** A description comes from the recordings that were loaded and names the arguments. *)
Lemma written_note W e a u fuel i f md : usual_world W e -> usual_args a -> prepare W a = Ok u -> In (f, Json md) (fst (example_scene W a u fuel i)) ->
  exists dry q info, DsModel.load_dataset_sources (ew_corpus W) (ea_n a) (ea_duration a) (ew_rng W (ea_seed a + Z.of_nat i)) fuel = Some (Ok (dry, q, info)) /\
    field md ["source_info"]%string = Some (to_serializable (info_value info)) /\
    field md ["extra"; "args"]%string = Some (to_serializable (serialize_args a)) /\
    exists modes moving refs, field md ["extra"]%string = Some (to_serializable (PDict (scene_extra a (fx_source u) modes moving refs))).
Proof.
  intros UW UA Eu H. assert (PU : prepared W a u) by (eapply prepare_spec; [exact UW|apply (ua_room _ UA)|apply (ua_mics _ UA)|exact Eu]).
  destruct (scene_cases W e a u fuel i UW UA PU) as [(E & _)|(dry & q & info & rows & modes & moving & starts & p & rirs & h & L & SP)]; [rewrite E in H; destruct H|].
  exists dry, q, info. pose proof (sp_load _ _ _ _ _ _ _ _ _ _ _ _ _ _ _ _ _ SP) as El. split; [exact El|].
  unfold example_scene in H. rewrite El in H. cbv zeta in H. rewrite (sp_tracks _ _ _ _ _ _ _ _ _ _ _ _ _ _ _ _ _ SP), ebind_lift_ok in H.
  apply in_bind in H as [[]|(x & _ & H)]. apply in_bind in H as [[]|(y & _ & H)].
  assert (NJ : forall A (m : erun A), (forall g it, In (g, it) (fst m) -> exists w q, it = Sound w q) -> ~ In (f, Json md) (fst m)).
  { intros A m Hm I. destruct (Hm _ _ I) as (? & ? & ?). discriminate. }
  assert (SS : forall g qq w g' it, In (g', it) (fst (save_sound W g qq w)) -> exists w q, it = Sound w q).
  { intros g qq w g' it I. unfold save_sound in I. apply in_bind in I as [[]|(w' & _ & I)]. unfold save in I. destruct (ew_save W g); cbn in I; [contradiction|]. destruct I as [I|[]]. injection I as <- <-. eauto. }
  apply in_bind in H as [H|(refs & _ & H)].
  { exfalso. revert H. apply NJ. generalize (seq 0 (Z.to_nat (ea_n a))). intros l. induction l as [|s l IH]; intros g it I; cbn [references] in I; [contradiction|].
    apply in_bind in I as [[]|(? & _ & I)]. apply in_bind in I as [I|(? & _ & I)]; [eapply SS; eauto|]. apply in_bind in I as [[]|(? & _ & I)]. apply in_bind in I as [I|(? & _ & I)]; [eapply IH; eauto|contradiction]. }
  apply in_bind in H as [H|(? & _ & H)]; [exfalso; revert H; apply NJ, SS|]. apply in_bind in H as [[]|(v & Ev & H)]. cbn in Ev. injection Ev as Ev.
  unfold save in H. destruct (ew_save W _); cbn in H; [contradiction|]. destruct H as [H|[]]. injection H as _ ->.
  unfold description in Ev. rewrite (sp_points _ _ _ _ _ _ _ _ _ _ _ _ _ _ _ _ _ SP) in Ev. cbv zeta in Ev.
  destruct (note_fields _ _ Ev) as (_ & _ & G3 & G4). split; [apply G3; reflexivity|]. unfold scene_extra in G4. specialize (G4 _ _ eq_refl ltac:(discriminate)).
  rewrite (field_more _ _ _ _ G4). split; [reflexivity|]. exists modes, moving, refs. exact G4.
Qed.
(** Speakers and utterances of a scene follow from the sum of seed and scene number: runs with
    consecutive seeds share the speech of all scenes but one. *)
Theorem C93_speech_unchecked W e a a' fuel i j d d' md md' : usual_world W e -> usual_args a -> usual_args a' -> ea_n a = ea_n a' -> ea_duration a = ea_duration a' ->
  (ea_seed a + Z.of_nat i = ea_seed a' + Z.of_nat j)%Z -> writes 3 i d -> writes 3 j d' ->
  In (description_file d, Json md) (fst (build W a fuel)) -> In (description_file d', Json md') (fst (build W a' fuel)) ->
  field md ["source_info"]%string = field md' ["source_info"]%string.
Proof.
  intros UW UA UA' En Ed Es Hd Hd' H H'.
  assert (d = LoopModel.padded 3 i) as -> by (eapply writes_fun; [|exact Hd|apply padded_writes]; lia).
  assert (d' = LoopModel.padded 3 j) as -> by (eapply writes_fun; [|exact Hd'|apply padded_writes]; lia).
  assert (M : forall k n, In (description_file (LoopModel.padded 3 k)) (scene_list n k)) by (intros k n; apply in_or_app; right; right; left; reflexivity).
  destruct (member_build W a fuel i 0 _ _ (M i 0%nat) H) as (u & Eu & _ & Hu). destruct (member_build W a' fuel j 0 _ _ (M j 0%nat) H') as (u' & Eu' & _ & Hu').
  destruct (written_note _ _ _ _ _ _ _ _ UW UA Eu Hu) as (dry & q & info & El & F & _). destruct (written_note _ _ _ _ _ _ _ _ UW UA' Eu' Hu') as (dry' & q' & info' & El' & F' & _).
  rewrite En, Ed, Es in El. rewrite El in El'. injection El' as <- <- <-. rewrite F, F'. reflexivity.
Qed.
(** The arguments in any description determine the run. *)
Definition rooted (a : eargs) : eargs :=
  mkE (ea_dataset a) (Some (dataset_root a)) (ea_subset a) (ea_download a) (ea_scenes a) (ea_n a) (ea_moving a) (ea_mics a) (ea_duration a) (ea_seed a)
      (ea_room a) (ea_steps a) (ea_order a) (ea_tmax a) (ea_device a) (ea_out a) (ea_plot a) (ea_level a).
Lemma build_rooted W a fuel : build W (rooted a) fuel = build W a fuel.
Proof.
  assert (S : forall u i, example_scene W (rooted a) u fuel i = example_scene W a u fuel i) by reflexivity.
  assert (SS : forall u n i, example_scenes W (rooted a) u fuel n i = example_scenes W a u fuel n i).
  { intros u. induction n as [|n IH]; intros i; cbn [example_scenes]; auto. rewrite S. destruct (example_scene W a u fuel i) as [t [[x|x]|]]; cbn [ebind]; auto. rewrite IH. reflexivity. }
  unfold build. change (prepare W (rooted a)) with (prepare W a). destruct (prepare W a) as [u|x]; [|reflexivity]. rewrite !ebind_lift_ok.
  destruct (save W _ _) as [t [[x|x]|]]; cbn [ebind]; auto. change (ea_scenes (rooted a)) with (ea_scenes a). rewrite SS. reflexivity.
Qed.
Lemma numbers_inj l l' : map to_serializable (map pyf l) = map to_serializable (map pyf l') -> l = l'.
Proof. revert l'. induction l as [|x l IH]; intros [|y l'] H; try discriminate; auto. cbn in H. injection H as -> H. f_equal. apply IH; auto. Qed.
Lemma args_rooted a a' : to_serializable (serialize_args a) = to_serializable (serialize_args a') -> rooted a = rooted a'.
Proof.
  intros H. unfold rooted. remember (dataset_root a) as d eqn:D. remember (dataset_root a') as d' eqn:D'. unfold serialize_args in H. rewrite <- D, <- D' in H. clear D D'.
  destruct a as [a1 a2 a3 a4 a5 a6 a7 a8 a9 a10 r a12 a13 a14 a15 a16 a17 a18], a' as [b1 b2 b3 b4 b5 b6 b7 b8 b9 b10 r' b12 b13 b14 b15 b16 b17 b18].
  cbn [ea_dataset ea_dir ea_subset ea_download ea_scenes ea_n ea_moving ea_mics ea_duration ea_seed ea_room ea_steps ea_order ea_tmax ea_device ea_out ea_plot ea_level] in *.
  unfold pyi, pyb in H. cbn [to_serializable map fst snd] in H. injection H. clear H. intros. subst.
  assert (r = r') as -> by (apply numbers_inj; assumption). reflexivity.
Qed.
Theorem C93_reproducible W e a a' fuel fuel' f f' md md' : usual_world W e -> usual_args a -> usual_args a' ->
  In (f, Json md) (fst (build W a fuel)) -> In (f', Json md') (fst (build W a' fuel')) ->
  field md ["extra"; "args"]%string = field md' ["extra"; "args"]%string -> forall k, build W a k = build W a' k.
Proof.
  intros UW UA UA' H H' E k.
  assert (M : forall a fuel f md, usual_args a -> In (f, Json md) (fst (build W a fuel)) -> field md ["extra"; "args"]%string = Some (to_serializable (serialize_args a))).
  { clear - UW. intros a fuel f md UA H. unfold build in H. apply in_bind in H as [[]|(u & Eu & H)]. cbn in Eu. injection Eu as Eu. apply in_bind in H as [H|(? & _ & H)].
    - unfold save in H. destruct (ew_save W _); cbn in H; [contradiction|]. destruct H as [H|[]]. discriminate.
    - apply member_scenes in H as (j & _ & H). destruct (written_note _ _ _ _ _ _ _ _ UW UA Eu H) as (? & ? & ? & _ & _ & F & _). exact F. }
  rewrite (M _ _ _ _ UA H), (M _ _ _ _ UA' H') in E. apply (f_equal (fun o => match o with Some v => v | None => PNone end)) in E. cbv beta iota in E. rewrite <- (build_rooted W a), <- (build_rooted W a'). f_equal. apply args_rooted. exact E.
Qed.
(** What every description says about the run: the arguments one by one (the directory that was
    used, the subset only for LibriSpeech), the licence and where the notice lies. *)
Theorem C93_described W e a fuel f md : usual_world W e -> usual_args a -> In (f, Json md) (fst (build W a fuel)) ->
  let x ks := field md ("extra" :: ks)%string in let arg k := x ["args"; k]%string in
  let int z := Some (PScalar (SInt z)) in let flag b := Some (PScalar (SBool b)) in let word w := Some (PStr w) in
  x ["mode"]%string = word "dynamic_dataset"%string /\ x ["attribution_file"]%string = word "ATTRIBUTION.txt"%string /\
  x ["dataset"]%string = word (ea_dataset a) /\
  x ["subset"]%string = Some (if string_dec (ea_dataset a) "librispeech" then PStr (ea_subset a) else PNone) /\
  x ["modifications"]%string = Some (PList [PStr "Utterances are concatenated and trimmed to a fixed duration per source.";
     PStr "Dynamic room impulse responses are simulated with ISM over trajectories.";
     PStr "Outputs are derived mixtures and per-source convolved references."])%string /\
  arg "dataset"%string = word (ea_dataset a) /\
  arg "dataset_dir"%string = word (match ea_dir a with Some d => d | None =>
     if string_dec (ea_dataset a) "cmu_arctic" then "datasets/cmu_arctic" else "datasets/librispeech" end)%string /\
  arg "subset"%string = word (ea_subset a) /\ arg "download"%string = flag (ea_download a) /\
  arg "num_scenes"%string = int (ea_scenes a) /\ arg "num_sources"%string = int (ea_n a) /\
  arg "num_moving_sources"%string = int (ea_moving a) /\ arg "num_mics"%string = int (ea_mics a) /\
  arg "duration"%string = Some (number (ea_duration a)) /\ arg "seed"%string = int (ea_seed a) /\
  arg "room"%string = Some (PList (map number (ea_room a))) /\ arg "steps"%string = int (ea_steps a) /\
  arg "order"%string = int (ea_order a) /\ arg "tmax"%string = Some (number (ea_tmax a)) /\
  arg "device"%string = word (ea_device a) /\ arg "out_dir"%string = word (ea_out a) /\
  arg "plot"%string = flag (ea_plot a) /\ arg "log_level"%string = word (ea_level a).
Proof.
  intros UW UA H x arg int flag word.
  assert (G : exists u modes moving refs, field md ["extra"]%string = Some (to_serializable (PDict (scene_extra a (fx_source u) modes moving refs)))).
  { unfold build in H. apply in_bind in H as [[]|(u & Eu & H)]. cbn in Eu. injection Eu as Eu. apply in_bind in H as [H|(? & _ & H)].
    - unfold save in H. destruct (ew_save W _); cbn in H; [contradiction|]. destruct H as [H|[]]. discriminate.
    - apply member_scenes in H as (j & _ & H). destruct (written_note _ _ _ _ _ _ _ _ UW UA Eu H) as (? & ? & ? & _ & _ & _ & F). exists u. exact F. }
  destruct G as (u & modes & moving & refs & G). unfold arg, x.
  repeat split; rewrite (field_more _ _ _ _ G); try reflexivity.
  - unfold scene_extra, named_subset. destruct (String.eqb_spec (ea_dataset a) "librispeech") as [E|E]; destruct (string_dec _ _); try contradiction; reflexivity.
  - unfold scene_extra, serialize_args, dataset_root. destruct (ea_dir a); [reflexivity|].
    destruct (String.eqb_spec (ea_dataset a) "cmu_arctic") as [E|E]; destruct (string_dec _ _); try contradiction; reflexivity.
  - unfold scene_extra, serialize_args. cbn. do 2 f_equal. rewrite map_map. reflexivity.
Qed.
(** Every description carries the licence of the data set it was made from: the one of the notice. *)
Lemma prepared_source W a u : prepare W a = Ok u ->
  CorpModel.attribution_for (ea_dataset a) (option_map CorpModel.u (named_subset a)) = Ok (fx_source u).
Proof.
  intros Eu. unfold prepare in Eu. destruct (ew_device W _); [|discriminate]. cbn [bind] in Eu. destruct (example_room _ _); [|discriminate]. cbn [bind] in Eu.
  destruct (match plain_room _ with Some r => Ok r | None => _ end); [|discriminate]. cbn [bind] in Eu. destruct (mics_at _ _); [|discriminate]. cbn [bind] in Eu.
  destruct (CorpModel.attribution_for _ _) as [t|]; [|discriminate]. cbn [bind] in Eu. apply Ok_inj in Eu. subst u. reflexivity.
Qed.
Lemma text_u s : text (CorpModel.u s) = s.
Proof. induction s as [|c s IH]; [reflexivity|]. cbn. f_equal; [apply Ascii.ascii_N_embedding|exact IH]. Qed.
Theorem C93_license W e a fuel f md : usual_world W e -> usual_args a -> In (f, Json md) (fst (build W a fuel)) ->
  let x k := field md ["extra"; "dataset_license"; k]%string in let word w := Some (PStr w) in
  x "attribution_required"%string = Some (PScalar (SBool true)) /\
  (DirSpec.spells (ea_dataset a) "cmu_arctic" /\ x "dataset_key"%string = word "cmu_arctic"%string /\ x "dataset"%string = word "CMU ARCTIC"%string /\
     x "source"%string = word "http://www.festvox.org/cmu_arctic/"%string /\ x "license_url"%string = word "http://www.festvox.org/cmu_arctic/"%string /\
     x "license_name"%string = word "Permissive (attribution required; see upstream COPYING)"%string /\
     x "required_attribution"%string = word "Carnegie Mellon University, Language Technologies Institute (CMU ARCTIC)"%string /\
     x "subset"%string = Some PNone \/
   DirSpec.spells (ea_dataset a) "librispeech" /\ x "dataset_key"%string = word "librispeech"%string /\ x "dataset"%string = word "LibriSpeech (SLR12)"%string /\
     x "source"%string = word "https://www.openslr.org/12"%string /\ x "license_url"%string = word "https://creativecommons.org/licenses/by/4.0/"%string /\
     x "license_name"%string = word "Creative Commons Attribution 4.0 International (CC BY 4.0)"%string /\
     x "required_attribution"%string = word "Vassil Panayotov, Guoguo Chen, Daniel Povey, and Sanjeev Khudanpur (LibriSpeech, 2015)"%string /\
     x "subset"%string = Some (if string_dec (ea_dataset a) "librispeech" then PStr (ea_subset a) else PNone)).
Proof.
  intros UW UA H x word.
  assert (G : exists u modes moving refs, prepare W a = Ok u /\
    field md ["extra"]%string = Some (to_serializable (PDict (scene_extra a (fx_source u) modes moving refs)))).
  { unfold build in H. apply in_bind in H as [[]|(u & Eu & H)]. cbn in Eu. injection Eu as Eu. apply in_bind in H as [H|(? & _ & H)].
    - unfold save in H. destruct (ew_save W _); cbn in H; [contradiction|]. destruct H as [H|[]]. discriminate.
    - apply member_scenes in H as (j & _ & H). destruct (written_note _ _ _ _ _ _ _ _ UW UA Eu H) as (? & ? & ? & _ & _ & _ & F).
      destruct F as (modes & moving & refs & F). exists u, modes, moving, refs. auto. }
  destruct G as (u & modes & moving & refs & Eu & G). apply prepared_source in Eu.
  assert (D : (forall k, x k = field (to_serializable (PDict (scene_extra a (fx_source u) modes moving refs))) ["dataset_license"; k]%string)).
  { intros k. unfold x. rewrite (field_more _ _ _ _ G). reflexivity. }
  clearbody x. rewrite D. setoid_rewrite D. clear D G.
  destruct (CorpProps.C75_datasets _ _ _ Eu) as (Q & _). unfold CorpModel.attribution_for in Eu.
  destruct (String.eqb (DirModel.lower _) "cmu_arctic").
  - injection Eu as Eu. rewrite <- Eu in *. split; [reflexivity|]. left. destruct Q as [(Q & _)|(_ & Q & _)]; [|discriminate Q]. split; [exact Q|]. repeat split.
  - destruct (String.eqb (DirModel.lower _) "librispeech"); [|discriminate].
    injection Eu as Eu. rewrite <- Eu in *. split; [reflexivity|]. right. destruct Q as [(_ & Q & _)|(Q & _)]; [discriminate Q|]. split; [exact Q|]. repeat split.
    unfold named_subset. destruct (String.eqb_spec (ea_dataset a) "librispeech") as [E|E]; destruct (string_dec _ _); try contradiction; [|reflexivity].
    cbn. do 2 f_equal. apply text_u.
Qed.
(** Nothing is written without the notice, which tells the licence of the data set and, for
    LibriSpeech, the subset. *)
Theorem C93_notice W a fuel : names (build W a fuel) <> [] -> CorpSpec.one_line (CorpModel.u (ea_subset a)) ->
  exists t facts, In ("ATTRIBUTION.txt"%string, Notice t) (fst (build W a fuel)) /\
    CorpSpec.tells t facts (CorpModel.default_notes true) /\
    (DirSpec.spells (ea_dataset a) "cmu_arctic" /\ CorpSpec.f_dataset facts = CorpModel.u "CMU ARCTIC" /\ CorpSpec.f_subset facts = None \/
     DirSpec.spells (ea_dataset a) "librispeech" /\ CorpSpec.f_dataset facts = CorpModel.u "LibriSpeech (SLR12)" /\
       CorpSpec.f_subset facts = (if string_dec (ea_dataset a) "librispeech" then Some (CorpModel.u (ea_subset a)) else None)).
Proof.
  intros N O. destruct (prepare W a) as [u|x] eqn:Eu; [|exfalso; apply N; unfold build; rewrite Eu; reflexivity].
  assert (At : CorpModel.attribution_for (ea_dataset a) (option_map CorpModel.u (named_subset a)) = Ok (fx_source u)).
  { unfold prepare in Eu. destruct (ew_device W _); [|discriminate]. cbn [bind] in Eu. destruct (example_room _ _); [|discriminate]. cbn [bind] in Eu.
    destruct (match plain_room _ with Some r => Ok r | None => _ end); [|discriminate]. cbn [bind] in Eu. destruct (mics_at _ _); [|discriminate]. cbn [bind] in Eu.
    destruct (CorpModel.attribution_for _ _) as [t|]; [|discriminate]. cbn [bind] in Eu. apply Ok_inj in Eu. subst u. reflexivity. }
  exists (notice (fx_source u)), (CorpSpec.mkFacts (CorpModel.a_dataset (fx_source u)) (CorpModel.a_source (fx_source u)) (CorpModel.a_license (fx_source u))
    (CorpModel.a_url (fx_source u)) (CorpModel.a_credit (fx_source u)) (CorpModel.a_subset (fx_source u))).
  split; [|split].
  - unfold build in *. rewrite Eu, ebind_lift_ok in *. unfold save in *. destruct (ew_save W "ATTRIBUTION.txt"); cbn [ebind] in *; [exfalso; apply N; reflexivity|].
    destruct (example_scenes _ _ _ _ _ _) as [t' r]. left. reflexivity.
  - destruct (CorpProps.C75_default (CorpModel.mkPath false []) (ea_dataset a) _ _ true (CorpModel.u "x") At) as (t & Et & T).
    { unfold named_subset. destruct (String.eqb _ _); cbn; auto. }
    unfold CorpModel.save_attribution_file in Et. cbn in Et. injection Et as <-. exact T.
  - destruct (CorpProps.C75_datasets _ _ _ At) as (D & _). cbn [CorpSpec.f_dataset CorpSpec.f_subset].
    destruct D as [(D1 & D2 & D3)|(D1 & D2 & D3)]; [left|right]; repeat split; auto. rewrite D3. unfold named_subset.
    destruct (String.eqb_spec (ea_dataset a) "librispeech") as [E|E]; destruct (string_dec _ _); try contradiction; reflexivity.
Qed.
(** [random.Random(-z)] is [random.Random(z)].  With a negative seed scenes whose seeds are opposite
    hold the same audio, under different names. *)
Lemma sound_at W e a u fuel i f w r dry q info rows modes moving starts p rirs h L :
  scene_parts W e a u fuel i dry q info rows modes moving starts p rirs h L -> fx_room u = the_room (ea_room a) ->
  In (f, Sound w r) (fst (example_scene W a u fuel i)) ->
  r = q /\ exists k, nth_error (scene_list (Z.to_nat (ea_n a)) i) k = Some f /\
    bind (heard W u 0 rirs (mkT [length dry; length (hd [] dry)] (concat dry)) (if (k <? Z.to_nat (ea_n a))%nat then Some k else None)) (save_samples (ew_float W) true 1) = Ok w.
Proof.
  intros SP Er H. unfold example_scene in H. rewrite (sp_load _ _ _ _ _ _ _ _ _ _ _ _ _ _ _ _ _ SP) in H. cbv zeta in H. rewrite (sp_tracks _ _ _ _ _ _ _ _ _ _ _ _ _ _ _ _ _ SP), ebind_lift_ok in H.
  assert (Rr : responses W a u i rows = Ok rirs) by (unfold responses; rewrite (sp_points _ _ _ _ _ _ _ _ _ _ _ _ _ _ _ _ _ SP), Er; apply (sp_rirs _ _ _ _ _ _ _ _ _ _ _ _ _ _ _ _ _ SP)).
  rewrite Rr, ebind_lift_ok in H. assert (Hh : forall sg who, heard W u i rirs sg who = heard W u 0 rirs sg who) by (intros; unfold heard; rewrite (sp_h _ _ _ _ _ _ _ _ _ _ _ _ _ _ _ _ _ SP); reflexivity).
  set (sg := mkT [length dry; length (hd [] dry)] (concat dry)) in *. set (n := Z.to_nat (ea_n a)) in *.
  assert (SS : forall g w', In (f, Sound w r) (fst (save_sound W g q w')) -> f = g /\ r = q /\ save_samples (ew_float W) true 1 w' = Ok w).
  { intros g w' I. unfold save_sound in I. apply in_bind in I as [[]|(w2 & E2 & I)]. cbn in E2. injection E2 as E2. unfold save in I. destruct (ew_save W g); cbn in I; [contradiction|]. destruct I as [I|[]]. injection I as <- <- <-. auto. }
  apply in_bind in H as [[]|(y & Ey & H)]. unfold elift in Ey. cbn [snd] in Ey. injection Ey as Ey. rewrite Hh in Ey. apply in_bind in H as [H|(refs & _ & H)].
  - assert (R : forall l, In (f, Sound w r) (fst (references W u i rirs sg q info l)) -> r = q /\ exists s, In s l /\ f = RefModel.ref_name (scene_prefix i) s /\
      bind (heard W u 0 rirs sg (Some s)) (save_samples (ew_float W) true 1) = Ok w).
    { induction l as [|s l IH]; intros I; cbn [references] in I; [contradiction|]. apply in_bind in I as [[]|(y' & Ey' & I)]. unfold elift in Ey'. cbn [snd] in Ey'. injection Ey' as Ey'. rewrite Hh in Ey'.
      apply in_bind in I as [I|(? & _ & I)].
      - apply SS in I as (-> & -> & I). split; auto. exists s. split; [left; auto|]. split; auto. rewrite Ey'. exact I.
      - apply in_bind in I as [[]|(? & _ & I)]. apply in_bind in I as [I|(? & _ & [])]. apply IH in I as (-> & s' & I & J). split; auto. exists s'. split; [right; auto|auto]. }
    apply R in H as (-> & s & I & -> & J). split; auto. apply in_seq in I. exists s. split.
    + unfold scene_list. rewrite nth_error_app1 by (rewrite map_length, seq_length; lia). rewrite nth_error_map, (nth_error_nth' _ 0%nat) by (rewrite seq_length; lia). rewrite seq_nth by lia. reflexivity.
    + destruct (Nat.ltb_spec s n); [exact J|lia].
  - apply in_bind in H as [H|(? & _ & H)].
    + apply SS in H as (-> & -> & H). split; auto. exists n. split.
      * unfold scene_list. rewrite nth_error_app2 by (rewrite map_length, seq_length; lia). rewrite map_length, seq_length, Nat.sub_diag. reflexivity.
      * destruct (Nat.ltb_spec n n); [lia|]. rewrite Ey. exact H.
    + exfalso. apply in_bind in H as [[]|(? & _ & H)]. unfold save in H. destruct (ew_save W _); cbn in H; [contradiction|]. destruct H as [H|[]]. discriminate.
Qed.
Theorem C93_negative_seed_unchecked W e a fuel i j k l l' f f' w w' q q' : usual_world W e -> usual_args a ->
  (forall z, ew_rng W (- z) = ew_rng W z) -> (forall z, ew_after W (- z) = ew_after W z) -> (2 * ea_seed a + Z.of_nat i + Z.of_nat j = 0)%Z ->
  scene_names (Z.to_nat (ea_n a)) i l -> scene_names (Z.to_nat (ea_n a)) j l' -> nth_error l k = Some f -> nth_error l' k = Some f' ->
  In (f, Sound w q) (fst (build W a fuel)) -> In (f', Sound w' q') (fst (build W a fuel)) -> w = w' /\ q = q'.
Proof.
  intros UW UA Hr Ha Hs Hl Hl' Hk Hk' H H'. apply scene_names_list in Hl, Hl'. subst l l'.
  destruct (member_build W a fuel i _ f _ (nth_error_In _ _ Hk) H) as (u & Eu & _ & Hu). destruct (member_build W a fuel j _ f' _ (nth_error_In _ _ Hk') H') as (u' & Eu' & _ & Hu').
  rewrite Eu in Eu'. apply Ok_inj in Eu'. subst u'.
  assert (PU : prepared W a u) by (eapply prepare_spec; [exact UW|apply (ua_room _ UA)|apply (ua_mics _ UA)|exact Eu]).
  destruct (scene_cases W e a u fuel i UW UA PU) as [(E & _)|(dry & q0 & info & rows & modes & moving & starts & p & rirs & h & L & SP)]; [rewrite E in Hu; destruct Hu|].
  destruct (scene_cases W e a u fuel j UW UA PU) as [(E & _)|(dry' & q0' & info' & rows' & modes' & moving' & starts' & p' & rirs' & h' & L' & SP')]; [rewrite E in Hu'; destruct Hu'|].
  destruct (sound_at _ _ _ _ _ _ _ _ _ _ _ _ _ _ _ _ _ _ _ _ SP (pr_room _ _ _ PU) Hu) as (-> & k1 & K1 & S1).
  destruct (sound_at _ _ _ _ _ _ _ _ _ _ _ _ _ _ _ _ _ _ _ _ SP' (pr_room _ _ _ PU) Hu') as (-> & k2 & K2 & S2).
  assert (U : forall i k k1 f, nth_error (scene_list (Z.to_nat (ea_n a)) i) k = Some f -> nth_error (scene_list (Z.to_nat (ea_n a)) i) k1 = Some f -> k1 = k).
  { clear. intros i k k1 f A B. apply (proj1 (NoDup_nth_error (scene_list (Z.to_nat (ea_n a)) i)) (scene_nodup _ _)); [apply nth_error_Some; congruence|congruence]. }
  apply (U i k) in K1; auto. apply (U j k) in K2; auto. subst k1 k2.
  assert (Es : (ea_seed a + Z.of_nat j = - (ea_seed a + Z.of_nat i))%Z) by lia.
  pose proof (sp_load _ _ _ _ _ _ _ _ _ _ _ _ _ _ _ _ _ SP) as A1. pose proof (sp_load _ _ _ _ _ _ _ _ _ _ _ _ _ _ _ _ _ SP') as A2. rewrite Es, Hr, A1 in A2. injection A2 as <- <- <-.
  pose proof (sp_tracks _ _ _ _ _ _ _ _ _ _ _ _ _ _ _ _ _ SP) as B1. pose proof (sp_tracks _ _ _ _ _ _ _ _ _ _ _ _ _ _ _ _ _ SP') as B2. rewrite Es, Ha, B1 in B2. injection B2 as <- <- <-.
  pose proof (sp_points _ _ _ _ _ _ _ _ _ _ _ _ _ _ _ _ _ SP) as D1. pose proof (sp_points _ _ _ _ _ _ _ _ _ _ _ _ _ _ _ _ _ SP') as D2. rewrite D1 in D2. injection D2 as <-.
  pose proof (sp_rirs _ _ _ _ _ _ _ _ _ _ _ _ _ _ _ _ _ SP) as F1. pose proof (sp_rirs _ _ _ _ _ _ _ _ _ _ _ _ _ _ _ _ _ SP') as F2. rewrite F1 in F2. apply Ok_inj in F2. subst rirs'.
  rewrite S1 in S2. apply Ok_inj in S2. auto.
Qed.

(** ** Examples *)
(** A room of four by four metres, one zigzagging source of two speakers, recordings with the rate
    [q], generators that depend on the absolute value of the seed. *)
Definition x_world (q : Z) : eworld :=
  mkW (mkExt unit (fun _ _ => Ok tt) (fun _ row => Ok row) (fun _ _ => [])) (fun _ => Ok Cpu) norm (fun x => x) (fun _ => two_corners)
    (fun z => DsModel.mkRng (fun l n => firstn n (if Z.even z then l else rev l)) (fun _ l => l)) (fun _ => zigzags)
    (DsModel.mkCorpus ["ann"; "bob"]%string (fun spk => Ok [(spk ++ "0")%string]) (fun spk _ => Ok ((if String.eqb spk "ann" then [1; 1 / 2] else [1; 0; - 1 / 4]), q)))
    (fun _ => None) (fun _ => Err ValueError) (fun _ _ => Err ValueError) (fun _ => Err ValueError).
Definition x_args (seed scenes : Z) : eargs :=
  mkE "cmu_arctic" None "dev-clean" false scenes 1 1 2 1 seed [4; 4] 3 1 1 "cpu" "out" false "INFO".
Lemma x_usual q : usual_world (x_world q) 0.
Proof.
  destruct C88_trajectories_example as (Fp & Rd & _). constructor; cbn [x_world ew_fresh ew_rng ew_after ew_corpus ew_norm ew_float ew_ext].
  - intros _. apply corners_draw.
  - intros s. split; [intros; apply Permutation_refl|]. intros l n H. cbn [DsModel.sample]. set (l' := if Z.even s then l else rev l).
    assert (Pl : Permutation l l') by (unfold l'; destruct (Z.even s); [apply Permutation_refl|apply Permutation_rev]). pose proof (Permutation_length Pl) as Ll.
    split; [rewrite firstn_length; lia|]. exists (skipn n l'). rewrite firstn_skipn. exact Pl.
  - intros _. split; [exact Rd|exact Fp].
  - cbn. constructor; [intros [K|[]]; discriminate|]. constructor; [intros []|constructor].
  - lra.
  - intros. lra.
  - reflexivity.
  - split; [intros s row out H F; injection H as <-; auto|intros s row out H; injection H as <-; auto].
Qed.
Lemma x_usual_args seed n : usual_args (x_args seed n).
Proof. constructor; cbn; try lia. apply plane_usual. Qed.
Lemma x_prepared q seed n u : prepare (x_world q) (x_args seed n) = Ok u -> fx_size u = [4; 4] /\ fx_center u = [1 / 2; 1 / 2].
Proof.
  intros H. unfold prepare in H. cbn [x_world ew_device x_args ea_device ea_room bind] in H. apply bind_ok in H as (r & _ & H). apply bind_ok in H as (r' & _ & H). cbv zeta in H.
  apply bind_ok in H as (m & _ & H). apply bind_ok in H as (t & _ & H). apply Ok_inj in H. subst u. cbn [fx_size fx_center x_world ew_fresh]. rewrite plane_room. split; [reflexivity|].
  cbn [ew_fresh]. rewrite plane_center. reflexivity.
Qed.
Lemma x_ready q seed n : (0 < q < 2 ^ 53)%Z -> run_ready (x_world q) (x_args seed n) q (Z.to_nat q).
Proof.
  intros Hq. constructor; cbn [x_world x_args ew_device ea_device ea_dataset ew_save ea_order ea_tmax ea_n ew_corpus ea_duration DsModel.speakers ew_ext].
  - exists Cpu. reflexivity.
  - left. reflexivity.
  - reflexivity.
  - lia.
  - rewrite Rmult_1_l, (FloatProofs.rnd64_IZR 16000) by (cbn; lia). lra.
  - exists tt. split; [reflexivity|]. intros row _. eexists. reflexivity.
  - cbn. lia.
  - intros spk _. exists [(spk ++ "0")%string]. split; [reflexivity|]. split; [discriminate|]. split; [intros; eexists; reflexivity|].
    exists (spk ++ "0")%string. eexists. split; [left; auto|]. split; [reflexivity|]. destruct (String.eqb spk "ann"); discriminate.
  - split; [|lia]. unfold DsSpec.whole_samples. rewrite Rmult_1_l, FloatProofs.rnd64_IZR, INR_IZR_INZ, Z2Nat.id by lia. lra.
  - intros u i Hu Hi. apply x_prepared in Hu as [-> ->]. cbn [ew_norm ew_after ea_moving ea_steps]. unfold source_trajectories.
    rewrite (plane_far (d_uniform zigzags)) by reflexivity. cbn [bind]. cbv zeta.
    change (0 <? Z.max 0 (Z.min 1 1))%Z with true. change (Z.to_nat 1) with 1%nat. change (Z.to_nat (Z.max 0 (Z.min 1 1))) with 1%nat. cbn iota. cbn [seq source_tracks].
    change (picked zigzags 1 1 0) with true. cbn iota. change (d_zigzag zigzags 0) with true. cbn [nth]. unfold random_trajectory. cbn [negb].
    unfold one_end. rewrite (plane_end (d_uniform zigzags) _ 2) by (cbn; auto; lra). cbn [bind fst snd nth]. rewrite (plane_end (d_uniform zigzags) _ 2) by (cbn; auto; lra). cbn [bind fst snd nth].
    change (Z.max 2 3) with 3%Z. change (Z.max 2 (3 / 2)) with 2%Z. change (3 - 2 + 1)%Z with 2%Z. unfold path, linear_trajectory. cbn [Z.leb Z.compare Z.eqb Pos.eqb bind].
    change (Z.to_nat 2) with 2%nat. cbn [seq map removelast app bind repeat map2 combine fst snd stack_tracks forallb length Nat.eqb andb nth]. discriminate.
Qed.
Lemma x_finished q seed n : (0 < q < 2 ^ 53)%Z -> exists fuel, finished (build (x_world q) (x_args seed n) fuel).
Proof.
  intros H. destruct (C93_completes _ _ _ _ _ (x_usual q) (x_usual_args seed n) (x_ready q seed n H)) as (fuel & F). exists fuel. apply F. lia.
Qed.
Definition x_files : list string :=
  ["ATTRIBUTION.txt"; "scene_000_ref01.wav"; "scene_000.wav"; "scene_000_metadata.json"; "scene_001_ref01.wav"; "scene_001.wav"; "scene_001_metadata.json"]%string.
Lemma x_names fuel q seed : finished (build (x_world q) (x_args seed 2) fuel) -> names (build (x_world q) (x_args seed 2) fuel) = x_files.
Proof. intros F. apply (proj2 (C93_layout (x_world q) (x_args seed 2) fuel x_files (run_list_names 1 2))). exact F. Qed.
(** Two scenes end well, with these seven files. *)
Example C93_layout_example : exists fuel, finished (build (x_world 16000) (x_args 7 2) fuel) /\ names (build (x_world 16000) (x_args 7 2) fuel) = x_files.
Proof. destruct (x_finished 16000 7 2 ltac:(lia)) as (fuel & F). exists fuel. split; auto. apply x_names; auto. Qed.
Lemma x_in fuel q seed n i f : finished (build (x_world q) (x_args seed n) fuel) -> (Z.of_nat i < n)%Z -> In f (scene_list 1 i) -> exists it, In (f, it) (fst (build (x_world q) (x_args seed n) fuel)).
Proof.
  intros F Hi H. assert (I : In f (names (build (x_world q) (x_args seed n) fuel))).
  { rewrite (proj2 (C93_layout (x_world q) (x_args seed n) fuel _ (run_list_names 1 (Z.to_nat n))) F). right. apply in_concat. exists (scene_list 1 i). split; auto. apply in_map, in_seq. lia. }
  unfold names in I. apply in_map_iff in I as ([g it] & <- & I). exists it. exact I.
Qed.
Lemma x_scene i : scene_names 1 i (scene_list 1 i) /\ writes 3 i (LoopModel.padded 3 i).
Proof. split; [apply scene_list_names|apply padded_writes; lia]. Qed.
Lemma made_names W e a c mics i T q info files md f w : scene_made W e a c mics i T q info files md -> In (f, w) files -> f <> description_file (LoopModel.padded 3 i).
Proof.
  intros (dry & rows & modes & moving & starts & h & w0 & L & d & H) I. cbv zeta in H. destruct H as (_ & _ & _ & _ & _ & _ & _ & _ & Wd & [Lf Rf Mf] & _).
  assert (d = LoopModel.padded 3 i) as -> by (eapply writes_fun; [|exact Wd|apply padded_writes]; lia). apply In_nth_error in I as (k & Ek).
  assert (Hk : (k < S (Z.to_nat (ea_n a)))%nat) by (rewrite <- Lf; apply nth_error_Some; congruence). destruct (Nat.eq_dec k (Z.to_nat (ea_n a))) as [->|].
  - destruct Mf as (p & w' & N & _). rewrite N in Ek. injection Ek as <- _. intros K. apply (append_cancel_l ("scene_" ++ LoopModel.padded 3 i) ".wav" "_metadata.json") in K. discriminate.
  - destruct (Rf k ltac:(lia)) as (d' & p & w' & _ & N & _). rewrite N in Ek. injection Ek as <- _. intros K. apply (append_cancel_l ("scene_" ++ LoopModel.padded 3 i) ("_ref" ++ d' ++ ".wav") "_metadata.json") in K. discriminate.
Qed.
(** The contents of the files of such a run. *)
Lemma x_contents fuel q seed n i f it : (Z.of_nat i < n)%Z -> finished (build (x_world q) (x_args seed n) fuel) -> (0 < q < 2 ^ 53)%Z -> In (f, it) (fst (build (x_world q) (x_args seed n) fuel)) -> In f (scene_list 1 i) ->
  exists c mics info files md, scene_made (x_world q) 0 (x_args seed n) c mics i (Z.to_nat q) q info files md /\
    ((exists w, In (f, w) files /\ it = Sound w q) \/ (f = description_file (LoopModel.padded 3 i) /\ it = Json md)).
Proof.
  intros Hi F Hq I If. destruct (C93_scene _ _ _ fuel (x_usual q) (x_usual_args seed n)) as (c & mics & _ & _ & S); [intros N; unfold names in N; apply in_map with (f := fst) in I; rewrite N in I; destruct I|].
  destruct (x_scene i) as [Hl Hd]. destruct (S i _ _ Hl Hd) as (r & info & (spk & u & x & Er) & S').
  { exists f. split; auto. unfold names. apply in_map_iff. exists (f, it). auto. }
  cbn in Er. assert (r = q) as -> by congruence. destruct (rr_samples _ _ _ _ (x_ready q seed n Hq)) as [W0 P0]. destruct (S' _ W0 P0) as (files & md & Sm & Fi).
  exists c, mics, info, files, md. split; [exact Sm|]. apply (Fi f it I If).
Qed.
Lemma x_description fuel q seed n i : (Z.of_nat i < n)%Z -> finished (build (x_world q) (x_args seed n) fuel) -> (0 < q < 2 ^ 53)%Z ->
  exists c mics info files md, In (description_file (LoopModel.padded 3 i), Json md) (fst (build (x_world q) (x_args seed n) fuel)) /\
    scene_made (x_world q) 0 (x_args seed n) c mics i (Z.to_nat q) q info files md.
Proof.
  intros Hi F Hq. destruct (x_in fuel q seed n i (description_file (LoopModel.padded 3 i)) F Hi) as (it & I); [apply in_or_app; right; right; left; reflexivity|].
  destruct (x_contents _ _ _ n i _ _ Hi F Hq I) as (c & mics & info & files & md & Sm & [(w & Iw & ->)|[_ ->]]).
  - apply in_or_app. right. right. left. reflexivity.
  - exfalso. exact (made_names _ _ _ _ _ _ _ _ _ _ _ _ _ Sm Iw eq_refl).
  - exists c, mics, info, files, md. auto.
Qed.
Lemma x_mixture fuel q seed n i : (Z.of_nat i < n)%Z -> finished (build (x_world q) (x_args seed n) fuel) -> (0 < q < 2 ^ 53)%Z ->
  exists w, In (mixture_file (LoopModel.padded 3 i), Sound w q) (fst (build (x_world q) (x_args seed n) fuel)).
Proof.
  intros Hi F Hq. destruct (x_in fuel q seed n i (mixture_file (LoopModel.padded 3 i)) F Hi) as (it & I); [apply in_or_app; right; left; reflexivity|].
  destruct (x_contents _ _ _ n i _ _ Hi F Hq I) as (c & mics & info & files & md & Sm & [(w & Iw & ->)|[K _]]).
  - apply in_or_app. right. left. reflexivity.
  - exists w. exact I.
  - exfalso. apply (append_cancel_l ("scene_" ++ LoopModel.padded 3 i) ".wav" "_metadata.json") in K. discriminate.
Qed.
(** The mixture of the second scene is written with 8000 samples per second; the description says
    16000, and the last time is not that of the last sample. *)
Example C93_scene_example : exists fuel w md, In ("scene_001.wav"%string, Sound w 8000) (fst (build (x_world 8000) (x_args 7 2) fuel)) /\
  In ("scene_001_metadata.json"%string, Json md) (fst (build (x_world 8000) (x_args 7 2) fuel)) /\ field md ["room"; "fs"]%string = Some (number 16000) /\
  exists v x, field md ["timestamps"]%string = Some v /\ MetaSpec.item v [2%nat] = Some (number x) /\ x <> 7999 / 8000.
Proof.
  destruct (x_finished 8000 7 2 ltac:(lia)) as (fuel & F). exists fuel. destruct (x_mixture fuel 8000 7 2 1 ltac:(lia) F ltac:(lia)) as (w & I).
  destruct (x_description fuel 8000 7 2 1 ltac:(lia) F ltac:(lia)) as (c & mics & info & files & md & I' & Sm). exists w, md. split; [exact I|]. split; [exact I'|].
  destruct (C93_rate_unchecked _ _ _ _ _ _ _ _ _ _ _ (x_usual_args 7 2) Sm ltac:(lia) ltac:(lia) ltac:(lia)) as [E (v & x & Ev & Ex & Nx)].
  split; [exact E|]. exists v, x. split; [exact Ev|]. split; [exact Ex|]. intros K. apply Nx. rewrite K, INR_IZR_INZ, Z2Nat.id by lia. lra.
Qed.
(** Into a directory with the mixtures of three scenes: the second is replaced, the third stays. *)
Example C93_directory_example : let old : directory := fun f => if (String.eqb f "scene_001.wav"%string || String.eqb f "scene_002.wav"%string)%bool then Some (Notice []) else None in
  exists fuel w, afterwards old (build (x_world 16000) (x_args 7 2) fuel) "scene_001.wav"%string = Some (Sound w 16000) /\
  afterwards old (build (x_world 16000) (x_args 7 2) fuel) "scene_002.wav"%string = Some (Notice []) /\
  afterwards old (build (x_world 16000) (x_args 7 2) fuel) "scene_003.wav"%string = None.
Proof.
  cbv zeta. destruct (x_finished 16000 7 2 ltac:(lia)) as (fuel & F). exists fuel. destruct (x_mixture fuel 16000 7 2 1 ltac:(lia) F ltac:(lia)) as (w & I). exists w. split; [|split].
  - apply C93_directory. exact I.
  - rewrite (C93_stale_unchecked _ _ _ _ 1 2 (scene_list 1 2)); [reflexivity|cbn; lia|apply scene_list_names|cbn; tauto].
  - rewrite (C93_stale_unchecked _ _ _ _ 1 3 (scene_list 1 3)); [reflexivity|cbn; lia|apply scene_list_names|cbn; tauto].
Qed.
(** The second scene of seed 0 and the first scene of seed 1 have the same speech; the arguments of
    the two descriptions differ. *)
Example C93_speech_example : exists fuel md md', In ("scene_001_metadata.json"%string, Json md) (fst (build (x_world 16000) (x_args 0 2) fuel)) /\
  In ("scene_000_metadata.json"%string, Json md') (fst (build (x_world 16000) (x_args 1 2) fuel)) /\
  field md ["source_info"]%string = field md' ["source_info"]%string /\ field md ["extra"; "args"; "seed"]%string <> field md' ["extra"; "args"; "seed"]%string.
Proof.
  destruct (C93_completes _ _ _ _ _ (x_usual 16000) (x_usual_args 0 2) (x_ready 16000 0 2 ltac:(lia))) as (f1 & F1).
  destruct (C93_completes _ _ _ _ _ (x_usual 16000) (x_usual_args 1 2) (x_ready 16000 1 2 ltac:(lia))) as (f2 & F2).
  exists (f1 + f2)%nat. specialize (F1 (f1 + f2)%nat ltac:(lia)). specialize (F2 (f1 + f2)%nat ltac:(lia)).
  destruct (x_description _ 16000 0 2 1 ltac:(lia) F1 ltac:(lia)) as (c & mics & info & files & md & I & Sm). destruct (x_description _ 16000 1 2 0 ltac:(lia) F2 ltac:(lia)) as (c' & mics' & info' & files' & md' & I' & Sm').
  exists md, md'. split; [exact I|]. split; [exact I'|]. split.
  - eapply (C93_speech_unchecked _ _ (x_args 0 2) (x_args 1 2) _ 1 0); [apply (x_usual 16000)|apply x_usual_args|apply x_usual_args|reflexivity|reflexivity|reflexivity|apply x_scene|apply x_scene|exact I|exact I'].
  - destruct Sm as (? & ? & ? & ? & ? & ? & ? & ? & ? & H). cbv zeta in H. destruct H as (_ & _ & _ & _ & _ & _ & _ & _ & _ & _ & N).
    destruct Sm' as (? & ? & ? & ? & ? & ? & ? & ? & ? & H'). cbv zeta in H'. destruct H' as (_ & _ & _ & _ & _ & _ & _ & _ & _ & _ & N').
    rewrite (sn_seed _ _ _ _ _ _ _ _ _ _ _ _ _ _ _ N), (sn_seed _ _ _ _ _ _ _ _ _ _ _ _ _ _ _ N'). cbn [x_args ea_seed]. intros K. discriminate.
Qed.
(** With three scenes instead of two the first two stay; a description of seed 7 tells its run from
    that of seed 8. *)
Example C93_more_scenes_example fuel : exists rest, map forget_count (fst (build (x_world 16000) (x_args 7 3) fuel)) = map forget_count (fst (build (x_world 16000) (x_args 7 2) fuel)) ++ rest.
Proof. exact (proj1 (C93_more_scenes (x_world 16000) (x_args 7 0) 2 3 fuel ltac:(lia))). Qed.
Example C93_reproducible_example : exists fuel md md', In ("scene_000_metadata.json"%string, Json md) (fst (build (x_world 16000) (x_args 7 2) fuel)) /\
  In ("scene_001_metadata.json"%string, Json md') (fst (build (x_world 16000) (x_args 7 2) fuel)) /\ field md ["extra"; "args"]%string = field md' ["extra"; "args"]%string.
Proof.
  destruct (x_finished 16000 7 2 ltac:(lia)) as (fuel & F). exists fuel.
  destruct (x_description fuel 16000 7 2 0 ltac:(lia) F ltac:(lia)) as (_ & _ & _ & _ & md & I & _). destruct (x_description fuel 16000 7 2 1 ltac:(lia) F ltac:(lia)) as (_ & _ & _ & _ & md' & I' & _).
  exists md, md'. split; [exact I|]. split; [exact I'|].
  assert (M : forall i m, In (description_file (LoopModel.padded 3 i), Json m) (fst (build (x_world 16000) (x_args 7 2) fuel)) -> field m ["extra"; "args"]%string = Some (to_serializable (serialize_args (x_args 7 2)))).
  { intros i m H. assert (D : In (description_file (LoopModel.padded 3 i)) (scene_list 1 i)) by (apply in_or_app; right; right; left; reflexivity). destruct (member_build _ _ _ i 1 _ _ D H) as (u & Eu & _ & Hu).
    destruct (written_note _ _ _ _ _ _ _ _ (x_usual 16000) (x_usual_args 7 2) Eu Hu) as (? & ? & ? & _ & _ & E & _). exact E. }
  rewrite (M 0%nat md I), (M 1%nat md' I'). reflexivity.
Qed.
(** Seed -1 with three scenes: the mixtures of the first and the third are the same. *)
Example C93_described_example : exists fuel md t facts, In ("scene_001_metadata.json"%string, Json md) (fst (build (x_world 16000) (x_args 7 2) fuel)) /\
  field md ["extra"; "args"; "num_scenes"]%string = Some (PScalar (SInt 2)) /\
  In ("ATTRIBUTION.txt"%string, Notice t) (fst (build (x_world 16000) (x_args 7 2) fuel)) /\ CorpSpec.tells t facts (CorpModel.default_notes true).
Proof.
  destruct (x_finished 16000 7 2 ltac:(lia)) as (fuel & F). exists fuel.
  destruct (x_description fuel 16000 7 2 1 ltac:(lia) F ltac:(lia)) as (_ & _ & _ & _ & md & I & _). exists md.
  destruct (C93_notice (x_world 16000) (x_args 7 2) fuel) as (t & facts & A & B & _).
  - intros E. unfold names in E. apply map_eq_nil in E. rewrite E in I. destruct I.
  - intros H. cbn in H. repeat (destruct H as [H|H]; [discriminate|]). destruct H.
  - exists t, facts. split; [exact I|]. split; [|auto].
    destruct (C93_described _ _ _ _ _ _ (x_usual 16000) (x_usual_args 7 2) I) as (_ & _ & _ & _ & _ & _ & _ & _ & _ & Q & _). exact Q.
Qed.
Example C93_negative_seed_example : exists fuel w, In ("scene_000.wav"%string, Sound w 16000) (fst (build (x_world 16000) (x_args (-1) 3) fuel)) /\
  In ("scene_002.wav"%string, Sound w 16000) (fst (build (x_world 16000) (x_args (-1) 3) fuel)).
Proof.
  destruct (x_finished 16000 (-1) 3 ltac:(lia)) as (fuel & F). exists fuel. destruct (x_mixture fuel 16000 (-1) 3 0 ltac:(lia) F ltac:(lia)) as (w & I). destruct (x_mixture fuel 16000 (-1) 3 2 ltac:(lia) F ltac:(lia)) as (w' & I').
  exists w. split; [exact I|]. destruct (C93_negative_seed_unchecked (x_world 16000) 0 (x_args (-1) 3) fuel 0 2 1 (scene_list 1 0) (scene_list 1 2)) with (f := mixture_file (LoopModel.padded 3 0)) (f' := mixture_file (LoopModel.padded 3 2)) (w := w) (w' := w') (q := 16000%Z) (q' := 16000%Z) as [-> _];
    [apply x_usual|apply x_usual_args|intros z; cbn; rewrite Z.even_opp; reflexivity|reflexivity|reflexivity|apply scene_list_names|apply scene_list_names|reflexivity|reflexivity|exact I|exact I'|exact I'].
Qed.
(** With the description of the second scene the reference of the first one is there. *)
Example C93_marker_example : exists fuel, In "scene_000_ref01.wav"%string (names (build (x_world 16000) (x_args (-1) 2) fuel)).
Proof.
  destruct (x_finished 16000 (-1) 2 ltac:(lia)) as (fuel & F). exists fuel. destruct (x_scene 1) as [Hl Hd].
  apply (proj2 (C93_marker (x_world 16000) (x_args (-1) 2) fuel 1 _ _ Hl Hd ltac:(rewrite (x_names _ _ _ F); cbn; tauto)) 0%nat (scene_list 1 0)); [lia|apply scene_list_names|cbn; tauto].
Qed.

Print Assumptions C93_layout.
Print Assumptions C93_distinct.
Print Assumptions C93_marker.
Print Assumptions C93_more_scenes.
Print Assumptions C93_directory.
Print Assumptions C93_stale_unchecked.
Print Assumptions C93_scene.
Print Assumptions C93_completes.
Print Assumptions C93_rate_unchecked.
Print Assumptions C93_speech_unchecked.
Print Assumptions C93_reproducible.
Print Assumptions C93_negative_seed_unchecked.
Example C93_license_example : exists fuel md, In ("scene_001_metadata.json"%string, Json md) (fst (build (x_world 16000) (x_args 7 2) fuel)) /\
  field md ["extra"; "dataset_license"; "dataset"]%string = Some (PStr "CMU ARCTIC"%string).
Proof.
  destruct (x_finished 16000 7 2 ltac:(lia)) as (fuel & F). exists fuel.
  destruct (x_description fuel 16000 7 2 1 ltac:(lia) F ltac:(lia)) as (_ & _ & _ & _ & md & I & _). exists md. split; [exact I|].
  destruct (C93_license _ _ _ _ _ _ (x_usual 16000) (x_usual_args 7 2) I) as (_ & [(_ & _ & Q & _)|((_ & Q) & _)]); [exact Q|].
  exfalso. clear - Q. cbn in Q. intuition (try discriminate; try lia).
Qed.
Print Assumptions C93_license.
Print Assumptions C93_described.
Print Assumptions C93_notice.
