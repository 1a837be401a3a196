(** Proofs for C93: scenes in a run and the fields of their descriptions. *)
From Coq Require Import Ascii String List ZArith Reals Lia Lra Bool Permutation.
From Flocq Require Import Core.
From Verif Require Import Prelude PreludeFacts SignalModel SignalSpec FloatModel DirModel DirSpec IsmModel RoomModel GeoModel GeoSpec IoModel MetaModel MetaSpec MetaProofs.
From Verif Require DsModel DsSpec DsProps CorpModel LoopModel RefModel RefProps MetaProps.
From Verif Require Import GeoSampling RefSpec LoopSpec LoopNames ExModel ExSpec ExProofs EdsModel EdsSpec EdsProofs EdsScene.
Import ListNotations.
Local Notation length := List.length.
Local Notation app := List.app.
Local Open Scope R_scope.
Local Open Scope list_scope.

(** ** Members of a run *)
Lemma in_bind {A B} (m : erun A) (f : A -> erun B) x : In x (fst (ebind m f)) -> In x (fst m) \/ exists a, snd m = Some (Ok a) /\ In x (fst (f a)).
Proof.
  destruct m as [t [[a|e]|]]; cbn [ebind fst snd]; auto. destruct (f a) as [t' r] eqn:E. cbn [fst]. intros H. apply in_app_or in H as [H|H]; auto.
  right. exists a. rewrite E. auto.
Qed.
Lemma member_scenes W a u fuel n : forall i x, In x (fst (example_scenes W a u fuel n i)) ->
  exists j, (i <= j < i + n)%nat /\ In x (fst (example_scene W a u fuel j)).
Proof.
  induction n as [|n IH]; intros i x; cbn [example_scenes]; [contradiction|]. intros H. apply in_bind in H as [H|(? & _ & H)].
  - exists i. split; auto. lia.
  - destruct (IH (S i) x H) as (j & Hj & H'). exists j. split; auto. lia.
Qed.
Lemma scene_names_in W a u fuel i f it : In (f, it) (fst (example_scene W a u fuel i)) -> In f (scene_list (Z.to_nat (ea_n a)) i).
Proof.
  intros H. destruct (follows_scene W a u fuel i) as [[r E] _]. rewrite E. apply in_or_app. left. apply in_map_iff. exists (f, it). auto.
Qed.
Lemma notice_no_scene n i : ~ In "ATTRIBUTION.txt"%string (scene_list n i).
Proof. intros H. apply scene_member in H as (c & r & E & _). cbn in E. discriminate. Qed.
Lemma member_build W a fuel i n f it : In f (scene_list n i) -> In (f, it) (fst (build W a fuel)) ->
  exists u, prepare W a = Ok u /\ (i < Z.to_nat (ea_scenes a))%nat /\ In (f, it) (fst (example_scene W a u fuel i)).
Proof.
  intros Hf H. unfold build in H. apply in_bind in H as [[]|(u & Hu & H)]. cbn in Hu. injection Hu as Hu. exists u. split; auto.
  apply in_bind in H as [H|(? & _ & H)].
  - unfold save in H. destruct (ew_save W _); cbn in H; [contradiction|]. destruct H as [H|[]]. injection H as <- <-. destruct (notice_no_scene _ _ Hf).
  - apply member_scenes in H as (j & Hj & H). assert (i = j) as <- by (eapply scene_disjoint; [exact Hf|eapply scene_names_in; exact H]). split; [lia|auto].
Qed.
Lemma prepare_device W a u : prepare W a = Ok u -> ew_device W (ea_device a) = Ok (fx_device u).
Proof.
  unfold prepare. intros H. apply bind_ok in H as (dev & E & H). apply bind_ok in H as (r & _ & H). apply bind_ok in H as (r' & _ & H).
  apply bind_ok in H as (m & _ & H). apply bind_ok in H as (t & _ & H). apply Ok_inj in H. subst u. exact E.
Qed.

(** ** Fields of a description *)
Lemma note_fields m md : build_metadata m = Ok md ->
  field md ["room"; "fs"]%string = Some (pyf (md_fs m)) /\ field md ["sources"; "positions"]%string = Some (to_serializable (pyt (md_src m))) /\
  (forall v, md_source_info m = Some v -> field md ["source_info"]%string = Some (to_serializable v)) /\
  (forall p l, md_extra m = Some (p :: l) -> md_source_info m <> None -> field md ["extra"]%string = Some (to_serializable (PDict (p :: l)))).
Proof.
  intros H. unfold build_metadata in H. destruct (rev (md_rirs_shape m)) as [|ns r]; [discriminate|].
  destruct (Reqb _ _); [discriminate|]. destruct (md_trajectories m) as [[[s t] T]|]; [|discriminate]. cbn [bind] in H.
  destruct (compute_doa s t) as [az el]. destruct (array_attributes m) as [arr|]; [|discriminate]. cbn [bind] in H. apply Ok_inj in H. subst md.
  split; [reflexivity|]. split; [reflexivity|]. split.
  - intros v ->. reflexivity.
  - intros p l -> N. destruct (md_source_info m); [reflexivity|contradiction].
Qed.
Lemma field_more v k ks w : field v [k] = Some w -> field v (k :: ks) = field w ks.
Proof. cbn. destruct v; try discriminate. destruct (lookup l k); [|discriminate]. injection 1 as <-. reflexivity. Qed.
Lemma item_list {A} (f : A -> pyval) l j x : nth_error l j = Some x -> MetaSpec.item (PList (map f l)) [j] = Some (f x).
Proof. intros H. cbn. rewrite nth_error_map, H. reflexivity. Qed.
Lemma table_get dim l j k : (forall p, In p l -> length p = dim) -> (j < length l)%nat -> (k < dim)%nat -> tget (table dim l) [j; k] = nth k (nth j l []) 0.
Proof.
  intros D Hj Hk. unfold tget, table. cbn [shape data ravel prodn fold_right]. replace (j * (dim * 1) + (k * 1 + 0))%nat with (j * dim + k)%nat by lia. apply nth_concat; auto.
Qed.
Lemma table_wf dim l : (forall p, In p l -> length p = dim) -> wf (table dim l).
Proof. intros D. unfold wf, table. cbn [shape data]. rewrite (concat_length _ dim) by auto. unfold prodn. cbn. lia. Qed.
Lemma repeat_nth' {A} (x d : A) n t : (t < n)%nat -> nth t (repeat x n) d = x.
Proof. revert t. induction n as [|n IH]; intros [|t] H; cbn; try lia; auto. apply IH. lia. Qed.
Lemma place_grid n dim l pos t i k : (forall r, In r l -> length r = n) -> (forall r p, In r l -> In p r -> length p = dim) ->
  (1 < length l)%nat -> (t < length l)%nat -> (i < n)%nat -> (k < dim)%nat -> MetaSpec.place (Some (grid n dim l)) pos t i k = nth k (nth i (nth t l []) []) 0.
Proof.
  intros H D L1 Ht Hi Hk. unfold MetaSpec.place. change (MetaSpec.steps (Some (grid n dim l))) with (length l). destruct (Nat.eqb_spec (length l) 1); [lia|].
  change (length (shape (grid n dim l)) =? 2)%nat with false. apply grid_get; auto.
Qed.
Lemma note_spec W e a u fuel i dry q info rows modes moving starts p rirs h L T files m md :
  usual_world W e -> usual_args a -> prepared W a u -> scene_parts W e a u fuel i dry q info rows modes moving starts p rirs h L -> (0 < T)%nat ->
  build_metadata m = Ok md -> MetaProps.described m (length (ea_room a)) ->
  md_fs m = 16000 -> md_timestamps m = None -> md_signal_len m = Some (Z.of_nat T) -> md_rirs_shape m = xshape rirs ->
  md_src_traj m = Some (grid (Z.to_nat (ea_n a)) (length (ea_room a)) p) -> md_mic_traj m = Some (mic_grid a u) -> md_mic m = table (length (ea_room a)) (fx_mics u) ->
  md_source_info m = Some (info_value info) -> md_extra m = Some (scene_extra a (fx_source u) modes moving (map (entry i info) (seq 0 (Z.to_nat (ea_n a))))) ->
  md_src m = table (length (ea_room a)) (nth 0 p []) ->
  (forall j, (j < Z.to_nat (ea_n a))%nat -> nth_error files j = Some (RefModel.ref_name (scene_prefix i) j)) ->
  scene_note a (Z.to_nat (ea_n a)) (Z.to_nat (ea_steps a)) (Z.to_nat (ea_mics a)) (length (ea_room a)) T L rows starts (fx_mics u) info modes moving files md.
Proof.
  intros UW UA PU SP HT Hm D F1 F2 F3 F4 F5 F6 F7 F8 F9 F10 Nf. destruct UA as [U Hn Hmi Hs]. destruct PU as [Pr Ps Pc Psg Pm].
  destruct SP as [S1 S2 S3 S4 S5 S6 S7 S8 S9 S10 S11 S12 S13 S14 S15 S16 S17 S18 S19].
  assert (EK : run_steps a = ea_steps a) by (unfold run_steps; lia). rewrite EK in *. set (K := Z.to_nat (ea_steps a)) in *. assert (HK : (3 <= K)%nat) by (unfold K; lia).
  set (n := Z.to_nat (ea_n a)) in *. set (M := Z.to_nat (ea_mics a)) in *. set (dim := length (ea_room a)) in *.
  assert (Rm : forall r, In r (repeat (fx_mics u) K) -> r = fx_mics u) by (intros r Hr; apply repeat_spec in Hr; auto).
  assert (LM : length (fx_mics u) = M) by apply Pm. assert (DM : forall q, In q (fx_mics u) -> length q = dim) by apply (mics_dim _ _ _ _ Pm).
  assert (TS : MetaProps.Tsteps m = K).
  { unfold MetaProps.Tsteps. rewrite F5, F6. unfold mic_grid, grid. cbn [MetaSpec.steps shape hd]. rewrite repeat_length, S5, EK. fold K. lia. }
  destruct (note_fields m md Hm) as (G1 & G2 & G3 & G4). rewrite F1 in G1. rewrite F10 in G2. specialize (G3 _ F8).
  assert (G4' : field md ["extra"]%string = Some (to_serializable (PDict (scene_extra a (fx_source u) modes moving (map (entry i info) (seq 0 n)))))).
  { unfold scene_extra in *. apply G4; auto. rewrite F8. discriminate. }
  destruct (MetaProps.C52_trajectories m _ md D Hm) as (fs & fm & E1 & E2 & _ & E3). rewrite TS in E3. specialize (E3 ltac:(lia)).
  constructor.
  - exact G1.
  - exists (to_serializable (pyt (table dim (nth 0 p [])))). split; [exact G2|]. intros j k Hj Hk.
    assert (I0 : In (nth 0 p []) p) by (apply nth_In; lia). assert (D0 : forall x, In x (nth 0 p []) -> length x = dim) by (intros x Hx; apply (S7 _ _ I0 Hx)).
    rewrite <- S9. rewrite pyt_item; [rewrite table_get; auto; rewrite (S6 _ I0); auto|apply table_wf; auto|].
    unfold table. cbn [shape]. rewrite (S6 _ I0). repeat constructor; auto.
  - exists fs. split; [exact E1|]. intros t j k x Ht Hj Hk Hx. destruct (E3 t k Ht Hk) as [E3' _]. rewrite F5 in E3'.
    rewrite E3' by (unfold entities, grid; cbn; auto). rewrite place_grid; auto; [|lia|lia]. rewrite (S8 t j Ht Hj) in Hx. injection Hx as <-. reflexivity.
  - exists fm. split; [exact E2|]. intros t j k Ht Hj Hk. destruct (E3 t k Ht Hk) as [_ E3']. rewrite F6 in E3'.
    rewrite E3' by (unfold entities, mic_grid, grid; cbn; rewrite LM; auto). unfold mic_grid. rewrite EK. fold K dim.
    rewrite place_grid; [rewrite repeat_nth'; auto|intros r Hr; rewrite (Rm r Hr); auto|intros r q0 Hr Hq; rewrite (Rm r Hr) in Hq; auto|rewrite repeat_length; lia|rewrite repeat_length; auto|lia|auto].
  - destruct (MetaProps.C52_timestamps m _ md T 0 D Hm F2 F3 ltac:(lia) ltac:(lia) ltac:(lia)) as (ft & Et & _). exists ft. split; [exact Et|]. intros t Ht.
    destruct (MetaProps.C52_timestamps m _ md T t D Hm F2 F3 ltac:(lia) ltac:(lia) ltac:(lia)) as (ft' & Et' & It). rewrite Et in Et'. injection Et' as <-. rewrite It, TS, F1. reflexivity.
  - destruct (MetaProps.C52_time_axis m _ md 0 D Hm) as (ft & Et & _). { rewrite F4, S15, S12. cbn. lia. } exists ft. split; [exact Et|]. intros j Hj.
    destruct (MetaProps.C52_time_axis m _ md j D Hm) as (ft' & Et' & It). { rewrite F4, S15, S12. cbn. lia. } rewrite Et in Et'. injection Et' as <-. rewrite It, F1. reflexivity.
  - exists (to_serializable (info_value info)). split; [exact G3|]. intros j spk ids Hj. unfold info_value. cbn [to_serializable]. rewrite map_map.
    rewrite (item_list _ _ _ _ Hj). cbn [to_serializable map fst snd]. rewrite map_map. reflexivity.
  - exists (to_serializable (PList (map ref_value (map (entry i info) (seq 0 n))))). split; [rewrite (field_more _ _ _ _ G4'); reflexivity|].
    intros j spk ids f Hj Hi Hf. rewrite (Nf j Hj) in Hf. injection Hf as <-. exists (to_serializable (ref_value (entry i info j))). split.
    + cbn [to_serializable]. rewrite map_map. apply (item_list (fun x => to_serializable (ref_value x))). rewrite nth_error_map, (nth_error_nth' _ 0%nat) by (rewrite seq_length; auto). rewrite seq_nth by auto. reflexivity.
    + unfold entry. rewrite (nth_error_nth _ _ (""%string, []) Hi). cbn. rewrite map_map. auto.
  - rewrite (field_more _ _ _ _ G4'). cbn. rewrite map_map. reflexivity.
  - rewrite (field_more _ _ _ _ G4'). cbn. rewrite map_map. reflexivity.
  - rewrite (field_more _ _ _ _ G4'). reflexivity.
Qed.
