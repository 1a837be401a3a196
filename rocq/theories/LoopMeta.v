(** Lemmas about the JSON files of a scene. *)
From Coq Require Import Ascii String List ZArith Reals Lia Lra Bool Permutation.
From Verif Require Import Prelude PreludeFacts SignalModel SignalSpec FloatModel DirModel IsmModel RoomModel GeoModel DsModel DsSpec
  GeoProofs GeoSampling BldModel BldSpec BldProofs MetaModel LoopModel LoopSpec LoopNames LoopProofs LoopAudio SceneSpec.
From Verif Require MetaSpec MetaProofs MetaProps.
Import ListNotations.
Local Notation length := List.length.
Local Notation field := MetaSpec.field.
Local Notation item := MetaSpec.item.
Local Open Scope R_scope.

(** ** source_info.json *)
Lemma nth_error_tab {A} (f : nat -> A) n i e : nth_error (map f (seq 0 n)) i = Some e -> (i < n)%nat /\ e = f i.
Proof.
  intros H. assert (L : (i < n)%nat) by (rewrite <- (seq_length n 0), <- (map_length f); apply nth_error_Some; congruence).
  split; auto. rewrite nth_error_map in H. rewrite (nth_error_nth' (seq 0 n) 0%nat) in H by (rewrite seq_length; auto).
  rewrite seq_nth in H by auto. cbn in H. congruence.
Qed.
Lemma is_moving_spec l i : reflect (In i l) (is_moving l i).
Proof.
  unfold is_moving. destruct (existsb _ l) eqn:X; constructor.
  - apply existsb_exists in X as (j & J & Ej). apply Nat.eqb_eq in Ej. subst. auto.
  - intros I. assert (existsb (Nat.eqb i) l = true); [|congruence]. apply existsb_exists. exists i. rewrite Nat.eqb_refl. auto.
Qed.
Lemma info_ok s d geo who : length who = Z.to_nat (sa_n s) -> length (geo_sources geo) = Z.to_nat (sa_n s) ->
  info_right s d geo who (source_info (sa_motion s) (sd_moving d) (geo_sources geo) who).
Proof.
  intros Lw Lg. eexists. split; [reflexivity|]. split; [rewrite map_length, seq_length; auto|]. intros i e H.
  apply nth_error_tab in H as [L ->].
  exists (nth i (geo_sources geo) (mkPlaced (P3 0 0 0) (P3 0 0 0) 0 0 0 0 0)), (nth i who (EmptyString, [])). split; [|split].
  - apply nth_error_nth'. lia.
  - apply nth_error_nth'. lia.
  - set (q := nth i (geo_sources geo) _). set (p := nth i who _). unfold source_entry. fold q.
    constructor; try reflexivity. destruct (is_moving_spec (sd_moving d) i); [left|right]; auto.
Qed.
Lemma info_json m moving l who : MetaSpec.json (source_info m moving l who).
Proof.
  apply MetaProofs.json_list, Forall_map, Forall_forall. intros i _. apply MetaProofs.json_dict.
  repeat (apply Forall_cons || apply Forall_nil); cbn [fst snd]; (split; [eauto|]); try exact I.
  apply MetaProofs.json_list, Forall_map, Forall_forall. intros; exact I.
Qed.
Lemma extra_json s dir c moving l : MetaSpec.json (PDict (scene_extra s dir c moving l)).
Proof.
  assert (N : forall r, MetaSpec.json (pyl r)) by (intros r; apply MetaProofs.json_list, Forall_map, Forall_forall; intros; exact I).
  apply MetaProofs.json_dict.
  repeat (apply Forall_cons || apply Forall_nil); cbn [fst snd]; (split; [eauto|]); try exact I; try apply N.
  - apply MetaProofs.json_list, Forall_map, Forall_forall. intros; exact I.
  - apply MetaProofs.json_list, Forall_map, Forall_forall. intros; exact I.
  - apply MetaProofs.json_dict. repeat (apply Forall_cons || apply Forall_nil); cbn [fst snd]; (split; [eauto|exact I]).
  - apply MetaProofs.json_dict. repeat (apply Forall_cons || apply Forall_nil); cbn [fst snd]; (split; [eauto|exact I]).
Qed.
Lemma json_supported v : MetaSpec.json v -> MetaSpec.supported v.
Proof. intros J. apply MetaProofs.serializable_json. rewrite MetaProofs.json_fixed; auto. Qed.

(** ** Tables *)
Lemma table_wf l : wf (table l).
Proof. unfold wf, table. cbn [shape data prodn fold_right]. rewrite length_flat_xyz. lia. Qed.
Lemma nth_flat {A B} (f : A -> list B) c l i k d a : (forall x, length (f x) = c) -> nth_error l i = Some a -> (k < c)%nat -> nth (i * c + k) (flat_map f l) d = nth k (f a) d.
Proof.
  intros F. revert i. induction l as [|x l IH]; intros [|i] H K; cbn in H; try discriminate; cbn [flat_map].
  - injection H as ->. rewrite app_nth1 by (rewrite F; auto). reflexivity.
  - rewrite app_nth2 by (rewrite F; cbn; lia). rewrite F. replace (S i * c + k - c)%nat with (i * c + k)%nat by (cbn; lia). auto.
Qed.
Lemma table_get l i q k : nth_error l i = Some q -> (k < 3)%nat -> tget (table l) [i; k] = coord q k.
Proof.
  intros H K. unfold tget, table. cbn [shape data ravel prodn fold_right]. replace (i * (3 * 1) + (k * 1 + 0))%nat with (i * 3 + k)%nat by lia.
  rewrite (nth_flat _ _ _ _ _ _ q) by (auto; reflexivity). reflexivity.
Qed.
Lemma table_points_listed l : lists_points l (Some (to_serializable (pyt (table l)))).
Proof.
  eexists. split; [reflexivity|]. split.
  - intros i q k H K. rewrite <- (table_get l) with (i := i) by auto. apply MetaProofs.pyt_item; [apply table_wf|].
    constructor; [apply nth_error_Some; congruence|constructor; [auto|constructor]].
  - unfold pyt, table. cbn [to_serializable tolist shape data MetaSpec.item]. rewrite nth_error_map. rewrite (proj2 (nth_error_None _ _)); [reflexivity|]. rewrite seq_length. lia.
Qed.
Lemma nth_flat2 (l : list (list p3)) n t row i q k : (forall r, In r l -> length r = n) -> nth_error l t = Some row -> nth_error row i = Some q -> (k < 3)%nat ->
  nth ((t * n + i) * 3 + k) (flat_map (flat_map xyz) l) 0 = coord q k.
Proof.
  revert t. induction l as [|r l IH]; intros [|t] F H1 H2 K; cbn in H1; try discriminate; cbn [flat_map].
  - injection H1 as ->. assert (L : (i < n)%nat) by (rewrite <- (F row) by (left; auto); apply nth_error_Some; congruence).
    rewrite app_nth1 by (rewrite length_flat_xyz, (F row) by (left; auto); lia). cbn [Nat.mul Nat.add].
    rewrite (nth_flat _ _ _ _ _ _ q) by (auto; reflexivity). reflexivity.
  - rewrite app_nth2 by (rewrite length_flat_xyz, (F r) by (left; auto); cbn; lia). rewrite length_flat_xyz, (F r) by (left; auto).
    replace ((S t * n + i) * 3 + k - n * 3)%nat with ((t * n + i) * 3 + k)%nat by (cbn; lia). apply IH; auto. intros; apply F; right; auto.
Qed.
Lemma track_get l n t row i q k : (forall r, In r l -> length r = n) -> nth_error l t = Some row -> nth_error row i = Some q -> (k < 3)%nat ->
  tget (track n l) [t; i; k] = coord q k.
Proof.
  intros F H1 H2 K. rewrite <- (nth_flat2 l n t row i q k) by auto. unfold tget, track. cbn [shape data ravel prodn fold_right]. f_equal. lia.
Qed.
Lemma track_wf n l : (forall r, In r l -> length r = n) -> wf (track n l).
Proof.
  intros F. unfold wf, track. cbn [shape data prodn fold_right]. induction l as [|r l IH]; [reflexivity|]. cbn [flat_map length]. rewrite app_length, length_flat_xyz, IH, (F r) by (intros; try apply F; cbn; auto). cbn. lia.
Qed.
Lemma track_place pos l n t row i q k : (forall r, In r l -> length r = n) -> nth_error l t = Some row -> nth_error row i = Some q -> (k < 3)%nat ->
  MetaSpec.place (Some (track n l)) pos t i k = coord q k.
Proof.
  intros F H1 H2 K. unfold MetaSpec.place. cbn [track shape length Nat.eqb MetaSpec.steps hd].
  replace (if (length l =? 1)%nat then 0%nat else t) with t; [apply (track_get _ _ _ row); auto|].
  assert (t < length l)%nat by (apply nth_error_Some; congruence). destruct (Nat.eqb_spec (length l) 1); lia.
Qed.
Lemma per_source_ok geo f g : (forall q, g q = f q) -> per_source geo f (Some (PList (map g (geo_sources geo)))).
Proof.
  intros E. eexists. split; [reflexivity|]. split.
  - intros i q H. cbn. rewrite nth_error_map, H. cbn. rewrite E. reflexivity.
  - cbn. rewrite nth_error_map, (proj2 (nth_error_None _ _)); auto.
Qed.

(** ** metadata.json *)
Lemma shape_repeat n (l : list p3) : forall r, In r (repeat l n) -> length r = length l.
Proof. intros r H. apply repeat_spec in H. subst. auto. Qed.
Lemma metadata_ok s o rate rir N room d geo rirs dir info md :
  length (geo_sources geo) = Z.to_nat (sa_n s) -> length (geo_mics geo) = 6%nat -> length (geo_traj geo) = Z.to_nat (sa_steps s) ->
  (forall row, In row (geo_traj geo) -> length row = Z.to_nat (sa_n s)) ->
  (0 < sa_steps s)%Z -> (0 < sa_n s)%Z -> (0 < N)%Z -> (0 < rir)%Z -> (0 < rate)%Z ->
  room = room_of s o rate -> xshape rirs = [Z.to_nat (sa_steps s); Z.to_nat (sa_n s); 6%nat; Z.to_nat rir] -> MetaSpec.json info ->
  build_metadata (mkMd (r_size room) (r_c room) None (r_t60 room) (r_fs room) (table (map p_start (geo_sources geo))) None (table (geo_mics geo)) Float None (xshape rirs)
    (Some (track (length (geo_sources geo)) (geo_traj geo))) (Some (track (length (geo_mics geo)) (repeat_mics (sa_steps s) (geo_mics geo))))
    None (Some N) (Some info) (Some (scene_extra s dir (geo_center geo) (sd_moving d) (geo_sources geo)))) = Ok md ->
  metadata_right s o rate rir N dir d geo info md.
Proof.
  intros Lg Lm Lt Rows Hst Hn HN Hr Hrate -> Sh Ji H. set (a := mkMd _ _ _ _ _ _ _ _ _ _ _ _ _ _ _ _ _) in H.
  assert (Rm : forall r, In r (repeat_mics (sa_steps s) (geo_mics geo)) -> length r = length (geo_mics geo)) by apply shape_repeat.
  assert (Rg : forall r, In r (geo_traj geo) -> length r = length (geo_sources geo)) by (intros; rewrite Lg; auto).
  assert (D : MetaProps.described a 3).
  { constructor; unfold a; cbn [md_rirs_shape md_fs md_mic_dtype md_mic md_size md_src_traj md_src md_mic_traj MetaSpec.proper room_of r_fs r_size]; auto.
    - rewrite Sh. discriminate.
    - apply IZR_lt. auto.
    - do 2 eexists. reflexivity.
    - split; [apply track_wf; auto|]. right. do 2 eexists. reflexivity.
    - split; [apply track_wf; auto|]. right. do 2 eexists. reflexivity. }
  assert (Ts : MetaProps.Tsteps a = Z.to_nat (sa_steps s)).
  { unfold MetaProps.Tsteps, a. cbn [md_src_traj md_mic_traj MetaSpec.steps track shape hd]. unfold repeat_mics. rewrite repeat_length, Lt. lia. }
  assert (C : MetaSpec.compatible (MetaSpec.steps (md_src_traj a)) (MetaSpec.steps (md_mic_traj a))).
  { left. unfold a. cbn [md_src_traj md_mic_traj MetaSpec.steps track shape hd]. unfold repeat_mics. rewrite repeat_length. auto. }
  assert (J : MetaSpec.json md).
  { eapply MetaProps.C51_metadata_json; [exact H|..]; unfold a; cbn [md_source_info md_extra]; intros v E; injection E as <-; apply json_supported; auto. apply extra_json. }
  pose proof (MetaProps.C52_trajectories _ _ _ D H) as (ft & fm & F1 & F2 & Ft0 & Ft1). rewrite Ts in Ft0, Ft1.
  pose proof (MetaProps.C52_dynamic_flag _ _ _ D H) as [Fd Fs]. rewrite Ts in Fd, Fs.
  assert (Rep : forall t row, nth_error (geo_traj geo) t = Some row -> nth_error (repeat_mics (sa_steps s) (geo_mics geo)) t = Some (geo_mics geo)).
  { intros t row K. assert (t < length (geo_traj geo))%nat by (apply nth_error_Some; congruence). unfold repeat_mics.
    apply nth_error_repeat. lia. }
  pose proof H as H'. unfold build_metadata in H'. unfold a in H' at 1. cbn [md_rirs_shape] in H'. rewrite Sh in H'. cbn [rev app] in H'.
  destruct (Reqb (md_fs a) 0) eqn:Fz; [discriminate|].
  destruct (md_trajectories a) as [[[ts tm] st]|] eqn:Tr; [|discriminate]. cbn [bind] in H'. destruct (compute_doa ts tm) as [az el] eqn:Doa.
  destruct (array_attributes a) as [arr|] eqn:Arr; [|discriminate]. cbn [bind] in H'. apply Ok_inj in H'.
  assert (Fld : forall k v, field (PDict (scene_extra s dir (geo_center geo) (sd_moving d) (geo_sources geo))) k = v -> field md ("extra"%string :: k) = v).
  { intros k v <-. rewrite <- H'. unfold a. cbn [md_source_info md_extra]. cbn [app field MetaSpec.field MetaSpec.lookup String.eqb Ascii.eqb Bool.eqb].
    pose proof (extra_json s dir (geo_center geo) (sd_moving d) (geo_sources geo)) as Je.
    destruct (scene_extra s dir (geo_center geo) (sd_moving d) (geo_sources geo)) as [|e1 ex] eqn:Ex; [discriminate Ex|].
    cbn [MetaSpec.lookup String.eqb Ascii.eqb Bool.eqb]. rewrite (MetaProofs.json_fixed (PDict (e1 :: ex))) by exact Je. reflexivity. }
  constructor; auto; try (apply Fld; reflexivity).
  - rewrite <- H'. unfold a. cbn [md_source_info]. cbn [app field MetaSpec.field MetaSpec.lookup String.eqb Ascii.eqb Bool.eqb]. rewrite MetaProofs.json_fixed; auto.
  - rewrite <- H'. eexists. split; [reflexivity|]. intros [|[|[|k]]] K; try lia; reflexivity.
  - rewrite <- H'. reflexivity.
  - rewrite <- H'. reflexivity.
  - rewrite <- H'. reflexivity.
  - rewrite <- H'. reflexivity.
  - rewrite <- H'. apply (table_points_listed (map p_start (geo_sources geo))).
  - rewrite <- H'. apply (table_points_listed (geo_mics geo)).
  - intros S1. split; [apply Fd; lia|]. split; [|split].
    + exists ft. split; auto. intros t row i q k K1 K2 K. assert (Ht : (t < Z.to_nat (sa_steps s))%nat) by (rewrite <- Lt; apply nth_error_Some; congruence).
      destruct (Ft1 ltac:(lia) t k Ht K) as [P _]. rewrite P.
      * unfold a. cbn [md_src_traj md_src]. rewrite (track_place _ _ _ _ row _ q) by auto. reflexivity.
      * unfold a. cbn. rewrite <- (Rg row) by (eapply nth_error_In; eauto). apply nth_error_Some. congruence.
    + exists fm. split; auto. intros t row i q k K1 K2 K.
      assert (Ht : (t < Z.to_nat (sa_steps s))%nat) by (rewrite <- Lt, <- (repeat_length (geo_mics geo)); apply nth_error_Some; congruence).
      destruct (Ft1 ltac:(lia) t k Ht K) as [_ P]. rewrite Lt in K1. rewrite P.
      * unfold a. cbn [md_mic_traj md_mic]. rewrite (track_place _ _ _ _ row _ q) by auto. reflexivity.
      * unfold a. cbn [md_mic_traj MetaSpec.entities track shape length Nat.eqb nth]. rewrite <- (Rm row) by (eapply nth_error_In; eauto). apply nth_error_Some. congruence.
    + exists (to_serializable (pyo (md_timestamps_out a (Z.to_nat (sa_steps s))))).
      destruct (MetaProps.built a 3 D C) as (md' & s' & m' & Hm & _ & _ & _ & _ & _ & _ & F & _). rewrite H in Hm. apply Ok_inj in Hm. subst md'. rewrite Ts in F.
      split; auto. intros t Ht. destruct (MetaProps.C52_timestamps a 3 md (Z.to_nat N) t D H) as (ft' & F' & I'); auto; try (rewrite Ts; lia); try lia.
      { unfold a. cbn [md_signal_len]. f_equal. lia. }
      rewrite F in F'. injection F' as <-. rewrite I'. do 2 f_equal. rewrite Ts. rewrite !INR_IZR_INZ, !Z2Nat.id by lia. reflexivity.
  - intros S1. destruct (Ft0 ltac:(lia)) as [-> ->]. split; [apply Fs; lia|]. split; auto. split; auto.
    apply (MetaProps.C52_timestamps_absent a 3 md D H); [reflexivity|]. left. rewrite Ts. lia.
  - destruct (MetaProps.built a 3 D C) as (md' & s' & m' & Hm & _ & _ & FA & FE & _). rewrite H in Hm. apply Ok_inj in Hm. subst md'.
    do 2 eexists. split; [exact FA|]. split; [exact FE|]. intros t row i q j m K1 K2 K3.
    assert (Ht : (t < Z.to_nat (sa_steps s))%nat) by (rewrite <- Lt; apply nth_error_Some; congruence).
    destruct (MetaProps.C52_doa a 3 md t i j D (or_intror eq_refl) H) as (fa & fe & az' & el' & A1 & A2 & A3 & A4 & _ & PA).
    + rewrite Ts. auto.
    + unfold a. cbn. rewrite <- (Rg row) by (eapply nth_error_In; eauto). apply nth_error_Some. congruence.
    + unfold a. cbn [md_mic_traj MetaSpec.entities track shape length Nat.eqb nth]. apply nth_error_Some. congruence.
    + rewrite FA in A1. injection A1 as <-. rewrite FE in A3. injection A3 as <-. exists az', el'. split; auto. split; auto.
      unfold a in PA. cbn [md_src_traj md_src md_mic_traj md_mic Nat.eqb] in PA.
      rewrite !(track_place _ (geo_traj geo) _ t row i q) in PA by (auto; lia).
      rewrite !(track_place _ (repeat_mics (sa_steps s) (geo_mics geo)) _ t (geo_mics geo) j m) in PA by (eauto; lia). exact PA.
  - rewrite <- H'. unfold a. cbn [md_rirs_shape]. rewrite Sh. cbn [app field MetaSpec.field MetaSpec.lookup String.eqb Ascii.eqb Bool.eqb map].
    rewrite !Z2Nat.id by lia. rewrite Z.max_r by lia. reflexivity.
  - transitivity (Some (pyf min_distance)); [apply Fld; reflexivity|]. unfold min_distance, pyf, MetaSpec.number. do 4 f_equal. lra.
  - rewrite (Fld _ _ eq_refl). cbn [field MetaSpec.field MetaSpec.lookup scene_extra String.eqb Ascii.eqb Bool.eqb]. unfold pyl. rewrite map_map. apply per_source_ok. intros q. unfold pyf, MetaSpec.number. do 3 f_equal. unfold Rdiv. ring.
  - rewrite (Fld _ _ eq_refl). cbn [field MetaSpec.field MetaSpec.lookup scene_extra String.eqb Ascii.eqb Bool.eqb]. unfold pyl. rewrite map_map. apply per_source_ok. intros q. unfold pyf, MetaSpec.number. do 3 f_equal. unfold Rdiv. ring.
  - rewrite (Fld _ _ eq_refl). cbn [field MetaSpec.field MetaSpec.lookup scene_extra String.eqb Ascii.eqb Bool.eqb]. unfold pyl. rewrite map_map. apply per_source_ok. reflexivity.
  - rewrite (Fld _ _ eq_refl). cbn [field MetaSpec.field MetaSpec.lookup scene_extra String.eqb Ascii.eqb Bool.eqb]. unfold pyl. rewrite map_map. apply per_source_ok. reflexivity.
  - rewrite (Fld _ _ eq_refl). cbn [field MetaSpec.field MetaSpec.lookup scene_extra String.eqb Ascii.eqb Bool.eqb]. apply per_source_ok. reflexivity.
Qed.
