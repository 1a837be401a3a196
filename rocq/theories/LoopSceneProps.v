(** C81 (audio files of a built scene) and C82 (its JSON files). *)
From Coq Require Import Ascii String List ZArith Reals Lia Lra Bool Permutation.
From Verif Require Import Prelude PreludeFacts SignalModel SignalSpec FloatModel DirModel IsmModel SimLocal RoomModel GeoModel DsModel DsSpec
  GeoProofs GeoSampling BldModel BldSpec BldProofs MetaModel LoopModel LoopSpec LoopNames LoopProofs LoopAudio SceneSpec LoopMeta.
From Verif Require MetaSpec LoopProps.
Import ListNotations.
Local Notation length := List.length.
Local Open Scope R_scope.

Lemma keyed_unique {A B} (l : list (A * B)) a b b' : NoDup (map fst l) -> In (a, b) l -> In (a, b') l -> b = b'.
Proof.
  induction l as [|[c d] l IH]; cbn [map fst]; intros N H H'; [destruct H|]. inversion N as [|? ? Hn N']; subst.
  assert (Q : forall e, In (c, e) l -> False) by (intros e I; apply Hn; change c with (fst (c, e)); apply in_map; auto).
  destruct H as [H|H], H' as [H'|H']; try congruence; auto.
  - injection H as -> ->. destruct (Q _ H').
  - injection H' as -> ->. destruct (Q _ H).
Qed.
Lemma source_not_json n s : source_name n = s -> s <> "metadata.json"%string /\ s <> "source_info.json"%string /\ s <> "mixture.wav"%string.
Proof.
  intros <-. pose proof (scene_files_nodup (S n)) as N. unfold scene_files in N. rewrite seq_S, map_app, <- app_assoc in N.
  cbn [map Nat.add app] in N. apply NoDup_remove_2 in N. repeat split; intros E; apply N; rewrite E; apply in_app_iff; right; cbn; auto.
Qed.
(** All there is to know about a scene of which something was written. *)
Lemma scene_facts E b o fuel w w' t r i : fair_calls E -> build_dataset E b o fuel w = (w', (t, r)) -> (exists f p, In (Written (scene_name i) f p) t) ->
  exists room center margin rate geo who dry,
    as_triplet (ba_room_list b) = Ok room /\ as_triplet (ba_center_list b) = Ok center /\ as_triplet (ba_margin_list b) = Ok margin /\
    let s := scene_of b room center margin in
    let N := target_samples (m_dur (sa_motion s)) rate in
    (i < Z.to_nat (ba_scenes b))%nat /\ made_of E b w' s i rate geo who dry /\
    (filt_length (e_ext E) -> keeps_numbers (e_ext E) -> (sa_steps s <= 2 ^ 51)%Z -> (6 < N + ba_rir b - 1)%Z ->
      audio_right (e_ext E) (room_of s o rate) (o_order o) (ba_rir b) (Z.to_nat (sa_n s)) (Z.to_nat (sa_steps s)) (Z.to_nat N) geo dry rate
        (fun f p => In (Written (scene_name i) f p) t)) /\
    exists info, info_right s (draws_for E s i) geo who info /\ MetaSpec.json info /\
      (forall p, In (Written (scene_name i) "source_info.json" p) t -> p = Json info) /\
      (forall p, In (Written (scene_name i) "metadata.json" p) t -> exists md, p = Json md /\ metadata_right s o rate (ba_rir b) N (scene_name i) (draws_for E s i) geo info md).
Proof.
  intros F H Hx. unfold build_dataset in H.
  assert (Nil : forall e : exn, (t, r) = ([], Some (Err e)) -> False) by (intros e K; injection K as -> ->; destruct Hx as (f & p & [])).
  destruct (early_checks b) as [[[room center] margin]|e] eqn:Ea; [|exfalso; injection H as _ <- <-; eapply Nil; reflexivity].
  destruct (prepare b w) as [w1|e]; [|exfalso; injection H as _ <- <-; eapply Nil; reflexivity].
  destruct (make_setup E b o w1 room center margin) as [u|e] eqn:Es; [|exfalso; injection H as _ <- <-; eapply Nil; reflexivity]. clear Nil.
  pose proof (setup_sound _ _ _ _ _ _ _ _ Ea Es F) as Snd. apply setup_inv in Es as (S1 & S2 & S3 & S4 & S5 & S6 & S7 & S8 & S9 & S10 & S11).
  pose proof (early_inv _ _ _ _ Ea) as (B1 & B2 & B3 & B4 & B5).
  destruct (build_scenes E u fuel (Z.to_nat (ba_scenes b)) 0 (e_gen0 E, 0%nat)) as [t1 r1] eqn:B.
  assert (Et : t = t1 /\ w' = w1) by (destruct r1 as [[s|e]|]; cbn [rbind rret] in H; rewrite ?app_nil_r in H; injection H as <- <- <-; auto).
  destruct Et as [-> ->]. clear H.
  assert (Hi : (i < Z.to_nat (ba_scenes b))%nat).
  { destruct Hx as (f & p & I). destruct (scenes_places _ _ _ _ Snd _ _ _ _ _ B I) as (j & J & Pj). cbn [place] in Pj. apply scene_name_inj in Pj. lia. }
  destruct (scenes_origin _ _ _ _ Snd _ _ _ _ _ i B Hi Hx) as (k0 & k' & x & stems & d & Ed & C & Out). cbn [Nat.add] in Out.
  destruct (computed_geometry _ _ _ _ _ _ _ _ C) as (G1 & G2 & G3 & G4 & G5).
  destruct (computed_counts _ _ _ _ _ _ _ _ Snd C) as (Lw & Ld & Ls).
  pose proof (shoebox_room_inv _ _ _ _ _ S4) as (Er & Rr & _).
  assert (Es : su_scene u = scene_of b room center margin) by (rewrite S7; reflexivity). clear S7.
  set (s := scene_of b room center margin) in *. rewrite Es in *.
  assert (Ed' : d = draws_for E s i) by exact Ed.
  exists room, center, margin, (su_rate u), (mkGeo (sn_center x) (sn_mics x) (sn_placed x) (sn_traj x)), (sn_who x), (sn_dry x).
  assert (Tri : as_triplet (ba_room_list b) = Ok room /\ as_triplet (ba_center_list b) = Ok center /\ as_triplet (ba_margin_list b) = Ok margin).
  { unfold early_checks in Ea. apply bind_ok in Ea as (r0 & -> & Ea). apply bind_ok in Ea as (c0 & -> & Ea). apply bind_ok in Ea as (m0 & -> & Ea).
    repeat match type of Ea with (if ?b then _ else _) = _ => destruct b; [discriminate|] end. apply Ok_inj in Ea. injection Ea as -> -> ->. auto. }
  destruct Tri as (T1 & T2 & T3). split; auto. split; auto. split; auto. cbv zeta. fold s. rewrite <- Ed'. split; auto.
  change (m_dur (sa_motion s)) with (m_dur (sa_motion (ba_scene b))). rewrite <- S2.
  assert (Hr0 : r_fs (su_room u) <> 0) by (rewrite Er; cbn [r_fs]; lra).
  assert (Steps : (0 < sa_steps s)%Z) by exact B3. assert (Hn : (0 < sa_n s)%Z) by (change (sa_n s) with (sa_n (ba_scene b)); lia).
  assert (Room : su_room u = room_of s o (su_rate u)) by (rewrite Er; reflexivity).
  assert (Nd : NoDup (map fst (sn_files x))).
  { rewrite (audio_names _ _ _ (cm_files _ _ _ _ _ _ _ _ C)). pose proof (scene_files_nodup (length stems)) as N. unfold scene_files in N.
    change (["mixture.wav"; "metadata.json"; "source_info.json"]%string) with (["mixture.wav"%string] ++ ["metadata.json"%string; "source_info.json"%string])%list in N.
    rewrite app_assoc in N. revert N. generalize (map source_name (seq 0 (length stems)) ++ ["mixture.wav"%string])%list (["metadata.json"; "source_info.json"]%string).
    clear. intros a b. induction a as [|c a IH]; cbn [app]; intros N; [constructor|]. inversion N as [|? ? Hc N']; subst. constructor; [intros I; apply Hc, in_app_iff; auto|auto]. }
  assert (Names : forall f p, In (f, p) (sn_files x) -> (exists n, f = source_name n) \/ f = "mixture.wav"%string).
  { intros f p I. apply (in_map fst) in I. cbn [fst] in I. rewrite (audio_names _ _ _ (cm_files _ _ _ _ _ _ _ _ C)) in I. apply in_app_iff in I as [I|[I|[]]]; auto.
    apply in_map_iff in I as (n & <- & _). eauto. }
  split; [|split].
  - split; [exact S1|]. split; [rewrite <- Ed'; exact G1|]. split; [exact Lw|].
    pose proof (cm_load _ _ _ _ _ _ _ _ C) as Cl. destruct Snd as (Fc & St & Sn). apply load_all_ok in Cl as [Ew F2]; auto. split.
    + rewrite Ew, S8, Es. rewrite S8, Es in Sn. destruct (F k0) as [Fa Fb]. cbn [sample] in Fa, Fb. apply Fb; auto.
    + change (m_dur (sa_motion s)) with (m_dur (sa_motion (ba_scene b))). rewrite <- S2. rewrite S11 in F2. exact F2.
  - intros HF HK Hst HL. rewrite <- S9 in *.
    destruct (scene_heard _ _ _ _ _ _ _ _ Snd HF HK Hr0 ltac:(rewrite Es; auto) ltac:(rewrite Es; lia) HL C) as (ws & h & g & P1 & P2 & P3 & P4 & P5 & P5' & P6 & P7).
    rewrite Es in *. exists ws, h, g. split; auto. split; auto. split; auto. cbn [geo_traj geo_mics]. split; [rewrite <- Room, <- S10; exact P4|]. split; auto. split; [exact P5'|]. split.
    + intros q p Hq I. destruct (P6 q Hq) as (f & If & V). exists f. split; auto. apply Out in I. destruct (source_not_json q _ eq_refl) as (X1 & X2 & _).
      destruct I as [I|[I|I]]; [eapply keyed_unique; eauto|destruct I as [I _]; congruence..].
    + intros p I. apply Out in I. destruct I as [I|[I|I]]; [|destruct I as [I _]; discriminate..].
      assert (A : exists f rate, p = Audio f rate).
      { pose proof (cm_files _ _ _ _ _ _ _ _ C) as Cf. unfold audio_files in Cf. apply bind_ok in Cf as ([out mix] & _ & Cf). apply Ok_inj in Cf. rewrite <- Cf in I.
        apply in_app_iff in I as [I|[I|[]]]; [apply in_map_iff in I as (j & I & _)|]; injection I as <-; eauto. }
      destruct A as (f & rate & ->). destruct (P7 f rate I) as (-> & Sf & Vf). exists f. auto.
  - exists (source_info (sa_motion s) (sd_moving d) (sn_placed x) (sn_who x)). split; [|split; [apply info_json|split]].
    + apply (info_ok s d (mkGeo (sn_center x) (sn_mics x) (sn_placed x) (sn_traj x)) (sn_who x)); auto.
    + intros p I. apply Out in I. destruct I as [I|[I|I]].
      * apply Names in I as [[n I]|I]; [|discriminate]. symmetry in I. destruct (source_not_json n _ I) as (_ & X & _). congruence.
      * destruct I as [I _]. discriminate.
      * destruct I as [_ I]. rewrite Es in I. exact I.
    + intros p I. apply Out in I. destruct I as [I|[I|I]].
      * apply Names in I as [[n I]|I]; [|discriminate]. symmetry in I. destruct (source_not_json n _ I) as (X & _). congruence.
      * destruct I as (_ & md & -> & M). exists md. split; auto. pose proof (cm_rirs _ _ _ _ _ _ _ _ C) as Cr.
        destruct (omni_numbers _ _ _ _ _ _ _ _ Hr0 Cr) as (_ & Sh & L0). rewrite !track_shape in Sh. cbn [nth] in Sh. rewrite G2, G3, G4, S9 in Sh.
        rewrite Nat.max_r in Sh by lia.
        apply (metadata_ok s o (su_rate u) (ba_rir b) (su_target u) (su_room u) d (mkGeo (sn_center x) (sn_mics x) (sn_placed x) (sn_traj x)) (sn_rirs x)); cbn [geo_sources geo_mics geo_traj geo_center]; auto.
        -- rewrite G4. lia.
        -- apply lt_IZR. auto.
        -- apply info_json.
        -- unfold metadata_args in M. rewrite Es in M. exact M.
      * destruct I as [I _]. discriminate.
Qed.

(** ** C81 *)
(** Every scene of which anything is written was made from distinct speakers and their
    utterances with the geometry for its own draws; its source files are these signals heard
    through the responses of the moving sources, with one gain, and the mixture is their sum. *)
Theorem C81_scene : forall E b o fuel w w' t r i, fair_calls E -> build_dataset E b o fuel w = (w', (t, r)) ->
  (exists f p, In (Written (scene_name i) f p) t) ->
  filt_length (e_ext E) -> keeps_numbers (e_ext E) -> (sa_steps (ba_scene b) <= 2 ^ 51)%Z ->
  exists room center margin rate geo who dry,
    as_triplet (ba_room_list b) = Ok room /\ as_triplet (ba_center_list b) = Ok center /\ as_triplet (ba_margin_list b) = Ok margin /\
    let s := scene_of b room center margin in
    let N := target_samples (m_dur (sa_motion s)) rate in
    (i < Z.to_nat (ba_scenes b))%nat /\ made_of E b w' s i rate geo who dry /\
    ((6 < N + ba_rir b - 1)%Z ->
      audio_right (e_ext E) (room_of s o rate) (o_order o) (ba_rir b) (Z.to_nat (sa_n s)) (Z.to_nat (sa_steps s)) (Z.to_nat N) geo dry rate
        (fun f p => In (Written (scene_name i) f p) t)).
Proof.
  intros E b o fuel w w' t r i F H Hx HF HK Hs.
  destruct (scene_facts _ _ _ _ _ _ _ _ _ F H Hx) as (room & center & margin & rate & geo & who & dry & T1 & T2 & T3 & Hi & M & A & _).
  exists room, center, margin, rate, geo, who, dry. repeat (split; [solve [auto]|]). auto.
Qed.
Lemma written_files_in t d f : In (d, f) (files t) -> exists p, In (Written d f p) t.
Proof.
  unfold files. intros H. apply in_flat_map in H as (h & I & H). destruct h; cbn in H; try contradiction. destruct H as [H|[]]. injection H as <- <-. eauto.
Qed.
Lemma files_in_written t d f p : In (Written d f p) t -> In (d, f) (files t).
Proof. intros I. unfold files. apply in_flat_map. exists (Written d f p). split; [auto|left; auto]. Qed.
Lemma written_unique t d f p p' : NoDup (files t) -> In (Written d f p) t -> In (Written d f p') t -> p = p'.
Proof.
  induction t as [|h t IH]; intros N H H'; [destruct H|]. change (h :: t) with ([h] ++ t)%list in N. rewrite files_app in N.
  destruct H as [H|H], H' as [H'|H']; try congruence.
  - subst h. cbn in N. inversion N; subst. exfalso. apply files_in_written in H'. auto.
  - subst h. cbn in N. inversion N; subst. exfalso. apply files_in_written in H. auto.
  - apply IH; auto. revert N. generalize (files [h]). clear. intros l. induction l; auto. cbn. intros N. inversion N; auto.
Qed.
(** After a success every scene has exactly one file of each name; the result is the rate of the
    files and the number of their channels. *)
Theorem C81_complete : forall E b o fuel w w' t rate m, fair_calls E -> build_dataset E b o fuel w = (w', (t, Some (Ok (rate, m)))) ->
  open_speakers (first_rate (e_corpus E w')) (ba_speakers b) = Ok rate /\ m = 6%Z /\
  forall i f, (i < Z.to_nat (ba_scenes b))%nat -> In f (scene_files (Z.to_nat (sa_n (ba_scene b)))) -> exists! p, In (Written (scene_name i) f p) t.
Proof.
  intros E b o fuel w w' t rate m F H. split; [|split].
  3: { intros i f Hi Hf. destruct (LoopProps.C80_layout _ _ _ _ _ _ _ _ F H) as (done & k & _ & _ & Fi & _ & D). destruct (D _ eq_refl) as [-> ->].
       pose proof (LoopProps.C80_once _ _ _ _ _ _ _ _ F H) as N.
       destruct (written_files_in t (scene_name i) f) as [p I].
       - rewrite Fi. apply in_app_iff. left. apply LoopProps.in_scenes. auto.
       - exists p. split; auto. intros p' I'. eapply written_unique; eauto. }
  all: unfold build_dataset in H; destruct (early_checks b) as [[[room center] margin]|e]; [|discriminate]; destruct (prepare b w) as [w1|e]; [|discriminate];
    destruct (make_setup E b o w1 room center margin) as [u|e] eqn:Es; [|discriminate]; apply setup_inv in Es as (S1 & _);
    destruct (build_scenes E u fuel (Z.to_nat (ba_scenes b)) 0 (e_gen0 E, 0%nat)) as [t1 [[st|e]|]]; cbn [rbind rret] in H; try discriminate;
    injection H as <- _ <- <-; auto.
Qed.

(** ** C82 *)
(** The JSON files describe the scene that is heard in the audio files: the same speakers and
    utterances, the same geometry, room, rate and lengths. *)
Theorem C82_scene : forall E b o fuel w w' t r i, fair_calls E -> build_dataset E b o fuel w = (w', (t, r)) ->
  (exists f p, In (Written (scene_name i) f p) t) ->
  exists room center margin rate geo who dry,
    as_triplet (ba_room_list b) = Ok room /\ as_triplet (ba_center_list b) = Ok center /\ as_triplet (ba_margin_list b) = Ok margin /\
    let s := scene_of b room center margin in
    let N := target_samples (m_dur (sa_motion s)) rate in
    made_of E b w' s i rate geo who dry /\
    (filt_length (e_ext E) -> keeps_numbers (e_ext E) -> (sa_steps s <= 2 ^ 51)%Z -> (6 < N + ba_rir b - 1)%Z ->
      audio_right (e_ext E) (room_of s o rate) (o_order o) (ba_rir b) (Z.to_nat (sa_n s)) (Z.to_nat (sa_steps s)) (Z.to_nat N) geo dry rate
        (fun f p => In (Written (scene_name i) f p) t)) /\
    exists info, info_right s (draws_for E s i) geo who info /\ MetaSpec.json info /\
      (forall p, In (Written (scene_name i) "source_info.json" p) t -> p = Json info) /\
      (forall p, In (Written (scene_name i) "metadata.json" p) t -> exists md, p = Json md /\ metadata_right s o rate (ba_rir b) N (scene_name i) (draws_for E s i) geo info md).
Proof.
  intros E b o fuel w w' t r i F H Hx.
  destruct (scene_facts _ _ _ _ _ _ _ _ _ F H Hx) as (room & center & margin & rate & geo & who & dry & T1 & T2 & T3 & Hi & M & A & I).
  exists room, center, margin, rate, geo, who, dry. repeat (split; [solve [auto]|]). auto.
Qed.

(** ** Examples *)
(** Two samples and two steps that start at samples 0 and 1: each sample goes through the response
    of its own step, and the tail of the first is still heard. *)
Example C81_example : heard 2 [1; 2] [0%Z; 1%Z] (fun k _ => zext 2 (fun l => nth l (nth k [[1; 5]; [3; 7]] []) 0)) 0 1 = 2 * 3 + 1 * 5 /\
  heard 2 [1; 2] [0%Z; 1%Z] (fun k _ => zext 2 (fun l => nth l (nth k [[1; 5]; [3; 7]] []) 0)) 0 2 = 2 * 7.
Proof. unfold heard, tv_conv, zext. cbn. split; ring. Qed.
(** The second of two sources moves; its entry carries its own speaker and utterances. *)
Example C82_example : forall m p0 p1, let info := source_info m [1%nat] [p0; p1] [("aew", ["a1"]); ("axb", ["b7"; "b2"])]%string in
  exists e, MetaSpec.item info [1%nat] = Some e /\ MetaSpec.field e ["speaker"%string] = Some (PStr "axb") /\
    MetaSpec.field e ["utterance_ids"%string] = Some (PList [PStr "b7"; PStr "b2"]%string) /\ MetaSpec.field e ["is_moving"%string] = Some (PScalar (SBool true)) /\
    MetaSpec.field e ["velocity_mps"%string] = Some (MetaSpec.number (p_vel p1)).
Proof. intros. eexists. split; [reflexivity|]. repeat split. Qed.

Print Assumptions C81_scene.
Print Assumptions C81_complete.
Print Assumptions C82_scene.
