(** C80 (layout of a built data set) and C81 (its audio files). *)
From Coq Require Import Ascii String List ZArith Reals Lia Lra Bool Permutation.
From Verif Require Import Prelude PreludeFacts SignalModel FloatModel DirModel IsmModel RoomModel GeoModel DsModel DsSpec DsProofs
  GeoProofs GeoSampling BldModel BldSpec BldProofs BldAudio MetaModel LoopModel LoopSpec LoopNames LoopProofs.
From Verif Require ScnModel.
Import ListNotations.
Local Notation length := List.length.
Local Open Scope R_scope.

(** ** C80 *)
(** Names: the number with four (two) digits, or more if necessary. *)
Theorem C80_names : forall n, (exists s, scene_name n = ("scene_" ++ s)%string /\ writes 4 n s) /\
  (exists s, source_name n = ("source_" ++ s ++ ".wav")%string /\ writes 2 n s).
Proof. intros n. split; eexists; (split; [reflexivity|]); apply padded_writes; lia. Qed.
(** No two scenes share a directory and no two files of a scene share a name. *)
Theorem C80_distinct : (forall n m, scene_name n = scene_name m -> n = m) /\ forall n, NoDup (scene_files n).
Proof. split; [apply scene_name_inj|apply scene_files_nodup]. Qed.
(** Whatever the outcome, the files written are those of some scenes [0 .. done - 1] in full,
    followed by the first files of scene [done]; after a success all scenes are there. *)
Theorem C80_layout : forall E b o fuel w w' t r, fair_calls E -> build_dataset E b o fuel w = (w', (t, r)) ->
  let names := scene_files (Z.to_nat (sa_n (ba_scene b))) in
  exists done k, (done <= Z.to_nat (ba_scenes b))%nat /\ (k < length names)%nat /\
    files t = (flat_map (fun i => map (pair (scene_name i)) names) (seq 0 done) ++ map (pair (scene_name done)) (firstn k names))%list /\
    Forall (fun h => exists i, (i <= done)%nat /\ (i < Z.to_nat (ba_scenes b))%nat /\ place h = scene_name i) t /\
    (forall v, r = Some (Ok v) -> done = Z.to_nat (ba_scenes b) /\ k = 0%nat).
Proof.
  intros E b o fuel w w' t r F H names. assert (Lp : (0 < length names)%nat) by (unfold names, scene_files; rewrite app_length; cbn; lia).
  assert (Nil : forall e : exn, (t, r) = ([], Some (Err e)) -> exists done k, (done <= Z.to_nat (ba_scenes b))%nat /\ (k < length names)%nat /\
    files t = (flat_map (fun i => map (pair (scene_name i)) names) (seq 0 done) ++ map (pair (scene_name done)) (firstn k names))%list /\
    Forall (fun h => exists i, (i <= done)%nat /\ (i < Z.to_nat (ba_scenes b))%nat /\ place h = scene_name i) t /\
    (forall v, r = Some (Ok v) -> done = Z.to_nat (ba_scenes b) /\ k = 0%nat)).
  { intros e K. injection K as -> ->. exists 0%nat, 0%nat. split; [lia|]. split; [auto|]. split; [reflexivity|]. split; [constructor|]. intros v K. discriminate. }
  unfold build_dataset in H. destruct (early_checks b) as [[[room center] margin]|e] eqn:Ea; [|injection H as _ <- <-; eapply Nil; reflexivity].
  destruct (prepare b w) as [w1|e]; [|injection H as _ <- <-; eapply Nil; reflexivity].
  destruct (make_setup E b o w1 room center margin) as [u|e] eqn:Es; [|injection H as _ <- <-; eapply Nil; reflexivity].
  pose proof (setup_sound _ _ _ _ _ _ _ _ Ea Es F) as Snd. apply setup_inv in Es as (_ & _ & _ & _ & _ & _ & Esc & _).
  destruct (build_scenes E u fuel (Z.to_nat (ba_scenes b)) 0 (e_gen0 E, 0%nat)) as [t1 r1] eqn:B.
  destruct (scenes_trace _ _ _ _ Snd _ _ _ _ B) as (done & k & D & P & Fi & K & R1).
  rewrite Esc in Fi, K. cbn [sa_n] in Fi, K. fold names in Fi, K. exists done, k. split; auto. split; auto.
  assert (Et : t = t1 /\ (forall v, r = Some (Ok v) -> exists s, r1 = Some (Ok s))).
  { destruct r1 as [[s|e]|]; cbn [rbind rret] in H; rewrite ?app_nil_r in H; injection H as _ <- <-; (split; [auto|]); intros v; try discriminate; eauto. }
  destruct Et as [-> Er]. split; [exact Fi|]. split.
  - eapply Forall_impl; [|exact P]. intros h (i & I1 & I2 & I3). exists i. repeat split; auto; lia.
  - intros v Hv. apply Er in Hv as [s ->]. exact R1.
Qed.
Lemma in_scene i l d (f : string) : In (scene_name i, f) (map (pair (scene_name d)) l) -> i = d /\ In f l.
Proof. intros H. apply in_map_iff in H as (x & H & I). pose proof (f_equal fst H) as H1. pose proof (f_equal snd H) as H2. cbn [fst snd] in H1, H2. subst x. apply scene_name_inj in H1. auto. Qed.
Lemma in_scenes i (f : string) names m : In (scene_name i, f) (flat_map (fun i => map (pair (scene_name i)) names) (seq 0 m)) <-> (i < m)%nat /\ In f names.
Proof.
  rewrite in_flat_map. split.
  - intros (j & J & H). apply in_scene in H as [-> H]. apply in_seq in J. split; [lia|auto].
  - intros [L H]. exists i. split; [apply in_seq; lia|]. apply in_map_iff. eauto.
Qed.
Lemma last_not_before {A} (l : list A) x k : NoDup (l ++ [x]) -> (k < length (l ++ [x]))%nat -> ~ In x (firstn k (l ++ [x])).
Proof.
  intros N K H. rewrite app_length in K. cbn in K. rewrite firstn_app_l in H by lia. apply NoDup_remove_2 in N. rewrite app_nil_r in N.
  apply N. rewrite <- (firstn_skipn k l). apply in_app_iff. auto.
Qed.
(** [source_info.json] marks a scene that is complete. *)
Theorem C80_marker : forall E b o fuel w w' t r i, fair_calls E -> build_dataset E b o fuel w = (w', (t, r)) ->
  In (scene_name i, "source_info.json"%string) (files t) ->
  forall f, In f (scene_files (Z.to_nat (sa_n (ba_scene b)))) -> In (scene_name i, f) (files t).
Proof.
  intros E b o fuel w w' t r i F H I f Hf. destruct (C80_layout _ _ _ _ _ _ _ _ F H) as (done & k & _ & K & Fi & _).
  set (names := scene_files _) in *. rewrite Fi in I |- *. apply in_app_iff in I. rewrite in_app_iff, in_scenes. destruct I as [I|I].
  - apply in_scenes in I as [L _]. auto.
  - exfalso. apply in_scene in I as [_ I].
    assert (Hn : names = ((map source_name (seq 0 (Z.to_nat (sa_n (ba_scene b)))) ++ ["mixture.wav"%string; "metadata.json"%string]) ++ ["source_info.json"%string])%list).
    { unfold names, scene_files. rewrite <- app_assoc. reflexivity. }
    rewrite Hn in I, K. apply last_not_before in I; auto. rewrite <- Hn. apply scene_files_nodup.
Qed.
Lemma nodup_pairs (d : string) (l : list string) : NoDup l -> NoDup (map (pair d) l).
Proof. intros N. apply FinFun.Injective_map_NoDup; auto. intros a b H. congruence. Qed.
Lemma nodup_firstn {A} k (l : list A) : NoDup l -> NoDup (firstn k l).
Proof.
  intros N. rewrite <- (firstn_skipn k l) in N. revert N. generalize (firstn k l), (skipn k l). intros a b. induction a as [|x a IH]; intros N; [constructor|].
  inversion N as [|? ? Hx N']; subst. constructor; [intros I; apply Hx, in_app_iff; auto|auto].
Qed.
(** No file is written twice. *)
Theorem C80_once : forall E b o fuel w w' t r, fair_calls E -> build_dataset E b o fuel w = (w', (t, r)) -> NoDup (files t).
Proof.
  intros E b o fuel w w' t r F H. destruct (C80_layout _ _ _ _ _ _ _ _ F H) as (done & k & _ & _ & -> & _).
  set (names := scene_files _). assert (N : NoDup names) by apply scene_files_nodup. apply nodup_app.
  - generalize 0%nat. induction done as [|m IH]; intros s; cbn [seq flat_map]; [constructor|]. apply nodup_app; [apply nodup_pairs; auto|apply IH|].
    intros [d f] H1 H2. apply in_map_iff in H1 as (y & Ey & _). injection Ey as <- ->.
    apply in_flat_map in H2 as (j & J & H2). apply in_scene in H2 as [<- _]. apply in_seq in J. lia.
  - apply nodup_pairs, nodup_firstn; auto.
  - intros [d f] H1 H2. apply in_map_iff in H2 as (y & Ey & _). injection Ey as <- ->. apply in_scenes in H1. lia.
Qed.
(** More scenes: the run begins with all that the run for fewer scenes does; what follows is in
    the directories of the additional scenes, and a failure is a failure of both. *)
Theorem C80_extends : forall E b o fuel w n n' w1 w2 t1 t2 r1 r2, fair_calls E -> (0 < n <= n')%Z ->
  build_dataset E (with_scenes b n) o fuel w = (w1, (t1, r1)) -> build_dataset E (with_scenes b n') o fuel w = (w2, (t2, r2)) ->
  w1 = w2 /\ exists rest, t2 = (t1 ++ rest)%list /\
    Forall (fun h => exists i, (Z.to_nat n <= i < Z.to_nat n')%nat /\ place h = scene_name i) rest /\
    match r1 with
    | Some (Ok v) => forall v', r2 = Some (Ok v') -> v' = v
    | _ => rest = [] /\ r2 = r1
    end.
Proof.
  intros E b o fuel w n n' w1 w2 t1 t2 r1 r2 F N H1 H2. unfold build_dataset in H1, H2.
  assert (Ee : early_checks (with_scenes b n') = early_checks (with_scenes b n)).
  { rewrite <- (early_scenes (with_scenes b n) n'); [reflexivity|lia|cbn; lia]. }
  rewrite Ee in H2. destruct (early_checks (with_scenes b n)) as [[[room center] margin]|e] eqn:Ea.
  2: { injection H1 as <- <- <-. injection H2 as <- <- <-. split; auto. exists []. repeat split; auto. }
  change (prepare (with_scenes b n') w) with (prepare (with_scenes b n) w) in H2.
  destruct (prepare (with_scenes b n) w) as [w0|e].
  2: { injection H1 as <- <- <-. injection H2 as <- <- <-. split; auto. exists []. repeat split; auto. }
  change (make_setup E (with_scenes b n') o w0 room center margin) with (make_setup E (with_scenes b n) o w0 room center margin) in H2.
  destruct (make_setup E (with_scenes b n) o w0 room center margin) as [u|e] eqn:Es.
  2: { injection H1 as <- <- <-. injection H2 as <- <- <-. split; auto. exists []. repeat split; auto. }
  pose proof (setup_sound _ _ _ _ _ _ _ _ Ea Es F) as Snd.
  cbn [with_scenes ba_scenes] in H1, H2.
  replace (Z.to_nat n') with (Z.to_nat n + (Z.to_nat n' - Z.to_nat n))%nat in H2 by lia. rewrite scenes_split, Nat.add_0_r in H2.
  destruct (build_scenes E u fuel (Z.to_nat n) 0 (e_gen0 E, 0%nat)) as [ta [[st|e]|]] eqn:B; cbn [rbind rret] in H1, H2;
    [|injection H1 as <- <- <-; injection H2 as <- <- <-; split; auto; exists []; rewrite app_nil_r; repeat split; auto..].
  rewrite app_nil_r in H1. injection H1 as <- <- <-.
  destruct (build_scenes E u fuel (Z.to_nat n' - Z.to_nat n) (Z.to_nat n) st) as [tb rb] eqn:B2.
  destruct (scenes_trace _ _ _ _ Snd _ _ _ _ B2) as (done & k & D & P & _).
  assert (Et : t2 = (ta ++ tb)%list /\ w0 = w2 /\ forall v', r2 = Some (Ok v') -> v' = (su_rate u, 6%Z)).
  { destruct rb as [[s|e]|]; cbn [rbind rret] in H2; rewrite ?app_nil_r in H2; injection H2 as <- <- <-; repeat split; auto; intros v' K; congruence. }
  destruct Et as (-> & <- & Ev). split; auto. exists tb. split; auto. split; [|exact Ev].
  eapply Forall_impl; [|exact P]. intros h (i & I1 & I2 & I3). exists i. split; [lia|auto].
Qed.

(** ** Examples *)
Example C80_example_names : scene_name 7 = "scene_0007"%string /\ scene_name 12345 = "scene_12345"%string /\ source_name 3 = "source_03.wav"%string /\
  writes 4 7 "0007" /\ ~ writes 4 7 "007" /\ ~ writes 4 12345 "012345".
Proof.
  split; [reflexivity|]. split; [vm_compute; reflexivity|]. split; [reflexivity|]. split.
  - split; [repeat constructor; cbn; lia|]. split; [reflexivity|]. split; [cbn; lia|]. cbn. lia.
  - split; intros (_ & _ & A & B); cbn in A, B; [lia|]. specialize (B ltac:(lia) _ _ eq_refl). auto.
Qed.
Example C80_example_files : scene_files 2 =
  ["source_00.wav"; "source_01.wav"; "mixture.wav"; "metadata.json"; "source_info.json"]%string.
Proof. reflexivity. Qed.

Print Assumptions C80_names.
Print Assumptions C80_distinct.
Print Assumptions C80_layout.
Print Assumptions C80_marker.
Print Assumptions C80_once.
Print Assumptions C80_extends.
