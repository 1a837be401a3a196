(** Lemmas about the scene loop. *)
From Coq Require Import Ascii String List ZArith Reals Lia Lra Bool Permutation.
From Verif Require Import Prelude PreludeFacts SignalModel FloatModel DirModel IsmModel RoomModel GeoModel DsModel DsSpec DsProofs
  GeoProofs GeoSampling BldModel BldSpec BldProofs BldAudio MetaModel LoopModel LoopSpec LoopNames.
From Verif Require ScnModel.
Import ListNotations.
Local Notation length := List.length.
Local Open Scope R_scope.

(** ** Runs *)
Lemma rbind_assoc {A B C} (m : run A) (f : A -> run B) (g : B -> run C) :
  rbind (rbind m f) g = rbind m (fun a => rbind (f a) g).
Proof.
  destruct m as [t [[a|e]|]]; cbn; auto. destruct (f a) as [t1 [[b|e]|]]; cbn; auto.
  destruct (g b) as [t2 r]. cbn. rewrite app_assoc. reflexivity.
Qed.
Lemma rbind_ret_l {A B} (a : A) (f : A -> run B) : rbind (rret a) f = f a.
Proof. cbn. destruct (f a). reflexivity. Qed.
Lemma rbind_trace {A B} (m : run A) (f : A -> run B) :
  exists rest, fst (rbind m f) = fst m ++ rest /\
    match snd m with
    | Some (Ok a) => rest = fst (f a) /\ snd (rbind m f) = snd (f a)
    | Some (Err e) => rest = [] /\ snd (rbind m f) = Some (Err e)
    | None => rest = [] /\ snd (rbind m f) = None
    end.
Proof.
  destruct m as [t [[a|e]|]]; cbn; [destruct (f a) as [t' r]; cbn; eauto|exists []..]; rewrite app_nil_r; auto.
Qed.
Lemma rbind_ok {A B} (m : run A) (f : A -> run B) t b : rbind m f = (t, Some (Ok b)) ->
  exists t1 a t2, m = (t1, Some (Ok a)) /\ f a = (t2, Some (Ok b)) /\ t = t1 ++ t2.
Proof.
  destruct m as [t1 [[a|e]|]]; cbn; intros H; try discriminate. destruct (f a) as [t2 r] eqn:E. injection H as <- ->. eauto 6.
Qed.
Lemma scenes_split E u fuel n m idx st :
  build_scenes E u fuel (n + m) idx st = rbind (build_scenes E u fuel n idx st) (fun st' => build_scenes E u fuel m (n + idx) st').
Proof.
  revert idx st. induction n as [|n IH]; intros idx st; cbn [Nat.add build_scenes].
  - rewrite rbind_ret_l. reflexivity.
  - rewrite rbind_assoc. destruct (build_scene E u fuel idx st) as [t [[st'|e]|]]; cbn [rbind]; auto.
    rewrite IH, Nat.add_succ_r. reflexivity.
Qed.

(** ** Steps that write nothing *)
Definition silent {A} (m : run A) : Prop := fst m = [].
Lemma silent_bind {A B} (m : run A) (f : A -> run B) : silent m -> (forall a, silent (f a)) -> silent (rbind m f).
Proof.
  unfold silent. intros H K. destruct m as [t [[a|e]|]]; cbn in *; auto. specialize (K a). destruct (f a). cbn in *. subst. reflexivity.
Qed.
Lemma silent_lift {A} (r : result A) : silent (rlift r). Proof. reflexivity. Qed.
Lemma silent_ret {A} (a : A) : silent (rret a). Proof. reflexivity. Qed.
Lemma load_all_silent E c target fuel l : forall k, silent (load_all E c target fuel k l).
Proof.
  induction l as [|spk l IH]; intros k; cbn [load_all]; [apply silent_ret|].
  destruct (load_fixed_length_signal _ _ _ _ _ _) as [[[[k' row] ids]|e]|]; try reflexivity.
  apply silent_bind; auto. intros [[? ?] ?]. apply silent_ret.
Qed.
Lemma compute_silent E u fuel k d : silent (compute_scene E u fuel k d).
Proof.
  unfold compute_scene. repeat first [apply silent_ret|apply silent_lift|apply load_all_silent|apply silent_bind; [|intros]].
  destruct a1 as [[? ?] ?]. repeat first [apply silent_ret|apply silent_lift|apply silent_bind; [|intros]].
Qed.
Lemma load_all_ok E c target fuel l : fair_calls E -> (0 < target)%Z -> forall k k' rows who t,
  load_all E c target fuel k l = (t, Some (Ok (k', rows, who))) ->
  map fst who = l /\ Forall2 (fun w row => fixed_row_for c (Z.to_nat target) (fst w) (snd w) row) who rows.
Proof.
  intros F T. induction l as [|spk l IH]; intros k k' rows who t H; cbn [load_all] in H.
  - injection H as _ _ <- <-. auto.
  - destruct (load_fixed_length_signal _ _ _ _ _ _) as [[[[k1 row] ids]|e]|] eqn:L; try discriminate.
    apply rbind_ok in H as (t1 & [[k2 rows'] who'] & t2 & H1 & H2 & _). injection H2 as _ _ <- <-.
    apply IH in H1 as [A B]. split; [cbn; congruence|]. constructor; auto. cbn [fst snd].
    eapply load_fixed_spec; eauto.
Qed.

(** ** Everything a finished computation went through *)
Record computed (E : env) (u : setup) (fuel k : nat) (d : scene_draws) (k' : nat) (x : scene_data) (stems : list tensor) : Prop := {
  cm_center : scene_center (su_scene u) d = Ok (sn_center x);
  cm_mics : place_mics (sa_edge (su_scene u)) (sn_center x) = Ok (sn_mics x);
  cm_load : load_all E (su_corpus u) (su_target u) fuel (S k) (e_sample E k (su_speakers u) (Z.to_nat (sa_n (su_scene u)))) = ([], Some (Ok (k', sn_dry x, sn_who x)));
  cm_stack : stack_rows (sn_dry x) = Ok (sn_dry x);
  cm_placed : constrained_positions (sd_trials d) (sd_moving d) (sa_n (su_scene u)) (sa_moving (su_scene u)) (sa_motion (su_scene u)) (sn_center x)
                (sa_room (su_scene u)) (sa_margin (su_scene u)) min_distance 100 = Ok (sn_placed x);
  cm_traj : source_trajectory (sn_placed x) (sn_center x) (sd_moving d) (sa_steps (su_scene u)) (sa_motion (su_scene u)) = Ok (sn_traj x);
  cm_rirs : simulate_dynamic_rir (e_ext E) Cpu (su_room u) (track (length (sn_placed x)) (sn_traj x))
              (track (length (sn_mics x)) (repeat_mics (sa_steps (su_scene u)) (sn_mics x)))
              (Some (o_order (su_opt u))) None (Some (su_rir u)) None None ONone None = Ok (sn_rirs x);
  cm_stems : stems_of E (length (sn_mics x)) (sn_dry x) (sn_rirs x) = Ok stems;
  cm_files : audio_files stems (su_rate u) = Ok (sn_files x) }.
Lemma rlift_ok {A B} (r : result A) (f : A -> run B) t b : rbind (rlift r) f = (t, Some (Ok b)) ->
  exists a, r = Ok a /\ f a = (t, Some (Ok b)).
Proof. intros H. apply rbind_ok in H as (t1 & a & t2 & H1 & H2 & ->). injection H1 as <- ->. eauto. Qed.
Lemma stack_rows_id rows dry : stack_rows rows = Ok dry -> dry = rows.
Proof. unfold stack_rows. destruct rows; [discriminate|]. destruct (forallb _ _); [congruence|discriminate]. Qed.
Lemma compute_ok E u fuel k d t k' x : compute_scene E u fuel k d = (t, Some (Ok (k', x))) -> t = [] /\ exists stems, computed E u fuel k d k' x stems.
Proof.
  intros H. split; [generalize (compute_silent E u fuel k d); unfold silent; rewrite H; auto|]. unfold compute_scene in H.
  apply rlift_ok in H as (center & H1 & H). apply rlift_ok in H as (mics & H2 & H).
  apply rbind_ok in H as (t1 & [[k1 rows] who] & t2 & H3 & H & ->).
  pose proof (load_all_silent E (su_corpus u) (su_target u) fuel (e_sample E k (su_speakers u) (Z.to_nat (sa_n (su_scene u)))) (S k)) as Sl.
  unfold silent in Sl. rewrite H3 in Sl. cbn in Sl. subst t1.
  apply rlift_ok in H as (dry & H4 & H). pose proof (stack_rows_id _ _ H4) as ->.
  apply rlift_ok in H as (placed & H5 & H). apply rlift_ok in H as (tr & H6 & H). apply rlift_ok in H as (rirs & H7 & H).
  apply rlift_ok in H as (stems & H8 & H). apply rlift_ok in H as (fs & H9 & H). injection H as _ <- <-.
  exists stems. constructor; cbn [sn_center sn_mics sn_who sn_dry sn_placed sn_traj sn_rirs sn_files]; auto.
Qed.

(** ** Writing a scene *)
Lemma save_all_trace E dir l t r : save_all E dir l = (t, r) ->
  exists k, t = map (fun p => Written dir (fst p) (snd p)) (firstn k l) /\
    match r with Some (Ok _) => k = length l | Some (Err _) => (k < length l)%nat | None => False end.
Proof.
  revert t r. induction l as [|[f p] l IH]; intros t r; cbn [save_all].
  - intros H. injection H as <- <-. exists 0%nat. auto.
  - unfold save. destruct (e_save E dir f) as [e|]; cbn [rlog rbind]; intros H.
    + injection H as <- <-. exists 0%nat. cbn. split; [auto|lia].
    + destruct (save_all E dir l) as [t' r'] eqn:Sv. injection H as <- <-. destruct (IH _ _ eq_refl) as (k & -> & K).
      exists (S k). split; [reflexivity|]. cbn [length]. destruct r' as [[|]|]; auto; lia.
Qed.
Lemma files_app t t' : files (t ++ t') = files t ++ files t'.
Proof. unfold files. apply flat_map_app. Qed.
Lemma files_written dir l : files (map (fun p => Written dir (fst p) (snd p)) l) = map (pair dir) (map fst l).
Proof. induction l as [|[f p] l IH]; cbn; auto. rewrite <- IH. reflexivity. Qed.
Lemma mix_length stems mix : mix_stems stems = Ok mix -> stems <> [].
Proof. destruct stems; [discriminate|congruence]. Qed.
Lemma written_length stems out mix : written_files stems = Ok (out, mix) -> length out = length stems.
Proof.
  unfold written_files. intros H. apply bind_ok in H as (o & N & H). apply bind_ok in H as (m & _ & H).
  injection H as <- <-. apply normalize_spec in N as (k & _ & -> & _); [|lra]. apply map_length.
Qed.
Lemma audio_names stems sr fs : audio_files stems sr = Ok fs ->
  map fst fs = (map source_name (seq 0 (length stems)) ++ ["mixture.wav"%string])%list.
Proof.
  unfold audio_files. intros H. apply bind_ok in H as ([out mix] & W & H). injection H as <-.
  rewrite map_app, map_map. cbn [map fst]. apply written_length in W. rewrite map_length in W. rewrite W. reflexivity.
Qed.
Lemma firstn_app_l {A} k (l l' : list A) : (k <= length l)%nat -> firstn k (l ++ l') = firstn k l.
Proof. intros H. rewrite firstn_app. replace (k - length l)%nat with 0%nat by lia. cbn. apply app_nil_r. Qed.

(** What a scene with these audio files leaves behind: a prefix of its list of files. *)
Definition whole (x : scene_data) : list string := map fst (sn_files x) ++ ["metadata.json"%string; "source_info.json"%string].
Lemma write_trace E u dir d x t r : write_scene E u dir d x = (t, r) ->
  Forall (fun h => place h = dir) t /\
  exists k, files t = map (pair dir) (firstn k (whole x)) /\
    match r with Some (Ok _) => k = length (whole x) | Some (Err _) => (k < length (whole x))%nat | None => False end.
Proof.
  unfold write_scene. intros H.
  set (P := if o_images (su_opt u) then _ else _) in H. set (Q := if o_mp4 (su_opt u) then _ else _) in H.
  assert (HP : exists tp, P = (tp, Some (Ok tt)) /\ Forall (fun h => place h = dir) tp /\ files tp = []).
  { unfold P. destruct (o_images _); eexists; (split; [reflexivity|]); split; repeat constructor. }
  assert (HQ : exists tq, Q = (tq, Some (Ok tt)) /\ Forall (fun h => place h = dir) tq /\ files tq = []).
  { unfold Q. destruct (o_mp4 _); eexists; (split; [reflexivity|]); split; repeat constructor. }
  destruct HP as (tp & -> & Pp & Pf). destruct HQ as (tq & -> & Qp & Qf).
  assert (W : forall l, Forall (fun h => place h = dir) (map (fun p => Written dir (fst p) (snd p)) l)).
  { intros l. apply Forall_forall. intros h Hh. apply in_map_iff in Hh as (p & <- & _). reflexivity. }
  destruct (save_all E dir (sn_files x)) as [t1 r1] eqn:S1. destruct (save_all_trace _ _ _ _ _ S1) as (k1 & -> & K1).
  assert (Lw : length (whole x) = (length (sn_files x) + 2)%nat) by (unfold whole; rewrite app_length, map_length; reflexivity).
  destruct r1 as [[[]|e]|]; [|cbn [rbind] in H; injection H as <- <-|contradiction].
  2: { split; [apply W|]. exists k1. rewrite files_written. split; [|lia]. f_equal. unfold whole.
       rewrite firstn_app_l by (rewrite map_length; lia). symmetry. apply firstn_map. }
  subst k1. rewrite firstn_all in H. cbn [rbind] in H.
  destruct (build_metadata _) as [md|e]; cbn [rlift rbind] in H.
  - set (L := [_; _]) in H. destruct (save_all E dir L) as [t2 r2] eqn:S2. destruct (save_all_trace _ _ _ _ _ S2) as (k2 & -> & K2).
    cbn [app] in H. injection H as <- <-. rewrite !files_app, Pf, Qf, !files_written. cbn [app]. split.
    + rewrite !Forall_app. auto.
    + exists (length (sn_files x) + k2)%nat. split.
      * rewrite <- map_app. f_equal. unfold whole. replace (length (sn_files x)) with (length (map fst (sn_files x))) by apply map_length.
        rewrite firstn_app_2. f_equal. rewrite <- firstn_map. reflexivity.
      * rewrite Lw. unfold L in K2. cbn [length] in K2. destruct r2 as [[|]|]; auto; lia.
  - injection H as <- <-. rewrite !files_app, Pf, Qf, files_written. cbn [app files flat_map]. rewrite ?app_nil_r. split.
    + rewrite !Forall_app. auto.
    + exists (length (sn_files x)). split; [|lia]. f_equal. unfold whole.
      replace (length (sn_files x)) with (length (map fst (sn_files x))) by apply map_length.
      rewrite firstn_app_l, firstn_all by lia. reflexivity.
Qed.

(** ** The loop *)
Definition sound (E : env) (u : setup) : Prop :=
  fair_calls E /\ (0 < su_target u)%Z /\ (Z.to_nat (sa_n (su_scene u)) <= length (su_speakers u))%nat.
Lemma forall2_length {A B} (P : A -> B -> Prop) l l' : Forall2 P l l' -> length l = length l'.
Proof. induction 1; cbn; auto. Qed.
Lemma computed_counts E u fuel k d k' x stems : sound E u -> computed E u fuel k d k' x stems ->
  length (sn_who x) = Z.to_nat (sa_n (su_scene u)) /\ length (sn_dry x) = Z.to_nat (sa_n (su_scene u)) /\
  length stems = Z.to_nat (sa_n (su_scene u)).
Proof.
  intros (F & T & N) C. pose proof (cm_load _ _ _ _ _ _ _ _ C) as L. apply load_all_ok in L as [Lw L2]; auto.
  assert (Lc : length (e_sample E k (su_speakers u) (Z.to_nat (sa_n (su_scene u)))) = Z.to_nat (sa_n (su_scene u))).
  { destruct (F k) as [_ S]. cbn in S. apply S; auto. }
  apply forall2_length in L2. pose proof (f_equal (@length _) Lw) as E1. rewrite map_length, Lc in E1.
  pose proof (cm_stems _ _ _ _ _ _ _ _ C) as St. apply mapM_length in St. rewrite seq_length in St. repeat split; congruence.
Qed.
Lemma scene_trace E u fuel idx st t r : sound E u -> build_scene E u fuel idx st = (t, r) ->
  Forall (fun h => place h = scene_name idx) t /\
  exists k, files t = map (pair (scene_name idx)) (firstn k (scene_files (Z.to_nat (sa_n (su_scene u))))) /\
    let len := length (scene_files (Z.to_nat (sa_n (su_scene u)))) in
    match r with Some (Ok _) => k = len | _ => (k < len)%nat end.
Proof.
  intros Snd. unfold build_scene. destruct st as [g k]. destruct (e_draw E (su_scene u) g) as [d g']. cbn [rlog rbind].
  assert (Lp : (0 < length (scene_files (Z.to_nat (sa_n (su_scene u)))))%nat) by (unfold scene_files; rewrite app_length; cbn; lia).
  destruct (compute_scene E u fuel k d) as [t1 r1] eqn:Ec.
  pose proof (compute_silent E u fuel k d) as Sl. unfold silent in Sl. rewrite Ec in Sl. cbn in Sl. subst t1.
  destruct r1 as [[[k' x]|e]|]; cbn [rbind].
  - destruct (compute_ok _ _ _ _ _ _ _ _ Ec) as [_ [stems C]].
    assert (Ew : whole x = scene_files (Z.to_nat (sa_n (su_scene u)))).
    { unfold whole. rewrite (audio_names _ _ _ (cm_files _ _ _ _ _ _ _ _ C)).
      destruct (computed_counts _ _ _ _ _ _ _ _ Snd C) as (_ & _ & ->). unfold scene_files. rewrite <- app_assoc. reflexivity. }
    cbn [snd fst]. destruct (write_scene E u (scene_name idx) d x) as [t2 r2] eqn:Wr.
    destruct (write_trace _ _ _ _ _ _ _ Wr) as (Pl & j & Fi & J). rewrite Ew in *.
    destruct r2 as [[[]|e]|]; cbn [rbind rret app]; intros H; try contradiction; injection H as <- <-; rewrite ?app_nil_r.
    + split; [constructor; auto|]. exists j. cbn [files flat_map app]. auto.
    + split; [constructor; auto|]. exists j. cbn [files flat_map app]. auto.
  - intros H. injection H as <- <-. split; [repeat constructor|]. exists 0%nat. auto.
  - intros H. injection H as <- <-. split; [repeat constructor|]. exists 0%nat. auto.
Qed.
Lemma scenes_trace E u fuel n : sound E u -> forall idx st t r, build_scenes E u fuel n idx st = (t, r) ->
  exists done k, (done <= n)%nat /\
    Forall (fun h => exists i, (idx <= i <= idx + done)%nat /\ (i < idx + n)%nat /\ place h = scene_name i) t /\
    files t = (flat_map (fun i => map (pair (scene_name i)) (scene_files (Z.to_nat (sa_n (su_scene u))))) (seq idx done)
               ++ map (pair (scene_name (idx + done))) (firstn k (scene_files (Z.to_nat (sa_n (su_scene u))))))%list /\
    (k < length (scene_files (Z.to_nat (sa_n (su_scene u)))))%nat /\
    match r with Some (Ok _) => done = n /\ k = 0%nat | _ => (done < n)%nat end.
Proof.
  intros Snd. set (F := scene_files _). assert (Lp : (0 < length F)%nat) by (unfold F, scene_files; rewrite app_length; cbn; lia).
  induction n as [|n IH]; intros idx st t r H; cbn [build_scenes] in H.
  - injection H as <- <-. exists 0%nat, 0%nat. repeat split; auto.
  - destruct (build_scene E u fuel idx st) as [t1 r1] eqn:B. destruct (scene_trace _ _ _ _ _ _ _ Snd B) as (P1 & k1 & F1 & K1).
    fold F in F1, K1. cbv zeta in K1. destruct r1 as [[st'|e]|]; cbn [rbind] in H.
    + destruct (build_scenes E u fuel n (S idx) st') as [t2 r2] eqn:B2. injection H as <- <-.
      destruct (IH _ _ _ _ B2) as (done & k & D & P2 & F2 & Hk & R2). exists (S done), k. split; [lia|]. split; [|split; [|split]].
      * rewrite Forall_app. split.
        -- eapply Forall_impl; [|exact P1]. intros h Hh. exists idx. split; [lia|]. split; [lia|auto].
        -- eapply Forall_impl; [|exact P2]. intros h (i & I1 & I2 & I3). exists i. repeat split; auto; lia.
      * rewrite files_app, F1, F2. subst k1. rewrite firstn_all. cbn [seq flat_map]. rewrite <- app_assoc, Nat.add_succ_r. reflexivity.
      * auto.
      * destruct r2 as [[|]|]; [destruct R2; split|..]; lia.
    + injection H as <- <-. exists 0%nat, k1. rewrite Nat.add_0_r. repeat split; auto; try lia.
      eapply Forall_impl; [|exact P1]. intros h Hh. exists idx. repeat split; auto; lia.
    + injection H as <- <-. exists 0%nat, k1. rewrite Nat.add_0_r. repeat split; auto; try lia.
      eapply Forall_impl; [|exact P1]. intros h Hh. exists idx. repeat split; auto; lia.
Qed.

(** ** The builder *)
Lemma early_inv b room center margin : early_checks b = Ok (room, center, margin) ->
  (0 < ba_scenes b)%Z /\ (0 < sa_n (ba_scene b) <= Z.of_nat (length (ba_speakers b)))%Z /\ (0 < sa_steps (ba_scene b))%Z /\
  0 < m_dur (sa_motion (ba_scene b)) /\ (0 < ba_rir b)%Z.
Proof.
  unfold early_checks. intros H. apply bind_ok in H as (r & _ & H). apply bind_ok in H as (c & _ & H). apply bind_ok in H as (m & _ & H).
  destruct (Z.leb_spec (ba_scenes b) 0); [discriminate|]. destruct (Z.leb_spec (sa_n (ba_scene b)) 0); [discriminate|].
  destruct (_ || _)%bool; [discriminate|]. destruct (Z.ltb_spec (Z.of_nat (length (ba_speakers b))) (sa_n (ba_scene b))); [discriminate|].
  destruct (Z.leb_spec (sa_steps (ba_scene b)) 0); [discriminate|].
  destruct (Rleb (m_dur (sa_motion (ba_scene b))) 0) eqn:D; [discriminate|]. apply rleb_false in D.
  destruct (Z.leb_spec (ba_rir b) 0); [discriminate|]. repeat split; auto; lia.
Qed.
Lemma early_scenes b n : (0 < n)%Z -> (0 < ba_scenes b)%Z -> early_checks (with_scenes b n) = early_checks b.
Proof.
  intros H K. unfold early_checks, with_scenes. cbn [ba_scenes ba_scene ba_speakers ba_rir ba_room_list ba_center_list ba_margin_list].
  destruct (Z.leb_spec n 0); [lia|]. destruct (Z.leb_spec (ba_scenes b) 0); [lia|]. reflexivity.
Qed.
Lemma setup_inv E b o w room center margin u : make_setup E b o w room center margin = Ok u ->
  open_speakers (first_rate (e_corpus E w)) (ba_speakers b) = Ok (su_rate u) /\
  su_target u = target_samples (m_dur (sa_motion (ba_scene b))) (su_rate u) /\ (0 < su_target u)%Z /\
  shoebox_room room (su_rate u) (o_c o) (o_t60 o) = Ok (su_room u) /\ (sa_n (ba_scene b) <= 6)%Z /\ 0 < sa_edge (ba_scene b) /\
  su_scene u = mkSA (sa_n (ba_scene b)) (sa_moving (ba_scene b)) room center (sa_edge (ba_scene b)) margin (sa_steps (ba_scene b))
                 (sa_motion (ba_scene b)) (sa_random_center (ba_scene b)) /\
  su_speakers u = ba_speakers b /\ su_rir u = ba_rir b /\ su_opt u = o /\ su_corpus u = e_corpus E w.
Proof.
  unfold make_setup. intros H. apply bind_ok in H as (sr & H1 & H). destruct (Z.leb_spec (target_samples (m_dur (sa_motion (ba_scene b))) sr) 0); [discriminate|].
  apply bind_ok in H as (base & Hb & H). destruct (Z.ltb_spec (Z.of_nat (length base)) (sa_n (ba_scene b))); [discriminate|].
  apply bind_ok in H as (r & Hr & H). injection H as <-. cbn [su_scene su_speakers su_rir su_opt su_corpus su_rate su_target su_room].
  assert (M : exists mics, place_mics (sa_edge (ba_scene b)) (P3 0 0 0) = Ok mics /\ length mics = length base).
  { unfold place_mics. rewrite Hb. cbn [bind]. eexists. split; [reflexivity|]. apply map_length. }
  destruct M as (mics & M & Lm). apply octa_mics in M as [Hr0 ->]. cbn in Lm. rewrite <- Lm in *.
  repeat split; auto; lia.
Qed.
Lemma setup_sound E b o w room center margin u : early_checks b = Ok (room, center, margin) -> make_setup E b o w room center margin = Ok u ->
  fair_calls E -> sound E u.
Proof.
  intros H1 H2 F. apply early_inv in H1 as (_ & N & _). apply setup_inv in H2 as (_ & _ & T & _ & _ & _ & Es & Ep & _).
  unfold sound. rewrite Es, Ep. cbn [sa_n]. split; [auto|]. split; [auto|lia].
Qed.
