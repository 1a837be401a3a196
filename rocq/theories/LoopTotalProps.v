(** C83: when a run of the builder completes. *)
From Coq Require Import Ascii String List ZArith Reals Lia Lra Bool Permutation.
From Verif Require Import Prelude PreludeFacts SignalModel FloatModel FloatProofs DirModel IsmModel SimProofs SimLocal RoomModel GeoModel DsModel DsSpec DsProofs
  GeoProofs GeoSampling BldModel BldSpec BldProofs BldAudio MetaModel LoopModel LoopSpec LoopNames LoopProofs LoopAudio SceneSpec TotalSpec LoopTotal.
From Verif Require BldProps LoopProps LoopSceneProps.
Import ListNotations.
Local Notation length := List.length.
Local Open Scope R_scope.

(** ** C83 *)
(** The bound on the rounds of the loading loops does not matter once the run ends: the same
    files and the same outcome for every greater bound. *)
Theorem C83_bound : forall E b o w f f' w1 t r, (f <= f')%nat -> build_dataset E b o f w = (w1, (t, Some r)) -> build_dataset E b o f' w = (w1, (t, Some r)).
Proof.
  intros E b o w f f' w1 t r L H. unfold build_dataset in *. destruct (early_checks b) as [[[room center] margin]|e]; [|exact H].
  destruct (prepare b w) as [w2|e]; [|exact H]. destruct (make_setup E b o w2 room center margin) as [u|e]; [|exact H].
  injection H as <- H. f_equal.
  apply (stable_bind (fun f => build_scenes E u f (Z.to_nat (ba_scenes b)) 0 (e_gen0 E, 0%nat)) (fun _ _ => rret (su_rate u, 6%Z))) with (f := f); auto.
  - apply scenes_stable.
  - intros a. apply stable_const.
Qed.
Lemma triplet_iff l p : as_triplet l = Ok p <-> l = [px p; py p; pz p].
Proof.
  split.
  - unfold as_triplet. destruct l as [|x [|y [|z [|]]]]; try discriminate. intros H. injection H as <-. reflexivity.
  - intros ->. destruct p. reflexivity.
Qed.
(** A run with working files, filter and corpus completes exactly when the arguments fit: for
    every seed, every choice of speakers and every order of their utterances. *)
Theorem C83_completes : forall E b o w rate, fair_calls E -> (forall room center margin, fair_draws E (scene_of b room center margin)) ->
  (forall d f, e_save E d f = None) -> (forall w1, prepare b w = Ok w1 -> corpus_good (e_corpus E w1) (ba_speakers b) rate) ->
  ((20 < rate)%Z -> (0 < ba_rir b)%Z -> filter_works (e_ext E) rate (Z.to_nat (ba_rir b))) -> filt_length (e_ext E) -> keeps_numbers (e_ext E) ->
  (sa_steps (ba_scene b) <= 2 ^ 51)%Z ->
  completes E b o w rate <->
  (bexists w (ba_root b) = true -> ba_overwrite b = true) /\
  exists room center margin, triplets b room center margin /\ arguments_fit b o (scene_of b room center margin) rate.
Proof.
  intros E b o w rate Fc Fd Sv Cg Fw HF HK H51. split.
  - intros (f & w1 & t & H). unfold build_dataset in H. destruct (early_checks b) as [[[room center] margin]|e] eqn:Ee; [|discriminate].
    destruct (prepare b w) as [w2|e] eqn:Ep; [|discriminate]. destruct (make_setup E b o w2 room center margin) as [u|e] eqn:Es; [|discriminate].
    injection H as <- H. apply rbind_ok in H as (t1 & st & t2 & Hs & Hr & _). injection Hr as _ Hr.
    split. { intros Be. unfold prepare in Ep. rewrite Be in Ep. destruct (ba_overwrite b); [auto|discriminate]. }
    exists room, center, margin. pose proof (early_inv _ _ _ _ Ee) as (S0 & Sn & Sst & Sd & Sr).
    unfold early_checks in Ee. apply bind_ok in Ee as (r1 & R1 & Ee). apply bind_ok in Ee as (r2 & R2 & Ee). apply bind_ok in Ee as (r3 & R3 & Ee).
    repeat match type of Ee with (if ?b then _ else _) = _ => destruct b eqn:?; [discriminate|] end. injection Ee as -> -> ->.
    apply triplet_iff in R1, R2, R3. split; [split; [auto|split; auto]|].
    pose proof (setup_inv _ _ _ _ _ _ _ _ Es) as (Or & Tt & T0 & Sb & N6 & Ed & Esc & Esp & Eri & Eo & Eco).
    assert (Hrate : su_rate u = rate).
    { rewrite (open_good (e_corpus E w2) (ba_speakers b) rate) in Or; [apply Ok_inj in Or; auto| |auto]. intros Q. rewrite Q in Sn. cbn in Sn. lia. }
    apply shoebox_room_inv in Sb as (Er & Rs & Rc & Rt & Rx & Ry & Rz). rewrite Hrate in *.
    assert (Mv : (0 <= sa_moving (ba_scene b) <= sa_n (ba_scene b))%Z).
    { match goal with H : ((_ <? 0) || (_ <? _))%Z = false |- _ => apply orb_false_iff in H as [H1 H2]; apply Z.ltb_ge in H1; apply Z.ltb_ge in H2; lia end. }
    assert (F0 : fair_scene (su_scene u) (draws_for E (su_scene u) 0)) by (rewrite Esc; apply Fd; cbn [scene_of sa_n sa_moving]; lia).
    destruct (Z.to_nat (ba_scenes b)) as [|n] eqn:En; [lia|]. cbn [build_scenes] in Hs. apply rbind_ok in Hs as (t3 & st1 & t4 & Hs & _ & _).
    unfold build_scene in Hs. unfold draws_for in F0. cbn [Nat.iter nat_rect] in F0. destruct (e_draw E (su_scene u) (e_gen0 E)) as [d g'] eqn:Edr. cbn [fst] in F0.
    apply rbind_ok in Hs as (? & ? & ? & _ & Hs & _). apply rbind_ok in Hs as (? & [k' sd] & ? & Hc & _ & _). apply compute_ok in Hc as (_ & stems & C).
    destruct (computed_geometry _ _ _ _ _ _ _ _ C) as (Gg & _). pose proof (proj1 (BldProps.C60_feasible _ _ F0) (ex_intro _ _ Gg)) as [Sens Pl]. rewrite Esc in Sens, Pl.
    assert (Hfs : r_fs (su_room u) <> 0) by (rewrite Er; cbn [r_fs]; lra).
    destruct (responses_need _ _ _ _ _ _ _ Hfs (cm_rirs _ _ _ _ _ _ _ _ C)) as [On Rn]. rewrite Er in Rn. cbn [r_fs] in Rn. rewrite Eo in On.
    constructor; cbn [scene_of sa_n sa_moving sa_room sa_steps sa_motion]; auto; try lia.
    apply lt_IZR. apply (Rmult_lt_compat_r (IZR rate)) in Rn; [|lra]. unfold Rdiv in Rn. rewrite Rmult_assoc, Rinv_l in Rn by lra. lra.
  - intros (Ov & room & center & margin & (E1 & E2 & E3) & Af).
    assert (Hp : exists w1, prepare b w = Ok w1). { unfold prepare. destruct (bexists w (ba_root b)); [rewrite Ov by auto; cbn; eauto|eauto]. }
    destruct Hp as [w1 Hp]. specialize (Cg w1 Hp). specialize (Fw (af_rate _ _ _ _ Af) (af_rir _ _ _ _ Af)).
    assert (Fd' : forall i, fair_scene (scene_of b room center margin) (draws_for E (scene_of b room center margin) i)) by (apply Fd; apply (af_sensible _ _ _ _ Af)).
    destruct (setup_runs E b o w1 room center margin rate _ Fc Af Cg (Fd' 0%nat)) as (u & Hu & St).
    assert (Esc := st_scene _ _ _ _ _ _ _ _ _ St). rewrite <- Esc in Fd'.
    destruct (scenes_end E b o w1 u room center margin rate (Z.to_nat (ba_scenes b)) St Af H51 Cg Fw HF HK Sv Fd' 0 (e_gen0 E) 0 eq_refl) as (f & t & st & Hs & _).
    exists f, w1, (t ++ []). unfold build_dataset. rewrite (early_runs b o room center margin rate) by auto. rewrite Hp, Hu. f_equal. unfold rbind. rewrite Hs. rewrite (st_rate _ _ _ _ _ _ _ _ _ St). reflexivity.
Qed.
Lemma silent_loop c g target spk all f : fair g -> all <> [] -> (0 < target)%Z -> (forall v, In v all -> exists q, audio_of c spk v = Ok ([], q)) ->
  forall order idx st, Permutation all order -> (idx <= length order)%nat -> fixed_loop c g target spk f order idx 0 st = None.
Proof.
  intros [G _] N T A. induction f as [|f IH]; intros order idx st P L; [reflexivity|]. cbn [fixed_loop].
  destruct (Z.ltb_spec 0 target); [|lia]. cbn [negb].
  destruct (if (length order <=? idx)%nat then _ else _) as [[o i] k] eqn:Eo.
  assert (Q : Permutation all o /\ (i < length o)%nat).
  { destruct (Nat.leb_spec (length order) idx) as [Le|Lt]; injection Eo as <- <- _; [|auto].
    assert (P' : Permutation all (shuffle g (g_shuffles st) order)) by (eapply perm_trans; [exact P|apply G]). split; auto.
    rewrite <- (Permutation_length P'). destruct all; [contradiction|cbn; lia]. }
  destruct Q as [P' Li]. destruct (nth_error o i) as [v|] eqn:Ev; [|apply nth_error_None in Ev; lia].
  destruct (A v) as (q & Ex). { eapply Permutation_in; [apply Permutation_sym, P'|eapply nth_error_In; eauto]. }
  rewrite Ex. cbn [length Z.of_nat Z.add]. apply IH; auto.
Qed.
(** Over a corpus of empty recordings the builder goes on for ever: it has made the directory of
    the first scene and writes no file, whatever the bound. *)
Theorem C83_silent_unchecked : forall E b o w w1 rate room center margin, fair_calls E -> fair_draws E (scene_of b room center margin) ->
  prepare b w = Ok w1 -> corpus_silent (e_corpus E w1) (ba_speakers b) rate -> triplets b room center margin -> arguments_fit b o (scene_of b room center margin) rate ->
  forall f, build_dataset E b o f w = (w1, ([Directory (scene_name 0)], None)).
Proof.
  intros E b o w w1 rate room center margin Fc Fd Hp Cs (E1 & E2 & E3) Af f.
  assert (Fd' : forall i, fair_scene (scene_of b room center margin) (draws_for E (scene_of b room center margin) i)) by (apply Fd; apply (af_sensible _ _ _ _ Af)).
  assert (Ns : ba_speakers b <> []). { pose proof (af_speakers _ _ _ _ Af) as A. destruct (af_sensible _ _ _ _ Af) as (_ & Sn & _). intros Q. rewrite Q in A. cbn [length] in A. lia. }
  assert (Hu : exists u, make_setup E b o w1 room center margin = Ok u /\ settled E b o w1 u room center margin rate).
  { apply (setup_runs_gen E b o w1 room center margin rate (draws_for E (scene_of b room center margin) 0) Fc Af); [|apply (Fd' 0%nat)]. 
    apply open_rates; auto. intros s Hs. destruct (Cs s Hs) as (v & us & U & A). unfold first_rate. rewrite U. cbn [bind]. rewrite (A v) by (left; auto). reflexivity. }
  destruct Hu as (u & Hu & St). unfold build_dataset. rewrite (early_runs b o room center margin rate) by auto. rewrite Hp, Hu. f_equal.
  pose proof (st_scene _ _ _ _ _ _ _ _ _ St) as Es. pose proof (st_sound _ _ _ _ _ _ _ _ _ St) as (_ & T0 & Ls).
  destruct (Z.to_nat (ba_scenes b)) as [|n] eqn:En; [pose proof (af_scenes _ _ _ _ Af); lia|]. cbn [build_scenes]. unfold build_scene.
  pose proof (Fd' 0%nat) as F0. rewrite <- Es in F0. unfold draws_for in F0. cbn [Nat.iter nat_rect] in F0.
  destruct (e_draw E (su_scene u) (e_gen0 E)) as [d g'] eqn:Edr. cbn [fst] in F0.
  destruct (proj2 (BldProps.C60_feasible (su_scene u) d F0)) as [g Hg]. { rewrite Es. split; [apply (af_sensible _ _ _ _ Af)|apply (af_place _ _ _ _ Af)]. }
  destruct (geometry_parts _ _ _ Hg) as (G1 & G2 & _). unfold rlog. cbn [rbind]. unfold compute_scene. rewrite G1. unfold rlift at 1. cbn [rbind]. rewrite G2. unfold rlift at 1. cbn [rbind].
  destruct (Fc 0%nat) as [_ Sm]. cbn [sample] in Sm. destruct (Sm (su_speakers u) _ Ls) as [A [rest B]].
  destruct (e_sample E 0 (su_speakers u) (Z.to_nat (sa_n (su_scene u)))) as [|s l] eqn:El.
  { cbn [length] in A. assert (0 < sa_n (su_scene u))%Z by (rewrite Es; apply (af_sensible _ _ _ _ Af)). lia. }
  destruct (Cs s) as (v & us & U & Au). { rewrite <- (st_speakers _ _ _ _ _ _ _ _ _ St). eapply Permutation_in; [apply Permutation_sym, B|]. left. auto. }
  cbn [load_all]. unfold load_fixed_length_signal. rewrite (st_corpus _ _ _ _ _ _ _ _ _ St), U.
  rewrite (silent_loop _ _ _ _ (v :: us)); auto; try discriminate; [| |lia].
  - intros y Hy. rewrite (Au y Hy). eauto.
  - apply (Fc 0%nat).
Qed.

Lemma open_first_rates c l rate : open_speakers (first_rate c) l = Ok rate -> forall s, In s l -> first_rate c s = Ok rate.
Proof.
  unfold open_speakers. set (step := fun (acc : option Z) spk => _). intros H.
  assert (G : forall l acc r, foldM step l acc = Ok (Some r) -> (forall a, acc = Some a -> a = r) /\ forall s, In s l -> first_rate c s = Ok r).
  { clear H. induction l0 as [|s l0 IH]; intros acc r H; cbn [foldM] in H.
    - apply Ok_inj in H. split; [intros a ->; congruence|intros s []].
    - unfold step in H at 1. apply bind_ok in H as (acc' & H1 & H). apply bind_ok in H1 as (sr & F & H1). apply IH in H as [H2 H3]. destruct acc as [f|].
      + destruct (Z.eqb_spec sr f) as [->|N]; cbn [negb] in H1; [|discriminate]. apply Ok_inj in H1. specialize (H2 f (eq_sym H1)). subst f.
        split; [intros a Q; congruence|]. intros s' [<-|I]; auto.
      + apply Ok_inj in H1. specialize (H2 sr (eq_sym H1)). subst sr. split; [discriminate|]. intros s' [<-|I]; auto. }
  apply bind_ok in H as ([f|] & H & K); [|discriminate]. apply Ok_inj in K. subst f. apply (G _ _ _ H).
Qed.
(** Nothing is made below the root unless the first utterance of every speaker, chosen or not, can
    be read, all at one rate. *)
Theorem C83_corpus : forall E b o fuel w w1 t r, build_dataset E b o fuel w = (w1, (t, r)) -> t <> [] \/ (exists a, r = Some (Ok a)) ->
  exists rate, forall spk, In spk (ba_speakers b) -> exists u us a, utts (e_corpus E w1) spk = Ok (u :: us) /\ audio_of (e_corpus E w1) spk u = Ok (a, rate).
Proof.
  intros E b o fuel w w1 t r H Hx. unfold build_dataset in H.
  assert (Bad : forall e : exn, (t, r) = ([], Some (Err e)) -> False) by (intros e K; injection K as -> ->; destruct Hx as [Hx|[a Hx]]; [auto|discriminate]).
  destruct (early_checks b) as [[[room center] margin]|e]; [|exfalso; injection H as _ <- <-; eapply Bad; reflexivity].
  destruct (prepare b w) as [w2|e]; [|exfalso; injection H as _ <- <-; eapply Bad; reflexivity].
  destruct (make_setup E b o w2 room center margin) as [u|e] eqn:Es; [|exfalso; injection H as _ <- <-; eapply Bad; reflexivity].
  assert (w2 = w1) as -> by congruence. exists (su_rate u). intros spk Hs. apply setup_inv in Es as (Or & _).
  pose proof (open_first_rates _ _ _ Or spk Hs) as F. unfold first_rate in F. apply bind_ok in F as (l & U & F). destruct l as [|u0 us]; [discriminate|].
  apply bind_ok in F as ([a f] & A & F). apply Ok_inj in F. cbn [snd] in F. subst f. eauto 6.
Qed.

(** ** Examples *)
Definition x_env_of (audio : string -> list R) : env :=
  mkEnv (mkExt unit (fun _ _ => Ok tt) (fun _ row => Ok row) (fun _ _ => []))
    unit (fun _ g => (mkSD (P3 0 0 0) [0%nat] (fun _ => mkDraws 0 [0%nat; 1%nat] (fun _ => 0) (fun _ => 0) (fun _ => 0) (fun _ => true)), g)) tt
    (fun _ l n => firstn n l) (fun _ l => l)
    (fun _ => mkCorpus [] (fun _ => Ok ["a0"; "a1"]%string) (fun _ u => Ok (audio u, 16000%Z)))
    (fun _ _ => None) [] (fun _ _ => None) (fun _ _ => None) (fun _ _ _ => Err ValueError).
Definition x_env : env := x_env_of (fun u => if String.eqb u "a0" then [1; 1 / 2; 0] else []).
Definition x_args : build_args :=
  mkBA ["out"%string] ["cmu"%string] ["aew"; "axb"; "bdl"]%string 3
    (mkSA 2 1 (P3 8 6 3) (P3 4 3 1) (1 / 10) (P3 (1 / 2) (1 / 2) (1 / 4)) 4 (mkMotion (1 / 5) (4 / 5) (1 / 2) 1 1) true) [8; 6; 3] [4; 3; 1] [1 / 2; 1 / 2; 1 / 4] 32 false.
Definition x_opt : options := mkOpt (3 / 10) 343 2 false false None false true true false.
Lemma x_fair audio : fair_calls (x_env_of audio).
Proof.
  intros k. split; [intros; apply Permutation_refl|]. intros l n H. cbn. split; [rewrite firstn_length; lia|]. exists (skipn n l). rewrite firstn_skipn. apply Permutation_refl.
Qed.
Lemma x_draws audio room center margin : fair_draws (x_env_of audio) (scene_of x_args room center margin).
Proof.
  intros _ _ i. unfold draws_for. generalize (Nat.iter i (fun g => snd (e_draw (x_env_of audio) (scene_of x_args room center margin) g)) (e_gen0 (x_env_of audio))). intros g.
  cbn [x_env_of e_draw fst]. split; [unfold u01_3, u01; cbn; lra|]. split; [|split; [|split]].
  - intros k. unfold fair_trial, u01. cbn [sd_trials d_base d_perm d_radius d_z d_speed]. split; [lra|]. split; [apply Permutation_refl|intros; lra].
  - repeat constructor. intros [].
  - intros j [<-|[]]. cbn. lia.
  - reflexivity.
Qed.
Lemma x_fit : arguments_fit x_args x_opt (scene_of x_args (P3 8 6 3) (P3 4 3 1) (P3 (1 / 2) (1 / 2) (1 / 4))) 16000.
Proof.
  assert (S2 : 1 < sqrt 2) by (rewrite <- sqrt_1; apply sqrt_lt_1_alt; lra).
  assert (Q : 0 < 1 / 10 / sqrt 2 < 1 / 10).
  { split; [apply Rmult_lt_0_compat; [lra|apply Rinv_0_lt_compat; lra]|]. apply (Rmult_lt_reg_r (sqrt 2)); [lra|]. replace (1 / 10 / sqrt 2 * sqrt 2) with (1 / 10) by (field; lra). lra. }
  constructor; cbn [scene_of x_args x_opt ba_scenes ba_rir ba_scene ba_speakers sa_n sa_moving sa_room sa_center sa_edge sa_margin sa_steps sa_motion sa_random_center m_dur length o_t60 o_c o_order px py pz]; try lia; try lra.
  - unfold sensible. cbn [scene_of x_args ba_scene sa_random_center sa_center sa_steps sa_edge sa_n sa_moving sa_motion m_start m_end v_min v_max m_dur sa_margin sa_room px py pz]. repeat split; try lia; lra.
  - unfold spacious. cbn [scene_of x_args ba_scene sa_random_center sa_center sa_steps sa_edge sa_n sa_moving sa_motion m_start m_end v_min v_max m_dur sa_margin sa_room px py pz]. split; [lra|]. intros f [-> | ->]; cbn [px py].
    + exists 3, 4. split; [lra|]. intros c [-> | ->]; lra.
    + exists (5 / 2), 3. split; [lra|]. intros c [-> | ->]; lra.
  - unfold target_samples. rewrite Rmult_1_l, rnd64_IZR by (cbn; lia). rewrite truncZ_nonneg by lra. rewrite floorZ_IZR. lia.
Qed.
(** Three scenes of two of three speakers, one of them moving, over a corpus in which every second
    recording is empty: into a free directory the run completes and the second source of the last
    scene is there; into an existing one it does not complete. *)
Example C83_example : completes x_env x_args x_opt (fun _ => None) 16000 /\
  (exists f w1 t, build_dataset x_env x_args x_opt f (fun _ => None) = (w1, (t, Some (Ok (16000, 6)%Z))) /\
     exists! p, In (Written "scene_0002" "source_01.wav" p) t) /\
  ~ completes x_env x_args x_opt (fun p => match p with ["out"%string] => Some BDir | _ => None end) 16000.
Proof.
  assert (C : forall w, completes x_env x_args x_opt w 16000 <-> (bexists w (ba_root x_args) = true -> ba_overwrite x_args = true) /\
    exists room center margin, triplets x_args room center margin /\ arguments_fit x_args x_opt (scene_of x_args room center margin) 16000).
  { intros w. apply C83_completes.
    - apply x_fair.
    - apply x_draws.
    - reflexivity.
    - intros w1 _ spk _. exists "a0"%string, ["a1"%string], [1; 1 / 2; 0]. split; [reflexivity|]. split; [reflexivity|]. split; [intros v _; do 2 eexists; reflexivity|].
      exists "a0"%string, [1; 1 / 2; 0], 16000%Z. split; [left; auto|]. split; [reflexivity|discriminate].
    - intros _ _. exists tt. split; [reflexivity|]. intros row _. eexists. reflexivity.
    - intros s row out H. injection H as <-. auto.
    - intros s row out H F. injection H as <-. auto.
    - cbn. lia. }
  assert (C1 : completes x_env x_args x_opt (fun _ => None) 16000).
  { apply C. split; [discriminate|]. exists (P3 8 6 3), (P3 4 3 1), (P3 (1 / 2) (1 / 2) (1 / 4)). split; [split; [|split]; reflexivity|]. apply x_fit. }
  split; [exact C1|]. split.
  - destruct C1 as (f & w1 & t & H). exists f, w1, t. split; [exact H|]. apply (LoopSceneProps.C81_complete _ _ _ _ _ _ _ _ _ (x_fair _) H) with (i := 2%nat) (f := "source_01.wav"%string); [cbn; lia|right; left; reflexivity].
  - intros K. apply C in K as [K _]. specialize (K eq_refl). discriminate.
Qed.
(** The same arguments over empty recordings: never an end. *)
Example C83_silent_example : forall f, exists w1, build_dataset (x_env_of (fun _ => [])) x_args x_opt f (fun _ => None) = (w1, ([Directory "scene_0000"], None)).
Proof.
  intros f. eexists. apply (C83_silent_unchecked _ _ _ _ _ 16000 (P3 8 6 3) (P3 4 3 1) (P3 (1 / 2) (1 / 2) (1 / 4))).
  - apply x_fair.
  - apply x_draws.
  - reflexivity.
  - intros spk _. exists "a0"%string, ["a1"%string]. split; reflexivity.
  - split; [|split]; reflexivity.
  - apply x_fit.
Qed.
Print Assumptions C83_bound.
Print Assumptions C83_completes.
Print Assumptions C83_silent_unchecked.
Print Assumptions C83_corpus.
