(** Properties of audio files: C47 - C50. *)
From Coq Require Import Ascii String List ZArith Reals Lia Lra Bool.
From Verif Require Import Prelude PreludeFacts FloatModel FloatProofs DirModel DirSpec DirProofs AccumModel RoomModel GeoModel
  GeoSpec IoModel IoSpec IoProofs GeoProofs GeoSampling GeoProps.
Import ListNotations.
Local Open Scope R_scope.
Local Notation length := List.length.

(** ** C47 *)

(** The samples written have the requested peak as largest magnitude, in any arithmetic with
    a rounding [fl], whatever the layout. *)
Theorem C47_peak : forall fl peak w m, rounding fl -> 0 < peak -> 0 < m -> loudest (w_data w) m ->
  length (w_data w) = prodn (w_shape w) ->
  exists w', save_samples fl true peak w = Ok w' /\ loudest (w_data w') (fl peak).
Proof.
  intros fl peak w m F P M L Hl. pose proof (normalize_ok fl peak m _ P M L) as E.
  pose proof (normalize_length _ _ _ _ _ E) as L'. pose proof (out_loudest fl peak m _ F P M L) as [A (r & Hr & Er)].
  destruct (save_samples fl true peak w) as [w'|e] eqn:S; [|unfold save_samples in S; rewrite E in S; discriminate].
  exists w'. split; auto. pose proof (fun x => save_in fl true peak w w' _ x Hl E L' S) as I. split.
  - intros x Hx. apply A, I. auto.
  - exists r. split; auto. apply I. auto.
Qed.
(** float32 arithmetic: the peak written is the requested one rounded to float32, hence
    exactly the requested one when it is a float32 (as the default 1 is). *)
Theorem C47_peak_float32 : forall peak w m, 0 < peak -> single peak -> 0 < m -> loudest (w_data w) m ->
  length (w_data w) = prodn (w_shape w) ->
  exists w', save_samples rnd32 true peak w = Ok w' /\ loudest (w_data w') peak.
Proof.
  intros peak w m P S M L Hl. destruct (C47_peak rnd32 peak w m rounding_rnd32 P M L Hl) as (w' & E & B).
  exists w'. split; auto. rewrite <- S. auto.
Qed.
(** The samples written are a positive multiple of the input (exact arithmetic); with
    rounding they keep order and signs. *)
Theorem C47_multiple : forall peak l m, 0 < peak -> 0 < m -> loudest l m ->
  exists k, 0 < k /\ normalize_audio (fun x => x) true peak l = Ok (map (option_map (Rmult k)) l).
Proof.
  intros peak l m P M L. exists (peak / m). split; [apply Rdiv_lt_0_compat; auto|].
  rewrite (normalize_ok (fun x => x) peak m l P M L). f_equal. apply map_ext. intros [x|]; cbn; auto. f_equal. field. lra.
Qed.
Theorem C47_order_preserved : forall fl peak l m l', rounding fl -> 0 < peak -> 0 < m -> loudest l m ->
  normalize_audio fl true peak l = Ok l' ->
  forall i j x y, nth i l None = Some x -> nth j l None = Some y -> x <= y ->
  exists x' y', nth i l' None = Some x' /\ nth j l' None = Some y' /\ x' <= y' /\
    (0 <= x -> 0 <= x') /\ (x <= 0 -> x' <= 0).
Proof.
  intros fl peak l m l' F P M L E i j x y Hx Hy H. rewrite (normalize_ok fl peak m l P M L) in E. apply Ok_inj in E. subst l'.
  set (out := fun z => fl (fl (z / m) * fl peak)).
  assert (N : forall i x, nth i l None = Some x -> nth i (map (option_map out) l) None = Some (out x)).
  { intros k z Hk. change (@None R) with (option_map out None) at 1. rewrite map_nth. unfold xr in *. rewrite Hk. auto. }
  pose proof (out_mono fl peak m F P M) as O. assert (O0 : out 0 = 0).
  { unfold out. replace (0 / m) with 0 by (field; lra). rewrite (fl_zero _ F), Rmult_0_l. apply fl_zero; auto. }
  exists (out x), (out y). split; [apply N; auto|]. split; [apply N; auto|]. split; [apply O; auto|].
  split; intros Z; rewrite <- O0; apply O; auto.
Qed.
(** Silence (and the empty waveform) is left as it is. *)
Theorem C47_silence : forall fl peak l, 0 < peak -> (forall x, In x l -> x = Some 0) -> normalize_audio fl true peak l = Ok l.
Proof.
  intros fl peak l P H. unfold normalize_audio. destruct (Rleb_spec peak 0); [lra|]. rewrite max_abs_zero by auto.
  destruct (Rltb_spec 0 0); [lra|auto].
Qed.
Theorem C47_rejects : forall fl peak w, peak <= 0 -> save_samples fl true peak w = Err ValueError.
Proof. intros. unfold save_samples, normalize_audio. destruct (Rleb_spec peak 0); [auto|lra]. Qed.
Theorem C47_unnormalised : forall fl peak l, normalize_audio fl false peak l = Ok l.
Proof. reflexivity. Qed.
(** A waveform with a NaN sample is written without any normalisation. *)
Theorem C47_nan : forall fl peak l, 0 < peak -> In None l -> normalize_audio fl true peak l = Ok l.
Proof.
  intros fl peak l P H. unfold normalize_audio. destruct (Rleb_spec peak 0); [lra|]. rewrite max_abs_nan; auto.
Qed.
(** Every waveform is NaN, silent or has a positive largest magnitude: the cases are complete. *)
Theorem C47_cases : forall l : list (option R), In None l \/ (forall x, In x l -> x = Some 0) \/ exists m, 0 < m /\ loudest l m.
Proof.
  intros l. assert (D : In None l \/ ~ In None l).
  { induction l as [|[x|] l IH]; [right; auto| |left; left; auto].
    destruct IH as [H|H]; [left; right; auto|right; intros [Q|Q]; [discriminate|auto]]. }
  destruct D as [D|D]; auto. right. destruct l as [|x l]; [left; intros x []|].
  destruct (has_loudest (x :: l)) as (m & L & M); [intros y Hy ->; auto|discriminate|].
  destruct (Rle_lt_or_eq_dec 0 m M) as [M'|M']; [right; eauto|]. left. intros y Hy. destruct L as [A _].
  destruct (A y Hy) as (r & -> & Hr). f_equal. rewrite <- M' in Hr. pose proof (Rabs_pos r).
  destruct (Req_dec r 0); auto. apply Rabs_no_R0 in H0. lra.
Qed.
Example C47_example : normalize_audio (fun x => x) true (1/2) [Some 2; Some (-4); Some 1] = Ok [Some (1/4); Some (-(1/2)); Some (1/8)].
Proof.
  rewrite (normalize_ok (fun x => x) (1/2) 4); try lra.
  - cbn. repeat (f_equal; try lra).
  - split.
    + intros x [<-|[<-|[<-|[]]]]; eexists; (split; [reflexivity|]); unfold Rabs; destruct (Rcase_abs _); lra.
    + exists (-4). split; [cbn; auto|]. unfold Rabs; destruct (Rcase_abs _); lra.
Qed.

(** ** C48 *)

(** Up to eight channels are written as channels: frame [t] of channel [c] is sample
    [(c, t)] of the (normalised) tensor.  Missing: more than eight channels, which are not. *)
Theorem C48_layout_partial : forall fl norm peak C T l l', (C <= 8)%nat -> length l = (C * T)%nat ->
  normalize_audio fl norm peak l = Ok l' ->
  exists w, save_samples fl norm peak (mkW [C; T] l) = Ok w /\ w_shape w = [T; C] /\
    forall t c, (t < T)%nat -> (c < C)%nat -> nth (t * C + c) (w_data w) None = nth (c * T + t) l' None.
Proof.
  intros fl norm peak C T l l' H L E. unfold save_samples. cbn [w_data w_shape]. rewrite E. cbn [bind].
  destruct (Nat.leb_spec C 8); [|lia]. eexists. split; [reflexivity|]. split; auto. intros t c Ht Hc.
  apply nth_transpose; auto.
Qed.
(** With more than eight rows the tensor is written as it is: rows become frames. *)
Theorem C48_many_channels_refuted : forall fl norm peak C T l l', (8 < C)%nat -> C <> T ->
  normalize_audio fl norm peak l = Ok l' ->
  exists w, save_samples fl norm peak (mkW [C; T] l) = Ok w /\ w_shape w = [C; T] /\ w_shape w <> [T; C] /\ w_data w = l'.
Proof.
  intros fl norm peak C T l l' H N E. unfold save_samples. cbn [w_data w_shape]. rewrite E. cbn [bind].
  destruct (Nat.leb_spec C 8); [lia|]. eexists. split; [reflexivity|]. cbn. repeat split; auto. congruence.
Qed.
(** One-dimensional audio is written as one channel. *)
Theorem C48_mono : forall fl norm peak n l l', normalize_audio fl norm peak l = Ok l' ->
  save_samples fl norm peak (mkW [n] l) = Ok (mkW [n] l').
Proof. intros fl norm peak n l l' E. unfold save_samples. cbn [w_data w_shape]. rewrite E. auto. Qed.
(** Loading the file gives back channel 0. *)
Theorem C48_round_trip : forall fl peak C T l, (0 < C <= 8)%nat -> length l = (C * T)%nat ->
  exists w, save_samples fl false peak (mkW [C; T] l) = Ok w /\
    load_samples T C (w_data w) = mkW [T] (firstn T l).
Proof.
  intros fl peak C T l H L. destruct (C48_layout_partial fl false peak C T l l ltac:(lia) L eq_refl) as (w & E & S & N).
  exists w. split; auto. unfold load_samples. f_equal. apply nth_ext with (d := None) (d' := None).
  - rewrite map_length, seq_length, firstn_length. nia.
  - intros t Ht. rewrite map_length, seq_length in Ht. rewrite nth_tab by auto.
    rewrite nth_firstn_lt by auto. specialize (N t 0%nat Ht ltac:(lia)). rewrite Nat.add_0_r in N. cbn in N. auto.
Qed.
Theorem C48_round_trip_mono : forall fl peak l,
  exists w, save_samples fl false peak (mkW [length l] l) = Ok w /\ load_samples (length l) 1 (w_data w) = mkW [length l] l.
Proof.
  intros. eexists. split; [reflexivity|]. unfold load_samples. cbn [w_data]. f_equal.
  apply nth_ext with (d := None) (d' := None); [rewrite map_length, seq_length; auto|].
  intros t Ht. rewrite map_length, seq_length in Ht. rewrite nth_tab by auto. f_equal. lia.
Qed.
Example C48_example : exists w, save_samples (fun x => x) false 1 (mkW [2; 3]%nat [Some 1; Some 2; Some 3; Some 4; Some 5; Some 6]) = Ok w /\
  w_shape w = [3; 2]%nat /\ w_data w = [Some 1; Some 4; Some 2; Some 5; Some 3; Some 6].
Proof. eexists. repeat split. Qed.

(** ** C49 *)

(** The default backend is always registered, and is the last one selected with success. *)
Theorem C49_default_registered : forall h,
  registered h (reg_default (fst (run initial h))) /\ current h (reg_default (fst (run initial h))).
Proof. intros h. pose proof (default_current h). split; auto. apply current_registered. auto. Qed.
(** Selecting succeeds iff the name is registered; a failed selection changes nothing. *)
Theorem C49_select : forall h n,
  (registered h n -> act (fst (run initial h)) (Select n) = (mkReg (reg_names (fst (run initial h))) n, Ok None)) /\
  (~ registered h n -> act (fst (run initial h)) (Select n) = (fst (run initial h), Err ValueError)).
Proof.
  intros h n. pose proof (known_spec h n) as K. unfold known in K. cbn. unfold set_audio_backend.
  destruct (str_in n _) eqn:E; split; intros H; auto.
  - apply str_in_In, K in E. contradiction.
  - apply K, str_in_In in H. congruence.
Qed.
(** File operations leave the registry as it is. *)
Theorem C49_files_keep_registry : forall h op p b f,
  fst (run initial (h ++ [Wav op p b f])) = fst (run initial h) /\
  fst (run initial (h ++ [Audio op p b])) = fst (run initial h).
Proof. intros. rewrite !run_snoc. auto. Qed.
(** After any history, an operation reaches the explicitly named backend, else the last one
    selected with success; naming an unregistered one raises. *)
Theorem C49_operation : forall h op p choice,
  (forall b, target h choice b ->
     snd (run initial (h ++ [Audio op p choice])) = snd (run initial h) ++ [Ok (Some (mkCall (Backend b) op p))]) /\
  ((forall b, ~ target h choice b) ->
     snd (run initial (h ++ [Audio op p choice])) = snd (run initial h) ++ [Err ValueError]).
Proof.
  intros h op p choice. destruct (resolve_target h choice) as [A B]. rewrite run_outcomes.
  cbn. unfold audio_entry. split; intros.
  - rewrite (A b H). auto.
  - rewrite (B H). auto.
Qed.
Theorem C49_one_target : forall h choice b b', target h choice b -> target h choice b' -> b = b'.
Proof. exact target_fun. Qed.
(** Registration is permanent and selection deterministic: without a choice there is always a
    target. *)
Theorem C49_always_target : forall h, exists b, target h None b /\ registered h b.
Proof. intros h. exists (reg_default (fst (run initial h))). destruct (C49_default_registered h). auto. Qed.
(** [save_scene_audio] and the functions of io/audio.py never use the selected backend. *)
Theorem C49_scene_audio_refuted :
  ~ (forall h p c b, save_scene_audio p = Ok c -> current h b -> c_engine c = Backend b).
Proof.
  intros H. specialize (H [] "a.wav"%string (mkCall Direct OSave "a.wav") "soundfile"%string eq_refl).
  discriminate H. right. split; auto. intros h3 b' h4 E. destruct h3; discriminate.
Qed.
Theorem C49_direct_calls : forall op p c, (direct_wav op p = Ok c \/ direct_audio op p = Ok c \/ save_scene_audio p = Ok c) ->
  c_engine c = Direct.
Proof.
  intros op p c [H|[H|H]]; unfold save_scene_audio, direct_wav, direct_audio in H;
    try (destruct (negb _); [discriminate|]); apply Ok_inj in H; subst; auto.
Qed.
Example C49_example : snd (run initial [Select "x"; Add "x"; Select "x"; Select "y"; Audio OLoad "a.flac" None;
    Audio OInfo "b" (Some "soundfile"); Audio OSave "c" (Some "y")]%string) =
  [Err ValueError; Ok None; Ok None; Err ValueError; Ok (Some (mkCall (Backend "x") OLoad "a.flac"));
   Ok (Some (mkCall (Backend "soundfile") OInfo "b")); Err ValueError]%string.
Proof. reflexivity. Qed.

(** ** C50 *)

(** A WAV entry point makes a call iff the effective format reads "wav" or "wave" and a
    backend is available; then the call goes to that backend with the given path. *)
Theorem C50_accepts : forall h op name choice fmt c,
  wav_entry op (fst (run initial h)) name choice fmt = Ok c <->
  exists f b, effective name fmt f /\ is_wav f /\ target h choice b /\ c = mkCall (Backend b) op name.
Proof.
  intros h op name choice fmt c. destruct (normalize_effective name fmt) as [A1 A2]. destruct (resolve_target h choice) as [B1 B2].
  unfold wav_entry. split.
  - intros H. destruct (effective_dec name fmt) as [[f F]|N]; [|rewrite (A2 N) in H; discriminate].
    rewrite (A1 f F) in H. cbn [bind] in H. destruct (str_in _ _) eqn:W; [|discriminate]. cbn [negb] in H.
    apply is_wav_in in W. destruct (target_dec h choice) as [[b T]|N]; [|rewrite (B2 N) in H; discriminate].
    rewrite (B1 b T) in H. cbn [bind] in H. apply Ok_inj in H. subst. exists f, b. auto.
  - intros (f & b & F & W & T & ->). rewrite (A1 f F). cbn [bind]. apply is_wav_in in W. rewrite W. cbn [negb].
    rewrite (B1 b T). auto.
Qed.
(** Otherwise it raises [ValueError], without calling any backend. *)
Theorem C50_rejects : forall h op name choice fmt e,
  wav_entry op (fst (run initial h)) name choice fmt = Err e -> e = ValueError.
Proof.
  intros h op name choice fmt e. unfold wav_entry, normalize_format. destruct (String.eqb _ _); cbn [bind]; [intros H; injection H; auto|].
  destruct (negb _); [intros H; injection H; auto|]. unfold resolve_backend. destruct (str_in _ _); cbn [bind]; [discriminate|].
  intros H. injection H. auto.
Qed.
(** The functions of io/audio.py agree on the extension rule. *)
Theorem C50_direct : forall op name c, direct_wav op name = Ok c <->
  exists f, extension name f /\ is_wav f /\ c = mkCall Direct op name.
Proof.
  intros op name c. unfold direct_wav.
  assert (W : str_in (lower (suffix name)) [".wav"; ".wave"]%string = true <-> exists f, extension name f /\ is_wav f).
  { rewrite str_in_spells.
    - destruct (suffix_cases name) as [E|(e & E & F)]; rewrite E.
      + split; [intros (n & [<-|[<-|[]]] & H); cbn in H; contradiction|]. intros (f & F & _). apply suffix_extension in F. congruence.
      + split.
        * intros H. exists e. split; auto. destruct H as (n & [<-|[<-|[]]] & H); apply proj2 in H; [left|right]; exact H.
        * intros (f & F' & W). rewrite (extension_fun _ _ _ F' F) in W.
          destruct W as [W|W]; [exists ".wav"%string|exists ".wave"%string]; (split; [cbn; auto|split; [left; reflexivity|exact W]]).
    - repeat constructor; unfold lower_char; cbn; lia. }
  split.
  - intros H. destruct (str_in _ _) eqn:S; [|discriminate]. cbn [negb] in H. apply Ok_inj in H. subst.
    destruct (proj1 W eq_refl) as (f & F & I). eauto.
  - intros (f & F & I & ->). rewrite (proj2 W) by eauto. auto.
Qed.
(** Case does not matter, and a leading dot in an explicit format is not accepted. *)
Theorem C50_explicit : forall h op name choice c s cl,
  wav_entry op (fst (run initial h)) name choice (Some (String c s)) = Ok cl -> is_wav (String c s).
Proof. intros h op name choice c s cl H. apply C50_accepts in H as (f & b & -> & W & _). auto. Qed.
Example C50_example : wav_entry OSave initial "take.1.WaV" None None = Ok (mkCall (Backend "soundfile") OSave "take.1.WaV") /\
  wav_entry OSave initial "a.flac" None (Some "WAVE"%string) = Ok (mkCall (Backend "soundfile") OSave "a.flac") /\
  wav_entry OSave initial "a.wav" None (Some ".wav"%string) = Err ValueError /\
  wav_entry OSave initial ".wav" None None = Err ValueError /\
  wav_entry OSave initial "a.wav" None (Some "flac"%string) = Err ValueError.
Proof. repeat split. Qed.
Print Assumptions C47_peak.
Print Assumptions C47_peak_float32.
Print Assumptions C47_multiple.
Print Assumptions C47_order_preserved.
Print Assumptions C47_silence.
Print Assumptions C47_rejects.
Print Assumptions C47_unnormalised.
Print Assumptions C47_nan.
Print Assumptions C47_cases.
Print Assumptions C48_layout_partial.
Print Assumptions C48_many_channels_refuted.
Print Assumptions C48_mono.
Print Assumptions C48_round_trip.
Print Assumptions C48_round_trip_mono.
Print Assumptions C49_default_registered.
Print Assumptions C49_select.
Print Assumptions C49_files_keep_registry.
Print Assumptions C49_operation.
Print Assumptions C49_one_target.
Print Assumptions C49_always_target.
Print Assumptions C49_scene_audio_refuted.
Print Assumptions C49_direct_calls.
Print Assumptions C50_accepts.
Print Assumptions C50_rejects.
Print Assumptions C50_direct.
Print Assumptions C50_explicit.
