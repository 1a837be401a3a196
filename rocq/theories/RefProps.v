(** C89: references and mixture of an example scene. *)
From Coq Require Import String Ascii List ZArith Reals Lia Lra Psatz Bool.
From Verif Require Import Prelude PreludeFacts SignalModel SignalSpec SignalProofs SignalProps ConvMore IoModel IoSpec IoProofs GeoSampling LoopModel LoopSpec LoopNames BldProofs RefModel RefSpec RefProofs.
Import ListNotations.
Local Open Scope R_scope.
Local Notation length := List.length.

(** A static scene: each reference is the source convolved with its own responses, the mixture
    is their sum, and each file is divided by its own loudness. *)
Theorem C89_static prefix n T M L signals rirs : static_input n T M L signals rirs ->
  exists files, static_files (fun x => x) prefix n signals rirs = Ok files /\
    scene_audio prefix n M (T + L - 1) (fun s m j => lin_conv (sig_view signals s) (rir_view rirs s m) j) files.
Proof.
  intros H. destruct (static_mix_spec n T M L signals rirs H) as (t & E & O).
  apply (files_spec convolve_rir slice0 prefix n M _ signals rirs t _ (fun s m j => lin_conv (sig_view signals s) (rir_view rirs s m) j) E O); [reflexivity|]. intros s Hs. exact (static_alone_spec n T M L signals rirs s H Hs).
Qed.
(** A dynamic scene: likewise, with the response of the step in which a sample falls; mixture
    and references change steps at the same samples. *)
Theorem C89_dynamic d prefix n T K M L signals rirs : dynamic_input d n T K M L signals rirs ->
  exists w files, partition_starts w T /\ length w = K /\ dynamic_files (fun x => x) d prefix n signals rirs = Ok files /\
    scene_audio prefix n M (T + L - 1) (fun s m j => tv_conv (sig_view signals s) (active_step w) (fun k => dyn_view rirs k s m) j) files.
Proof.
  intros H. destruct (dynamic_mix_spec d n T K M L signals rirs H) as (w & t & P & Lw & Ew & E & O).
  destruct (files_spec (convolver_convolve (mkConvolver "trajectory" None None None) d) slice1 prefix n M _ signals rirs t _
    (fun s m j => tv_conv (sig_view signals s) (active_step w) (fun k => dyn_view rirs k s m) j) E O) as (files & Ef & S); [reflexivity| |exists w, files; auto].
  intros s Hs. exact (dynamic_alone_spec d n T K M L signals rirs s w H Hs Ew).
Qed.
(** More references than sources: the run stops with an IndexError. *)
Theorem C89_too_many d prefix n N : (n < N)%nat ->
  (forall T M L signals rirs, static_input n T M L signals rirs -> static_files (fun x => x) prefix N signals rirs = Err IndexError) /\
  (forall T K M L signals rirs, dynamic_input d n T K M L signals rirs -> dynamic_files (fun x => x) d prefix N signals rirs = Err IndexError).
Proof.
  intros HN.
  assert (G : forall conv alone M len signals rirs y (ref : nat -> recording), conv signals rirs = Ok y -> (exists sh, shape signals = n :: sh) ->
    (forall s, (s < n)%nat -> exists x r t, index0 signals s = Ok x /\ alone rirs s = Ok r /\ conv x r = Ok t /\ is_output t M len (ref s)) ->
    audio_files (fun x => x) conv alone prefix N signals rirs = Err IndexError).
  { intros conv alone M len signals rirs y ref E (sh & S) A. unfold audio_files. rewrite E. cbn [bind].
    replace N with (n + (1 + (N - n - 1)))%nat by lia. rewrite seq_app.
    match goal with |- (do refs <- mapM ?F _; _) = _ => set (F0 := F) end.
    assert (Q : forall l l', (forall s, In s l -> exists v, F0 s = Ok v) -> (exists s l1, l' = s :: l1 /\ F0 s = Err IndexError) -> mapM F0 (l ++ l') = Err IndexError).
    { induction l as [|s l IH]; intros l' H (s' & l1 & -> & H1); cbn [app mapM]; [rewrite H1; reflexivity|].
      destruct (H s (or_introl eq_refl)) as (v & ->). cbn [bind]. rewrite IH; [reflexivity|intros; apply H; right; auto|eauto]. }
    rewrite Q; [reflexivity| |].
    - intros s Hs. apply in_seq in Hs. destruct (A s ltac:(lia)) as (x & r & t & E1 & E2 & E3 & O). unfold F0. rewrite E1. cbn [bind]. rewrite E2. cbn [bind]. rewrite E3. cbn [bind].
      destruct (save_file t M len _ O) as (p & w & _ & Ew & _). unfold scene_file. rewrite Ew. cbn. eauto.
    - cbn [seq Nat.add]. exists n. eexists. split; [reflexivity|]. unfold F0, index0. rewrite S, Nat.ltb_irrefl. reflexivity. }
  split.
  - intros T M L signals rirs H. destruct (static_mix_spec n T M L signals rirs H) as (t & E & _).
    apply (G convolve_rir slice0 M (T + L - 1)%nat signals rirs t (fun s m j => lin_conv (sig_view signals s) (rir_view rirs s m) j) E); [destruct H; eauto|].
    intros s Hs. exact (static_alone_spec n T M L signals rirs s H Hs).
  - intros T K M L signals rirs H. destruct (dynamic_mix_spec d n T K M L signals rirs H) as (w & t & _ & _ & Ew & E & _).
    apply (G (convolver_convolve (mkConvolver "trajectory" None None None) d) slice1 M (T + L - 1)%nat signals rirs t
      (fun s m j => tv_conv (sig_view signals s) (active_step w) (fun k => dyn_view rirs k s m) j) E); [destruct H; eauto|].
    intros s Hs. exact (dynamic_alone_spec d n T K M L signals rirs s w H Hs Ew).
Qed.
(** The names of the files are different. *)
Theorem C89_names prefix n M len ref files : scene_audio prefix n M len ref files -> NoDup (map fst files).
Proof.
  intros [C R (p & w & E & _)]. apply NoDup_nth with (d := ""%string). intros i j Hi Hj Q. rewrite map_length, C in Hi, Hj.
  assert (N : forall s, (s < n)%nat -> exists d, writes 2 (s + 1) d /\ nth s (map fst files) ""%string = (prefix ++ "_ref" ++ d ++ ".wav")%string).
  { intros s Hs. destruct (R s Hs) as (d & p' & w' & W & E' & _). exists d. split; auto. apply nth_error_nth. rewrite nth_error_map, E'. auto. }
  assert (Nn : nth n (map fst files) ""%string = (prefix ++ ".wav")%string) by (apply nth_error_nth; rewrite nth_error_map, E; auto).
  assert (X : forall d, (prefix ++ "_ref" ++ d ++ ".wav")%string <> (prefix ++ ".wav")%string) by (intros d Z; apply append_cancel_l in Z; discriminate).
  destruct (Nat.eq_dec i n) as [->|Ni], (Nat.eq_dec j n) as [->|Nj]; auto.
  - destruct (N j ltac:(lia)) as (d & _ & D). rewrite Nn, D in Q. symmetry in Q. destruct (X _ Q).
  - destruct (N i ltac:(lia)) as (d & _ & D). rewrite Nn, D in Q. destruct (X _ Q).
  - destruct (N i ltac:(lia)) as (d & W & D), (N j ltac:(lia)) as (d' & W' & D'). rewrite D, D' in Q.
    apply append_cancel_l, append_cancel_l, append_cancel_r in Q. subst d'. pose proof (writes_inj _ _ _ _ W W'). lia.
Qed.
(** The references do not add up to the mixture: each file is scaled on its own.  What holds: the
    sum weighted with the loudnesses of the recordings. *)
Theorem C89_sum_partial prefix n M len ref files : scene_audio prefix n M len ref files ->
  exists (weight : nat -> R) (whole : R), 0 < whole /\ (forall s, (s < n)%nat -> 0 < weight s /\ loudness M len (ref s) (weight s)) /\
    forall m j, (m < M)%nat -> (j < len)%nat -> exists (v : nat -> R) (y : R),
      (forall s, (s < n)%nat -> exists name w, nth_error files s = Some (name, w) /\ sample w M len m j = Some (v s)) /\
      (exists name w, nth_error files n = Some (name, w) /\ sample w M len m j = Some y) /\
      y * whole = rsum n (fun s => v s * weight s).
Proof.
  intros [C Rf (p & w & E & P & F)].
  assert (W : exists weight : nat -> R, forall s, (s < n)%nat -> exists name w, nth_error files s = Some (name, w) /\ loudness M len (ref s) (weight s) /\ file_of w M len (fun m j => ref s m j / weight s)).
  { clear - Rf. revert Rf. generalize n at 1 2. intros k. induction k as [|k IH]; intros H; [exists (fun _ => 1); intros; lia|].
    destruct IH as (wt & Hw); [intros s Hs; apply H; lia|]. destruct (H k ltac:(lia)) as (d & p & w & _ & E & P & F).
    exists (fun s => if Nat.eq_dec s k then p else wt s). intros s Hs. destruct (Nat.eq_dec s k) as [->|N]; [eauto 6|apply Hw; lia]. }
  destruct W as (weight & W). exists weight, p. pose proof (loudness_pos _ _ _ _ P) as Pp. split; auto. split.
  - intros s Hs. destruct (W s Hs) as (nm & w' & _ & L & _). split; auto. exact (loudness_pos _ _ _ _ L).
  - intros m j Hm Hj. exists (fun s => ref s m j / weight s), (rsum n (fun s => ref s m j) / p). split; [|split].
    + intros s Hs. destruct (W s Hs) as (nm & w' & E' & L & F'). exists nm, w'. split; auto. rewrite (file_sample _ _ _ _ m j F' Hm Hj). auto.
    + eexists _, w. split; [exact E|]. rewrite (file_sample _ _ _ _ m j F Hm Hj). auto.
    + unfold Rdiv. rewrite Rmult_assoc, Rinv_l, Rmult_1_r by lra. apply rsum_ext. intros s Hs. destruct (W s Hs) as (nm & w' & _ & L & _). pose proof (loudness_pos _ _ _ _ L). field. lra.
Qed.
(** The relative levels of the sources are lost: every reference that is not silent has the
    largest magnitude one. *)
Theorem C89_levels prefix n M len ref files s name w : scene_audio prefix n M len ref files -> (s < n)%nat -> nth_error files s = Some (name, w) ->
  (exists m j, (m < M)%nat /\ (j < len)%nat /\ ref s m j <> 0) ->
  (forall m j, (m < M)%nat -> (j < len)%nat -> exists v, sample w M len m j = Some v /\ Rabs v <= 1) /\
  exists m j v, (m < M)%nat /\ (j < len)%nat /\ sample w M len m j = Some v /\ Rabs v = 1.
Proof.
  intros [C Rf _] Hs En (m0 & j0 & Hm0 & Hj0 & N). destruct (Rf s Hs) as (d & p & w' & _ & E & P & F). rewrite E in En. injection En as <- <-.
  destruct P as [(Pp & B & m & j & Hm & Hj & Q)|(_ & Z)]; [|rewrite Z in N by auto; lra].
  assert (A : forall x, Rabs (x / p) = Rabs x / p) by (intros x; unfold Rdiv; rewrite Rabs_mult, (Rabs_pos_eq (/ p)); auto; apply Rlt_le, Rinv_0_lt_compat; auto).
  split.
  - intros m1 j1 H1 H2. eexists. split; [apply (file_sample _ _ _ _ m1 j1 F H1 H2)|]. rewrite A. specialize (B m1 j1 H1 H2).
    apply Rmult_le_reg_r with p; auto. unfold Rdiv. rewrite Rmult_assoc, Rinv_l by lra. lra.
  - exists m, j. eexists. split; auto. split; auto. split; [apply (file_sample _ _ _ _ m j F Hm Hj)|]. rewrite A, Q. field. lra.
Qed.
(** With one source the reference and the mixture hold the same samples. *)
Theorem C89_single prefix M len ref files : scene_audio prefix 1 M len ref files ->
  exists name w name' w', files = [(name, w); (name', w')] /\ forall m j, (m < M)%nat -> (j < len)%nat -> sample w M len m j = sample w' M len m j.
Proof.
  intros [C Rf (p & w & E & P & F)]. destruct (Rf 0%nat ltac:(lia)) as (d & p' & w' & _ & E' & P' & F').
  destruct files as [|[n1 f1] [|[n2 f2] [|? ?]]]; try discriminate C. cbn in E, E'. injection E' as -> <-. injection E as -> <-.
  exists (prefix ++ "_ref" ++ d ++ ".wav")%string, f1, (prefix ++ ".wav")%string, f2. split; auto. intros m j Hm Hj.
  rewrite (file_sample _ _ _ _ m j F Hm Hj), (file_sample _ _ _ _ m j F' Hm Hj). f_equal. cbn [rsum] in *. rewrite Rplus_0_l.
  assert (P2 : loudness M len (ref 0%nat) p).
  { destruct P as [(A & B & m1 & j1 & H1 & H2 & Q)|(A & B)].
    - left. split; auto. split; [intros m' j' H3 H4; specialize (B m' j' H3 H4); rewrite Rplus_0_l in B; auto|exists m1, j1; rewrite Rplus_0_l in Q; auto].
    - right. split; auto. intros m' j' H3 H4. specialize (B m' j' H3 H4). rewrite Rplus_0_l in B. auto. }
  rewrite (loudness_fun _ _ _ _ _ P' P2). auto.
Qed.
(** With more than eight microphones the array is handed over sideways: the file gets as many
    samples as there are microphones and as many channels as there are samples. *)
Theorem C89_many_mics_unchecked prefix n M len ref files : scene_audio prefix n M len ref files -> (8 < M)%nat ->
  forall name w, In (name, w) files -> w_shape w = [M; len].
Proof.
  intros [C Rf (p & w & E & P & F)] HM name w' Hin. apply In_nth_error in Hin as (i & Hi).
  assert (Li : (i < S n)%nat) by (rewrite <- C; apply nth_error_Some; congruence).
  assert (X : forall w0 g, file_of w0 M len g -> w_shape w0 = [M; len]) by (intros w0 g [(A & _)|(_ & B & _)]; [lia|auto]).
  destruct (Nat.eq_dec i n) as [->|N].
  - rewrite E in Hi. injection Hi as <- <-. eapply X. exact F.
  - destruct (Rf i ltac:(lia)) as (d & p' & w0 & _ & E' & _ & F'). rewrite E' in Hi. injection Hi as <- <-. eapply X. exact F'.
Qed.

(** The entries of the metadata: one for each source, in order, with the name of its file, its
    speaker and its utterances. *)
Theorem C89_entries prefix n info fl conv alone signals rirs files : audio_files fl conv alone prefix n signals rirs = Ok files -> length info = n ->
  exists entries, reference_entries prefix n info = Ok entries /\ length entries = n /\
    forall s, (s < n)%nat -> exists e w, nth_error entries s = Some e /\ nth_error files s = Some (re_file e, w) /\
      re_index e = s /\ nth_error info s = Some (re_speaker e, re_utterances e) /\ re_kind e = "convolved"%string.
Proof.
  intros F Li. apply files_names in F. unfold reference_entries. match goal with |- context [mapM ?f _] => set (g := f) end.
  destruct (mapM_total g (seq 0 n)) as (entries & E).
  { intros s Hs. apply in_seq in Hs. unfold g. destruct (nth_error info s) as [[sp ut]|] eqn:Q; eauto. apply nth_error_None in Q. lia. }
  exists entries. pose proof (mapM_length _ _ _ E) as Le. rewrite seq_length in Le. split; auto. split; auto. intros s Hs.
  destruct (nth_error entries s) as [e|] eqn:Qe; [|apply nth_error_None in Qe; lia].
  assert (G : g s = Ok e).
  { pose proof (mapM_nth g (seq 0 n) entries s 0%nat e E ltac:(rewrite seq_length; auto)) as G. rewrite seq_nth in G by auto. cbn in G. rewrite G. f_equal. apply nth_error_nth. auto. }
  unfold g in G. destruct (nth_error info s) as [[sp ut]|] eqn:Qi; [|discriminate]. apply Ok_inj in G. subst e.
  assert (N : nth_error (map fst files) s = Some (ref_name prefix s)).
  { rewrite F, nth_error_app1 by (rewrite map_length, seq_length; auto). rewrite nth_error_map. rewrite (nth_error_nth' _ 0%nat) by (rewrite seq_length; auto). rewrite seq_nth by auto. auto. }
  rewrite nth_error_map in N. destruct (nth_error files s) as [[nm w]|] eqn:Qf; [|discriminate]. cbn in N. injection N as ->.
  exists (mkRef s (ref_name prefix s) sp ut "convolved"), w. auto.
Qed.
Example C89_entries_example : reference_entries "static" 2 [("bdl", ["a0001"; "a0002"]); ("slt", ["b0007"])]%string =
  Ok [mkRef 0 "static_ref01.wav" "bdl" ["a0001"; "a0002"] "convolved"; mkRef 1 "static_ref02.wav" "slt" ["b0007"] "convolved"]%string.
Proof. reflexivity. Qed.

(** ** Examples and the witness *)

(** Two equal sources: both references and the mixture are written with the peak one. *)
Definition two_equal : tensor := mkT [2; 1]%nat [1; 1].
Definition direct_paths : tensor := mkT [2; 1; 1]%nat [1; 1].
Lemma two_input : static_input 2 1 1 1 two_equal direct_paths.
Proof. unfold static_input, wf. cbn. repeat split; auto. Qed.
Theorem C89_sum_refuted : exists files w1 w2 w, static_files (fun x => x) "static" 2 two_equal direct_paths =
    Ok files /\ files = [("static_ref01.wav"%string, w1); ("static_ref02.wav"%string, w2); ("static.wav"%string, w)] /\
  sample w1 1 1 0 0 = Some 1 /\ sample w2 1 1 0 0 = Some 1 /\ sample w 1 1 0 0 = Some 1.
Proof.
  destruct (C89_static "static" 2 1 1 1 _ _ two_input) as (files & E & S). exists files.
  assert (V : forall s, (s < 2)%nat -> lin_conv (sig_view two_equal s) (rir_view direct_paths s 0) 0 = 1).
  { intros s Hs. destruct s as [|[|s]]; [| |lia]; unfold lin_conv; cbn [rsum Nat.sub]; unfold sig_view, rir_view, zext, tget, two_equal, direct_paths; cbn; lra. }
  assert (Lo : forall g p, loudness 1 (1 + 1 - 1) g p -> 0 < g 0%nat 0%nat -> p = g 0%nat 0%nat).
  { intros g p [(A & B & m & j & Hm & Hj & Q)|(A & B)] G.
    - assert (m = 0 /\ j = 0)%nat as [-> ->] by lia. rewrite Rabs_pos_eq in Q by lra. auto.
    - rewrite B in G by lia. lra. }
  destruct S as [C Rf (p & w & Em & Pm & Fm)].
  destruct (Rf 0%nat ltac:(lia)) as (d1 & p1 & w1 & _ & E1 & P1 & F1). destruct (Rf 1%nat ltac:(lia)) as (d2 & p2 & w2 & _ & E2 & P2 & F2).
  exists w1, w2, w. split; auto.
  assert (Nm : map fst files = ["static_ref01.wav"; "static_ref02.wav"; "static.wav"]%string).
  { unfold static_files in E. apply files_names in E. rewrite E. reflexivity. }
  destruct files as [|[n1 f1] [|[n2 f2] [|[n3 f3] [|? ?]]]]; try discriminate C. cbn in Nm, E1, E2, Em. injection Nm as -> -> ->.
  injection E1 as _ <-. injection E2 as _ <-. injection Em as <-. split; auto.
  rewrite (file_sample _ _ 1 _ 0 0 F1), (file_sample _ _ 1 _ 0 0 F2), (file_sample _ _ 1 _ 0 0 Fm) by lia.
  rewrite (Lo _ p1 P1) by (cbv beta; rewrite V by lia; lra). rewrite (Lo _ p2 P2) by (cbv beta; rewrite V by lia; lra).
  assert (Sm : rsum 2 (fun s => lin_conv (sig_view two_equal s) (rir_view direct_paths s 0) 0) = 2) by (cbn [rsum]; rewrite !V by lia; lra).
  rewrite (Lo _ p Pm) by (cbv beta; rewrite Sm; lra). cbv beta. rewrite Sm, !V by lia. split; [|split]; f_equal; lra.
Qed.
(** A film of two steps with two sources and two microphones is an input. *)
Example C89_dynamic_example : dynamic_input Cpu 2 4 2 2 1 (mkT [2; 4]%nat (repeat 1 8)) (mkT [2; 2; 2; 1]%nat (repeat 1 8)).
Proof. unfold dynamic_input, wf. cbn. repeat split; auto; lia. Qed.
Example C89_loudness_example : loudness 1 2 (fun _ j => if Nat.eq_dec j 0 then -2 else 1) 2.
Proof.
  left. split; [lra|]. split.
  - intros m j _ _. destruct (Nat.eq_dec j 0); unfold Rabs; destruct (Rcase_abs _); lra.
  - exists 0%nat, 0%nat. split; auto. split; auto. cbn. unfold Rabs. destruct (Rcase_abs _); lra.
Qed.
Print Assumptions C89_static.
Print Assumptions C89_dynamic.
Print Assumptions C89_too_many.
Print Assumptions C89_names.
Print Assumptions C89_sum_partial.
Print Assumptions C89_sum_refuted.
Print Assumptions C89_levels.
Print Assumptions C89_single.
Print Assumptions C89_entries.
Print Assumptions C89_many_mics_unchecked.
