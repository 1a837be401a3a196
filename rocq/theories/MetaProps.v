(** Properties of scene metadata: C51, C52, C68. *)
From Coq Require Import String List ZArith Reals Lia Lra Bool.
From Verif Require Import Prelude PreludeFacts FloatModel FloatProofs AccumModel DirModel DirSpec RoomModel GeoModel SignalModel SignalSpec SegProofs
  MetaModel MetaSpec MetaProofs GeoProofs GeoSampling.
Import ListNotations.
Local Open Scope R_scope.
Local Notation length := List.length.

(** ** C51 *)

(** Sanitising gives a JSON value exactly for the values built from JSON values, tensors,
    paths and tuples.  Missing: other objects and non-string keys, see below. *)
Theorem C51_json_partial : forall v, json (to_serializable v) <-> supported v.
Proof. exact serializable_json. Qed.
Theorem C51_unchanged : forall v, json v -> to_serializable v = v.
Proof. exact json_fixed. Qed.
Theorem C51_idempotent : forall v, to_serializable (to_serializable v) = to_serializable v.
Proof. exact serializable_idem. Qed.
(** Tensors become nested lists with the same entries and extents. *)
Theorem C51_tensor_entries : forall sh l idx d, length l = prodn sh -> length idx = length sh ->
  (within idx sh -> item (to_serializable (PTensor sh l)) idx = Some (PScalar (nth (ravel sh idx) l d))) /\
  (~ within idx sh -> item (to_serializable (PTensor sh l)) idx = None).
Proof. intros sh l idx d L L'. split; intros W; [apply tolist_item; auto|apply tolist_outside; auto]. Qed.
(** Lists, tuples and dictionaries keep their members. *)
Theorem C51_members : forall l k v,
  (lookup l k = Some v -> field (to_serializable (PDict l)) [k] = Some (to_serializable v)) /\
  forall vs i, nth_error vs i = Some v ->
    item (to_serializable (PList vs)) [i] = Some (to_serializable v) /\
    item (to_serializable (PTuple vs)) [i] = Some (to_serializable v).
Proof.
  intros l k v. split.
  - intros H. cbn [to_serializable field]. assert (E : lookup (map (fun p => (fst p, to_serializable (snd p))) l) k = Some (to_serializable v)).
    { induction l as [|[[s| | |] x] l IH]; cbn in *; try discriminate; auto.
      destruct (String.eqb s k); auto. injection H as ->. auto. }
    rewrite E. auto.
  - intros vs i H. cbn [to_serializable item]. rewrite nth_error_map, H. auto.
Qed.
(** Objects of other classes (sets, numpy arrays, ...) and non-string keys are passed on. *)
Theorem C51_other_objects_refuted : exists v w, ~ json (to_serializable v) /\ ~ json (to_serializable w) /\
  v = PList [PNone; POther 0] /\ w = PDict [(KBasic (SInt 1), PNone)].
Proof.
  eexists _, _. split; [|split; [|split; reflexivity]].
  - cbn. tauto.
  - cbn. intros [[s H] _]. discriminate.
Qed.

(** The whole metadata is JSON when the user's own entries are supported. *)
Theorem C51_metadata_json : forall a md, build_metadata a = Ok md ->
  (forall v, md_source_info a = Some v -> supported v) ->
  (forall l, md_extra a = Some l -> supported (PDict l)) -> json md.
Proof.
  intros a md H S X. unfold build_metadata in H. destruct (rev (md_rirs_shape a)) as [|ns r]; [discriminate|].
  destruct (Reqb _ _); [discriminate|]. destruct (md_trajectories a) as [[[s m] T]|]; [|discriminate]. cbn [bind] in H.
  destruct (compute_doa s m) as [az el]. unfold array_attributes in H. destruct (md_mic_dtype a); [|discriminate].
  destruct (shape (md_mic a)) as [|n [|d [|? ?]]]; try discriminate. cbn [bind] in H. apply Ok_inj in H. subst md.
  assert (Q : forall v, supported v -> json (to_serializable v)) by (intros; apply serializable_json; auto).
  assert (QT : forall t, json (to_serializable (pyt t))) by (intros; apply Q; cbn; auto).
  assert (QO : forall t, json (to_serializable (pyo t))) by (intros [t|]; [exact (QT t)|exact I]).
  assert (KS : forall s, exists s', KStr s = KStr s') by eauto.
  apply json_dict. repeat rewrite Forall_app. split; [|split].
  - repeat (apply Forall_cons || apply Forall_nil); cbn [fst snd]; split; auto.
    all: try (apply json_dict; repeat (apply Forall_cons || apply Forall_nil); cbn [fst snd]; split; auto; try (cbn; exact I)).
    + destruct (md_t60 a); cbn; auto.
    + apply Q. cbn. auto.
    + destruct (spacing_of n d (md_mic a)); cbn; auto.
    + apply json_list. apply Forall_map, Forall_forall. intros; cbn; auto.
    + cbn; auto.
  - destruct (md_source_info a) as [v|] eqn:E; constructor; auto; try (cbn [fst snd]; split; auto; fail).
  - destruct (md_extra a) as [[|p l]|] eqn:E; constructor; auto. cbn [fst snd]. split; auto.
Qed.
Example C51_example : to_serializable (PDict [(KStr "a", PTuple [PPath "x/y"; PTensor [2; 2]%nat [SInt 1; SInt 2; SInt 3; SInt 4]]); (KStr "b", PNone)])%string =
  PDict [(KStr "a", PList [PStr "x/y"; PList [PList [PScalar (SInt 1); PScalar (SInt 2)]; PList [PScalar (SInt 3); PScalar (SInt 4)]]]); (KStr "b", PNone)]%string.
Proof. reflexivity. Qed.

(** ** C52 *)

(** A scene description the metadata can be built from: recorded responses, float
    microphone positions, trajectories of the dimension of the room. *)
Record described (a : md_args) (dim : nat) : Prop := {
  de_rirs : md_rirs_shape a <> [];
  de_fs : 0 < md_fs a;
  de_float : md_mic_dtype a = Float;
  de_mics : exists n d, shape (md_mic a) = [n; d];
  de_dim : numel (md_size a) = dim;
  de_src : proper (md_src_traj a) (md_src a) dim;
  de_mic : proper (md_mic_traj a) (md_mic a) dim }.
Definition Tsteps (a : md_args) : nat := Nat.max (steps (md_src_traj a)) (steps (md_mic_traj a)).

(** Fields of the result. *)
Lemma built a dim : described a dim -> compatible (steps (md_src_traj a)) (steps (md_mic_traj a)) ->
  exists md s m, build_metadata a = Ok md /\
    s = md_expand (norm3 (md_src_traj a) (md_src a) dim) (Tsteps a) /\
    m = md_expand (norm3 (md_mic_traj a) (md_mic a) dim) (Tsteps a) /\
    field md ["doa"; "azimuth"]%string = Some (to_serializable (pyt (fst (compute_doa s m)))) /\
    field md ["doa"; "elevation"]%string = Some (to_serializable (pyt (snd (compute_doa s m)))) /\
    field md ["trajectories"; "sources"]%string = Some (to_serializable (pyo (if (1 <? Tsteps a)%nat then Some s else None))) /\
    field md ["trajectories"; "mics"]%string = Some (to_serializable (pyo (if (1 <? Tsteps a)%nat then Some m else None))) /\
    field md ["timestamps"]%string = Some (to_serializable (pyo (md_timestamps_out a (Tsteps a)))) /\
    field md ["dynamic"]%string = Some (PScalar (SBool (1 <? Tsteps a)%nat)) /\
    field md ["time_axis"; "t"]%string = Some (to_serializable (pyt (mkT [last (md_rirs_shape a) 0%nat]
        (map (fun i => INR i / md_fs a) (seq 0 (last (md_rirs_shape a) 0%nat)))))) /\
    (exists arr, array_attributes a = Ok arr /\ field md ["array"]%string = Some arr).
Proof.
  intros D C. destruct D as [D1 D2 D3 (n & d & D4) D5 D6 D7].
  destruct (trajectories_ok a dim D5 D6 D7) as [TO _]. specialize (TO C). fold (Tsteps a) in TO.
  unfold build_metadata. destruct (exists_last D1) as (p & y & E). rewrite E, rev_app_distr. cbn [rev app].
  rewrite last_last. destruct (Reqb_spec (md_fs a) 0); [lra|]. rewrite TO. cbn [bind].
  set (s := md_expand (norm3 (md_src_traj a) _ _) _). set (m := md_expand (norm3 (md_mic_traj a) _ _) _).
  destruct (compute_doa s m) as [az el] eqn:ED.
  destruct (array_attributes a) as [arr|] eqn:EA.
  - cbn [bind]. do 3 eexists. split; [reflexivity|]. do 2 (split; [reflexivity|]).
    rewrite ED. repeat (split; [reflexivity|]). exists arr. split; reflexivity.
  - unfold array_attributes in EA. rewrite D3, D4 in EA. discriminate.
Qed.
(** It is accepted iff the numbers of steps agree or one of them is a single step. *)
Theorem C52_accepts : forall a dim, described a dim ->
  ((exists md, build_metadata a = Ok md) <-> compatible (steps (md_src_traj a)) (steps (md_mic_traj a))) /\
  (~ compatible (steps (md_src_traj a)) (steps (md_mic_traj a)) -> build_metadata a = Err ValueError).
Proof.
  intros a dim D. assert (N : ~ compatible (steps (md_src_traj a)) (steps (md_mic_traj a)) -> build_metadata a = Err ValueError).
  { intros C. destruct D as [D1 D2 D3 D4 D5 D6 D7]. destruct (trajectories_ok a dim D5 D6 D7) as [_ TO]. specialize (TO C).
    unfold build_metadata. destruct (exists_last D1) as (p & y & E). rewrite E, rev_app_distr. cbn [rev app].
    destruct (Reqb_spec (md_fs a) 0); [lra|]. rewrite TO. auto. }
  split; auto. split.
  - intros [md H]. unfold compatible in *. set (x := steps _) in *. set (y := steps (md_mic_traj a)) in *.
    destruct (Nat.eq_dec x y), (Nat.eq_dec x 1), (Nat.eq_dec y 1), (Nat.lt_ge_cases 1 x), (Nat.lt_ge_cases 1 y); try lia;
      rewrite N in H by lia; discriminate.
  - intros C. destruct (built a dim D C) as (md & _ & _ & H & _). eauto.
Qed.
(** Azimuth and elevation at [t, i, j] point from microphone [j] to source [i] at step [t];
    with the distance they give the position back.  2-D scenes have elevation 0. *)
Theorem C52_doa : forall a dim md t i j, described a dim -> dim = 2%nat \/ dim = 3%nat -> build_metadata a = Ok md ->
  (t < Tsteps a)%nat -> (i < entities (md_src_traj a) (md_src a))%nat -> (j < entities (md_mic_traj a) (md_mic a))%nat ->
  exists fa fe az el,
    field md ["doa"; "azimuth"]%string = Some fa /\ item fa [t; i; j] = Some (number az) /\
    field md ["doa"; "elevation"]%string = Some fe /\ item fe [t; i; j] = Some (number el) /\
    let v k := place (md_src_traj a) (md_src a) t i k - place (md_mic_traj a) (md_mic a) t j k in
    (dim = 2%nat -> el = 0) /\ points_along az el (v 0%nat) (v 1%nat) (if (dim =? 2)%nat then 0 else v 2%nat).
Proof.
  intros a dim md t i j D Hd H Ht Hi Hj.
  assert (C : compatible (steps (md_src_traj a)) (steps (md_mic_traj a))) by (apply (C52_accepts a dim D); eauto).
  destruct (built a dim D C) as (md' & s & m & H' & Es & Em & F1 & F2 & _). rewrite H in H'. apply Ok_inj in H'. subst md'.
  assert (Cs : steps (md_src_traj a) = Tsteps a \/ (steps (md_src_traj a) = 1 /\ 1 < Tsteps a)%nat) by (unfold compatible, Tsteps in *; lia).
  assert (Cm : steps (md_mic_traj a) = Tsteps a \/ (steps (md_mic_traj a) = 1 /\ 1 < Tsteps a)%nat) by (unfold compatible, Tsteps in *; lia).
  destruct (expand_spec _ _ _ _ (de_src _ _ D) Cs) as (S1 & W1 & P1). destruct (expand_spec _ _ _ _ (de_mic _ _ D) Cm) as (S2 & W2 & P2).
  rewrite <- Es in *. rewrite <- Em in *.
  destruct (doa_entry s m _ _ _ _ S1 S2) as (A1 & A2 & A3 & A4 & A5). destruct (A5 t i j Ht Hi Hj) as [B1 B2].
  assert (W : within [t; i; j] [Tsteps a; entities (md_src_traj a) (md_src a); entities (md_mic_traj a) (md_mic a)]) by (repeat constructor; auto).
  do 2 eexists. exists (tget (fst (compute_doa s m)) [t; i; j]), (tget (snd (compute_doa s m)) [t; i; j]).
  split; [exact F1|]. split; [apply pyt_item; auto; rewrite A1; auto|].
  split; [exact F2|]. split; [apply pyt_item; auto; rewrite A2; auto|].
  cbn zeta. rewrite B1, B2. destruct Hd as [-> | ->]; cbn [seq map Nat.eqb].
  - rewrite !P1, !P2 by (auto; lia).
    set (x := place _ _ t i 0 - _). set (y := place _ _ t i 1 - _). destruct (doa2 x y). auto.
  - rewrite !P1, !P2 by (auto; lia). split; [discriminate|]. apply doa3.
Qed.
(** Trajectories are stored with static entities repeated; static scenes store none. *)
Theorem C52_trajectories : forall a dim md, described a dim -> build_metadata a = Ok md ->
  exists fs fm, field md ["trajectories"; "sources"]%string = Some fs /\ field md ["trajectories"; "mics"]%string = Some fm /\
   ((Tsteps a <= 1)%nat -> fs = PNone /\ fm = PNone) /\
   ((1 < Tsteps a)%nat -> forall t k, (t < Tsteps a)%nat -> (k < dim)%nat ->
     (forall i, (i < entities (md_src_traj a) (md_src a))%nat -> item fs [t; i; k] = Some (number (place (md_src_traj a) (md_src a) t i k))) /\
     (forall j, (j < entities (md_mic_traj a) (md_mic a))%nat -> item fm [t; j; k] = Some (number (place (md_mic_traj a) (md_mic a) t j k)))).
Proof.
  intros a dim md D H.
  assert (C : compatible (steps (md_src_traj a)) (steps (md_mic_traj a))) by (apply (C52_accepts a dim D); eauto).
  destruct (built a dim D C) as (md' & s & m & H' & Es & Em & _ & _ & F1 & F2 & _). rewrite H in H'. apply Ok_inj in H'. subst md'.
  assert (Cs : steps (md_src_traj a) = Tsteps a \/ (steps (md_src_traj a) = 1 /\ 1 < Tsteps a)%nat) by (unfold compatible, Tsteps in *; lia).
  assert (Cm : steps (md_mic_traj a) = Tsteps a \/ (steps (md_mic_traj a) = 1 /\ 1 < Tsteps a)%nat) by (unfold compatible, Tsteps in *; lia).
  destruct (expand_spec _ _ _ _ (de_src _ _ D) Cs) as (S1 & W1 & P1). destruct (expand_spec _ _ _ _ (de_mic _ _ D) Cm) as (S2 & W2 & P2).
  rewrite <- Es in *. rewrite <- Em in *. do 2 eexists. split; [exact F1|]. split; [exact F2|]. split.
  - intros L. destruct (Nat.ltb_spec 1 (Tsteps a)); [lia|]. auto.
  - intros L t k Ht Hk. destruct (Nat.ltb_spec 1 (Tsteps a)); [|lia]. cbn [pyo]. split; intros i Hi.
    + rewrite <- P1 by auto. apply pyt_item; auto. rewrite S1. repeat constructor; auto.
    + rewrite <- P2 by auto. apply pyt_item; auto. rewrite S2. repeat constructor; auto.
Qed.
Theorem C52_dynamic_flag : forall a dim md, described a dim -> build_metadata a = Ok md ->
  (field md ["dynamic"]%string = Some (PScalar (SBool true)) <-> (1 < Tsteps a)%nat) /\
  (field md ["dynamic"]%string = Some (PScalar (SBool false)) <-> (Tsteps a <= 1)%nat).
Proof.
  intros a dim md D H.
  assert (C : compatible (steps (md_src_traj a)) (steps (md_mic_traj a))) by (apply (C52_accepts a dim D); eauto).
  destruct (built a dim D C) as (md' & s & m & H' & _ & _ & _ & _ & _ & _ & _ & F & _). rewrite H in H'. apply Ok_inj in H'. subst md'.
  rewrite F. destruct (Nat.ltb_spec 1 (Tsteps a)); split; split; try lia; try discriminate; auto.
Qed.
(** Time axis of the responses: sample [k] at [k/fs]. *)
Theorem C52_time_axis : forall a dim md k, described a dim -> build_metadata a = Ok md -> (k < last (md_rirs_shape a) 0)%nat ->
  exists ft, field md ["time_axis"; "t"]%string = Some ft /\ item ft [k] = Some (number (INR k / md_fs a)).
Proof.
  intros a dim md k D H Hk.
  assert (C : compatible (steps (md_src_traj a)) (steps (md_mic_traj a))) by (apply (C52_accepts a dim D); eauto).
  destruct (built a dim D C) as (md' & s & m & H' & _ & _ & _ & _ & _ & _ & _ & _ & F & _). rewrite H in H'. apply Ok_inj in H'. subst md'.
  eexists. split; [exact F|]. rewrite pyt_item.
  - do 2 f_equal. unfold tget. cbn [shape data ravel prodn fold_right]. rewrite nth_tab by lia. do 2 f_equal. lia.
  - unfold wf. cbn [shape data]. rewrite map_length, seq_length. cbn. lia.
  - repeat constructor; auto.
Qed.
(** Default timestamps of a moving scene with [n] samples: [T] equally spaced instants from 0
    to [(n-1)/fs]; explicit timestamps are stored as given. *)
Theorem C52_timestamps : forall a dim md n t, described a dim -> build_metadata a = Ok md ->
  md_timestamps a = None -> md_signal_len a = Some (Z.of_nat n) -> (1 <= n)%nat -> (1 < Tsteps a)%nat -> (t < Tsteps a)%nat ->
  exists ft, field md ["timestamps"]%string = Some ft /\
    item ft [t] = Some (number (INR t * ((INR n - 1) / md_fs a) / (INR (Tsteps a) - 1))).
Proof.
  intros a dim md n t D H E1 E2 Hn HT Ht.
  assert (C : compatible (steps (md_src_traj a)) (steps (md_mic_traj a))) by (apply (C52_accepts a dim D); eauto).
  destruct (built a dim D C) as (md' & s & m & H' & _ & _ & _ & _ & _ & _ & F & _). rewrite H in H'. apply Ok_inj in H'. subst md'.
  eexists. split; [exact F|]. unfold md_timestamps_out. rewrite E1, E2. destruct (Nat.ltb_spec 1 (Tsteps a)); [|lia].
  cbn [pyo]. rewrite pyt_item.
  - do 2 f_equal. unfold tget, linspace0. cbn [shape data ravel prodn fold_right]. rewrite nth_tab by lia.
    rewrite Rmax_right.
    + rewrite <- INR_IZR_INZ. replace (t * 1 + 0)%nat with t by lia. unfold Rdiv. ring.
    + rewrite <- INR_IZR_INZ. assert (1 <= INR n) by (apply (le_INR 1); auto). pose proof (de_fs _ _ D).
      apply Rmult_le_pos; [lra|]. left. apply Rinv_0_lt_compat. auto.
  - unfold wf, linspace0. cbn [shape data]. rewrite map_length, seq_length. cbn. lia.
  - repeat constructor; auto.
Qed.
(** Timestamps that are given are stored, entry for entry. *)
Theorem C52_timestamps_given : forall a dim md ts idx, described a dim -> build_metadata a = Ok md ->
  md_timestamps a = Some ts -> wf ts -> within idx (shape ts) ->
  exists ft, field md ["timestamps"]%string = Some ft /\ item ft idx = Some (number (tget ts idx)).
Proof.
  intros a dim md ts idx D H E W I.
  assert (C : compatible (steps (md_src_traj a)) (steps (md_mic_traj a))) by (apply (C52_accepts a dim D); eauto).
  destruct (built a dim D C) as (md' & s & m & H' & _ & _ & _ & _ & _ & _ & F & _). rewrite H in H'. apply Ok_inj in H'. subst md'.
  eexists. split; [exact F|]. unfold md_timestamps_out. rewrite E. cbn [pyo]. apply pyt_item; auto.
Qed.
(** There are none when none are given and the scene does not move or has no signal. *)
Theorem C52_timestamps_absent : forall a dim md, described a dim -> build_metadata a = Ok md ->
  md_timestamps a = None -> (Tsteps a <= 1)%nat \/ md_signal_len a = None -> field md ["timestamps"]%string = Some PNone.
Proof.
  intros a dim md D H E O.
  assert (C : compatible (steps (md_src_traj a)) (steps (md_mic_traj a))) by (apply (C52_accepts a dim D); eauto).
  destruct (built a dim D C) as (md' & s & m & H' & _ & _ & _ & _ & _ & _ & F & _). rewrite H in H'. apply Ok_inj in H'. subst md'.
  rewrite F. unfold md_timestamps_out. rewrite E. destruct O as [O|O].
  - destruct (md_signal_len a); [|reflexivity]. destruct (Nat.ltb_spec 1 (Tsteps a)); [lia|reflexivity].
  - rewrite O. reflexivity.
Qed.
(** Each default timestamp lies in the segment of the signal in which the trajectory
    convolver applies the response of that step: when there are at least two samples per
    step and the steps can be told apart in the float format of the convolver. *)
Theorem C52_timestamp_segment : forall d n T fsopt w fs t, (1 < T)%nat -> (2 * T <= n)%nat -> 0 < fs ->
  (8 * Z.of_nat T * Z.of_nat T <= 2 ^ ts_prec d)%Z -> segment_starts d n T None fsopt = Ok w -> (t < T)%nat ->
  let tau := INR t * ((INR n - 1) / fs) / (INR T - 1) in
  IZR (seg_start w n t) <= tau * fs < IZR (seg_start w n (S t)).
Proof.
  intros d n T fsopt w fs t HT Hn Hfs HP Hw Ht tau.
  assert (HTb : (Z.of_nat T <= 2 ^ (ts_prec d - 2))%Z).
  { assert (E : (2 ^ ts_prec d = 4 * 2 ^ (ts_prec d - 2))%Z) by (destruct d; reflexivity). nia. }
  destruct (default_starts d n T ltac:(lia) HTb fsopt) as (w' & E & L & Hv). rewrite Hw in E. apply Ok_inj in E. subst w'.
  assert (HV : exists v : nat -> R, (forall t, (t < T)%nat -> nth t w 0%Z = floorZ (v t)) /\ forall t, (t <= T)%nat ->
    INR t * (INR n / INR T) * ((1 - / IZR (2 ^ ts_prec d)) * (1 - / IZR (2 ^ ts_prec d)) * (1 - / IZR (2 ^ ts_prec d))) <= v t <=
    INR t * (INR n / INR T) * ((1 + / IZR (2 ^ ts_prec d)) * (1 + / IZR (2 ^ ts_prec d)) * (1 + / IZR (2 ^ ts_prec d)))).
  { eexists. split; [exact Hv|]. exact (fun t H => v_bounds d n T ltac:(lia) HTb t H). }
  clear Hv. destruct HV as (v & Hv & V).
  set (u := / IZR (2 ^ ts_prec d)) in *. set (q := INR n / INR T) in *.
  assert (T2 : 2 <= INR T) by (apply (le_INR 2); lia). assert (N2 : 2 * INR T <= INR n) by (rewrite <- (mult_INR 2); apply le_INR; auto).
  assert (U0 : 0 < u) by (apply Rinv_0_lt_compat, IZR_lt; destruct d; reflexivity).
  assert (U1 : 8 * (INR T * INR T) * u <= 1).
  { assert (P : 0 < IZR (2 ^ ts_prec d)) by (apply IZR_lt; destruct d; reflexivity).
    apply IZR_le in HP. rewrite !mult_IZR, <- INR_IZR_INZ in HP. unfold u. apply (Rmult_le_reg_r (IZR (2 ^ ts_prec d))); auto.
    rewrite Rmult_assoc, Rinv_l by lra. lra. }
  assert (TT : 4 <= INR T * INR T) by nra. assert (U2 : u <= 1 / 32) by nra. assert (UU : u * u <= u / 32) by nra.
  assert (UT : 8 * u * (INR T - 1) <= 1) by nra.
  assert (C3 : (1 + u) * (1 + u) * (1 + u) <= 1 + 4 * u) by nra.
  assert (C4 : 1 - 3 * u <= (1 - u) * (1 - u) * (1 - u)) by nra.
  assert (Q0 : 0 < q) by (apply Rdiv_lt_0_compat; lra).
  assert (EN : INR n = q * INR T) by (unfold q; field; lra). assert (Q2 : 2 <= q) by nra.
  assert (X : tau * fs = INR t * (q * INR T - 1) / (INR T - 1)) by (unfold tau; rewrite EN; field; lra).
  assert (T1 : INR t <= INR T - 1) by (replace (INR T - 1) with (INR (T - 1)) by (rewrite minus_INR by lia; auto); apply le_INR; lia).
  assert (T0 : 0 <= INR t) by apply pos_INR.
  assert (XE : tau * fs = INR t * q + INR t * ((q - 1) / (INR T - 1))) by (rewrite X; field; lra).
  assert (K : 0 < (q - 1) / (INR T - 1)) by (apply Rdiv_lt_0_compat; lra).
  assert (KE : (q - 1) / (INR T - 1) * (INR T - 1) = q - 1) by (field; lra). set (k := (q - 1) / (INR T - 1)) in *.
  unfold seg_start. split.
  - rewrite app_nth1 by lia. rewrite Hv by auto. destruct (floorZ_spec (v t)) as [F _]. eapply Rle_trans; [exact F|].
    destruct (V t ltac:(lia)) as [_ B].  eapply Rle_trans; [exact B|]. rewrite XE.
    apply Rle_trans with (INR t * q * (1 + 4 * u)).
    + apply Rmult_le_compat_l; auto. apply Rmult_le_pos; lra.
    + assert (4 * u * q <= k).
      { apply (Rmult_le_reg_r (INR T - 1)); [lra|]. rewrite KE. 
        nra. }
      nra.
  - destruct (Nat.eq_dec (S t) T) as [Q|Q].
    + rewrite app_nth2 by lia. rewrite L, Q, Nat.sub_diag. cbn [nth]. rewrite <- INR_IZR_INZ.
      assert (INR t = INR T - 1) by (rewrite <- Q, S_INR; ring). rewrite XE, H. rewrite EN. nra.
    + rewrite app_nth1 by lia. rewrite Hv by lia. destruct (floorZ_spec (v (S t))) as [_ F].
      destruct (V (S t) ltac:(lia)) as [B _]. 
      assert (T3 : INR t <= INR T - 2) by (replace (INR T - 2) with (INR (T - 2)) by (rewrite minus_INR by lia; auto); apply le_INR; lia).
      rewrite S_INR in B. assert (B' : (INR t + 1) * q * (1 - 3 * u) <= v (S t)).
      { eapply Rle_trans; [|exact B]. apply Rmult_le_compat_l; auto. apply Rmult_le_pos; lra. }
      rewrite XE. assert (G : INR t * q + INR t * k + 1 <= (INR t + 1) * q * (1 - 3 * u)); [|lra].
      assert (INR t * k <= q - 1 - k) by nra.
      assert (3 * u * ((INR t + 1) * q) <= k); [|nra].
      apply (Rmult_le_reg_r (INR T - 1)); [lra|]. rewrite KE.
      assert (A1 : (INR t + 1) * q <= INR T * q) by nra.
      assert (A2 : 3 * u * (INR T * q) * INR T <= q * (3 / 8)) by nra. nra.
Qed.
(** Used as segment starts of the convolver, the same timestamps leave a single sample for the
    last step: two steps of a five-sample signal at 1 Hz start at samples 0 and 4. *)
Example C52_timestamps_as_starts : forall d, segment_starts d 5 2 (Some (mkT [2%nat] (linspace0 4 2))) (Some 1) = Ok [0%Z; 4%Z].
Proof.
  intros d. assert (R1 : ts_round d 1 = 1) by (apply (ts_round_INR d 1); destruct d; cbn; lia).
  assert (R4 : ts_round d 4 = 4) by (change 4 with (IZR (Z.of_nat 4)); rewrite <- INR_IZR_INZ; apply (ts_round_INR d 4); destruct d; cbn; lia).
  unfold segment_starts, linspace0. cbn [ndim numel shape data prodn fold_right Nat.eqb andb negb List.length seq map INR].
  replace (0 * (4 / (1 + 1 - 1))) with 0 by ring. replace (1 * (4 / (1 + 1 - 1))) with 4 by field.
  rewrite ts_round_0. destruct (Reqb_spec 0 0); [|lra]. cbn [negb]. rewrite R1, R4, !Rmult_1_r, ts_round_0, R4.
  rewrite !truncZ_nonneg by lra. rewrite (floorZ_IZR 0), (floorZ_IZR 4). auto.
Qed.
(** A static source at (3, 5) seen from a microphone at (2, 4): azimuth pi/4. *)
Example C52_example : exists a md fa, described a 2 /\ build_metadata a = Ok md /\
  field md ["doa"; "azimuth"]%string = Some fa /\ item fa [0; 0; 0]%nat = Some (number (PI / 4)).
Proof.
  set (a := mkMd (mkT [2%nat] [6; 7]) 343 None None 16000 (mkT [1; 2]%nat [3; 5]) None (mkT [1; 2]%nat [2; 4]) Float None [1; 1; 8]%nat None None None None None None).
  assert (D : described a 2).
  { constructor; unfold a; cbn [md_rirs_shape md_fs md_mic_dtype md_mic md_size md_src_traj md_src md_mic_traj proper].
    - discriminate.
    - lra.
    - auto.
    - exists 1%nat, 2%nat. auto.
    - auto.
    - exists 1%nat. split; auto. reflexivity.
    - exists 1%nat. split; auto. reflexivity. }
  destruct (proj1 (C52_accepts a 2 D)) as [_ A]. destruct A as [md H]; [left; auto|].
  assert (C : compatible (steps (md_src_traj a)) (steps (md_mic_traj a))) by (left; auto).
  destruct (built a 2 D C) as (md' & s & m & H' & Es & Em & F & _). rewrite H in H'. apply Ok_inj in H'. subst md'.
  exists a, md. eexists. split; [auto|]. split; [auto|]. split; [exact F|].
  subst s m. cbn. unfold number. do 4 f_equal. unfold azimuth_of, tget, map2. cbn. unfold atan2.
  destruct (Rlt_dec 0 (3 - 2)); [|lra]. replace ((5 - 4) / (3 - 2)) with 1 by field. apply atan_1.
Qed.

(** ** C68 *)

(** The array description: name by number of microphones, centre = mean position, spacing =
    smallest positive distance, none when all microphones coincide. *)
Theorem C68_array : forall a dim md n d, described a dim -> build_metadata a = Ok md -> shape (md_mic a) = [n; d] -> (0 < n)%nat ->
  field md ["array"; "geometry"]%string = Some (PStr (match n with 1%nat => "single" | 2%nat => "binaural" | _ => "custom" end))%string /\
  (exists fc, field md ["array"; "center"]%string = Some fc /\ forall k, (k < d)%nat ->
     item fc [k] = Some (number (rsum n (fun i => tget (md_mic a) [i; k]) / INR n))) /\
  (exists fp, field md ["array"; "positions"]%string = Some fp /\ (wf (md_mic a) -> forall i k, (i < n)%nat -> (k < d)%nat ->
     item fp [i; k] = Some (number (tget (md_mic a) [i; k])))) /\
  ((exists s, field md ["array"; "spacing"]%string = Some (number s) /\ closest (md_mic a) n d s) \/
   (field md ["array"; "spacing"]%string = Some PNone /\ forall i j, (i < n)%nat -> (j < n)%nat -> distance (md_mic a) d i j = 0)).
Proof.
  intros a dim md n d D H S N.
  assert (C : compatible (steps (md_src_traj a)) (steps (md_mic_traj a))) by (apply (C52_accepts a dim D); eauto).
  destruct (built a dim D C) as (md' & s & m & H' & _ & _ & _ & _ & _ & _ & _ & _ & _ & arr & A & F). rewrite H in H'. apply Ok_inj in H'. subst md'.
  assert (G : forall k, field md ["array"; k]%string = field arr [k]).
  { intros k. cbn [field] in *. destruct md; try discriminate. destruct (lookup l "array") as [w|]; [|discriminate]. injection F as ->. auto. }
  rewrite !G. unfold array_attributes in A. rewrite (de_float _ _ D), S in A. apply Ok_inj in A. subst arr.
  split; [|split; [|split]].
  - destruct n as [|[|[|n]]]; try reflexivity.
  - eexists. split; [reflexivity|]. intros k Hk. cbn [to_serializable]. rewrite (tolist_item _ _ _ (SFloat None)).
    + unfold number. do 2 f_equal. unfold mean_rows. cbn [ravel prodn fold_right]. rewrite nth_tab by lia.
      destruct (Nat.eqb_spec n 0); [lia|]. replace (k * 1 + 0)%nat with k by lia. auto.
    + unfold mean_rows. rewrite map_length, seq_length. cbn. lia.
    + repeat constructor; auto.
  - eexists. split; [reflexivity|]. intros W i k Hi Hk. apply pyt_item; auto. rewrite S. repeat constructor; auto.
  - pose proof (spacing_spec n d (md_mic a)) as SP. destruct (spacing_of n d (md_mic a)) as [x|] eqn:E.
    + left. exists x. split; [reflexivity|auto].
    + right. split; [reflexivity|auto].
Qed.
(** Integer microphone positions have no mean: building the metadata raises RuntimeError where
    the same numbers as floats would do. *)
Theorem C68_integer_positions : forall a, md_mic_dtype a = Int64 ->
  (forall md, build_metadata a <> Ok md) /\
  forall md, build_metadata (mkMd (md_size a) (md_c a) (md_beta a) (md_t60 a) (md_fs a) (md_src a) (md_src_ori a)
      (md_mic a) Float (md_mic_ori a) (md_rirs_shape a) (md_src_traj a) (md_mic_traj a) (md_timestamps a)
      (md_signal_len a) (md_source_info a) (md_extra a)) = Ok md ->
    build_metadata a = Err RuntimeError.
Proof.
  intros a E. split.
  - intros md. unfold build_metadata. destruct (rev _); [discriminate|]. destruct (Reqb _ _); [discriminate|].
    destruct (md_trajectories a) as [[[s m] T]|]; [|discriminate]. cbn [bind]. destruct (compute_doa s m). unfold array_attributes. rewrite E. discriminate.
  - intros md. unfold build_metadata, md_trajectories.
    cbn [md_size md_c md_beta md_t60 md_fs md_src md_src_ori md_mic md_mic_dtype md_mic_ori md_rirs_shape md_src_traj md_mic_traj].
    destruct (rev _); [discriminate|]. destruct (Reqb _ _); [discriminate|].
    destruct (md_normalize_traj (md_src_traj a) _ _) as [s|]; [|discriminate]. cbn [bind].
    destruct (md_normalize_traj (md_mic_traj a) _ _) as [m|]; [|discriminate]. cbn [bind].
    destruct (negb _); [discriminate|]. cbn [bind]. destruct (compute_doa _ _). intros _. unfold array_attributes. rewrite E. reflexivity.
Qed.
Example C68_example : closest (mkT [3; 2]%nat [0; 0; 3; 4; 0; 0]) 3 2 5 /\ spacing_of 3 2 (mkT [3; 2]%nat [0; 0; 3; 4; 0; 0]) = Some 5.
Proof.
  assert (V : forall i j, (i < 3)%nat -> (j < 3)%nat -> distance (mkT [3; 2]%nat [0; 0; 3; 4; 0; 0]) 2 i j = 0 \/ distance (mkT [3; 2]%nat [0; 0; 3; 4; 0; 0]) 2 i j = 5).
  { assert (S5 : sqrt 25 = 5) by (replace 25 with (5 * 5) by ring; apply sqrt_square; lra).
    intros i j Hi Hj. unfold distance, tget. destruct i as [|[|[|i]]], j as [|[|[|j]]]; try lia; cbn [rsum shape data ravel prodn fold_right nth Nat.add Nat.mul].
    all: match goal with |- sqrt ?x = _ \/ _ => first [left; replace x with 0 by ring; apply sqrt_0 | right; replace x with 25 by ring; exact S5] end. }
  assert (V5 : distance (mkT [3; 2]%nat [0; 0; 3; 4; 0; 0]) 2 0 1 = 5).
  { unfold distance, tget. cbn. replace (_ + _) with (5 * 5) by ring. apply sqrt_square. lra. }
  pose proof (spacing_spec 3 2 (mkT [3; 2]%nat [0; 0; 3; 4; 0; 0])) as SP.
  destruct (spacing_of 3 2 _) as [s|]; [|specialize (SP 0%nat 1%nat ltac:(lia) ltac:(lia)); lra].
  assert (s = 5); [|subst; auto]. destruct SP as (P & (i & j & Hi & Hj & <-) & _). destruct (V i j Hi Hj); lra.
Qed.

Print Assumptions C51_json_partial.
Print Assumptions C51_unchanged.
Print Assumptions C51_idempotent.
Print Assumptions C51_tensor_entries.
Print Assumptions C51_members.
Print Assumptions C51_other_objects_refuted.
Print Assumptions C51_metadata_json.
Print Assumptions C52_accepts.
Print Assumptions C52_doa.
Print Assumptions C52_trajectories.
Print Assumptions C52_dynamic_flag.
Print Assumptions C52_time_axis.
Print Assumptions C52_timestamps.
Print Assumptions C52_timestamp_segment.
Print Assumptions C68_array.
Print Assumptions C68_integer_positions.
Print Assumptions C52_timestamps_given.
Print Assumptions C52_timestamps_absent.
