(** Proofs for C93: contents of one scene. *)
From Coq Require Import Ascii String List ZArith Reals Lia Lra Bool Permutation.
From Flocq Require Import Core.
From Verif Require Import Prelude PreludeFacts SignalModel SignalSpec SignalProofs FloatModel FloatProofs DirModel DirSpec IsmModel IsmSpec IsmProofs SimProofs SimLocal SimSteps RoomModel RoomProofs GeoModel GeoSpec IoModel MetaModel MetaSpec.
From Verif Require DsModel DsSpec DsProps CorpModel LoopModel RefModel LoopAudio LoopTotal RefProps MetaProps StageProps BldProofs.
From Verif Require Import GeoSampling RefSpec RefProofs LoopSpec LoopNames ExModel ExSpec ExProofs EdsModel EdsSpec EdsProofs.
Import ListNotations.
Local Notation length := List.length.
Local Notation app := List.app.
Local Open Scope R_scope.
Local Open Scope list_scope.

(** ** The room *)
Definition walls (room : list R) : nat := if (length room =? 3)%nat then 6%nat else 4%nat.
Definition the_room (room : list R) : IsmModel.room := mkRoom (mkT [length room] room) 16000 343 (Some (repeat (9 / 10) (walls room))) None.
Lemma example_room_plain room : usual_room room -> exists r, example_room room 16000 = Ok r /\ plain_room r = Some (the_room room).
Proof.
  intros U. pose proof (usual_sound room 16000 U ltac:(lia)) as S. destruct (example_room_cases room 16000) as [[_ [r E]]|[N _]]; [|contradiction].
  exists r. split; auto. destruct U as [[L|L] F].
  - destruct room as [|a [|b [|? ?]]]; try discriminate. cbn in E. unfold Rltb, Rleb in E.
    repeat match type of E with context [Rle_dec ?x ?y] => destruct (Rle_dec x y); cbn in E; try discriminate end.
    repeat match type of E with context [Rlt_dec ?x ?y] => destruct (Rlt_dec x y); cbn in E; try discriminate end.
    apply Ok_inj in E. subst r. reflexivity.
  - destruct room as [|a [|b [|c [|? ?]]]]; try discriminate. cbn in E. unfold Rltb, Rleb in E.
    repeat match type of E with context [Rle_dec ?x ?y] => destruct (Rle_dec x y); cbn in E; try discriminate end.
    repeat match type of E with context [Rlt_dec ?x ?y] => destruct (Rlt_dec x y); cbn in E; try discriminate end.
    apply Ok_inj in E. subst r. reflexivity.
Qed.

(** What is fixed before the loop. *)
Record prepared (W : eworld) (a : eargs) (u : fixed) : Prop := {
  pr_room : fx_room u = the_room (ea_room a); pr_size : fx_size u = room_size (ea_room a);
  pr_center : kept (ea_room a) (fx_center u); pr_single : Forall single (fx_center u);
  pr_mics : row_at (ea_room a) (fx_center u) (Z.to_nat (ea_mics a)) (fx_mics u) }.
Lemma prepare_spec W e a u : usual_world W e -> usual_room (ea_room a) -> (1 <= ea_mics a)%Z -> prepare W a = Ok u -> prepared W a u.
Proof.
  intros UW U M H. unfold prepare in H. apply bind_ok in H as (dev & _ & H). destruct (example_room_plain _ U) as (r & Er & Ep). rewrite Er in H. cbn [bind] in H. rewrite Ep in H. cbn [bind] in H.
  cbv zeta in H. destruct (one_point_spec (ew_fresh W (ea_seed a)) 0 (ea_room a) (uw_fresh _ _ UW _) U) as [K S].
  destruct (mics_at_spec _ _ _ U K M) as (m & Em & Rm). rewrite Em in H. cbn [bind] in H. apply bind_ok in H as (t & _ & H). apply Ok_inj in H. subst u.
  constructor; cbn [fx_room fx_size fx_center fx_mics]; auto.
Qed.

(** ** Responses *)
Lemma tmax_numbers X dev r src mic N tm T : r_fs r <> 0 ->
  simulate_dynamic_rir X dev r src mic (Some N) None None (Some tm) None ONone None = Ok T ->
  (keeps_numbers X -> Forall (fun x => x <> None) (xdata T)) /\
  xshape T = [nth 0 (shape (unsqueeze_traj src)) 0%nat; nth 1 (shape (unsqueeze_traj src)) 0%nat; nth 1 (shape (unsqueeze_traj mic)) 0%nat; Z.to_nat (ceilZ (rnd64 (tm * r_fs r)))] /\
  (0 < ceilZ (rnd64 (tm * r_fs r)))%Z /\ (0 <= N)%Z.
Proof.
  intros Hfs H. rewrite simulate_dynamic_closed in H by auto.
  apply bind_ok in H as ([[[c N'] tm'] d] & E & H). unfold resolve_config, default_config in E. rewrite LoopTotal.default_valid in E. cbn [bind] in E. rewrite LoopTotal.default_valid in E. cbn in E.
  injection E as <- <- <- <-. apply bind_ok in H as (n & En & H).
  assert (n = ceilZ (rnd64 (tm * r_fs r))) as -> by (unfold validate_args in En; cbn [bind] in En; repeat match type of En with (if ?b then _ else _) = _ => destruct b; [discriminate|] end; congruence).
  apply validate_args_pos in En as [Pn PN]. cbv zeta in H.
  apply bind_ok in H as ([[[[[s0 m0] so] mo'] size] dim] & Ep & H). apply prepare_dynamic_inv in Ep as (-> & -> & _). apply bind_ok in H as (? & _ & H). apply bind_ok in H as (beta & _ & H). apply bind_ok in H as (beta' & _ & H).
  apply bind_ok in H as (nv & _ & H). cbn [split_directivity bind] in H. unfold mic_directions, src_directions in H. change (String.eqb "omni" "omni") with true in H. cbn [bind] in H.
  apply bind_ok in H as (rirs & Er & H). apply bind_ok in H as (out & Eo & H). apply Ok_inj in H. subst T. cbn [xdata xshape nth]. split; [|split; [reflexivity|auto]].
  intros K. eapply LoopAudio.hpf_numbers; [exact K| |exact Eo]. clear Eo. unfold dynamic_closed, side_of in Er. change (String.eqb "omni" "omni") with true in Er. cbn [bind] in Er.
  repeat match type of Er with (if ?b then _ else _) = _ => destruct b; [discriminate|] end. apply Ok_inj in Er. subst rirs.
  apply Forall_forall. intros y Hx. apply in_flat_map in Hx as (t & _ & Hx). apply in_flat_map in Hx as (s & _ & Hx). apply in_flat_map in Hx as (m & _ & Hx).
  apply in_map_iff in Hx as (j & <- & _). unfold pair_response. apply LoopAudio.response_number.
Qed.

(** ** Tables *)
Lemma concat_length {A} (l : list (list A)) n : (forall r, In r l -> length r = n) -> length (concat l) = (length l * n)%nat.
Proof. induction l as [|r l IH]; intros H; cbn; auto. rewrite app_length, IH, (H r) by (intros; try apply H; cbn; auto). reflexivity. Qed.
Lemma nth_concat {A} (l : list (list A)) n t i d : (forall r, In r l -> length r = n) -> (t < length l)%nat -> (i < n)%nat -> nth (t * n + i) (concat l) d = nth i (nth t l []) d.
Proof.
  revert t. induction l as [|r l IH]; intros t H Ht Hi; [cbn in Ht; lia|]. pose proof (H r ltac:(cbn; auto)) as Lr. cbn [concat]. destruct t as [|t].
  - cbn [nth Nat.mul Nat.add]. rewrite app_nth1 by lia. reflexivity.
  - rewrite app_nth2 by lia. rewrite Lr. replace (S t * n + i - n)%nat with (t * n + i)%nat by lia. cbn [nth]. apply IH; auto; [intros; apply H; cbn; auto|cbn in Ht; lia].
Qed.
Lemma grid_wf n dim l : (forall r, In r l -> length r = n) -> (forall r p, In r l -> In p r -> length p = dim) -> wf (grid n dim l).
Proof.
  intros H D. unfold wf, grid. cbn [shape data]. rewrite (concat_length _ (n * dim)%nat).
  - rewrite map_length. unfold prodn. cbn. lia.
  - intros q Hq. apply in_map_iff in Hq as (r & <- & Hr). rewrite (concat_length _ dim); [rewrite (H r Hr); auto|]. intros p Hp. apply (D r p Hr Hp).
Qed.
Lemma grid_get n dim l t i k : (forall r, In r l -> length r = n) -> (forall r p, In r l -> In p r -> length p = dim) ->
  (t < length l)%nat -> (i < n)%nat -> (k < dim)%nat -> tget (grid n dim l) [t; i; k] = nth k (nth i (nth t l []) []) 0.
Proof.
  intros H D Ht Hi Hk. unfold tget, grid. cbn [shape data ravel prodn fold_right].
  replace (t * (n * (dim * 1)) + (i * (dim * 1) + (k * 1 + 0)))%nat with (t * (n * dim) + (i * dim + k))%nat by lia.
  assert (Hr : In (nth t l []) l) by (apply nth_In; auto).
  rewrite nth_concat with (n := (n * dim)%nat).
  - replace (nth t (map (@concat R) l) []) with (concat (nth t l [])) by (change [] with (concat (@nil (list R))) at 2; symmetry; apply map_nth).
    apply nth_concat; auto; [intros p Hp; apply (D _ p Hr Hp)|rewrite (H _ Hr); auto].
  - intros q Hq. apply in_map_iff in Hq as (r & <- & Hrr). rewrite (concat_length _ dim); [rewrite (H r Hrr); auto|]. intros p Hp. apply (D r p Hrr Hp).
  - rewrite map_length. auto.
  - nia.
Qed.
Lemma grid_step n dim l t : (forall r, In r l -> length r = n) -> (forall r p, In r l -> In p r -> length p = dim) -> (t < length l)%nat ->
  step_tensor (grid n dim l) t = mkT [n; dim] (concat (nth t l [])).
Proof.
  intros H D Ht. unfold step_tensor, grid. cbn [shape data]. f_equal. rewrite LoopAudio.block_concat.
  - change [] with (concat (@nil (list R))) at 1. rewrite map_nth. reflexivity.
  - intros q Hq. apply in_map_iff in Hq as (r & <- & Hrr). rewrite (concat_length _ dim); [rewrite (H r Hrr); auto|]. intros p Hp. apply (D r p Hrr Hp).
  - rewrite map_length. auto.
Qed.

(** ** Tracks are numbers *)
Definition point (p : xpoint) : list R := match p with Some p => p | None => [] end.
Lemma all_points_some rows p : all_points rows = Some p -> p = map (map point) rows /\ forall t i, (t < length rows)%nat -> (i < length (nth t rows []))%nat -> track_of rows i t = Some (nth i (nth t p []) []).
Proof.
  unfold all_points. destruct (forallb _ rows) eqn:E; [|discriminate]. intros H. injection H as <-. split; [reflexivity|]. intros t i Ht Hi.
  rewrite forallb_forall in E. specialize (E _ (nth_In _ [] Ht)). rewrite forallb_forall in E. specialize (E _ (nth_In _ None Hi)). unfold track_of.
  change (nth i (nth t rows []) None = Some (nth i (nth t (map (map point) rows) (map point [])) (point None))). rewrite !map_nth. unfold xpoint in *. destruct (nth i (nth t rows []) None); [reflexivity|discriminate E].
Qed.
Lemma motion_numbers room n start tr mode t : (3 <= n)%nat -> motion room n start tr mode -> (t < n)%nat -> exists p, tr t = Some p.
Proof.
  intros Hn M Ht. destruct M as [H|e _ _ H|m e s _ _ _ _ Es H1 H2 _].
  - eauto.
  - destruct (H t Ht) as (p & E & _). eauto.
  - assert (Hs : (s < n)%nat). { subst s. pose proof (Nat.div_lt n 2 ltac:(lia) ltac:(lia)). lia. }
    destruct (Nat.lt_ge_cases (t + 1) s) as [A|A]; [destruct (H1 t A) as (p & E & _)|destruct (H2 Hs t ltac:(lia)) as (p & E & _)]; eauto.
Qed.
Lemma motions_numbers e room c n k T rows modes moving starts : (3 <= T)%nat -> source_motions e room c n k T rows modes moving starts ->
  exists p, all_points rows = Some p /\ length p = T /\ (forall r, In r p -> length r = n) /\ (forall r q, In r p -> In q r -> length q = length room) /\
    (forall t i, (t < T)%nat -> (i < n)%nat -> track_of rows i t = Some (nth i (nth t p []) [])) /\ nth 0 p [] = starts.
Proof.
  intros HT S. pose proof (sm_steps _ _ _ _ _ _ _ _ _ _ S) as LT. pose proof (sm_rows _ _ _ _ _ _ _ _ _ _ S) as LR.
  assert (Nm : forall t i, (t < T)%nat -> (i < n)%nat -> exists q, track_of rows i t = Some q /\ length q = length room).
  { intros t i Ht Hi. pose proof (sm_motions _ _ _ _ _ _ _ _ _ _ S i Hi) as M. destruct (motion_numbers _ _ _ _ _ t HT M Ht) as (q & Eq). exists q. split; auto.
    apply kept_length. eapply motion_kept; [| |exact M|exact Ht|exact Eq]; [lia|]. destruct (sm_starts _ _ _ _ _ _ _ _ _ _ S) as [Ls P]. apply P. apply nth_In. lia. }
  assert (A : all_points rows = Some (map (map point) rows)).
  { unfold all_points. replace (forallb _ rows) with true; [reflexivity|]. symmetry. apply forallb_forall. intros r Hr. apply forallb_forall. intros x Hx.
    destruct (In_nth _ _ [] Hr) as (t & Ht & Et). destruct (In_nth _ _ None Hx) as (i & Hi & Ei). destruct (Nm t i) as (q & Eq & _); [lia|rewrite <- (LR r Hr); auto|].
    unfold track_of in Eq. rewrite Et in Eq. assert (x = Some q) as -> by (rewrite <- Ei; exact Eq). reflexivity. }
  exists (map (map point) rows). split; auto. split; [rewrite map_length; auto|]. split; [|split; [|split]].
  - intros r Hr. apply in_map_iff in Hr as (q & <- & Hq). rewrite map_length. auto.
  - intros r q Hr Hq. apply in_map_iff in Hr as (r' & <- & Hr). apply in_map_iff in Hq as (x & <- & Hx).
    destruct (In_nth _ _ [] Hr) as (t & Ht & Et). destruct (In_nth _ _ None Hx) as (i & Hi & Ei). destruct (Nm t i) as (q & Eq & Lq); [lia|rewrite <- (LR r' Hr); auto|].
    unfold track_of in Eq. rewrite Et in Eq. assert (x = Some q) as -> by (rewrite <- Ei; exact Eq). exact Lq.
  - intros t i Ht Hi. apply (all_points_some _ _ A); [lia|]. rewrite (LR (nth t rows [])) by (apply nth_In; lia). auto.
  - change (nth 0 (map (map point) rows) (map point []) = starts). rewrite map_nth, (sm_first _ _ _ _ _ _ _ _ _ _ S), map_map. cbn. apply map_id.
Qed.

(** ** Files *)
Definition sounds (q : Z) (files : list (string * wave)) : list (string * item) := map (fun p => (fst p, Sound (snd p) q)) files.
Definition tracks {A} (x : erun A) (l : list (string * item)) (P : A -> Prop) : Prop :=
  prefix (fst x) l /\ forall a, snd x = Some (Ok a) -> fst x = l /\ P a.
Lemma tracks_first {A B} (r : result A) (f : A -> erun B) l P : (forall a, r = Ok a -> tracks (f a) l P) -> tracks (ebind (elift r) f) l P.
Proof.
  intros H. destruct r as [a|e]; unfold elift; cbn [ebind]; [|split; [apply prefix_nil|discriminate]]. specialize (H a eq_refl). destruct (f a) as [t x]. exact H.
Qed.
Lemma tracks_bind {A B} (m : erun A) (f : A -> erun B) l l' P Q : tracks m l P -> (forall a, P a -> tracks (f a) l' Q) -> tracks (ebind m f) (l ++ l') Q.
Proof.
  destruct m as [t [[a|e]|]]; intros [X Y] F; cbn [fst snd ebind] in *.
  - destruct (Y a eq_refl) as [-> Pa]. specialize (F a Pa). destruct (f a) as [t' r] eqn:E. destruct F as [X' Y']. cbn [fst snd] in *.
    split; [apply prefix_app; auto|]. cbn [fst snd]. intros b Hb. destruct (Y' b Hb) as [-> q]. auto.
  - split; [apply prefix_more; auto|discriminate].
  - split; [apply prefix_more; auto|discriminate].
Qed.
Lemma tracks_save W f i : tracks (save W f i) [(f, i)] (fun _ => True).
Proof. unfold save. destruct (ew_save W f); (split; [|try discriminate; auto]); [apply prefix_nil|apply prefix_refl]. Qed.
Lemma tracks_ret {A} (a : A) (P : A -> Prop) : P a -> tracks (eret a) [] P.
Proof. intros H. split; [apply prefix_nil|]. intros b E. cbn in E. split; [reflexivity|congruence]. Qed.
Lemma tracks_sound W f q w w' : save_samples (ew_float W) true 1 w = Ok w' -> tracks (save_sound W f q w) [(f, Sound w' q)] (fun _ => True).
Proof. intros H. apply tracks_first. intros x E. assert (x = w') as -> by congruence. apply tracks_save. Qed.
Definition entry (i : nat) (info : list (string * list string)) (s : nat) : RefModel.ref_entry :=
  RefModel.mkRef s (RefModel.ref_name (scene_prefix i) s) (fst (nth s info (""%string, []))) (snd (nth s info (""%string, []))) "convolved".
Local Notation conv u := (convolver_convolve (mkConvolver "trajectory" None None None) (fx_device u)).
Lemma references_track W u i rirs h sg q info : ew_float W = (fun x => x) -> LoopModel.all_numbers rirs = Some h -> forall l refs,
  mapM (fun s => do x <- RefModel.index0 sg s; do r <- RefModel.slice1 h s; do ref <- conv u x r; RefModel.scene_file (fun x => x) (RefModel.ref_name (scene_prefix i) s) ref) l = Ok refs ->
  (forall s, In s l -> (s < length info)%nat) ->
  tracks (references W u i rirs sg q info l) (sounds q refs) (fun r => r = map (entry i info) l).
Proof.
  intros Hf Hn l. induction l as [|s l IH]; intros refs H B; cbn [mapM] in H.
  - apply Ok_inj in H. subst refs. apply tracks_ret. reflexivity.
  - apply bind_ok in H as (k & Hk & H). apply bind_ok in H as (ks & Hks & H). apply Ok_inj in H. subst refs. specialize (IH ks Hks ltac:(intros; apply B; cbn; auto)).
    apply bind_ok in Hk as (x & Ex & Hk). apply bind_ok in Hk as (r & Er & Hk). apply bind_ok in Hk as (ref & Eref & Hk). unfold RefModel.scene_file in Hk.
    apply bind_ok in Hk as (w & Ew & Hk). apply Ok_inj in Hk. subst k. cbn [references sounds map fst snd].
    apply tracks_first. intros w0 E0. unfold heard in E0. rewrite Ex in E0. cbn [bind] in E0. rewrite Hn, Er in E0. cbn [bind] in E0. rewrite Eref in E0. cbn [bind] in E0. apply Ok_inj in E0. subst w0.
    apply (tracks_bind _ _ [_] _ (fun _ => True)); [apply tracks_sound; rewrite Hf; exact Ew|]. intros _ _.
    apply tracks_first. intros p Ep. assert (Es : nth_error info s = Some (nth s info (""%string, []))) by (apply nth_error_nth'; apply B; cbn; auto).
    rewrite Es in Ep. apply Ok_inj in Ep. subst p. fold (sounds q ks). rewrite <- (app_nil_r (sounds q ks)).
    eapply tracks_bind; [exact IH|]. intros rs ->. apply tracks_ret. reflexivity.
Qed.
Lemma sounds_app q a b : sounds q (a ++ b) = sounds q a ++ sounds q b.
Proof. apply map_app. Qed.
Definition signal_of (dry : list (list R)) : tensor := mkT [length dry; length (hd [] dry)] (concat dry).
Lemma scene_tracks W a u fuel i dry q info rows modes moving rirs h files md :
  ew_float W = (fun x => x) ->
  DsModel.load_dataset_sources (ew_corpus W) (ea_n a) (ea_duration a) (ew_rng W (ea_seed a + Z.of_nat i)) fuel = Some (Ok (dry, q, info)) ->
  source_trajectories (ew_norm W) (ew_after W (ea_seed a + Z.of_nat i)) (ea_n a) (ea_moving a) (fx_size u) (fx_center u) (run_steps a) = Ok (rows, modes, moving) ->
  responses W a u i rows = Ok rirs -> LoopModel.all_numbers rirs = Some h ->
  RefModel.dynamic_files (fun x => x) (fx_device u) (scene_prefix i) (Z.to_nat (ea_n a)) (signal_of dry) h = Ok files ->
  length info = Z.to_nat (ea_n a) ->
  description W a u i rows rirs (length (hd [] dry)) info modes moving (map (entry i info) (seq 0 (Z.to_nat (ea_n a)))) = Ok md ->
  tracks (example_scene W a u fuel i) (sounds q files ++ [((scene_prefix i ++ "_metadata.json")%string, Json md)]) (fun _ => True).
Proof.
  intros Hf El Et Er En Ef Li Ed. unfold example_scene. rewrite El. cbv zeta. rewrite Et. fold (signal_of dry).
  unfold RefModel.dynamic_files, RefModel.audio_files in Ef. apply bind_ok in Ef as (y & Ey & Ef). apply bind_ok in Ef as (refs & Erefs & Ef). apply bind_ok in Ef as (mix & Em & Ef). apply Ok_inj in Ef. subst files.
  unfold RefModel.scene_file in Em. apply bind_ok in Em as (w & Ew & Em). apply Ok_inj in Em. subst mix.
  apply tracks_first. intros x X. apply Ok_inj in X. subst x. apply tracks_first. intros x X. rewrite Er in X. apply Ok_inj in X. subst x.
  apply tracks_first. intros y' X. unfold heard in X. cbn [bind] in X. rewrite En in X. cbn [bind] in X. rewrite Ey in X. cbn [bind] in X. apply Ok_inj in X. subst y'.
  rewrite sounds_app, <- app_assoc. eapply tracks_bind; [apply (references_track _ _ _ _ h); eauto; intros s Hs; apply in_seq in Hs; lia|]. intros rs ->.
  apply (tracks_bind _ _ [_] [_] (fun _ => True)); [apply tracks_sound; rewrite Hf; exact Ew|]. intros _ _.
  apply tracks_first. intros v Ev. rewrite Ed in Ev. apply Ok_inj in Ev. subst v. apply tracks_save.
Qed.

(** ** The description *)
Lemma description_runs W a u i rows rirs len info modes moving refs p n L :
  fx_room u = the_room (ea_room a) -> (2 <= length (ea_room a) <= 3)%nat ->
  all_points rows = Some p -> length p = Z.to_nat (run_steps a) -> (forall r, In r p -> length r = n) -> (forall r q, In r p -> In q r -> length q = length (ea_room a)) -> n = Z.to_nat (ea_n a) ->
  (forall q, In q (fx_mics u) -> length q = length (ea_room a)) -> xshape rirs = [Z.to_nat (run_steps a); n; length (fx_mics u); L] ->
  exists m md, description W a u i rows rirs len info modes moving refs = Ok md /\ build_metadata m = Ok md /\ MetaProps.described m (length (ea_room a)) /\
    md_fs m = 16000 /\ md_timestamps m = None /\ md_signal_len m = Some (Z.of_nat len) /\ md_rirs_shape m = xshape rirs /\
    md_src_traj m = Some (grid n (length (ea_room a)) p) /\ md_mic_traj m = Some (mic_grid a u) /\ md_mic m = table (length (ea_room a)) (fx_mics u) /\
    md_source_info m = Some (info_value info) /\ md_extra m = Some (scene_extra a (fx_source u) modes moving refs) /\ md_src m = table (length (ea_room a)) (nth 0 p []).
Proof.
  intros Er Dim Ap Lp Rp Pp -> Pm Sh. unfold description. rewrite Ap. cbv zeta. set (m := mkMd _ _ _ _ _ _ _ _ _ _ _ _ _ _ _ _ _).
  assert (Rm : forall r, In r (repeat (fx_mics u) (Z.to_nat (run_steps a))) -> r = fx_mics u) by (intros r Hr; apply repeat_spec in Hr; auto).
  assert (D : MetaProps.described m (length (ea_room a))).
  { constructor; unfold m; cbn [md_rirs_shape md_fs md_mic_dtype md_mic md_size md_src_traj md_src md_mic_traj MetaSpec.proper]; rewrite ?Er; cbn [the_room r_fs r_size]; auto.
    - rewrite Sh. discriminate.
    - lra.
    - do 2 eexists. reflexivity.
    - unfold numel, prodn. cbn. lia.
    - split; [apply grid_wf; auto|]. right. do 2 eexists. reflexivity.
    - split; [apply grid_wf; [intros r Hr; rewrite (Rm r Hr); auto|intros r q Hr Hq; rewrite (Rm r Hr) in Hq; auto]|]. right. do 2 eexists. reflexivity. }
  assert (C : MetaSpec.compatible (MetaSpec.steps (md_src_traj m)) (MetaSpec.steps (md_mic_traj m))).
  { left. unfold m. cbn [md_src_traj md_mic_traj MetaSpec.steps mic_grid grid shape hd]. rewrite repeat_length. auto. }
  destruct (MetaProps.built m _ D C) as (md & _ & _ & Hm & _). exists m, md. repeat (split; [auto|]); try reflexivity.
  - unfold m. cbn [md_fs]. rewrite Er. reflexivity.
Qed.

(** ** One scene *)
Definition heard_as (dry : list (list R)) (T : nat) (w : list Z) (h : tensor) (s m j : nat) : R :=
  tv_conv (zext T (fun i => nth i (nth s dry []) 0)) (active_step w) (fun k => dyn_view h k s m) j.
Record scene_parts (W : eworld) (e : R) (a : eargs) (u : fixed) (fuel i : nat) (dry : list (list R)) (q : Z) (info : list (string * list string))
    (rows : list (list xpoint)) (modes : list string) (moving : list nat) (starts : list (list R)) (p : list (list (list R))) (rirs : xtensor) (h : tensor) (L : nat) : Prop := {
  sp_load : DsModel.load_dataset_sources (ew_corpus W) (ea_n a) (ea_duration a) (ew_rng W (ea_seed a + Z.of_nat i)) fuel = Some (Ok (dry, q, info));
  sp_tracks : source_trajectories (ew_norm W) (ew_after W (ea_seed a + Z.of_nat i)) (ea_n a) (ea_moving a) (fx_size u) (fx_center u) (run_steps a) = Ok (rows, modes, moving);
  sp_motions : source_motions e (ea_room a) (fx_center u) (Z.to_nat (ea_n a)) (Z.to_nat (Z.min (ea_n a) (ea_moving a))) (Z.to_nat (run_steps a)) rows modes moving starts;
  sp_points : all_points rows = Some p; sp_steps : length p = Z.to_nat (run_steps a); sp_rows : forall r, In r p -> length r = Z.to_nat (ea_n a);
  sp_dim : forall r x, In r p -> In x r -> length x = length (ea_room a);
  sp_at : forall t j, (t < Z.to_nat (run_steps a))%nat -> (j < Z.to_nat (ea_n a))%nat -> track_of rows j t = Some (nth j (nth t p []) []);
  sp_first : nth 0 p [] = starts;
  sp_rirs : simulate_dynamic_rir (ew_ext W) (fx_device u) (the_room (ea_room a)) (grid (Z.to_nat (ea_n a)) (length (ea_room a)) p) (mic_grid a u) (Some (ea_order a)) None None (Some (ea_tmax a)) None ONone None = Ok rirs;
  sp_h : LoopModel.all_numbers rirs = Some h; sp_shape : shape h = [Z.to_nat (run_steps a); Z.to_nat (ea_n a); Z.to_nat (ea_mics a); L]; sp_wf : wf h; sp_L : (0 < L)%nat;
  sp_xshape : xshape rirs = shape h; sp_xdata : xdata rirs = map Some (data h); sp_len : Z.of_nat L = ceilZ (rnd64 (ea_tmax a * 16000));
  sp_count : length dry = Z.to_nat (ea_n a); sp_info : length info = Z.to_nat (ea_n a) }.
Lemma numbers_data (l : list (option R)) : Forall (fun x => x <> None) l -> l = map Some (map (fun x => match x with Some r => r | None => 0 end) l).
Proof. induction 1 as [|x l Hx _ IH]; cbn; auto. destruct x; [|contradiction]. rewrite <- IH. reflexivity. Qed.
Lemma mics_dim room c n mics : row_at room c n mics -> forall q, In q mics -> length q = length room.
Proof. intros [L H] q Hq. destruct (In_nth _ _ [] Hq) as (j & Hj & <-). apply H. lia. Qed.
Lemma ebind_lift_ok {A B} (x : A) (f : A -> erun B) : ebind (elift (Ok x)) f = f x.
Proof. unfold ebind, elift. destruct (f x). reflexivity. Qed.
Lemma ebind_lift_err {A B} x (f : A -> erun B) : ebind (elift (Err x)) f = ([], Some (Err x)).
Proof. reflexivity. Qed.
(** What stops a scene before its first file. *)
Definition stopped (W : eworld) (a : eargs) (u : fixed) (fuel i : nat) : Prop :=
  (forall dry q info, DsModel.load_dataset_sources (ew_corpus W) (ea_n a) (ea_duration a) (ew_rng W (ea_seed a + Z.of_nat i)) fuel <> Some (Ok (dry, q, info))) \/
  source_trajectories (ew_norm W) (ew_after W (ea_seed a + Z.of_nat i)) (ea_n a) (ea_moving a) (fx_size u) (fx_center u) (run_steps a) = Err RuntimeError \/
  exists rows p x, all_points rows = Some p /\ length p = Z.to_nat (run_steps a) /\ (forall r, In r p -> length r = Z.to_nat (ea_n a)) /\
    (forall r y, In r p -> In y r -> length y = length (ea_room a)) /\ responses W a u i rows = Err x.
Lemma scene_cases W e a u fuel i : usual_world W e -> usual_args a -> prepared W a u ->
  (fst (example_scene W a u fuel i) = [] /\ snd (example_scene W a u fuel i) <> Some (Ok tt) /\ stopped W a u fuel i) \/
  exists dry q info rows modes moving starts p rirs h L, scene_parts W e a u fuel i dry q info rows modes moving starts p rirs h L.
Proof.
  intros UW UA PU. destruct PU as [Pr Ps Pc Psg Pm]. destruct UA as [U Hn Hm Hs].
  assert (K2 : (2 <= run_steps a)%Z) by (unfold run_steps; lia).
  destruct (DsModel.load_dataset_sources (ew_corpus W) (ea_n a) (ea_duration a) (ew_rng W (ea_seed a + Z.of_nat i)) fuel) as [[[[dry q] info]|x]|] eqn:El;
    [|left; unfold stopped, example_scene; rewrite El; cbn; split; [auto|split; [discriminate|left; discriminate]]..].
  destruct (DsProps.C56_sources _ _ _ _ _ _ _ _ (uw_rng _ _ UW _) (uw_speakers _ _ UW) El) as (Ld & Li & _).
  destruct (uw_after _ _ UW (ea_seed a + Z.of_nat i)%Z) as [Ra Fp].
  destruct (trajectories_spec (ew_norm W) e (ew_after W (ea_seed a + Z.of_nat i)) (ea_n a) (ea_moving a) (ea_room a) (fx_center u) (run_steps a)
    Ra Fp U (uw_error _ _ UW) (uw_norm _ _ UW) Pc Psg Hn K2) as [Et|(rows & modes & moving & starts & Et & Sm)]; rewrite <- Ps in Et.
  { left. unfold stopped. rewrite Et. unfold example_scene. rewrite El. cbv zeta. rewrite Et. cbn. split; [auto|split; [discriminate|auto]]. }
  assert (K3 : (3 <= Z.to_nat (run_steps a))%nat) by (unfold run_steps; lia).
  destruct (motions_numbers _ _ _ _ _ _ _ _ _ _ K3 Sm) as (p & Ap & Lp & Rp & Dp & At & Fi).
  destruct (responses W a u i rows) as [rirs|x] eqn:Er.
  2:{ left. unfold example_scene. rewrite El. cbv zeta. rewrite Et, ebind_lift_ok, Er, ebind_lift_err. cbn. split; [auto|split; [discriminate|]]. right. right. exists rows, p, x. auto. }
  right. unfold responses in Er. rewrite Ap, Pr in Er.
  assert (F0 : r_fs (the_room (ea_room a)) <> 0) by (cbn; lra).
  destruct (tmax_numbers _ _ _ _ _ _ _ _ F0 Er) as (Nu & Sh & L0 & HN). destruct (uw_filter _ _ UW) as [Kn Fl]. specialize (Nu Kn).
  destruct (dynamic_is_static _ _ _ _ _ _ _ _ _ _ _ _ _ F0 Fl Er) as (Tn & S' & M' & n' & _ & Sh' & Ldat & _).
  change (r_fs (the_room (ea_room a))) with 16000 in *.
  set (L := Z.to_nat (ceilZ (rnd64 (ea_tmax a * 16000)))) in *.
  assert (Sx : xshape rirs = [Z.to_nat (run_steps a); Z.to_nat (ea_n a); Z.to_nat (ea_mics a); L]).
  { rewrite Sh. unfold mic_grid, grid. cbn [unsqueeze_traj shape nth]. unfold unsqueeze_traj. cbn [ndim shape length Nat.eqb nth]. rewrite Lp. destruct Pm as [-> _]. reflexivity. }
  rewrite Sx in Sh'. injection Sh' as <- <- <- <-.
  pose proof (LoopAudio.all_numbers_ok _ Nu) as An. set (h := mkT (xshape rirs) _) in An.
  exists dry, q, info, rows, modes, moving, starts, p, rirs, h, L. constructor; auto.
  - unfold wf, h. cbn [shape data]. rewrite Sx. unfold prodn. cbn [fold_right]. transitivity (length (xdata rirs)); [apply map_length|rewrite Ldat; lia].
  - lia.
  - apply numbers_data. auto.
  - unfold L. lia.
  - lia.
  - lia.
Qed.
Lemma signal_input dry T dev n K M L h : (forall row, In row dry -> length row = T) -> length dry = n -> (0 < n)%nat -> (0 < T)%nat ->
  shape h = [K; n; M; L] -> wf h -> (0 < L)%nat -> (3 <= K)%nat -> (Z.of_nat K <= 2 ^ 22)%Z ->
  dynamic_input dev n T K M L (signal_of dry) h /\ length (hd [] dry) = T /\ forall s, (s < n)%nat -> forall k, sig_view (signal_of dry) s k = zext T (fun i => nth i (nth s dry []) 0) k.
Proof.
  intros Rd Ld Hn HT Sh Wh HL HK HK2. assert (Lh : length (hd [] dry) = T) by (destruct dry; [cbn in Ld; lia|apply Rd; cbn; auto]).
  assert (Wd : length (concat dry) = (n * T)%nat) by (rewrite (concat_length _ T), Ld; auto).
  split; [|split; auto].
  - unfold dynamic_input, signal_of. cbn [shape]. rewrite Lh, Ld. split; auto. split; [unfold wf; cbn [shape data]; rewrite Wd; unfold prodn; cbn; lia|]. do 5 (split; [solve [auto|lia]|]).
    destruct dev; lia.
  - intros s Hs k. unfold sig_view, signal_of. cbn [shape]. rewrite Lh, Ld. unfold zext. destruct (Nat.ltb_spec k T) as [Hk|]; auto. unfold tget. cbn [shape data ravel prodn fold_right].
    replace (if (n =? 1)%nat then 0%nat else s) with s by (destruct (Nat.eqb_spec n 1); lia). replace (s * (T * 1) + (k * 1 + 0))%nat with (s * T + k)%nat by lia. apply nth_concat; auto; lia.
Qed.
Lemma tv_conv_ext x y act h j : (forall k, x k = y k) -> tv_conv x act h j = tv_conv y act h j.
Proof. intros E. unfold tv_conv. apply rsum_ext. intros k _. rewrite E. reflexivity. Qed.
Lemma audio_ext prefix n M len f g files : (forall s m j, (s < n)%nat -> f s m j = g s m j) -> scene_audio prefix n M len f files -> scene_audio prefix n M len g files.
Proof.
  intros E [A B C]. assert (LE : forall x y p, (forall m j, x m j = y m j) -> loudness M len x p -> loudness M len y p).
  { intros x y p H [(P & Q & m & j & Hm & Hj & R)|(P & Q)]; [left; split; auto; split; [intros; rewrite <- H; auto|exists m, j; rewrite <- H; auto]|right; split; auto; intros; rewrite <- H; auto]. }
  assert (FE : forall w x y, (forall m j, x m j = y m j) -> file_of w M len x -> file_of w M len y).
  { intros w x y H [(P & Q & R & S)|(P & Q & R & S)]; [left|right]; (split; [auto|]; split; [auto|]; split; [auto|]; intros m j Hm Hj; rewrite <- H; auto). }
  constructor; auto.
  - intros s Hs. destruct (B s Hs) as (d & p & w & H1 & H2 & H3 & H4). exists d, p, w. split; auto. split; auto.
    split; [apply (LE (f s)); auto|]. eapply FE; [|exact H4]. intros m j. cbn. rewrite E; auto.
  - destruct C as (p & w & H1 & H2 & H3). exists p, w. split; auto.
    assert (S : forall m j, rsum n (fun s => f s m j) = rsum n (fun s => g s m j)) by (intros; apply rsum_ext; auto).
    split; [eapply LE; [|exact H2]; auto|]. eapply FE; [|exact H3]. intros m j. cbn. rewrite S. auto.
Qed.
Lemma scene_contents W e a u fuel i dry q info rows modes moving starts p rirs h L T : usual_world W e -> usual_args a -> prepared W a u ->
  scene_parts W e a u fuel i dry q info rows modes moving starts p rirs h L -> DsSpec.whole_samples (ea_duration a) q T -> (0 < T)%nat ->
  exists w files m md, partition_starts w T /\ length w = Z.to_nat (run_steps a) /\
    scene_audio (scene_prefix i) (Z.to_nat (ea_n a)) (Z.to_nat (ea_mics a)) (T + L - 1) (heard_as dry T w h) files /\
    build_metadata m = Ok md /\ MetaProps.described m (length (ea_room a)) /\
    md_fs m = 16000 /\ md_timestamps m = None /\ md_signal_len m = Some (Z.of_nat T) /\ md_rirs_shape m = xshape rirs /\
    md_src_traj m = Some (grid (Z.to_nat (ea_n a)) (length (ea_room a)) p) /\ md_mic_traj m = Some (mic_grid a u) /\ md_mic m = table (length (ea_room a)) (fx_mics u) /\
    md_source_info m = Some (info_value info) /\ md_extra m = Some (scene_extra a (fx_source u) modes moving (map (entry i info) (seq 0 (Z.to_nat (ea_n a))))) /\ md_src m = table (length (ea_room a)) (nth 0 p []) /\
    RefModel.dynamic_files (fun x => x) (fx_device u) (scene_prefix i) (Z.to_nat (ea_n a)) (signal_of dry) h = Ok files /\
    description W a u i rows rirs (length (hd [] dry)) info modes moving (map (entry i info) (seq 0 (Z.to_nat (ea_n a)))) = Ok md /\
    tracks (example_scene W a u fuel i) (sounds q files ++ [((scene_prefix i ++ "_metadata.json")%string, Json md)]) (fun _ => True).
Proof.
  intros UW UA PU SP WS HT. destruct UA as [U Hn Hm Hs]. destruct PU as [Pr Ps Pc Psg Pm].
  destruct (DsProps.C56_sources _ _ _ _ _ _ _ _ (uw_rng _ _ UW _) (uw_speakers _ _ UW) (sp_load _ _ _ _ _ _ _ _ _ _ _ _ _ _ _ _ _ SP)) as (Ld & Li & _ & _ & Rw).
  assert (Rd : forall row, In row dry -> length row = T).
  { intros row Hr. apply In_nth_error in Hr as (j & Hj). assert (Hj' : (j < length info)%nat) by (rewrite Li; apply nth_error_Some; congruence).
    apply nth_error_Some in Hj'. destruct (nth_error info j) as [[spk ids]|] eqn:Ei; [|contradiction]. apply (Rw T WS j row spk ids Hj Ei). }
  destruct SP as [S1 S2 S3 S4 S5 S6 S7 S8 S9 S10 S11 S12 S13 S14 S15 S16 S17 S18 S19].
  destruct (signal_input dry T (fx_device u) _ _ _ _ h Rd S18 ltac:(lia) HT S12 S13 S14) as (DI & Lh & Sv); [unfold run_steps; lia|unfold run_steps; lia|].
  destruct (RefProps.C89_dynamic (fx_device u) (scene_prefix i) _ _ _ _ _ _ _ DI) as (w & files & Pw & Lw & Ef & Sa).
  destruct (description_runs W a u i rows rirs T info modes moving (map (entry i info) (seq 0 (Z.to_nat (ea_n a)))) p (Z.to_nat (ea_n a)) L) as (m & md & Ed & Hm' & D & F); auto.
  { destruct U as [[->| ->] _]; lia. }
  { apply (mics_dim _ _ _ _ Pm). }
  { rewrite S15, S12. destruct Pm as [-> _]. reflexivity. }
  exists w, files, m, md. split; auto. split; auto. split.
  { eapply audio_ext; [|exact Sa]. intros s k j Hj. cbv beta. unfold heard_as. apply tv_conv_ext. intros; apply Sv; auto. }
  split; auto. split; auto. destruct F as (F1 & F2 & F3 & F4 & F5 & F6 & F7 & F8 & F9 & F10). do 11 (split; [auto|]). split; [rewrite Lh; exact Ed|].
  eapply scene_tracks; eauto.
  - apply (uw_float _ _ UW).
  - unfold responses. rewrite S4, Pr. exact S10.
  - rewrite Lh. exact Ed.
Qed.
