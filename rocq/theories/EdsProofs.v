(** Proofs for C93: names and order of the files of a run. *)
From Coq Require Import Ascii String List ZArith Reals Lia Lra Bool Permutation.
From Verif Require Import Prelude PreludeFacts SignalModel FloatModel DirModel IsmModel RoomModel GeoModel IoModel MetaModel MetaSpec.
From Verif Require DsModel CorpModel LoopModel RefModel.
From Verif Require Import GeoSampling LoopSpec LoopNames ExModel ExSpec EdsModel EdsSpec.
Import ListNotations.
Local Notation length := List.length.
Local Notation app := List.app.
Local Notation value := LoopSpec.value.
Local Open Scope R_scope.
Local Open Scope list_scope.

(** ** Order *)
(** The files of [x] are the beginning of [l], all of it when it ends well. *)
Definition follows {A} (x : erun A) (l : list string) : Prop :=
  prefix (names x) l /\ forall a, snd x = Some (Ok a) -> names x = l.
Lemma prefix_nil {A} (l : list A) : prefix [] l. Proof. exists l. reflexivity. Qed.
Lemma prefix_refl {A} (l : list A) : prefix l l. Proof. exists []. symmetry. apply app_nil_r. Qed.
Lemma prefix_app {A} (l a b : list A) : prefix a b -> prefix (l ++ a) (l ++ b).
Proof. intros [r ->]. exists r. apply app_assoc. Qed.
Lemma prefix_more {A} (a b c : list A) : prefix a b -> prefix a (b ++ c).
Proof. intros [r ->]. exists (r ++ c). rewrite app_assoc. reflexivity. Qed.
Lemma prefix_trans {A} (a b c : list A) : prefix a b -> prefix b c -> prefix a c.
Proof. intros [r ->] [q ->]. exists (r ++ q). rewrite app_assoc. reflexivity. Qed.
Lemma prefix_map {A B} (f : A -> B) a b : prefix a b -> prefix (map f a) (map f b).
Proof. intros [r ->]. exists (map f r). apply map_app. Qed.
Lemma follows_lift {A} (r : result A) : follows (elift r) [].
Proof. split; [apply prefix_nil|reflexivity]. Qed.
Lemma follows_bind {A B} (m : erun A) (f : A -> erun B) l l' : follows m l -> (forall a, snd m = Some (Ok a) -> follows (f a) l') -> follows (ebind m f) (l ++ l').
Proof.
  destruct m as [t [[a|e]|]]; intros [P Q] F; unfold names in *; cbn [fst snd ebind] in *.
  - specialize (F a eq_refl). specialize (Q a eq_refl). destruct (f a) as [t' r] eqn:E. destruct F as [P' Q']. unfold follows, names in *. cbn [fst snd] in *.
    rewrite map_app, Q. split; [apply prefix_app; auto|]. intros b Hb. f_equal. eauto.
  - split; [apply prefix_more; auto|discriminate].
  - split; [apply prefix_more; auto|discriminate].
Qed.
Lemma follows_first {A B} (r : result A) (f : A -> erun B) l : (forall a, r = Ok a -> follows (f a) l) -> follows (ebind (elift r) f) l.
Proof. intros H. apply (follows_bind (elift r) f [] l); [apply follows_lift|]. cbn. intros a E. apply H. congruence. Qed.
Lemma follows_then {A B} (m : erun A) (f : A -> erun B) x l : follows m [x] -> (forall a, follows (f a) l) -> follows (ebind m f) (x :: l).
Proof. intros H F. apply (follows_bind m f [x] l); auto. Qed.
Lemma follows_save W f i : follows (save W f i) [f].
Proof. unfold save. destruct (ew_save W f); (split; [|try discriminate; reflexivity]); [apply prefix_nil|apply prefix_refl]. Qed.
Lemma follows_sound W f q w : follows (save_sound W f q w) [f].
Proof. apply follows_first. intros; apply follows_save. Qed.
Lemma follows_references W u i rirs sg q info l : follows (references W u i rirs sg q info l) (map (RefModel.ref_name (scene_prefix i)) l).
Proof.
  induction l as [|s l IH]; cbn [references map]; [apply follows_lift|].
  apply follows_first. intros w _. apply follows_then; [apply follows_sound|]. intros _.
  apply follows_first. intros p _. rewrite <- (app_nil_r (map (RefModel.ref_name (scene_prefix i)) l)). apply follows_bind; [exact IH|]. intros; apply follows_lift.
Qed.
Definition scene_list (n i : nat) : list string :=
  map (RefModel.ref_name (scene_prefix i)) (seq 0 n) ++ [(scene_prefix i ++ ".wav")%string; (scene_prefix i ++ "_metadata.json")%string].
Lemma follows_scene W a u fuel i : follows (example_scene W a u fuel i) (scene_list (Z.to_nat (ea_n a)) i).
Proof.
  unfold example_scene. destruct (DsModel.load_dataset_sources _ _ _ _ _) as [[[[dry q] info]|e]|]; cbv zeta; [|split; [apply prefix_nil|discriminate]..].
  apply follows_first. intros [[rows modes] moving] _.
  apply follows_first. intros rirs _. apply follows_first. intros y _.
  apply follows_bind; [apply follows_references|]. intros refs _. apply follows_then; [apply follows_sound|]. intros _.
  apply follows_first. intros; apply follows_save.
Qed.
Lemma follows_scenes W a u fuel n : forall i, follows (example_scenes W a u fuel n i) (concat (map (scene_list (Z.to_nat (ea_n a))) (seq i n))).
Proof.
  induction n as [|n IH]; intros i; cbn [example_scenes seq map concat]; [apply follows_lift|].
  apply follows_bind; [apply follows_scene|]. intros _ _. apply IH.
Qed.
Definition run_list (n count : nat) : list string := "ATTRIBUTION.txt"%string :: concat (map (scene_list n) (seq 0 count)).
Lemma follows_build W a fuel : follows (build W a fuel) (run_list (Z.to_nat (ea_n a)) (Z.to_nat (ea_scenes a))).
Proof.
  apply follows_first. intros u _. apply follows_then; [apply follows_save|]. intros _. apply follows_scenes.
Qed.

(** ** The lists are those of the specification *)
Lemma append_assoc' a b c : ((a ++ b) ++ c)%string = (a ++ (b ++ c))%string.
Proof. apply chars_inj. rewrite !chars_app, app_assoc. reflexivity. Qed.
Lemma scene_list_names n i : scene_names n i (scene_list n i).
Proof.
  exists (LoopModel.padded 3 i). split; [apply padded_writes; lia|]. unfold scene_list. split; [rewrite app_length, map_length, seq_length; cbn; lia|]. split; [|split].
  - intros s Hs. exists (LoopModel.padded 2 (s + 1)). split; [apply padded_writes; lia|].
    rewrite nth_error_app1 by (rewrite map_length, seq_length; auto). rewrite nth_error_map, (nth_error_nth' _ 0%nat) by (rewrite seq_length; auto).
    rewrite seq_nth by auto. cbn [option_map Nat.add]. unfold RefModel.ref_name, scene_prefix, reference_file. rewrite append_assoc'. reflexivity.
  - rewrite nth_error_app2; rewrite map_length, seq_length; [|lia]. rewrite Nat.sub_diag. cbn. unfold mixture_file, scene_prefix. reflexivity.
  - rewrite nth_error_app2; rewrite map_length, seq_length; [|lia]. replace (S n - n)%nat with 1%nat by lia. cbn. reflexivity.
Qed.
Lemma run_list_names n count : run_names n count (run_list n count).
Proof.
  exists (map (scene_list n) (seq 0 count)). split; [rewrite map_length, seq_length; auto|]. split; [|reflexivity].
  intros i x H. rewrite nth_error_map in H. destruct (nth_error (seq 0 count) i) as [j|] eqn:E; [|discriminate].
  assert (Hi : (i < count)%nat) by (rewrite <- (seq_length count 0); apply nth_error_Some; congruence).
  rewrite (nth_error_nth' _ 0%nat) in E by (rewrite seq_length; auto). rewrite seq_nth in E by auto. injection E as <-. injection H as <-. apply scene_list_names.
Qed.

(** ** Numbers are written in one way *)
Lemma fold_app l v : fold_left step l v = (v * 10 ^ length l + fold_left step l 0)%nat.
Proof.
  revert v. induction l as [|c l IH]; intros v; cbn [fold_left length]; [cbn; lia|].
  rewrite IH, (IH (step 0 c)). unfold step. rewrite Nat.pow_succ_r'. nia.
Qed.
Lemma fold_small l : Forall digit l -> (fold_left step l 0 < 10 ^ length l)%nat.
Proof.
  induction 1 as [|c l Hc _ IH]; cbn [fold_left length]; [cbn; lia|]. rewrite fold_app, Nat.pow_succ_r'. unfold step, digit in *. nia.
Qed.
Lemma same_digits l : forall l', Forall digit l -> Forall digit l' -> length l = length l' -> fold_left step l 0%nat = fold_left step l' 0%nat -> l = l'.
Proof.
  induction l as [|c l IH]; intros [|c' l'] F F' L E; try discriminate; auto.
  inversion F as [|? ? D Dl]; inversion F' as [|? ? D' Dl']; subst. injection L as L. cbn [fold_left] in E. rewrite fold_app, (fold_app l') in E.
  pose proof (fold_small l Dl) as S1. pose proof (fold_small l' Dl') as S2. rewrite <- L in *. unfold step, digit in *.
  assert (C : (nat_of_ascii c - 48 = nat_of_ascii c' - 48)%nat) by nia.
  assert (Q : nat_of_ascii c = nat_of_ascii c') by lia. apply (f_equal ascii_of_nat) in Q. rewrite !ascii_nat_embedding in Q. subst c'. f_equal. apply IH; auto. lia.
Qed.
Lemma first_digit l c r : l = c :: r -> Forall digit l -> nat_of_ascii c <> 48%nat -> (10 ^ length r <= fold_left step l 0)%nat.
Proof. intros -> F N. inversion F; subst. cbn [fold_left]. rewrite fold_app. unfold step, digit in *. nia. Qed.
Lemma writes_fun w n s s' : (0 < w)%nat -> writes w n s -> writes w n s' -> s = s'.
Proof.
  intros Hw (D & V & L & Z) (D' & V' & L' & Z'). apply chars_inj. unfold value in V, V'. fold step in V, V'.
  assert (G : forall l l', Forall digit l -> Forall digit l' -> fold_left step l 0%nat = n -> fold_left step l' 0%nat = n -> (w <= length l)%nat ->
     ((w < length l')%nat -> forall c r, l' = c :: r -> nat_of_ascii c <> 48%nat) -> ~ (length l < length l')%nat).
  { intros l l' F F' E E' W N Lt. destruct l' as [|c r]; [cbn in Lt; lia|]. pose proof (first_digit _ c r eq_refl F' (N ltac:(lia) c r eq_refl)) as Q.
    pose proof (fold_small l F) as S1. rewrite E in S1. rewrite E' in Q. cbn [length] in Lt.
    assert (10 ^ length l <= 10 ^ length r)%nat by (apply Nat.pow_le_mono_r; lia). lia. }
  pose proof (G _ _ D D' V V' L Z'). pose proof (G _ _ D' D V' V L' Z). apply same_digits; auto; [lia|congruence].
Qed.
Lemma scene_names_list n i l : scene_names n i l -> l = scene_list n i.
Proof.
  intros (d & D & L & R & M & J). pose proof (writes_fun 3 i _ _ ltac:(lia) D (padded_writes 3 i ltac:(lia))) as ->.
  assert (Ls : length (scene_list n i) = S (S n)) by (unfold scene_list; rewrite app_length, map_length, seq_length; cbn; lia).
  destruct (scene_list_names n i) as (d' & D' & _ & R' & M' & J'). pose proof (writes_fun 3 i _ _ ltac:(lia) D' (padded_writes 3 i ltac:(lia))) as ->.
  apply nth_ext with (d := ""%string) (d' := ""%string); [congruence|]. intros k Hk.
  assert (E : nth_error l k = nth_error (scene_list n i) k).
  { destruct (Nat.lt_trichotomy k n) as [K|[->|K]]; [|congruence|replace k with (S n) by lia; congruence].
    destruct (R k K) as (e & We & ->). destruct (R' k K) as (e' & We' & ->). rewrite (writes_fun 2 (k + 1) e e' ltac:(lia) We We'). reflexivity. }
  apply (nth_error_nth _ _ ""%string). rewrite E. apply nth_error_nth'. lia.
Qed.
Lemma run_names_list n count l : run_names n count l -> l = run_list n count.
Proof.
  intros (sc & L & H & ->). unfold run_list. f_equal. f_equal. apply nth_ext with (d := []) (d' := []); [rewrite map_length, seq_length; auto|].
  intros k Hk. rewrite (nth_indep (map _ _) [] (scene_list n 0)) by (rewrite map_length, seq_length; lia). rewrite map_nth, seq_nth by lia.
  apply scene_names_list. cbn [Nat.add]. apply H. apply nth_error_nth'. auto.
Qed.

(** ** Names are different *)
Lemma digits_prefix l l' a b r r' : Forall digit l -> Forall digit l' -> ~ digit a -> ~ digit b -> l ++ a :: r = l' ++ b :: r' -> l = l' /\ a :: r = b :: r'.
Proof.
  revert l'. induction l as [|c l IH]; intros [|c' l'] F F' A B E; cbn in E.
  - auto.
  - injection E as -> _. inversion F'; contradiction.
  - injection E as -> _. inversion F; contradiction.
  - injection E as -> E. inversion F; inversion F'; subst. destruct (IH l') as [-> Q]; auto.
Qed.
Lemma scene_member n i f : In f (scene_list n i) -> exists c r, chars f = (chars "scene_" ++ chars (LoopModel.padded 3 i) ++ c :: r)%list /\ ~ digit c.
Proof.
  unfold scene_list, scene_prefix, RefModel.ref_name. rewrite in_app_iff, in_map_iff. intros [(s & <- & _)|[<-|[<-|[]]]];
    rewrite !chars_app, <- ?app_assoc; cbn [chars app]; eexists _, _; (split; [reflexivity|]); unfold digit; cbn; lia.
Qed.
Lemma scene_disjoint n n' i j f : In f (scene_list n i) -> In f (scene_list n' j) -> i = j.
Proof.
  intros H H'. destruct (scene_member _ _ _ H) as (c & r & E & C). destruct (scene_member _ _ _ H') as (c' & r' & E' & C').
  rewrite E in E'. apply app_inv_head in E'. destruct (padded_writes 3 i ltac:(lia)) as (D & _). destruct (padded_writes 3 j ltac:(lia)) as (D' & _).
  destruct (digits_prefix _ _ _ _ _ _ D D' C C' E') as [Q _]. apply chars_inj in Q. apply padded_inj in Q; auto.
Qed.
Lemma ref_inj p s s' : RefModel.ref_name p s = RefModel.ref_name p s' -> s = s'.
Proof.
  unfold RefModel.ref_name. intros H. apply append_cancel_l, append_cancel_l, append_cancel_r in H. apply padded_inj in H; lia.
Qed.
Lemma scene_nodup n i : NoDup (scene_list n i).
Proof.
  unfold scene_list. apply nodup_app.
  - apply FinFun.Injective_map_NoDup; [intros a b; apply ref_inj|apply seq_NoDup].
  - constructor; [|constructor; [auto|constructor]]. intros [H|[]]. apply append_cancel_l in H. discriminate.
  - intros x Hx. apply in_map_iff in Hx as (s & <- & _). unfold RefModel.ref_name. intros [H|[H|[]]]; apply append_cancel_l in H; discriminate.
Qed.
Lemma concat_nodup {A} (f : nat -> list A) : (forall i, NoDup (f i)) -> (forall i j x, In x (f i) -> In x (f j) -> i = j) -> forall n a, NoDup (concat (map f (seq a n))).
Proof.
  intros N D n. induction n as [|n IH]; intros a; cbn [seq map concat]; [constructor|]. apply nodup_app; auto.
  intros x Hx H. apply in_concat in H as (l & Hl & H). apply in_map_iff in Hl as (j & <- & Hj). apply in_seq in Hj. pose proof (D a j x Hx H). lia.
Qed.
Lemma run_nodup n count : NoDup (run_list n count).
Proof.
  constructor.
  - intros H. apply in_concat in H as (l & Hl & H). apply in_map_iff in Hl as (i & <- & _). destruct (scene_member _ _ _ H) as (c & r & E & _). discriminate.
  - apply concat_nodup; [apply scene_nodup|apply scene_disjoint].
Qed.

(** ** Another number of scenes *)
Lemma scenes_app W a u fuel n k : forall i, example_scenes W a u fuel (n + k) i = ebind (example_scenes W a u fuel n i) (fun _ => example_scenes W a u fuel k (i + n)%nat).
Proof.
  induction n as [|n IH]; intros i; cbn [Nat.add example_scenes].
  - unfold eret. cbn [ebind]. rewrite Nat.add_0_r. destruct (example_scenes W a u fuel k i); reflexivity.
  - destruct (example_scene W a u fuel i) as [t [[[]|e]|]]; cbn [ebind]; auto. rewrite IH. replace (i + S n)%nat with (S i + n)%nat by lia.
    destruct (example_scenes W a u fuel n (S i)) as [t' [[[]|e]|]]; cbn [ebind]; auto.
    destruct (example_scenes W a u fuel k (S i + n)) as [t'' r]. rewrite app_assoc. reflexivity.
Qed.
Definition alike {A} (x y : erun A) : Prop := map forget_count (fst x) = map forget_count (fst y) /\ snd x = snd y.
Lemma alike_refl {A} (x : erun A) : alike x x. Proof. split; reflexivity. Qed.
Lemma alike_bind {A B} (m : erun A) (f g : A -> erun B) : (forall a, alike (f a) (g a)) -> alike (ebind m f) (ebind m g).
Proof.
  intros H. destruct m as [t [[a|e]|]]; cbn [ebind]; [|apply alike_refl..]. specialize (H a). destruct (f a) as [t1 r1], (g a) as [t2 r2]. destruct H as [H1 H2].
  unfold alike in *. cbn [fst snd] in *. rewrite !map_app, H1. auto.
Qed.
Lemma alike_bind2 {A B} (m m' : erun A) (f g : A -> erun B) : alike m m' -> (forall a, alike (f a) (g a)) -> alike (ebind m f) (ebind m' g).
Proof.
  intros [M1 M2] H. destruct m as [t r], m' as [t' r']. cbn [fst snd] in M1, M2. subst r'. destruct r as [[a|e]|]; cbn [ebind]; [|split; auto..].
  specialize (H a). destruct (f a) as [t1 r1], (g a) as [t2 r2]. destruct H as [H1 H2]. unfold alike in *. cbn [fst snd] in *. rewrite !map_app, H1, M1. auto.
Qed.
Lemma without_dict k l : without k (PDict l) = PDict (flat_map (fun e => if is_key k (fst e) then [] else [(fst e, without k (snd e))]) l).
Proof.
  cbn [without]. f_equal. induction l as [|[p x] l IH]; cbn [flat_map fst snd]; auto. rewrite IH. destruct (is_key k p); reflexivity.
Qed.
Lemma without_tail k l p v w : without k v = without k w -> without k (PDict (l ++ [(p, v)])) = without k (PDict (l ++ [(p, w)])).
Proof. intros H. rewrite !without_dict, !flat_map_app. cbn [flat_map fst snd]. rewrite H. reflexivity. Qed.
(** Two descriptions with other entries of the user. *)
Definition with_extra (m : md_args) (x : option (list (pykey * pyval))) : md_args :=
  mkMd (md_size m) (md_c m) (md_beta m) (md_t60 m) (md_fs m) (md_src m) (md_src_ori m) (md_mic m) (md_mic_dtype m) (md_mic_ori m) (md_rirs_shape m)
    (md_src_traj m) (md_mic_traj m) (md_timestamps m) (md_signal_len m) (md_source_info m) x.
Lemma metadata_extra m p l v : build_metadata (with_extra m (Some (p :: l))) = Ok v ->
  exists base, (forall q l', build_metadata (with_extra m (Some (q :: l'))) = Ok (PDict (base ++ [(KStr "extra", to_serializable (PDict (q :: l')))]))) /\
    v = PDict (base ++ [(KStr "extra"%string, to_serializable (PDict (p :: l)))]).
Proof.
  unfold build_metadata. cbn [with_extra md_rirs_shape md_fs md_extra md_source_info md_size md_c md_beta md_t60 md_src md_src_ori md_mic md_mic_ori].
  destruct (rev (md_rirs_shape m)) as [|ns r]; [discriminate|]. destruct (Reqb _ _); [discriminate|].
  change (md_trajectories (with_extra m (Some (p :: l)))) with (md_trajectories m).
  destruct (md_trajectories m) as [[[s q] K]|] eqn:ET; [|discriminate]. cbn [bind]. destruct (compute_doa s q) as [az el] eqn:ED.
  change (array_attributes (with_extra m (Some (p :: l)))) with (array_attributes m). destruct (array_attributes m) as [arr|] eqn:EA; [|discriminate]. cbn [bind].
  intros H. apply Ok_inj in H. subst v. rewrite app_assoc. eexists. split; [|reflexivity]. intros q' l'.
  change (md_trajectories (with_extra m (Some (q' :: l')))) with (md_trajectories m). rewrite ET. cbn [bind]. rewrite ED.
  change (array_attributes (with_extra m (Some (q' :: l')))) with (array_attributes m). rewrite EA. cbn [bind]. rewrite app_assoc. reflexivity.
Qed.
Lemma metadata_extra_err m p l e q l' : build_metadata (with_extra m (Some (p :: l))) = Err e -> build_metadata (with_extra m (Some (q :: l'))) = Err e.
Proof.
  intros H. destruct (build_metadata (with_extra m (Some (q :: l')))) as [v|e'] eqn:E.
  - destruct (metadata_extra _ _ _ _ E) as (b & B & _). rewrite B in H. discriminate.
  - f_equal. revert H E. unfold build_metadata. cbn [with_extra md_rirs_shape md_fs].
    destruct (rev (md_rirs_shape m)) as [|ns r]; [congruence|]. destruct (Reqb _ _); [congruence|].
    change (md_trajectories (with_extra m (Some (p :: l)))) with (md_trajectories m). change (md_trajectories (with_extra m (Some (q :: l')))) with (md_trajectories m).
    destruct (md_trajectories m) as [[[s x] K]|]; cbn [bind]; [|congruence]. destruct (compute_doa s x).
    change (array_attributes (with_extra m (Some (p :: l)))) with (array_attributes m). change (array_attributes (with_extra m (Some (q :: l')))) with (array_attributes m).
    destruct (array_attributes m); cbn [bind]; [discriminate|congruence].
Qed.
Definition common (a : eargs) (t : CorpModel.attribution) (modes : list string) (moving : list nat) (refs : list RefModel.ref_entry) : list (pykey * pyval) :=
  removelast (scene_extra a t modes moving refs).
Lemma extra_common a t modes moving refs : scene_extra a t modes moving refs = common a t modes moving refs ++ [(KStr "args"%string, serialize_args a)].
Proof. reflexivity. Qed.
Lemma serializable_app l p v : to_serializable (PDict (l ++ [(p, v)])) = PDict (map (fun p => (fst p, to_serializable (snd p))) l ++ [(p, to_serializable v)]).
Proof. cbn [to_serializable]. rewrite map_app. reflexivity. Qed.
Lemma args_count a k : without "num_scenes" (to_serializable (serialize_args (with_count a k))) = without "num_scenes" (to_serializable (serialize_args a)).
Proof. reflexivity. Qed.
Lemma extra_count a k t modes moving refs : without "num_scenes" (to_serializable (PDict (scene_extra (with_count a k) t modes moving refs))) =
  without "num_scenes" (to_serializable (PDict (scene_extra a t modes moving refs))).
Proof.
  rewrite !extra_common, !serializable_app. change (common (with_count a k)) with (common a). apply without_tail. apply args_count.
Qed.
Lemma description_count W a k u i rows rirs len info modes moving refs :
  match description W a u i rows rirs len info modes moving refs, description W (with_count a k) u i rows rirs len info modes moving refs with
  | Ok v, Ok w => without "num_scenes" v = without "num_scenes" w
  | Err e, Err e' => e = e'
  | _, _ => False
  end.
Proof.
  unfold description. destruct (all_points rows) as [p|]; [|destruct (ew_note W i); reflexivity]. cbv zeta.
  set (m := mkMd _ _ _ _ _ _ _ _ _ _ _ _ _ _ _ _ _). set (m' := mkMd _ _ _ _ _ _ _ _ _ _ _ _ _ _ _ _ _).
  change m with (with_extra m (Some (scene_extra a (fx_source u) modes moving refs))).
  change m' with (with_extra m (Some (scene_extra (with_count a k) (fx_source u) modes moving refs))). clearbody m m'. clear m'.
  pose proof (extra_count a k (fx_source u) modes moving refs) as X.
  destruct (scene_extra a (fx_source u) modes moving refs) as [|x l] eqn:E1; [discriminate|].
  destruct (scene_extra (with_count a k) (fx_source u) modes moving refs) as [|x' l'] eqn:E2; [discriminate|].
  destruct (build_metadata (with_extra m (Some (x :: l)))) as [v|e] eqn:Ev.
  - destruct (metadata_extra _ _ _ _ Ev) as (b & B & ->). rewrite B. apply without_tail. symmetry. exact X.
  - rewrite (metadata_extra_err _ _ _ _ x' l' Ev). reflexivity.
Qed.
Lemma scene_count W a k u fuel i : alike (example_scene W a u fuel i) (example_scene W (with_count a k) u fuel i).
Proof.
  unfold example_scene. cbn [with_count ea_n ea_duration ea_seed]. destruct (DsModel.load_dataset_sources _ _ _ _ _) as [[[[dry q] info]|e]|]; cbv zeta; [|apply alike_refl..].
  change (ea_moving (with_count a k)) with (ea_moving a). change (run_steps (with_count a k)) with (run_steps a).
  apply alike_bind. intros [[rows modes] moving]. change (responses W (with_count a k)) with (responses W a).
  apply alike_bind. intros rirs. apply alike_bind. intros y. apply alike_bind. intros refs. apply alike_bind. intros _.
  pose proof (description_count W a k u i rows rirs (length (hd [] dry)) info modes moving refs) as D.
  destruct (description W a u i rows rirs _ info modes moving refs) as [v|e], (description W (with_count a k) u i rows rirs _ info modes moving refs) as [w|e']; try contradiction.
  - unfold elift. cbn [ebind]. unfold save. destruct (ew_save W _); [apply alike_refl|]. split; auto. cbn [fst map forget_count app]. rewrite D. reflexivity.
  - subst. apply alike_refl.
Qed.
Lemma scenes_count W a k u fuel n : forall i, alike (example_scenes W a u fuel n i) (example_scenes W (with_count a k) u fuel n i).
Proof. induction n as [|n IH]; intros i; cbn [example_scenes]; [apply alike_refl|]. apply alike_bind2; [apply scene_count|]. intros; apply IH. Qed.
(** A longer run begins like a shorter one. *)
Definition extends {A} (x y : erun A) : Prop :=
  prefix (map forget_count (fst x)) (map forget_count (fst y)) /\ ((forall a, snd x <> Some (Ok a)) -> alike x y).
Lemma extends_bind {A B} (m : erun A) (f g : A -> erun B) : (forall a, extends (f a) (g a)) -> extends (ebind m f) (ebind m g).
Proof.
  intros H. destruct m as [t [[a|e]|]]; cbn [ebind]; [|split; [apply prefix_refl|intros; apply alike_refl]..].
  specialize (H a). destruct (f a) as [t1 r1], (g a) as [t2 r2]. destruct H as [H1 H2]. unfold extends, alike in *. cbn [fst snd] in *. rewrite !map_app.
  split; [apply prefix_app; auto|]. intros N. destruct (H2 N) as [-> ->]. auto.
Qed.
Lemma extends_more {A} (x y : erun A) (f : A -> erun A) : alike x y -> extends x (ebind y f).
Proof.
  intros [E1 E2]. destruct x as [t r], y as [t' r']. cbn [fst snd] in *. subst r'. unfold extends, alike. cbn [fst snd].
  destruct r as [[a|e]|]; cbn [ebind].
  - destruct (f a) as [t2 r2]. cbn [fst snd]. rewrite map_app, E1. split; [exists (map forget_count t2); auto|]. intros N. destruct (N a); auto.
  - cbn [fst snd]. rewrite E1. split; [apply prefix_refl|auto].
  - cbn [fst snd]. rewrite E1. split; [apply prefix_refl|auto].
Qed.
Lemma more_scenes W a n n' fuel : (n <= n')%Z -> extends (build W (with_count a n) fuel) (build W (with_count a n') fuel).
Proof.
  intros L. unfold build. change (prepare W (with_count a n')) with (prepare W (with_count a n)). apply extends_bind. intros u. apply extends_bind. intros _.
  cbn [with_count ea_scenes]. replace (Z.to_nat n') with (Z.to_nat n + (Z.to_nat n' - Z.to_nat n))%nat by lia. rewrite scenes_app. apply extends_more.
  change (with_count a n') with (with_count (with_count a n) n'). apply scenes_count.
Qed.
