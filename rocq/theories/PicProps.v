(** C85: pictures and films of a built data set. *)
From Coq Require Import Ascii String List ZArith Reals Lia Lra Bool Permutation.
From Verif Require Import Prelude PreludeFacts SignalModel FloatModel DirModel IsmModel RoomModel DsModel BldModel BldSpec MetaModel LoopModel LoopSpec LoopNames LoopProofs LoopAudio PicSpec PicProofs.
From Verif Require ScnModel ScnSpec ScnProps TotalSpec LoopTotalProps LoopSceneProps.
Import ListNotations.
Local Notation length := List.length.
Local Open Scope R_scope.

(** ** Runs that reach the loop *)
Lemma run_cases E b o fuel w w' t r : fair_calls E -> build_dataset E b o fuel w = (w', (t, r)) ->
  (t = [] /\ forall a, r <> Some (Ok a)) \/
  exists room center margin u r1, early_checks b = Ok (room, center, margin) /\ make_setup E b o w' room center margin = Ok u /\ sound E u /\
    build_scenes E u fuel (Z.to_nat (ba_scenes b)) 0 (e_gen0 E, 0%nat) = (t, r1) /\ ((exists a, r = Some (Ok a)) -> exists st, r1 = Some (Ok st)).
Proof.
  intros F H. unfold build_dataset in H.
  destruct (early_checks b) as [[[room center] margin]|e] eqn:Ea; [|left; injection H as _ <- <-; split; [auto|discriminate]].
  destruct (prepare b w) as [w1|e]; [|left; injection H as _ <- <-; split; [auto|discriminate]].
  destruct (make_setup E b o w1 room center margin) as [u|e] eqn:Es; [|left; injection H as _ <- <-; split; [auto|discriminate]].
  right. exists room, center, margin, u. pose proof (setup_sound _ _ _ _ _ _ _ _ Ea Es F) as Snd.
  destruct (build_scenes E u fuel (Z.to_nat (ba_scenes b)) 0 (e_gen0 E, 0%nat)) as [t1 r1] eqn:B. exists r1.
  destruct r1 as [[s|e]|]; cbn [rbind rret] in H; rewrite ?app_nil_r in H; injection H as <- <- <-; repeat (split; [auto|]); eauto; intros [a K]; discriminate.
Qed.
Lemma in_pictures dir l t : In l (pictures dir t) <-> In (Drawn dir l) t.
Proof.
  unfold pictures. rewrite in_flat_map. split.
  - intros (h & I & K). destruct h; try contradiction. destruct (String.eqb_spec dir0 dir) as [->|]; [|contradiction]. destruct K as [->|[]]. auto.
  - intros I. exists (Drawn dir l). split; auto. rewrite String.eqb_refl. left. auto.
Qed.
Lemma in_films dir l t : In l (films dir t) <-> In (Filmed dir l) t.
Proof.
  unfold films. rewrite in_flat_map. split.
  - intros (h & I & K). destruct h; try contradiction. destruct (String.eqb_spec dir0 dir) as [->|]; [|contradiction]. destruct K as [->|[]]. auto.
  - intros I. exists (Filmed dir l). split; auto. rewrite String.eqb_refl. left. auto.
Qed.
Lemma pictures_app dir t t' : pictures dir (t ++ t') = pictures dir t ++ pictures dir t'.
Proof. apply flat_map_app. Qed.
Lemma films_app dir t t' : films dir (t ++ t') = films dir t ++ films dir t'.
Proof. apply flat_map_app. Qed.
Lemma pictures_written dir d l : pictures dir (written d l) = [] /\ films dir (written d l) = [].
Proof. unfold written. induction l as [|p l IH]; auto. Qed.
Lemma pictures_extras E u dir x : pictures dir (extras E u dir x) = (if o_images (su_opt u) then [drawn_log E u dir x] else []) /\
  films dir (extras E u dir x) = (if o_mp4 (su_opt u) then [film_log E u dir] else []).
Proof. unfold extras. destruct (o_images _), (o_mp4 _); cbn; rewrite ?String.eqb_refl; auto. Qed.
(** All pictures and films of a scene. *)
Lemma scene_pictures E b o fuel w w' t r i : fair_calls E -> build_dataset E b o fuel w = (w', (t, r)) ->
  let dir := scene_name i in
  (pictures dir t = [] /\ films dir t = [] /\ ((exists a, r = Some (Ok a)) -> (i < Z.to_nat (ba_scenes b))%nat -> o_images o = false /\ o_mp4 o = false)) \/
  exists room center margin u fuel k k' x stems, early_checks b = Ok (room, center, margin) /\ make_setup E b o w' room center margin = Ok u /\
    computed E u fuel k (draws_for E (su_scene u) i) k' x stems /\
    pictures dir t = (if o_images o then [drawn_log E u dir x] else []) /\ films dir t = (if o_mp4 o then [film_log E u dir] else []).
Proof.
  intros F H dir. destruct (run_cases _ _ _ _ _ _ _ _ F H) as [[-> R]|(room & center & margin & u & r1 & Ea & Es & Snd & B & R)].
  { left. split; [reflexivity|]. split; [reflexivity|]. intros [a K]. destruct (R _ K). }
  destruct (le_lt_dec (Z.to_nat (ba_scenes b)) i) as [G|Hi].
  { left. rewrite (pictures_here dir t), (films_here dir t), (here_none dir t); [split; [reflexivity|split; [reflexivity|lia]]|].
    intros h Hh K. destruct (scenes_places _ _ _ _ Snd _ _ _ _ h B Hh) as (j & J & Pj). rewrite K in Pj. apply scene_name_inj in Pj. lia. }
  destruct (setup_inv _ _ _ _ _ _ _ _ Es) as (_ & _ & _ & _ & _ & _ & _ & _ & _ & So & _).
  destruct (scenes_events _ _ _ _ Snd _ _ _ _ _ i B Hi) as [[C Q]|(k0 & k' & x & stems & d & tw & rw & Ed & C & W & Hh & Q)]; cbn [Nat.add] in *; try change (scene_name i) with dir in C; try change (scene_name i) with dir in W; try change (scene_name i) with dir in Hh.
  { left. rewrite (pictures_here dir t), (films_here dir t). destruct C as [-> | ->]; (split; [reflexivity|split; [reflexivity|]]); intros K _; destruct (R K) as [st Hst]; destruct (Q _ Hst). }
  rewrite (pictures_here dir t), (films_here dir t), Hh. cbn [pictures films flat_map app]. fold (pictures dir tw) (films dir tw).
  destruct (write_shape _ _ _ _ _ _ _ W) as [(n & Hn & -> & Nr)|(j & -> & Hj & _)].
  - left. destruct (pictures_written dir dir (firstn n (sn_files x))) as [A A2]. split; [exact A|]. split; [exact A2|].
    intros K _. exfalso. apply Nr, Q, R, K.
  - right. exists room, center, margin, u, fuel, k0, k', x, stems. rewrite Ed in C. do 3 (split; [auto|]).
    destruct (pictures_written dir dir (sn_files x)) as [A A2]. destruct (pictures_written dir dir j) as [Z Z2]. destruct (pictures_extras E u dir x) as [X X2].
    rewrite !pictures_app, !films_app, A, A2, Z, Z2, X, X2, So, !app_nil_r. auto.
Qed.

(** At most one picture call and one film call per scene, and only if asked for; a run that
    completes makes them for every scene. *)
Theorem C85_when : forall E b o fuel w w' t r i, fair_calls E -> build_dataset E b o fuel w = (w', (t, r)) ->
  let np := length (pictures (scene_name i) t) in let nf := length (films (scene_name i) t) in
  (np <= (if o_images o then 1 else 0) /\ nf <= (if o_mp4 o then 1 else 0))%nat /\
  forall a, r = Some (Ok a) -> (i < Z.to_nat (ba_scenes b))%nat -> (np = (if o_images o then 1 else 0) /\ nf = (if o_mp4 o then 1 else 0))%nat.
Proof.
  intros E b o fuel w w' t r i F H np nf. unfold np, nf.
  destruct (scene_pictures _ _ _ _ _ _ _ _ i F H) as [(-> & -> & K)|(room & center & margin & u & fu & k & k' & x & stems & _ & _ & _ & -> & ->)].
  - cbn [length]. split; [split; destruct (o_images o), (o_mp4 o); lia|]. intros a Ha Hi. destruct K as [-> ->]; eauto.
  - destruct (o_images o), (o_mp4 o); cbn; auto.
Qed.
Lemma in_files dir f t : In (dir, f) (files t) <-> exists p, In (Written dir f p) t.
Proof.
  unfold files. rewrite in_flat_map. split.
  - intros (h & I & K). destruct h; try contradiction. destruct K as [K|[]]. injection K as -> ->. eauto.
  - intros (p & I). eexists. split; [exact I|]. left. auto.
Qed.
Lemma in_here dir h t : In h (here dir t) <-> In h t /\ place h = dir.
Proof. unfold here. rewrite filter_In, String.eqb_eq. reflexivity. Qed.
Lemma in_written dir l d f p : In (Written d f p) (written dir l) <-> d = dir /\ In (f, p) l.
Proof.
  unfold written. rewrite in_map_iff. split.
  - intros ([a c] & K & I). injection K as -> -> ->. auto.
  - intros [-> I]. exists (f, p). auto.
Qed.
Lemma split_after {A} (W : list A) : forall a h b X, a ++ h :: b = W ++ X -> ~ In h W -> exists a', a = W ++ a' /\ a' ++ h :: b = X.
Proof.
  induction W as [|w W IH]; intros a h b X Eq N; simpl in Eq; [exists a; auto|]. destruct a as [|y a]; simpl in Eq.
  - inversion Eq; subst. destruct N. left. auto.
  - inversion Eq as [[E0 E1]]; subst; clear Eq; rename E1 into Eq. apply IH in Eq as (a' & -> & Eq); [exists a'; auto|]. intros K. apply N. right. auto.
Qed.
Lemma split_before {A} (X : list A) : forall a h b J, a ++ h :: b = X ++ J -> ~ In h J -> exists rest, X = a ++ rest.
Proof.
  induction X as [|y X IH]; intros a h b J Eq N; simpl in Eq.
  - destruct N. rewrite <- Eq. apply in_app_iff. right. left. auto.
  - destruct a as [|z a]; [exists (y :: X); reflexivity|]. simpl in Eq. inversion Eq as [[E0 E1]]; subst; clear Eq; rename E1 into Eq. apply IH in Eq as (rest & ->); auto. exists rest. reflexivity.
Qed.
(** A picture or film comes after all sound files of its scene and before its JSON files. *)
Theorem C85_order : forall E b o fuel w w' t r i t1 h t2, fair_calls E -> build_dataset E b o fuel w = (w', (t, r)) ->
  t = t1 ++ h :: t2 -> (exists l, h = Drawn (scene_name i) l) \/ (exists l, h = Filmed (scene_name i) l) ->
  (forall f, In f (map source_name (seq 0 (Z.to_nat (sa_n (ba_scene b)))) ++ ["mixture.wav"%string]) -> In (scene_name i, f) (files t1)) /\
  forall f, In (scene_name i, f) (files t1) -> f <> "metadata.json"%string /\ f <> "source_info.json"%string.
Proof.
  intros E b o fuel w w' t r i t1 h t2 F H Et Hh.
  assert (It : In h t) by (rewrite Et; apply in_app_iff; right; left; auto).
  assert (Pl : place h = scene_name i) by (destruct Hh as [[l ->]|[l ->]]; reflexivity).
  destruct (run_cases _ _ _ _ _ _ _ _ F H) as [[-> _]|(room & center & margin & u & r1 & Ea & Es & Snd & B & R)]; [destruct It|].
  assert (Hi : (i < Z.to_nat (ba_scenes b))%nat).
  { destruct (scenes_places _ _ _ _ Snd _ _ _ _ h B It) as (j & J & Pj). rewrite Pl in Pj. apply scene_name_inj in Pj. lia. }
  destruct (setup_inv _ _ _ _ _ _ _ _ Es) as (_ & _ & _ & _ & _ & _ & Ssc & _).
  assert (Ih : In h (here (scene_name i) t)) by (apply in_here; auto).
  destruct (scenes_events _ _ _ _ Snd _ _ _ _ _ i B Hi) as [[C _]|(k0 & k' & x & stems & d & tw & rw & Ed & C & W & Hw & _)]; cbn [Nat.add] in *.
  { destruct C as [C|C]; rewrite C in Ih; [destruct Ih|destruct Ih as [<-|[]]; destruct Hh as [[l K]|[l K]]; discriminate]. }
  assert (Hd : h <> Directory (scene_name i)) by (destruct Hh as [[l ->]|[l ->]]; discriminate).
  assert (Nw : forall l, ~ In h (written (scene_name i) l)).
  { intros l K. unfold written in K. apply in_map_iff in K as (p & K & _). destruct Hh as [[l' ->]|[l' ->]]; discriminate. }
  assert (Eh : here (scene_name i) t1 ++ h :: here (scene_name i) t2 = Directory (scene_name i) :: tw).
  { rewrite <- Hw, Et, here_app. f_equal. cbn [here filter]. rewrite Pl, String.eqb_refl. reflexivity. }
  destruct (here (scene_name i) t1) as [|h0 a] eqn:E1; cbn [app] in Eh; [congruence|]. injection Eh as -> Eh.
  destruct (write_shape _ _ _ _ _ _ _ W) as [(n & _ & Etw & _)|(j & Etw & Hj & _)].
  { exfalso. apply (Nw (firstn n (sn_files x))). rewrite <- Etw, <- Eh. apply in_app_iff. right. left. auto. }
  rewrite Etw in Eh. destruct (split_after _ _ _ _ _ Eh (Nw _)) as (a' & -> & Eh2).
  assert (In_a : forall y, In y a' -> In y (extras E u (scene_name i) x)).
  { intros y Iy. destruct (split_before _ _ _ _ _ Eh2 (Nw _)) as (rest & ->). apply in_app_iff. auto. }
  pose proof (audio_names _ _ _ (cm_files _ _ _ _ _ _ _ _ C)) as Na. destruct (computed_counts _ _ _ _ _ _ _ _ Snd C) as (_ & _ & Ls).
  rewrite Ls, Ssc in Na. cbn [sa_n] in Na. split.
  - intros f Hf. rewrite <- Na in Hf. apply in_map_iff in Hf as ([f' p] & <- & Ip). apply in_files. exists p.
    assert (K : In (Written (scene_name i) f' p) (here (scene_name i) t1)) by (rewrite E1; right; apply in_app_iff; left; apply in_written; auto).
    apply in_here in K. apply K.
  - intros f Hf. apply in_files in Hf as (p & Ip). assert (K : In (Written (scene_name i) f p) (here (scene_name i) t1)) by (apply in_here; auto).
    rewrite E1 in K. destruct K as [K|K]; [discriminate|]. apply in_app_iff in K as [K|K].
    + apply in_written in K as [_ K]. apply (in_map fst) in K. rewrite Na in K. apply in_app_iff in K as [K|[K|[]]].
      * apply in_map_iff in K as (n & K & _). cbn [fst] in K. destruct (LoopSceneProps.source_not_json n _ K) as (X1 & X2 & _). auto.
      * cbn [fst] in K. subst f. split; discriminate.
    + apply In_a in K. unfold extras in K. destruct (o_images _), (o_mp4 _); cbn in K; repeat destruct K as [K|K]; try discriminate; contradiction.
Qed.

(** ** What the pictures show *)
Lemma table_holds l : holds_points 3 l (drawn_table l).
Proof.
  split; [reflexivity|]. split; [reflexivity|]. intros i q Hq. cbn [drawn_table ScnModel.p_row]. rewrite (nth_error_nth _ _ _ Hq). reflexivity.
Qed.
Lemma track_holds n l : holds_paths 3 n l (drawn_track n l).
Proof.
  split; [reflexivity|]. split; [reflexivity|]. split; [reflexivity|]. intros s row i q Hs Hq. cbn [drawn_track ScnModel.t_at].
  rewrite (nth_error_nth _ _ _ Hs), (nth_error_nth _ _ _ Hq). reflexivity.
Qed.
Lemma seen_cut v q : (v <= 3)%nat -> firstn v (seen 3 q) = seen v q.
Proof. unfold seen. intros H. rewrite firstn_firstn. f_equal. lia. Qed.
Lemma cut_holds_points v l p : (v <= 3)%nat -> holds_points 3 l p -> holds_points v l (ScnModel.cut_pos v p).
Proof.
  intros H (A & B & C). split; [exact A|]. split; [cbn; rewrite B; lia|]. intros i q Hq. cbn. rewrite (C i q Hq). apply seen_cut; auto.
Qed.
Lemma cut_holds_paths v n l t : (v <= 3)%nat -> holds_paths 3 n l t -> holds_paths v n l (ScnModel.cut_traj v t).
Proof.
  intros H (A & B & C & D). split; [exact A|]. split; [exact B|]. split; [cbn; rewrite C; lia|]. intros s row i q Hs Hq. cbn. rewrite (D s row i q Hs Hq). apply seen_cut; auto.
Qed.
Lemma pos_ok_table l : ScnSpec.pos_ok 3 (drawn_table l).
Proof. split; reflexivity. Qed.
Lemma group_ok_track n l p : ScnModel.p_n p = n -> ScnSpec.pos_ok 3 p -> (0 < n)%nat -> (0 < length l)%nat -> ScnSpec.group_ok 3 (drawn_track n l) p.
Proof. intros A B C D. split; [split; reflexivity|]. repeat split; auto; apply B. Qed.

(** The pictures show the room, the sources and microphones at their positions and the paths of
    this scene, in the plane and (if asked for) in space; every picture saved is logged even when
    others cannot be saved. *)
Theorem C85_pictures : forall E b o fuel w w' t r i log, fair_calls E -> build_dataset E b o fuel w = (w', (t, r)) ->
  In (Drawn (scene_name i) log) t ->
  ScnSpec.logged log = map fst (ScnSpec.saved log) /\
  exists room center margin geo, as_triplet (ba_room_list b) = Ok room /\ as_triplet (ba_center_list b) = Ok center /\ as_triplet (ba_margin_list b) = Ok margin /\
    let s := scene_of b room center margin in
    let n := Z.to_nat (sa_n s) in
    build_scene_geometry s (draws_for E s i) = Ok geo /\
    ((forall f, e_disk E (scene_name i) f = None) ->
      ~ ScnSpec.warned log /\
      map fst (ScnSpec.saved log) = "room_layout_2d.png"%string :: (if o_images_3d o then ["room_layout_3d.png"%string] else []) /\
      forall f d, In (f, d) (ScnSpec.saved log) ->
        let v := if string_dec f "room_layout_2d.png" then 2%nat else 3%nat in
        exists ts tm src mic, ScnSpec.moving_scene (seen v room) ts tm src mic 1 (o_annotate o) d /\
          holds_points v (map p_start (geo_sources geo)) src /\ holds_points v (geo_mics geo) mic /\
          holds_paths v n (geo_traj geo) ts /\ holds_paths v 6 (repeat (geo_mics geo) (Z.to_nat (sa_steps s))) tm).
Proof.
  intros E b o fuel w w' t r i log F H I. apply in_pictures in I.
  destruct (scene_pictures _ _ _ _ _ _ _ _ i F H) as [(K & _)|(room & center & margin & u & fu & k & k' & x & stems & Ea & Es & C & Ep & _)]; [rewrite K in I; destruct I|].
  rewrite Ep in I. destruct (o_images o); [|destruct I]. destruct I as [<-|[]].
  pose proof (setup_sound _ _ _ _ _ _ _ _ Ea Es F) as Snd. destruct (setup_inv _ _ _ _ _ _ _ _ Es) as (_ & _ & _ & S4 & _ & _ & S7 & _ & _ & S10 & _).
  assert (Esc : su_scene u = scene_of b room center margin) by (rewrite S7; reflexivity).
  destruct (shoebox_room_inv _ _ _ _ _ S4) as (Er & _ & _ & _ & R1 & R2 & R3).
  destruct (computed_geometry _ _ _ _ _ _ _ _ C) as (G1 & G2 & G3 & G4 & G5).
  destruct (early_inv _ _ _ _ Ea) as (_ & B2 & B3 & _).
  split; [apply ScnProps.C77_layout_report|].
  exists room, center, margin, (mkGeo (sn_center x) (sn_mics x) (sn_placed x) (sn_traj x)).
  assert (Tri : as_triplet (ba_room_list b) = Ok room /\ as_triplet (ba_center_list b) = Ok center /\ as_triplet (ba_margin_list b) = Ok margin).
  { unfold early_checks in Ea. apply bind_ok in Ea as (r0 & -> & Ea). apply bind_ok in Ea as (c0 & -> & Ea). apply bind_ok in Ea as (m0 & -> & Ea).
    repeat match type of Ea with (if ?b then _ else _) = _ => destruct b; [discriminate|] end. injection Ea as -> -> ->. auto. }
  destruct Tri as (T1 & T2 & T3). do 3 (split; [auto|]). cbv zeta. rewrite <- Esc. split; [exact G1|]. intros Hd.
  assert (Sz : data (r_size (su_room u)) = [px room; py room; pz room]) by (rewrite Er; reflexivity).
  assert (Nn : (0 < length (sn_placed x))%nat) by (rewrite G2, Esc; cbn; lia).
  assert (Ns : (0 < Z.to_nat (sa_steps (su_scene u)))%nat) by (rewrite Esc; cbn; lia).
  unfold drawn_log. rewrite Sz, S10. set (ts := drawn_track (length (sn_placed x)) (sn_traj x)). set (tm := drawn_track (length (sn_mics x)) (repeat_mics _ _)).
  set (sp := drawn_table (map p_start (sn_placed x))). set (mp := drawn_table (sn_mics x)).
  destruct (ScnProps.C77_layout (e_palette E) (e_disk E (scene_name i)) 0 [px room; py room; pz room] sp mp (Some (ScnModel.TTraj ts)) (Some (ScnModel.TTraj tm)) (o_annotate o) true (o_images_3d o))
    as (W & pics & Epics & Names & Shows); auto.
  - split; [auto|]. repeat constructor; auto.
  - apply pos_ok_table.
  - apply pos_ok_table.
  - cbn. rewrite map_length. auto.
  - cbn. rewrite G3. lia.
  - apply group_ok_track; auto; [cbn; apply map_length|apply pos_ok_table|]. rewrite G4. lia.
  - apply group_ok_track; auto; [apply pos_ok_table|rewrite G3; lia|unfold repeat_mics; rewrite repeat_length; auto].
  - split; [exact W|]. rewrite Epics, Names. split; [destruct (o_images_3d o); reflexivity|]. intros f d If. specialize (Shows f d If). cbv zeta in Shows. set (v := if string_dec f _ then 2%nat else 3%nat) in *.
    assert (Hv : (v <= 3)%nat) by (unfold v; destruct (string_dec _ _); lia).
    destruct Shows as [[K _]|(_ & ts' & tm' & M1 & M2 & Mv)]; [discriminate|]. cbn [ScnSpec.motion] in M1, M2. subst ts' tm'.
    do 4 eexists. split; [exact Mv|]. cbn [geo_sources geo_mics geo_traj].
    split; [apply cut_holds_points; auto; apply table_holds|]. split; [apply cut_holds_points; auto; apply table_holds|].
    split; [apply cut_holds_paths; auto; rewrite <- G2; apply track_holds|]. apply cut_holds_paths; auto. rewrite <- G3. apply track_holds.
Qed.
(** The films: one of the plane, and if asked for one of space after it, at the frame rate asked for
    and with the mixture as sound if asked for; the log tells what happened. *)
Theorem C85_films : forall E b o fuel w w' t r i log, fair_calls E -> build_dataset E b o fuel w = (w', (t, r)) ->
  In (Filmed (scene_name i) log) t ->
  let sound := if o_mux o then Some "mixture.wav"%string else None in
  let plane := ScnModel.mkReq "room_layout_2d.mp4" true false (o_fps o) sound in
  let space := ScnModel.mkReq "room_layout_3d.mp4" false true (o_fps o) sound in
  ScnSpec.honest (e_clip E (scene_name i)) log /\
  forall q, In (ScnModel.ARender q) log <-> q = plane \/ (q = space /\ o_mp4_3d o = true /\ e_clip E (scene_name i) plane = None).
Proof.
  intros E b o fuel w w' t r i log F H I. apply in_films in I.
  destruct (scene_pictures _ _ _ _ _ _ _ _ i F H) as [(_ & K & _)|(room & center & margin & u & fu & k & k' & x & stems & Ea & Es & C & _ & Ep)]; [rewrite K in I; destruct I|].
  rewrite Ep in I. destruct (o_mp4 o); [|destruct I]. destruct I as [<-|[]].
  destruct (setup_inv _ _ _ _ _ _ _ _ Es) as (_ & _ & _ & S4 & _ & _ & _ & _ & _ & S10 & _). destruct (shoebox_room_inv _ _ _ _ _ S4) as (Er & _).
  unfold film_log. rewrite S10, Er. cbn [r_size]. change (numel (mkT [3%nat] [px room; py room; pz room])) with 3%nat.
  destruct (ScnProps.C77_videos (e_clip E (scene_name i)) 3 (o_fps o) (o_mp4_3d o) (Some "mixture.wav"%string) (o_mux o)) as [A B]. cbv zeta. split; [exact A|].
  intros q. rewrite B. split; (intros [Q|Q]; [auto|right]); [destruct Q as (Q1 & _ & Q2 & Q3)|destruct Q as (Q1 & Q2 & Q3)]; auto.
Qed.

(** ** The data do not depend on the pictures *)
Definition alike {A} (m m' : run A) : Prop := data_only (fst m) = data_only (fst m') /\ snd m = snd m'.
Lemma data_app t t' : data_only (t ++ t') = data_only t ++ data_only t'.
Proof. apply filter_app. Qed.
Lemma alike_refl {A} (m : run A) : alike m m. Proof. split; reflexivity. Qed.
Lemma alike_bind {A B} (m m' : run A) (f f' : A -> run B) : alike m m' -> (forall a, alike (f a) (f' a)) -> alike (rbind m f) (rbind m' f').
Proof.
  intros [H1 H2] K. destruct m as [t r], m' as [t' r']. cbn [fst snd] in H1, H2. subst r'. destruct r as [[a|e]|]; cbn [rbind]; [|split; auto..].
  destruct (K a) as [K1 K2]. destruct (f a) as [t2 r2], (f' a) as [t2' r2']. cbn [fst snd] in *. split; [|auto]. cbn [fst]. rewrite !data_app. congruence.
Qed.
Definition reopt (u : setup) (o : options) : setup :=
  mkSetup (su_scene u) (su_speakers u) (su_rir u) o (su_corpus u) (su_rate u) (su_target u) (su_room u).
Section Paint.
  Variables (E : env) (pal : list string) (disk : string -> string -> option exn) (clip : string -> ScnModel.request -> option exn).
  Let E' := repaint E pal disk clip.
  Lemma alike_load c target fuel l : forall k, load_all E' c target fuel k l = load_all E c target fuel k l.
  Proof.
    induction l as [|spk l IH]; intros k; [reflexivity|]. cbn [load_all]. cbn [E' repaint e_sample e_shuffle].
    destruct (load_fixed_length_signal _ _ _ _ _ _) as [[[[k' row] ids]|e]|]; auto. fold E'. rewrite IH. reflexivity.
  Qed.
  Lemma alike_compute u o' fuel k d : o_order o' = o_order (su_opt u) -> compute_scene E' (reopt u o') fuel k d = compute_scene E u fuel k d.
  Proof. intros H. unfold compute_scene. cbn [reopt su_opt su_scene su_corpus su_target su_speakers su_room su_rir su_rate]. rewrite H, alike_load. reflexivity. Qed.
  Lemma alike_save dir l : save_all E' dir l = save_all E dir l.
  Proof. induction l as [|[f p] l IH]; cbn [save_all]; [reflexivity|]. rewrite IH. reflexivity. Qed.
  Lemma alike_write u o' dir d x : alike (write_scene E u dir d x) (write_scene E' (reopt u o') dir d x).
  Proof.
    unfold write_scene. rewrite alike_save. apply alike_bind; [apply alike_refl|]. intros _. apply alike_bind.
    - cbn [reopt su_opt]. destruct (o_images (su_opt u)), (o_images o'); split; reflexivity.
    - intros _. apply alike_bind; [cbn [reopt su_opt]; destruct (o_mp4 (su_opt u)), (o_mp4 o'); split; reflexivity|]. intros _.
      apply (alike_bind (A := pyval)); [apply alike_refl|]. intros md. rewrite alike_save. apply alike_refl.
  Qed.
  Lemma alike_scenes u o' fuel n : o_order o' = o_order (su_opt u) -> forall idx st, alike (build_scenes E u fuel n idx st) (build_scenes E' (reopt u o') fuel n idx st).
  Proof.
    intros Ho. induction n as [|n IH]; intros idx st; [apply alike_refl|]. cbn [build_scenes].
    apply (alike_bind (A := e_gen E * nat)); [|intros st'; apply IH].
    destruct st as [g k]. unfold build_scene. cbn [reopt su_scene]. change (e_draw E' (su_scene u) g) with (e_draw E (su_scene u) g).
    destruct (e_draw E (su_scene u) g) as [d g']. apply alike_bind; [apply alike_refl|]. intros _.
    fold (reopt u o'). rewrite alike_compute by auto. apply alike_bind; [apply alike_refl|]. intros [k' x]. cbn [snd fst].
    apply (alike_bind (A := unit)); [apply alike_write|]. intros _. apply alike_refl.
  Qed.
End Paint.
(** Whatever pictures and films are asked for and whether or not they can be made: the directories,
    sound files and JSON files, the outcome and the world before the loop are the same. *)
Theorem C85_data : forall E pal disk clip b o o' fuel w, same_data o o' ->
  let '(w1, (t, r)) := build_dataset E b o fuel w in
  let '(w1', (t', r')) := build_dataset (repaint E pal disk clip) b o' fuel w in
  w1' = w1 /\ r' = r /\ data_only t' = data_only t /\ files t' = files t.
Proof.
  intros E pal disk clip b o o' fuel w (H1 & H2 & H3).
  assert (Fi : forall t, files t = files (data_only t)).
  { induction t as [|h t IH]; [reflexivity|]. destruct h; cbn [data_only filter files flat_map app]; fold (files t) (data_only t); fold (files (data_only t)); rewrite <- IH; reflexivity. }
  unfold build_dataset.
  destruct (early_checks b) as [[[room center] margin]|e]; [|auto]. destruct (prepare b w) as [w1|e]; [|auto].
  assert (Em : make_setup (repaint E pal disk clip) b o' w1 room center margin =
               match make_setup E b o w1 room center margin with Ok u => Ok (reopt u o') | Err e => Err e end).
  { unfold make_setup. rewrite H1, H2. cbn [repaint e_corpus].
    destruct (open_speakers _ _) as [sr|]; cbn [bind]; [|auto]. destruct (target_samples _ _ <=? 0)%Z; [auto|].
    destruct (GeoModel.polyhedron_array _ _ _) as [base|]; cbn [bind]; [|auto]. destruct (_ <? _)%Z; [auto|]. destruct (shoebox_room _ _ _ _); reflexivity. }
  rewrite Em. destruct (make_setup E b o w1 room center margin) as [u|e] eqn:Es; [|auto].
  destruct (setup_inv _ _ _ _ _ _ _ _ Es) as (_ & _ & _ & _ & _ & _ & _ & _ & _ & So & _).
  destruct (alike_bind _ _ (fun _ => rret (su_rate u, 6%Z)) (fun _ => rret (su_rate u, 6%Z)) (alike_scenes E pal disk clip u o' fuel (Z.to_nat (ba_scenes b)) ltac:(rewrite So; auto) 0 (e_gen0 E, 0%nat)) (fun _ => alike_refl _)) as [A B].
  destruct (rbind (build_scenes E u _ _ _ _) _) as [t r]. cbn [reopt su_rate].
  change (e_gen0 (repaint E pal disk clip)) with (e_gen0 E).
  destruct (rbind (build_scenes (repaint E pal disk clip) _ _ _ _ _) _) as [t' r'] eqn:Q.
  assert (Q' : rbind (build_scenes (repaint E pal disk clip) (reopt u o') fuel (Z.to_nat (ba_scenes b)) 0 (e_gen0 E, 0%nat)) (fun _ => rret (su_rate u, 6%Z)) = (t', r')) by exact Q.
  assert (A' : data_only t = data_only (fst (t', r'))) by (rewrite <- Q'; exact A). assert (B' : r = snd (t', r')) by (rewrite <- Q'; exact B).
  cbn [fst snd] in A', B'. split; auto. split; auto. split; auto. rewrite (Fi t'), (Fi t). congruence.
Qed.

(** ** Example *)
(** The run of C83: no film; for the last scene one call with two pictures, the second in space. *)
Example C85_example : exists f w1 t log, build_dataset LoopTotalProps.x_env LoopTotalProps.x_args LoopTotalProps.x_opt f (fun _ => None) = (w1, (t, Some (Ok (16000, 6)%Z))) /\
  pictures "scene_0002" t = [log] /\ films "scene_0002" t = [] /\ map fst (ScnSpec.saved log) = ["room_layout_2d.png"; "room_layout_3d.png"]%string /\
  forall d, In ("room_layout_3d.png"%string, d) (ScnSpec.saved log) -> ScnSpec.legend d = ["sources"; "mics"]%string.
Proof.
  destruct LoopTotalProps.C83_example as [_ [(f & w1 & t & H & _) _]]. pose proof (LoopTotalProps.x_fair _ : fair_calls LoopTotalProps.x_env) as F.
  destruct (C85_when _ _ _ _ _ _ _ _ 2 F H) as [_ W]. specialize (W _ eq_refl ltac:(cbn; lia)). destruct W as [W1 W2].
  change (scene_name 2) with "scene_0002"%string in *. cbn [LoopTotalProps.x_opt o_images o_mp4] in W1, W2.
  destruct (pictures "scene_0002" t) as [|log [|]] eqn:Ep; try discriminate. exists f, w1, t, log. split; [exact H|]. split; auto.
  split; [destruct (films _ t); [reflexivity|discriminate]|].
  assert (I : In (Drawn (scene_name 2) log) t) by (apply in_pictures; change (scene_name 2) with "scene_0002"%string; rewrite Ep; left; auto).
  destruct (C85_pictures _ _ _ _ _ _ _ _ _ _ F H I) as (_ & room & center & margin & geo & _ & _ & _ & _ & K). destruct K as (_ & Names & Shows); [reflexivity|].
  split; [exact Names|]. intros d Hd. destruct (Shows _ _ Hd) as (ts & tm & src & mic & M & _). apply M.
Qed.
Print Assumptions C85_when.
Print Assumptions C85_order.
Print Assumptions C85_pictures.
Print Assumptions C85_films.
Print Assumptions C85_data.
