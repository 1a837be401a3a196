(** Lemmas about the pictures and films of a built data set. *)
From Coq Require Import Ascii String List ZArith Reals Lia Lra Bool Permutation.
From Verif Require Import Prelude PreludeFacts SignalModel FloatModel DirModel IsmModel RoomModel DsModel BldModel BldSpec MetaModel LoopModel LoopSpec LoopNames LoopProofs LoopAudio PicSpec.
From Verif Require ScnModel.
Import ListNotations.
Local Notation length := List.length.
Local Open Scope R_scope.

(** ** The log of one scene *)
Definition drawn_log (E : env) (u : setup) (dir : string) (x : scene_data) : list ScnModel.ev :=
  ScnModel.save_scene_layout_images (e_palette E) (e_disk E dir) 0 (data (r_size (su_room u)))
    (drawn_table (map p_start (sn_placed x))) (drawn_table (sn_mics x))
    (Some (ScnModel.TTraj (drawn_track (length (sn_placed x)) (sn_traj x))))
    (Some (ScnModel.TTraj (drawn_track (length (sn_mics x)) (repeat_mics (sa_steps (su_scene u)) (sn_mics x)))))
    (o_annotate (su_opt u)) true (o_images_3d (su_opt u)).
Definition film_log (E : env) (u : setup) (dir : string) : list ScnModel.aev :=
  ScnModel.save_scene_videos (e_clip E dir) (numel (r_size (su_room u))) (o_fps (su_opt u)) (o_mp4_3d (su_opt u)) (Some "mixture.wav"%string) (o_mux (su_opt u)).
Definition written (dir : string) (l : list (string * payload)) : list happening := map (fun p => Written dir (fst p) (snd p)) l.
Definition extras (E : env) (u : setup) (dir : string) (x : scene_data) : list happening :=
  (if o_images (su_opt u) then [Drawn dir (drawn_log E u dir x)] else []) ++ (if o_mp4 (su_opt u) then [Filmed dir (film_log E u dir)] else []).
Lemma write_shape E u dir d x t r : write_scene E u dir d x = (t, r) ->
  (exists k, (k < length (sn_files x))%nat /\ t = written dir (firstn k (sn_files x)) /\ r <> Some (Ok tt)) \/
  exists j, t = written dir (sn_files x) ++ extras E u dir x ++ written dir j /\
    (forall f p, In (f, p) j -> f = "metadata.json"%string \/ f = "source_info.json"%string) /\ (r = Some (Ok tt) -> length j = 2%nat).
Proof.
  unfold write_scene. intros H.
  set (P := if o_images (su_opt u) then _ else _) in H. set (Q := if o_mp4 (su_opt u) then _ else _) in H.
  assert (HP : exists tp, P = (tp, Some (Ok tt)) /\ tp = if o_images (su_opt u) then [Drawn dir (drawn_log E u dir x)] else []).
  { unfold P. destruct (o_images _); eexists; (split; [reflexivity|]); reflexivity. }
  assert (HQ : exists tq, Q = (tq, Some (Ok tt)) /\ tq = if o_mp4 (su_opt u) then [Filmed dir (film_log E u dir)] else []).
  { unfold Q. destruct (o_mp4 _); eexists; (split; [reflexivity|]); reflexivity. }
  destruct HP as (tp & -> & Ep). destruct HQ as (tq & -> & Eq). assert (Ex : extras E u dir x = tp ++ tq) by (unfold extras; rewrite Ep, Eq; reflexivity).
  destruct (save_all E dir (sn_files x)) as [t1 r1] eqn:S1. destruct (save_all_trace _ _ _ _ _ S1) as (k1 & -> & K1).
  destruct r1 as [[[]|e]|]; [|cbn [rbind] in H; injection H as <- <-|contradiction].
  2: { left. exists k1. split; auto. split; [reflexivity|discriminate]. }
  subst k1. rewrite firstn_all in H. cbn [rbind] in H. right. rewrite Ex.
  destruct (build_metadata _) as [md|e] eqn:Bm; cbn [rlift rbind] in H.
  - set (L := [_; _]) in H. destruct (save_all E dir L) as [t2 r2] eqn:S2. destruct (save_all_trace _ _ _ _ _ S2) as (k2 & -> & K2).
    cbn [app] in H. injection H as <- <-. exists (firstn k2 L). split; [unfold written; rewrite <- !app_assoc; reflexivity|]. split.
    + intros f p I. assert (I' : In (f, p) L) by (rewrite <- (firstn_skipn k2 L); apply in_app_iff; auto). destruct I' as [I'|[I'|[]]]; injection I' as <- <-; auto.
    + intros ->. rewrite K2, firstn_all. reflexivity.
  - injection H as <- <-. exists []. split; [unfold written; cbn [map]; rewrite ?app_nil_r, <- ?app_assoc, ?app_nil_r; reflexivity|]. split; [intros f p []|discriminate].
Qed.

(** ** What happens in the directory of a scene *)
Definition here (dir : string) (t : list happening) : list happening := filter (fun h => String.eqb (place h) dir) t.
Lemma here_app dir t t' : here dir (t ++ t') = here dir t ++ here dir t'.
Proof. apply filter_app. Qed.
Lemma here_all dir t : (forall h, In h t -> place h = dir) -> here dir t = t.
Proof. induction t as [|h t IH]; intros H; cbn; auto. rewrite (H h), String.eqb_refl by (left; auto). f_equal. apply IH. intros; apply H; right; auto. Qed.
Lemma here_none dir t : (forall h, In h t -> place h <> dir) -> here dir t = [].
Proof.
  induction t as [|h t IH]; intros H; cbn; auto. destruct (String.eqb_spec (place h) dir) as [K|K]; [destruct (H h (or_introl eq_refl) K)|].
  apply IH. intros; apply H; right; auto.
Qed.
Lemma pictures_here dir t : pictures dir t = pictures dir (here dir t).
Proof.
  induction t as [|h t IH]; [reflexivity|]. cbn [here filter]. destruct (String.eqb (place h) dir) eqn:Q; cbn [pictures flat_map]; fold (pictures dir t).
  - f_equal. exact IH.
  - destruct h; cbn [place] in Q; cbn [app]; rewrite ?Q; exact IH.
Qed.
Lemma films_here dir t : films dir t = films dir (here dir t).
Proof.
  induction t as [|h t IH]; [reflexivity|]. cbn [here filter]. destruct (String.eqb (place h) dir) eqn:Q; cbn [films flat_map]; fold (films dir t).
  - f_equal. exact IH.
  - destruct h; cbn [place] in Q; cbn [app]; rewrite ?Q; exact IH.
Qed.
Lemma scenes_events E u fuel n : sound E u -> forall idx g k t r i, build_scenes E u fuel n idx (g, k) = (t, r) -> (i < n)%nat ->
  let dir := scene_name (idx + i) in
  ((here dir t = [] \/ here dir t = [Directory dir]) /\ forall st, r <> Some (Ok st)) \/
  exists k0 k' x stems d tw rw, d = fst (e_draw E (su_scene u) (Nat.iter i (fun g => snd (e_draw E (su_scene u) g)) g)) /\
    computed E u fuel k0 d k' x stems /\ write_scene E u dir d x = (tw, rw) /\ here dir t = Directory dir :: tw /\
    ((exists st, r = Some (Ok st)) -> rw = Some (Ok tt)).
Proof.
  intros Snd. induction n as [|n IH]; intros idx g k t r i H Hi; [lia|]. cbn [build_scenes] in H. cbv zeta.
  destruct (build_scene E u fuel idx (g, k)) as [t1 r1] eqn:B.
  assert (P1 : forall h, In h t1 -> place h = scene_name idx).
  { destruct (scene_trace _ _ _ _ _ _ _ Snd B) as (P & _). rewrite Forall_forall in P. exact P. }
  assert (Cases : exists t2, t = (t1 ++ t2)%list /\ (forall h, In h t2 -> exists i, place h = scene_name (S idx + i)) /\
            ((t2 = [] /\ (forall st, r <> Some (Ok st)) /\ forall st, r1 <> Some (Ok st)) \/ exists g' k', r1 = Some (Ok (g', k')) /\ build_scenes E u fuel n (S idx) (g', k') = (t2, r))).
  { destruct r1 as [[[g' k']|e]|]; cbn [rbind] in H; [|exists []; rewrite app_nil_r; injection H as <- <-; split; [auto|split; [intros h []|left; split; [auto|split; discriminate]]]..].
    destruct (build_scenes E u fuel n (S idx) (g', k')) as [t2 r2] eqn:B2. injection H as <- <-. exists t2. split; auto. split; eauto 10.
    intros h Hh. destruct (scenes_places _ _ _ _ Snd _ _ _ _ h B2 Hh) as (j & _ & Pj). eauto. }
  destruct Cases as (t2 & -> & P2 & C2). destruct i as [|i].
  - rewrite Nat.add_0_r. rewrite here_app, (here_all _ t1), (here_none _ t2), app_nil_r; auto.
    2: { intros h Hh. destruct (P2 h Hh) as [j ->]. intros K. apply scene_name_inj in K. lia. }
    clear H P2 IH. unfold build_scene in B. destruct (e_draw E (su_scene u) g) as [d g1] eqn:Ed. cbn [rlog rbind] in B.
    destruct (compute_scene E u fuel k d) as [tc rc] eqn:Ec. pose proof (compute_silent E u fuel k d) as Sl. unfold silent in Sl. rewrite Ec in Sl. cbn in Sl. subst tc.
    destruct rc as [[[k' x]|e]|]; cbn [rbind] in B.
    2, 3: left; injection B as <- <-; split; [auto|]; destruct C2 as [(_ & C2 & _)|(g' & k' & K & _)]; [exact C2|discriminate].
    destruct (compute_ok _ _ _ _ _ _ _ _ Ec) as [_ [stems C]]. cbn [snd fst] in B. right.
    destruct (write_scene E u (scene_name idx) d x) as [tw rw] eqn:Wr. exists k, k', x, stems, d, tw, rw.
    split; [cbn; rewrite Ed; reflexivity|]. split; auto. split; auto.
    destruct rw as [[[]|e]|]; cbn [rbind rret app] in B; injection B as <- <-; rewrite ?app_nil_r; (split; [reflexivity|]); auto;
      intros (st & ->); destruct C2 as [(_ & C2 & _)|(g' & k2 & K & _)]; [destruct (C2 _ eq_refl)|discriminate|destruct (C2 _ eq_refl)|discriminate].
  - rewrite here_app, (here_none _ t1). 2: { intros h Hh. rewrite (P1 h Hh). intros K. apply scene_name_inj in K. lia. }
    cbn [app]. rewrite Nat.add_succ_r. destruct C2 as [(-> & R & _)|(g' & k' & -> & B2)]; [left; auto|].
    pose proof (scene_gen _ _ _ _ _ _ _ _ _ B) as Eg.
    destruct (IH _ _ _ _ _ i B2 ltac:(lia)) as [L|(k0 & k1 & x & stems & d & tw & rw & Ed & C & W & Hh & R)]; [left; exact L|right].
    exists k0, k1, x, stems, d, tw, rw. split; [rewrite Ed, Eg, (iter_swap (fun g => snd (e_draw E (su_scene u) g)) i g); reflexivity|]. auto.
Qed.
