(** C76: what scene plots show. C77: which pictures are written. *)
From Coq Require Import String Ascii List ZArith Reals Lia Lra Bool Permutation.
From Verif Require Import Prelude PreludeFacts FloatModel DirModel ScnModel ScnSpec ScnProofs.
Import ListNotations.
Local Open Scope R_scope.
Local Notation length := List.length.

(** ** C76 *)

(** Whatever is drawn, the room is there: the rectangle, or each edge of the box once. *)
Theorem C76_room : forall pal room src mic idx ts tm step ps pm d,
  Forall (fun l => 0 < l) room ->
  plot_scene_static room src mic idx = Ok d \/ plot_scene_dynamic pal room ts tm step ps pm idx = Ok d ->
  room_ok room /\ shows_room room d.
Proof.
  intros pal room src mic idx ts tm step ps pm d Hp.
  assert (RS : forall r s, room_size r = Ok s -> s = r /\ (length r = 2 \/ length r = 3)%nat).
  { intros r s. unfold room_size. destruct (Nat.eqb_spec (length r) 2), (Nat.eqb_spec (length r) 3); cbn [orb]; intros H;
      try discriminate; injection H as <-; auto. }
  intros [H|H].
  - unfold plot_scene_static in H. destruct (room_size room) as [s|] eqn:E; [|discriminate]. destruct (RS _ _ E) as [-> L]. cbn [bind] in H.
    destruct (scatter src _ _ _) as [a|] eqn:A; [|discriminate]. destruct (scatter mic _ _ _) as [b|] eqn:B; [|discriminate]. cbn [bind] in H.
    destruct (if idx then _ else _) as [c|] eqn:C; [|discriminate]. assert (Ed : d = draw_room room ++ a ++ b ++ c ++ [CLegend]) by (injection H; auto). subst d. split; [split; auto|].
    apply draw_room_shows; auto. apply roomless_app; [eapply roomless_scatter; eauto|]. apply roomless_app; [eapply roomless_scatter; eauto|].
    apply roomless_app; [|repeat split; reflexivity].
    destruct idx; [eapply roomless_annotate; eauto|injection C as <-; repeat split; reflexivity].
  - unfold plot_scene_dynamic in H. destruct (room_size room) as [s|] eqn:E; [|discriminate]. destruct (RS _ _ E) as [-> L]. cbn [bind] in H.
    destruct (as_trajectory ts) as [u|]; [|discriminate]. destruct (as_trajectory tm) as [v|]; [|discriminate]. cbn [bind] in H.
    destruct (start_positions ps u) as [p|]; [|discriminate]. destruct (start_positions pm v) as [q|]; [|discriminate]. cbn [bind] in H.
    destruct (plot_entity _ u _ _ _ _ _ _) as [a|] eqn:A; [|discriminate]. cbn [bind] in H.
    destruct (plot_entity _ v _ _ _ _ _ _) as [b|] eqn:B; [|discriminate]. cbn [bind] in H.
    destruct (if idx then _ else _) as [c|] eqn:C; [|discriminate]. assert (Ed : d = draw_room room ++ a ++ b ++ c ++ [CLegend]) by (injection H; auto). subst d. split; [split; auto|].
    apply draw_room_shows; auto. apply roomless_app; [eapply roomless_entity; eauto|]. apply roomless_app; [eapply roomless_entity; eauto|].
    apply roomless_app; [|repeat split; reflexivity].
    destruct idx; [eapply roomless_annotate; eauto|injection C as <-; repeat split; reflexivity].
Qed.

Theorem C76_static : forall room src mic idx,
  room_ok room -> pos_ok (length room) src -> pos_ok (length room) mic -> (0 < p_n src)%nat -> (0 < p_n mic)%nat ->
  exists d, plot_scene_static room src mic idx = Ok d /\ static_scene room src mic idx d.
Proof.
  intros room src mic idx [L P] Hs Hm Ns Nm.
  assert (X : exists d, plot_scene_static room src mic idx = Ok d /\
    legend d = ["sources"; "mics"]%string /\ paths d = [] /\
    markers d = map (p_row src) (seq 0 (p_n src)) ++ map (p_row mic) (seq 0 (p_n mic)) /\
    indices d = (if idx then map (fun i => (p_row src i, i)) (seq 0 (p_n src)) else [])).
  { unfold plot_scene_static. rewrite room_size_ok by auto. rewrite !(scatter_ok (length room)) by auto. cbn [bind].
    destruct (room_reads room L) as (A & B & C & D & _).
    destruct idx.
    - rewrite (annotate_ok (length room)) by auto. cbn [bind]. eexists. split; [reflexivity|].
      rewrite !legend_app, !paths_app, !markers_app, !indices_app, A, B, C, D.
      destruct (index_reads src (seq 0 (p_n src))) as (A' & B' & C' & _ & _ & F'). rewrite A', B', C', F'.
      unfold dots. cbn [legend paths markers indices flat_map app hidden]. rewrite !app_nil_r. repeat split.
    - cbn [bind]. eexists. split; [reflexivity|].
      rewrite !legend_app, !paths_app, !markers_app, !indices_app, A, B, C, D.
      unfold dots. cbn [legend paths markers indices flat_map app hidden]. rewrite !app_nil_r. repeat split. }
  destruct X as (d & E & X). exists d. split; auto. split; [|exact X].
  apply (C76_room [] room src mic idx TOther TOther 1 None None d P). auto.
Qed.

Theorem C76_dynamic : forall pal room ts tm step src mic idx,
  room_ok room -> group_ok (length room) ts src -> group_ok (length room) tm mic -> (0 < step)%Z ->
  exists d, plot_scene_dynamic pal room (TTraj ts) (TTraj tm) step (Some src) (Some mic) idx = Ok d /\
    moving_scene room ts tm src mic step idx d.
Proof.
  intros pal room ts tm step src mic idx [L P] (Ht & Hs & En & T0 & N0) (Ht' & Hs' & En' & T0' & N0') Hk.
  assert (X : exists d, plot_scene_dynamic pal room (TTraj ts) (TTraj tm) step (Some src) (Some mic) idx = Ok d /\
    legend d = ["sources"; "mics"]%string /\
    (exists a b, paths d = a ++ b /\ shows_paths ts src step a /\ shows_paths tm mic step b) /\
    (forall q, In q (markers d) <-> rows src q \/ rows mic q) /\
    indices d = (if idx then map (fun i => (p_row src i, i)) (seq 0 (p_n src)) else [])).
  { unfold plot_scene_dynamic. rewrite room_size_ok by auto. cbn [bind as_trajectory start_positions].
    destruct (entity_reads pal (length room) ts src step "sources" "^" None false) as (a & Ea & Ga); auto.
    destruct (entity_reads pal (length room) tm mic step "mics" "o" (Some mic_color) true) as (b & Eb & Gb); auto.
    rewrite Ea, Eb. cbn [bind]. destruct (room_reads room L) as (A & B & C & D & _).
    destruct Ga as [la pa ma (ia & _)], Gb as [lb pb mb (ib & _)].
    assert (M : forall q m, markers m = [] -> In q (markers (draw_room room ++ a ++ b ++ m ++ [CLegend])) <-> rows src q \/ rows mic q).
    { intros q m Em. rewrite !markers_app, C, Em. cbn [app markers flat_map]. rewrite app_nil_r, in_app_iff, ma, mb.
      unfold rows. rewrite En, En'. reflexivity. }
    destruct idx.
    - rewrite (annotate_ok (length room)) by (auto; lia). cbn [bind]. eexists. split; [reflexivity|].
      destruct (index_reads src (seq 0 (p_n src))) as (A' & B' & C' & _ & _ & F'). split; [|split; [|split]].
      + rewrite !legend_app, A, A', la, lb. reflexivity.
      + exists (paths a), (paths b). split; [|split; auto]. rewrite !paths_app, B, B'. cbn. rewrite app_nil_r. reflexivity.
      + intros q. apply M. exact C'.
      + rewrite !indices_app, D, ia, ib, F'. cbn. rewrite app_nil_r. reflexivity.
    - cbn [bind]. eexists. split; [reflexivity|]. split; [|split; [|split]].
      + rewrite !legend_app, A, la, lb. reflexivity.
      + exists (paths a), (paths b). split; [|split; auto]. rewrite !paths_app, B. cbn. rewrite app_nil_r. reflexivity.
      + intros q. apply (M q []). reflexivity.
      + rewrite !indices_app, D, ia, ib. reflexivity. }
  destruct X as (d & E & X). exists d. split; auto. split; [|exact X].
  apply (C76_room pal room src mic idx (TTraj ts) (TTraj tm) step (Some src) (Some mic) d P). auto.
Qed.

(** Positions that are not given are those of the first step. *)
Theorem C76_first_positions : forall pal room ts tm step idx,
  let first t := mkPos (t_n t) (t_dim t) (fun i => t_at t 0 i) in
  room_ok room -> group_ok (length room) ts (first ts) -> group_ok (length room) tm (first tm) -> (0 < step)%Z ->
  exists d, plot_scene_dynamic pal room (TTraj ts) (TTraj tm) step None None idx = Ok d /\
    moving_scene room ts tm (first ts) (first tm) step idx d.
Proof.
  intros pal room ts tm step idx first Hr Gs Gm Hk. destruct (C76_dynamic pal room ts tm step (first ts) (first tm) idx) as (d & E & M); auto.
  exists d. split; auto. rewrite <- E. unfold plot_scene_dynamic. destruct (room_size room); [|reflexivity]. cbn [bind as_trajectory start_positions].
  destruct Gs as (_ & _ & _ & T0 & _), Gm as (_ & _ & _ & T0' & _).
  destruct (Nat.eqb_spec (t_steps ts) 0); [lia|]. destruct (Nat.eqb_spec (t_steps tm) 0); [lia|]. reflexivity.
Qed.
(** Every source has its own colour (the colours of the style in turn), for its path as for its
    marker; all microphones share one. *)
Theorem C76_colours : forall pal room ts tm step src mic idx d,
  room_ok room -> group_ok (length room) ts src -> group_ok (length room) tm mic -> (0 < step)%Z ->
  plot_scene_dynamic pal room (TTraj ts) (TTraj tm) step (Some src) (Some mic) idx = Ok d ->
  (forall q c, In (q, c) (painted d) ->
     (exists i, spot ts src i q /\ c = hue pal i) \/ (exists i, spot tm mic i q /\ c = "tab:orange"%string)) /\
  (forall i, (i < p_n src)%nat -> In (p_row src i, hue pal i) (painted d)) /\
  (forall i, (i < p_n mic)%nat -> In (p_row mic i, "tab:orange"%string) (painted d)).
Proof.
  intros pal room ts tm step src mic idx d [L P] (Ht & Hs & En & T0 & N0) (Ht' & Hs' & En' & T0' & N0') Hk H.
  unfold plot_scene_dynamic in H. rewrite room_size_ok in H by auto. cbn [bind as_trajectory start_positions] in H.
  destruct (entity_painted pal (length room) ts src step "sources" "^" None false) as (a & Ea & Fa & Ba); auto.
  destruct (entity_painted pal (length room) tm mic step "mics" "o" (Some mic_color) true) as (b & Eb & Fb & Bb); auto.
  rewrite Ea, Eb in H. cbn [bind] in H.
  assert (X : exists m, painted m = [] /\ d = draw_room room ++ a ++ b ++ m ++ [CLegend]).
  { destruct idx.
    - rewrite (annotate_ok (length room)) in H by (auto; lia). cbn [bind] in H. eexists. split; [|injection H; intros <-; reflexivity].
      apply flat_nil. intros x Hx. apply in_map_iff in Hx as (i & <- & _). reflexivity.
    - cbn [bind] in H. exists []. split; auto. injection H. auto. }
  destruct X as (m & Em & ->).
  assert (Ed : painted (draw_room room ++ a ++ b ++ m ++ [CLegend]) = painted a ++ painted b).
  { rewrite !painted_app, Em. cbn. rewrite app_nil_r. replace (painted (draw_room room)) with (@nil (list R * string)); [reflexivity|].
    destruct L as [L|L]; destruct room as [|x [|y [|z [|]]]]; try discriminate; reflexivity. }
  rewrite Ed.
  assert (Eh : forall i, entity_color pal None false i = hue pal i) by (intros i; unfold entity_color, hue, palette; destruct pal; reflexivity).
  split; [|split].
  - intros q c I. apply in_app_iff in I as [I|I]; [left|right].
    + destruct (Fa _ _ I) as (i & Si & ->). eauto.
    + destruct (Fb _ _ I) as (i & Si & ->). eauto.
  - intros i Hi. apply in_app_iff. left. rewrite <- Eh. apply Ba. lia.
  - intros i Hi. apply in_app_iff. right. apply (Bb i). lia.
Qed.
Example C76_colours_ex : hue [] 7 = "C1"%string /\ hue ["red"; "blue"]%string 1 = "blue"%string.
Proof. split; reflexivity. Qed.

(** With the default step every position is on the path; otherwise the last one is if the step divides. *)
Theorem C76_every_step : forall t p l, shows_paths t p 1 l ->
  moves t p -> l = map (fun i => map (fun s => t_at t s i) (seq 0 (t_steps t))) (seq 0 (t_n t)).
Proof.
  intros t p l (ls & V & [[_ ->]|[K _]]) M; [|contradiction]. change (Z.to_nat 1) with 1%nat in V. rewrite (visited_one _ _ V). reflexivity.
Qed.
Theorem C76_last_step : forall n k ls, (0 < n)%nat -> visited n k ls -> In (n - 1)%nat ls <-> Nat.divide k (n - 1).
Proof. intros n k ls H [V _]. rewrite V. split; [tauto|]. intros D. split; [lia|auto]. Qed.
(** A step that is not positive is noticed only if something moves. *)
Theorem C76_bad_step : forall pal room ts tm step src mic idx,
  room_ok room -> group_ok (length room) ts src -> group_ok (length room) tm mic -> (step <= 0)%Z ->
  (moves ts src \/ moves tm mic ->
     plot_scene_dynamic pal room (TTraj ts) (TTraj tm) step (Some src) (Some mic) idx = Err ValueError) /\
  (~ moves ts src -> ~ moves tm mic ->
     plot_scene_dynamic pal room (TTraj ts) (TTraj tm) step (Some src) (Some mic) idx =
     plot_scene_dynamic pal room (TTraj ts) (TTraj tm) 1 (Some src) (Some mic) idx).
Proof.
  intros pal room ts tm step src mic idx [L P] Gs Gm Hk.
  assert (ST : forall t p a b c u, group_ok (length room) t p -> ~ moves t p ->
     plot_entity pal t p step a b c u = plot_entity pal t p 1 a b c u).
  { intros t p a b c u ([Ed _] & [Ed' _] & En & _) N. unfold plot_entity. rewrite En, Ed, Ed', !Nat.eqb_refl. cbn [andb].
    destruct (is_moving t p) eqn:E; [apply is_moving_iff in E; contradiction|]. reflexivity. }
  assert (MV : forall t p a b c u, group_ok (length room) t p -> moves t p -> plot_entity pal t p step a b c u = Err ValueError).
  { intros t p a b c u ([Ed _] & [Ed' _] & En & T0 & N0) N. unfold plot_entity. rewrite En, Ed, Ed', !Nat.eqb_refl. cbn [andb].
    destruct (Nat.eqb_spec (t_steps t * t_n t * length room) 0) as [E|_].
    { exfalso. apply Nat.mul_eq_0 in E as [E|E]; [apply Nat.mul_eq_0 in E; lia|lia]. }
    apply is_moving_iff in N. rewrite N. rewrite (seq_first (t_n t)) by auto.
    rewrite (mapM_first_err _ _ _ ValueError); [reflexivity|]. unfold plot_item, strided.
    destruct (Z.leb_spec step 0); [reflexivity|lia]. }
  split.
  - intros M. unfold plot_scene_dynamic. rewrite room_size_ok by auto. cbn [bind as_trajectory start_positions].
    destruct (is_moving ts src) eqn:E.
    + apply is_moving_iff in E. rewrite (MV ts src) by auto. reflexivity.
    + assert (N : ~ moves ts src) by (intros K; apply is_moving_iff in K; congruence).
      rewrite (ST ts src) by auto.
      destruct Gs as (A & B & C & D & F).
      destruct (entity_reads pal (length room) ts src 1 "sources" "^" None false) as (a & Ea & _); auto; [lia|].
      rewrite Ea. cbn [bind]. rewrite (MV tm mic) by tauto. reflexivity.
  - intros A B. unfold plot_scene_dynamic. cbn [as_trajectory start_positions]. destruct (room_size room); [|reflexivity]. cbn [bind].
    rewrite (ST ts src), (ST tm mic) by auto. reflexivity.
Qed.

(** A source moving through three positions in a rectangular room, one resting microphone. *)
Definition ex_src : postab := mkPos 1 2 (fun _ => [1; 1]).
Definition ex_mic : postab := mkPos 1 2 (fun _ => [2; 1]).
Definition ex_ts : trajectory := mkTraj 3 1 2 (fun s _ => [1 + INR s; 1]).
Definition ex_tm : trajectory := mkTraj 3 1 2 (fun _ _ => [2; 1]).
Lemma ex_moves : moves ex_ts ex_src.
Proof.
  exists 2%nat, 0%nat. repeat split; cbn; try lia. unfold within. unfold Rsqr, map2. cbn. intros H.
  assert (/ 10 ^ 6 < 1) by (rewrite <- Rinv_1; apply Rinv_lt_contravar; lra). pose proof tol_pos. cbn in *. nra.
Qed.
Lemma ex_rests : ~ moves ex_tm ex_mic.
Proof.
  intros (s & i & _ & _ & H). apply H. unfold within, map2, Rsqr. cbn. pose proof tol_pos as P. cbn in P. nra.
Qed.
Lemma ex_groups : group_ok 2 ex_ts ex_src /\ group_ok 2 ex_tm ex_mic /\ room_ok [4; 3].
Proof.
  repeat split; cbn; auto; try lia. repeat constructor; lra.
Qed.
Example C76_dynamic_ex : exists d, plot_scene_dynamic [] [4; 3] (TTraj ex_ts) (TTraj ex_tm) 1 (Some ex_src) (Some ex_mic) true = Ok d /\
  paths d = [[[1 + 0; 1]; [1 + 1; 1]; [1 + (1 + 1); 1]]] /\ legend d = ["sources"; "mics"]%string /\ indices d = [([1; 1], 0%nat)] /\
  rectangles d = [(4, 3)] /\ (forall q, In q (markers d) <-> q = [1; 1] \/ q = [2; 1]).
Proof.
  destruct ex_groups as (A & B & C).
  destruct (C76_dynamic [] [4; 3] ex_ts ex_tm 1 ex_src ex_mic true C A B) as (d & E & (S1 & S2 & (a & b & Ep & Ha & Hb) & S4 & S5)); [lia|].
  exists d. split; auto. apply C76_every_step in Ha; [|exact ex_moves].
  destruct Hb as (? & _ & [[K _]|[_ ->]]); [destruct (ex_rests K)|].
  split; [rewrite Ep, Ha, app_nil_r; reflexivity|]. split; auto. split; [rewrite S5; reflexivity|].
  split; [apply S1|]. intros q. rewrite S4. unfold rows. cbn. split.
  - intros [(i & _ & ->)|(i & _ & ->)]; auto.
  - intros [-> | ->]; [left|right]; exists 0%nat; auto.
Qed.
Example C76_static_ex : exists d, plot_scene_static [4; 3] ex_src ex_mic false = Ok d /\ markers d = [[1; 1]; [2; 1]] /\ indices d = [].
Proof. unfold plot_scene_static. cbn. eexists. repeat split; reflexivity. Qed.
Example C76_box_ex : exists d, plot_scene_static [4; 3; 2] (mkPos 1 3 (fun _ => [1; 1; 1])) (mkPos 1 3 (fun _ => [2; 1; 1])) false = Ok d /\
  (In ([4; 3; 0], [4; 3; 2]) (outline d) \/ In ([4; 3; 2], [4; 3; 0]) (outline d)) /\ ~ In ([0; 0; 0], [4; 3; 2]) (outline d).
Proof.
  destruct (C76_static [4; 3; 2] (mkPos 1 3 (fun _ => [1; 1; 1])) (mkPos 1 3 (fun _ => [2; 1; 1])) false) as (d & E & (S & _)).
  - split; [right; reflexivity|]. repeat constructor; lra.
  - repeat split.
  - repeat split.
  - cbn. lia.
  - cbn. lia.
  - exists d. split; auto. destruct S as (_ & _ & _ & S). split.
    + apply S. unfold corner. rewrite differ3. repeat match goal with |- context [Req_EM_T ?u ?v] => destruct (Req_EM_T u v); try (exfalso; lra) end.
      repeat split; repeat (apply Forall2_cons; [auto|]); apply Forall2_nil.
    + intros H. destruct (proj1 (S _ _) (or_introl H)) as (_ & _ & D). rewrite differ3 in D.
      repeat match type of D with context [Req_EM_T ?u ?v] => destruct (Req_EM_T u v); try (exfalso; lra) end. discriminate D.
Qed.
(** Arrays that are not (steps, entities, coordinates) raise ValueError, whatever the rest is. *)
Theorem C76_not_a_trajectory : forall pal room src mic step ps pm idx, src = TOther \/ mic = TOther ->
  plot_scene_dynamic pal room src mic step ps pm idx = Err ValueError.
Proof.
  intros pal room src mic step ps pm idx H. unfold plot_scene_dynamic, room_size.
  destruct ((length room =? 2) || (length room =? 3))%nat; [|reflexivity]. cbn [bind].
  destruct src as [ts|]; [|reflexivity]. destruct H as [H| ->]; [discriminate|reflexivity].
Qed.
Example C76_bad_step_ex : plot_scene_dynamic [] [4; 3] (TTraj ex_ts) (TTraj ex_tm) 0 (Some ex_src) (Some ex_mic) true = Err ValueError /\
  exists d, plot_scene_dynamic [] [4; 3] (TTraj ex_tm) (TTraj ex_tm) 0 (Some ex_mic) (Some ex_mic) true = Ok d.
Proof.
  destruct ex_groups as (A & B & C). split.
  - apply (C76_bad_step [] [4; 3] ex_ts ex_tm 0 ex_src ex_mic true); auto; [lia|]. left. exact ex_moves.
  - destruct (C76_bad_step [] [4; 3] ex_tm ex_tm 0 ex_mic ex_mic true C B B ltac:(lia)) as [_ H]. rewrite H by exact ex_rests.
    destruct (C76_dynamic [] [4; 3] ex_tm ex_tm 1 ex_mic ex_mic true C B B ltac:(lia)) as (d & E & _). eauto.
Qed.

(** Not checked: with a larger step the end of the movement can be missing, here all of it. *)
Theorem C76_stride_unchecked : exists d,
  plot_scene_dynamic [] [4; 3] (TTraj ex_ts) (TTraj ex_tm) 3 (Some ex_src) (Some ex_mic) true = Ok d /\ moves ex_ts ex_src /\ paths d = [[[1 + 0; 1]]].
Proof.
  destruct ex_groups as (A & B & C).
  destruct (C76_dynamic [] [4; 3] ex_ts ex_tm 3 ex_src ex_mic true C A B) as (d & E & (_ & _ & (a & b & Ep & Ha & Hb) & _)); [lia|].
  exists d. split; auto. split; [exact ex_moves|].
  destruct Hb as (? & _ & [[K _]|[_ ->]]); [destruct (ex_rests K)|].
  destruct Ha as (ls & V & [[_ ->]|[K _]]); [|destruct (K ex_moves)].
  assert (ls = [0%nat]) as ->.
  { destruct V as [V1 V2]. apply increasing_ext; auto; [intros i j; cbn; lia|]. intros z. rewrite V1. cbn. split.
    - intros [H (k & ->)]. change (Pos.to_nat 3) with 3%nat in H. lia.
    - intros [<-|[]]. split; [lia|]. exists 0%nat. reflexivity. }
  rewrite Ep, app_nil_r. reflexivity.
Qed.
(** Not checked: positions that do not belong to the trajectory. The markers are then at the first
    positions of the trajectory and the numbers stay at the positions given. *)
Theorem C76_mismatch_unchecked : exists src d,
  p_n src <> t_n ex_tm /\
  plot_scene_dynamic [] [4; 3] (TTraj ex_tm) (TTraj ex_tm) 1 (Some src) (Some ex_mic) true = Ok d /\
  indices d = [([3; 1], 0%nat); ([3; 2], 1%nat)] /\ forall q, In q (markers d) -> q = [2; 1].
Proof.
  destruct ex_groups as (_ & (B1 & B2 & B3 & B4 & B5) & _).
  destruct (entity_reads [] 2 ex_tm ex_mic 1 "sources" "^" None false) as (a & Ea & Ga); auto; [lia|].
  destruct (entity_reads [] 2 ex_tm ex_mic 1 "mics" "o" (Some mic_color) true) as (b & Eb & Gb); auto; [lia|].
  exists (mkPos 2 2 (fun i => [3; match i with O => 1 | _ => 2 end])). eexists. split; [cbn; lia|]. split.
  - unfold plot_scene_dynamic. cbn [bind as_trajectory start_positions room_size length Nat.eqb orb].
    change (plot_entity [] ex_tm (mkPos 2 2 (fun i => [3; match i with O => 1 | _ => 2 end])) 1 "sources" "^" None false)
      with (plot_entity [] ex_tm ex_mic 1 "sources" "^" None false).
    rewrite Ea, Eb. cbn [bind annotate p_n p_dim Nat.mul Nat.add Nat.eqb seq mapM p_row coords nth]. reflexivity.
  - destruct Ga as [_ _ ma (ia & _)], Gb as [_ _ mb (ib & _)]. split.
    + rewrite !indices_app, ia, ib. reflexivity.
    + intros q. rewrite !markers_app. cbn [draw_room markers flat_map app]. rewrite !in_app_iff, ma, mb.
      intros [(i & _ & ->)|[(i & _ & ->)|H]]; try reflexivity. cbn in H. tauto.
Qed.

(** ** C77 *)

(** Whatever happens, what is reported as saved was saved, all of it if nothing failed; a failure is
    reported by one warning and then no picture is. *)
Theorem C77_report : forall pal disk other room sp mp src mic prefix idx two three,
  let log := save_scene_plots pal disk other room sp mp src mic prefix idx two three in
  (~ warned log /\ Permutation (map fst (saved log)) (logged log)) \/
  (warned log /\ logged log = []).
Proof.
  intros. subst log. unfold save_scene_plots, render_scene_plots. cbn [tbind].
  pose proof (quiet_views pal disk other room sp mp prefix 1 idx (views (length room) two three) (src, mic)) as [Q1 Q2].
  destruct (render_views _ _ _ _ _ _ _ _ _ _ _) as [t [[a b]|e]] eqn:E; cbn [fst] in *.
  - left. apply render_views_saved in E. split.
    + unfold warned. rewrite in_app_iff, in_map_iff. intros [H|(f & H & _)]; [|discriminate]. cbn in H. destruct H; [discriminate|auto].
    + rewrite saved_app, saved_map, app_nil_r. rewrite logged_app, logged_map. cbn [app]. 
      change (logged (EMkdir :: t)) with (logged t). rewrite Q1. exact E.
  - right. split; [unfold warned; apply in_or_app; right; left; reflexivity|].
    rewrite logged_app. change (logged ([EMkdir] ++ t)) with (logged t). rewrite Q1. reflexivity.
Qed.

Lemma view_names prefix v dyn d d' : (v = 2 \/ v = 3)%nat ->
  map fst (saved (ESaved (view_file prefix "static" v) d :: (if dyn : bool then [ESaved (view_file prefix "dynamic" v) d'] else []))) =
  plot_names prefix dyn (if (v =? 2)%nat then "2d" else "3d").
Proof. intros [-> | ->]; destruct dyn; reflexivity. Qed.
Lemma append_inj (p a b : string) : (p ++ a = p ++ b)%string -> a = b.
Proof. induction p; cbn; intros H; auto. injection H; auto. Qed.
Ltac names_differ :=
  match goal with H : view_file ?p _ _ = view_file ?p _ _ |- _ => unfold view_file in H; apply append_inj in H; discriminate H end.

(** A valid scene on a working disk: the pictures asked for, with the scene in them. *)
Theorem C77_plots : forall pal disk other room sp mp src mic prefix idx two three,
  room_ok room -> pos_ok (length room) sp -> pos_ok (length room) mp -> (0 < p_n sp)%nat -> (0 < p_n mp)%nat ->
  given_ok (length room) sp src -> given_ok (length room) mp mic -> (forall f, disk f = None) ->
  let log := save_scene_plots pal disk other room sp mp src mic prefix idx two three in
  let dyn := given src || given mic in
  ~ warned log /\
  map fst (saved log) = (if two then plot_names prefix dyn "2d" else []) ++
                        (if three && (length room =? 3)%nat then plot_names prefix dyn "3d" else []) /\
  (forall v d, (v = 2 \/ v = 3)%nat -> In (view_file prefix "static" v, d) (saved log) ->
     static_scene (firstn v room) (cut_pos v sp) (cut_pos v mp) idx d) /\
  (forall v d, (v = 2 \/ v = 3)%nat -> In (view_file prefix "dynamic" v, d) (saved log) ->
     exists ts tm, motion src sp ts /\ motion mic mp tm /\
       moving_scene (firstn v room) (cut_traj v ts) (cut_traj v tm) (cut_pos v sp) (cut_pos v mp) 1 idx d).
Proof.
  intros pal disk other room sp mp src mic prefix idx two three HR Hs Hm Ns Nm Gs Gm Hd log dyn.
  assert (VS : forall v, In v (views (length room) two three) -> (v = 2 \/ v = 3)%nat /\ (v <= length room)%nat).
  { intros v. unfold views. rewrite in_app_iff. intros [H|H].
    - destruct (two && (2 <=? length room)%nat) eqn:E; [|destruct H]. apply andb_true_iff in E as [_ E]. apply Nat.leb_le in E.
      destruct H as [<-|[]]. auto.
    - destruct (three && (3 <=? length room)%nat) eqn:E; [|destruct H]. apply andb_true_iff in E as [_ E]. apply Nat.leb_le in E.
      destruct H as [<-|[]]. auto. }
  assert (TS : dyn = true -> exists ts tm,
     trajectory_to_cpu src sp (traj_steps src mic (arg_len other)) = Ok ts /\ trajectory_to_cpu mic mp (traj_steps src mic (arg_len other)) = Ok tm /\
     group_ok (length room) ts sp /\ group_ok (length room) tm mp /\ motion src sp ts /\ motion mic mp tm).
  { intros D. assert (S0 : (0 < traj_steps src mic (arg_len other))%nat).
    { unfold traj_steps. destruct src as [[t|]|]; [apply Gs|destruct Gs|]. destruct mic as [[t|]|]; [apply Gm|destruct Gm|discriminate D]. }
    destruct (motion_ok (length room) sp src _ Hs Ns S0 Gs) as (ts & A & B & C).
    destruct (motion_ok (length room) mp mic _ Hm Nm S0 Gm) as (tm & A' & B' & C'). exists ts, tm. auto 10. }
  assert (TT : exists ts tm, dyn = true ->
     trajectory_to_cpu src sp (traj_steps src mic (arg_len other)) = Ok ts /\ trajectory_to_cpu mic mp (traj_steps src mic (arg_len other)) = Ok tm /\
     group_ok (length room) ts sp /\ group_ok (length room) tm mp /\ motion src sp ts /\ motion mic mp tm).
  { destruct dyn; [|exists ex_ts, ex_tm; discriminate]. destruct (TS eq_refl) as (ts & tm & H). exists ts, tm. auto. }
  clear TS. destruct TT as (ts & tm & TT).
  assert (P1 : forall v, In v (views (length room) two three) -> exists d, pic room sp mp idx v = Ok d /\
     static_scene (firstn v room) (cut_pos v sp) (cut_pos v mp) idx d).
  { intros v Hv. apply VS in Hv as [V1 V2]. destruct (cut_room_ok room v V1 V2 HR) as [R1 R2].
    apply C76_static; auto; rewrite R2; eapply cut_pos_ok; eauto. }
  assert (P2 : dyn = true -> forall v, In v (views (length room) two three) -> exists d, pic' pal room sp mp 1 idx ts tm v = Ok d /\
     moving_scene (firstn v room) (cut_traj v ts) (cut_traj v tm) (cut_pos v sp) (cut_pos v mp) 1 idx d).
  { intros D v Hv. apply VS in Hv as [V1 V2]. destruct (cut_room_ok room v V1 V2 HR) as [R1 R2].
    destruct (TT D) as (_ & _ & G1 & G2 & _). apply C76_dynamic; auto; [| |lia]; rewrite R2; eapply cut_group_ok; eauto. }
  assert (EL : log = [EMkdir] ++ flat_map (traces pal room sp mp prefix 1 idx dyn ts tm) (views (length room) two three) ++
     map EInfo (map (view_file prefix "static") (views (length room) two three) ++
                (if dyn then map (view_file prefix "dynamic") (views (length room) two three) else []))).
  { subst log. unfold save_scene_plots, render_scene_plots.
    rewrite (render_views_go pal disk other room sp mp prefix 1 idx dyn ts tm); auto.
    - intros D. destruct (TT D) as (A & B & _). auto.
    - intros v Hv. split; [destruct (P1 v Hv) as (d & E & _); eauto|]. intros D. destruct (P2 D v Hv) as (d & E & _). eauto. }
  assert (ES : saved log = flat_map (fun v => saved (traces pal room sp mp prefix 1 idx dyn ts tm v)) (views (length room) two three)).
  { rewrite EL, !saved_app, saved_map, app_nil_r. cbn [saved flat_map app]. generalize (views (length room) two three). intros l.
    unfold saved at 1. induction l as [|v l IH]; auto. cbn [flat_map]. rewrite flat_map_app, IH. reflexivity. }
  split; [|split; [|split]].
  - unfold warned. rewrite EL, !in_app_iff, in_map_iff. intros [[H|[]]|[H|(f & H & _)]]; try discriminate.
    apply in_flat_map in H as (v & _ & H). unfold traces in H. destruct dyn; cbn in H; repeat destruct H as [H|H]; try discriminate; auto.
  - rewrite ES. unfold views. destruct HR as [HL _].
    replace (2 <=? length room)%nat with true by (symmetry; apply Nat.leb_le; lia).
    replace (3 <=? length room)%nat with (length room =? 3)%nat
      by (destruct HL as [-> | ->]; reflexivity).
    rewrite andb_true_r. destruct two; destruct (three && (length room =? 3)%nat); cbn [app flat_map]; rewrite ?app_nil_r, ?map_app;
      unfold traces; rewrite ?(view_names prefix 2), ?(view_names prefix 3) by auto; reflexivity.
  - intros v d Hv H. rewrite ES in H. apply in_flat_map in H as (w & Hw & H). destruct (P1 w Hw) as (d0 & E & HS).
    destruct (VS w Hw) as [Hw2 _]. unfold traces in H. cbn [saved flat_map app] in H. rewrite E in H. cbn [get] in H.
    destruct H as [H|H].
    + injection H as H <-. destruct Hv as [-> | ->], Hw2 as [-> | ->]; try names_differ; exact HS.
    + exfalso. destruct dyn; [|destruct H]. destruct H as [H|[]]. injection H as H _.
      destruct Hv as [-> | ->], Hw2 as [-> | ->]; names_differ.
  - intros v d Hv H. rewrite ES in H. apply in_flat_map in H as (w & Hw & H).
    destruct (VS w Hw) as [Hw2 _]. unfold traces in H. cbn [saved flat_map app] in H. destruct H as [H|H].
    + exfalso. injection H as H _. destruct Hv as [-> | ->], Hw2 as [-> | ->]; names_differ.
    + destruct dyn eqn:Dy; [|destruct H]. destruct H as [H|[]]. destruct (P2 eq_refl w Hw) as (d0 & E & HS). rewrite E in H. cbn [get] in H.
      injection H as H <-. destruct (TT eq_refl) as (_ & _ & _ & _ & M1 & M2). exists ts, tm. split; auto. split; auto.
      destruct Hv as [-> | ->], Hw2 as [-> | ->]; try names_differ; exact HS.
Qed.
Theorem C77_names_distinct : forall prefix dyn, NoDup (plot_names prefix dyn "2d" ++ plot_names prefix dyn "3d").
Proof.
  intros prefix dyn. assert (I : forall a b : string, a <> b -> (prefix ++ a)%string <> (prefix ++ b)%string) by (intros a b H K; apply append_inj in K; auto).
  destruct dyn; cbn [plot_names app]; repeat apply NoDup_cons; try apply NoDup_nil; cbn [In]; intros H;
    repeat destruct H as [H|H]; try contradiction; revert H; apply I; discriminate.
Qed.

(** The pictures of the space do not depend on whether the plane is drawn too, although the loop
    overwrites the trajectories. *)
Lemma render_view_again pal disk other room sp mp prefix step idx v src mic ts tm :
  given src || given mic = true ->
  trajectory_to_cpu src sp (traj_steps src mic (arg_len other)) = Ok ts -> trajectory_to_cpu mic mp (traj_steps src mic (arg_len other)) = Ok tm ->
  render_view pal disk other room sp mp prefix step idx v (Some (TTraj ts), Some (TTraj tm)) =
  render_view pal disk other room sp mp prefix step idx v (src, mic).
Proof.
  intros G A B. unfold render_view. destruct src, mic; try discriminate; rewrite A, B; reflexivity.
Qed.
Theorem C77_space_independent : forall pal disk other room sp mp src mic prefix idx,
  let both := save_scene_plots pal disk other room sp mp src mic prefix idx true true in
  let space := save_scene_plots pal disk other room sp mp src mic prefix idx false true in
  ~ warned both -> ~ warned space /\
  forall kind d, (kind = "static" \/ kind = "dynamic")%string ->
    In (view_file prefix kind 3, d) (saved both) <-> In (view_file prefix kind 3, d) (saved space).
Proof.
  intros pal disk other room sp mp src mic prefix idx both space.
  pose proof (quiet_views pal disk other room sp mp prefix 1 idx (views (length room) false true) (src, mic)) as Q.
  pose proof (quiet_views pal disk other room sp mp prefix 1 idx (views (length room) true true) (src, mic)) as Q'.
  subst both space. unfold save_scene_plots, render_scene_plots.
  assert (X : forall t a b, render_views pal disk other room sp mp prefix 1 idx (views (length room) true true) (src, mic) = (t, Ok (a, b)) ->
    exists t' a' b', render_views pal disk other room sp mp prefix 1 idx (views (length room) false true) (src, mic) = (t', Ok (a', b')) /\
    forall kind d, (kind = "static" \/ kind = "dynamic")%string -> In (view_file prefix kind 3, d) (saved t) <-> In (view_file prefix kind 3, d) (saved t')).
  { intros t a b H.
    assert (ND : forall kind kind' (d d' : list cmd), (kind = "static" \/ kind = "dynamic")%string -> (kind' = "static" \/ kind' = "dynamic")%string ->
       (view_file prefix kind' 2, d') <> (view_file prefix kind 3, d)).
    { intros kind kind' d d' [-> | ->] [-> | ->] K; injection K as K _; names_differ. }
    destruct (Nat.leb_spec 3 (length room)) as [L|L].
    - assert (E1 : views (length room) true true = [2; 3]%nat).
      { unfold views. rewrite (proj2 (Nat.leb_le 2 _)), (proj2 (Nat.leb_le 3 _)) by lia. reflexivity. }
      assert (E2 : views (length room) false true = [3]%nat) by (unfold views; rewrite (proj2 (Nat.leb_le 3 _)) by lia; reflexivity).
      rewrite E1 in H. rewrite E2. clear E1 E2. cbn [render_views] in *.
      apply tbind_Ok in H as (t1 & [st' [a1 b1]] & t2 & H1 & H & ->).
      apply render_view_Ok in H1 as (d & _ & -> & H1).
      assert (ER : render_view pal disk other room sp mp prefix 1 idx 3 st' = render_view pal disk other room sp mp prefix 1 idx 3 (src, mic) /\
                   forall kind e, (kind = "static" \/ kind = "dynamic")%string -> ~ In (view_file prefix kind 3, e) (saved t1)).
      { destruct H1 as [(_ & -> & _ & ->)|(G & ts & tm & d' & A & B & _ & -> & _ & ->)]; cbn zeta in *.
        - split; auto. intros kind e K [N|[]]. revert N. apply ND; auto.
        - split; [apply render_view_again; auto|]. intros kind e K [N|[N|[]]]; revert N; apply ND; auto. }
      destruct ER as [ER NI]. cbn zeta in H. rewrite ER in H.
      apply tbind_Ok in H as (t3 & r & t4 & H2 & H & ->). rewrite H2. unfold tret in H. injection H as <- <- <-.
      destruct r as [r1 r2]. cbn [fst snd] in *.
      eexists _, _, _. split; [reflexivity|]. intros kind e K. rewrite app_nil_r, saved_app, in_app_iff.
      split; [intros [N|N]; [destruct (NI _ _ K N)|auto]|auto].
    - assert (E2 : views (length room) false true = []) by (unfold views; rewrite (proj2 (Nat.leb_gt 3 _)) by lia; reflexivity).
      rewrite E2. cbn [render_views]. exists [], [], []. split; [reflexivity|]. intros kind e K. split; [|intros []].
      intros N. exfalso. unfold views in H. rewrite (proj2 (Nat.leb_gt 3 _)) in H by lia. cbn [andb] in H. rewrite app_nil_r in H.
      destruct (2 <=? length room)%nat; cbn [render_views] in H; [|unfold tret in H; injection H as <- _ _; destruct N].
      apply tbind_Ok in H as (t1 & [st' [a1 b1]] & t2 & H1 & H & ->). unfold tret in H. cbn [tbind] in H. injection H as <- _ _.
      rewrite app_nil_r in N. apply render_view_Ok in H1 as (d & _ & -> & H1).
      destruct H1 as [(_ & -> & _ & ->)|(G & ts & tm & d' & A & B & _ & -> & _ & ->)]; cbn in N.
      + destruct N as [N|[]]. revert N. apply ND; auto.
      + destruct N as [N|[N|[]]]; revert N; apply ND; auto. }
  cbn [tbind].
  destruct (render_views _ _ _ _ _ _ _ _ _ (views (length room) true true) _) as [t [[a b]|e]] eqn:E.
  2:{ intros W. exfalso. apply W. unfold warned. apply in_or_app. right. left. reflexivity. }
  intros _. destruct (X t a b eq_refl) as (t' & a' & b' & E' & S). rewrite E'. rewrite E' in Q. destruct Q as [Q1 Q2]. cbn [fst] in Q2. split.
  - unfold warned. rewrite in_app_iff, in_map_iff. intros [H|(f & H & _)]; [|discriminate]. cbn in H. destruct H; [discriminate|auto].
  - intros kind d K. rewrite !saved_app, !saved_map, !app_nil_r. exact (S kind d K).
Qed.

(** Layout images: at any time the log names the files written so far. *)
Theorem C77_layout_report : forall pal disk other room sp mp src mic idx two three,
  let log := save_scene_layout_images pal disk other room sp mp src mic idx two three in
  logged log = map fst (saved log).
Proof.
  intros. subst log. unfold save_scene_layout_images.
  assert (LB : forall A B (m : traced A) (f : A -> traced B), logged (fst m) = map fst (saved (fst m)) ->
     (forall a, logged (fst (f a)) = map fst (saved (fst (f a)))) -> logged (fst (tbind m f)) = map fst (saved (fst (tbind m f)))).
  { intros A B [t [a|e]] f H K; cbn [tbind fst] in *; auto. specialize (K a). destruct (f a) as [t' r]. cbn [fst] in *.
    rewrite logged_app, saved_app, map_app, H, K. reflexivity. }
  assert (LL : forall A (r : result A), logged (fst (lift r)) = map fst (saved (fst (lift r)))) by reflexivity.
  assert (LI : forall tr v f, logged (fst (layout_image pal disk room sp mp tr idx v f)) = map fst (saved (fst (layout_image pal disk room sp mp tr idx v f)))).
  { intros tr v f. unfold layout_image. destruct (match tr with Some _ => _ | None => _ end); [|reflexivity]. cbn [tbind lift].
    unfold save_axes. destruct (disk f); reflexivity. }
  assert (HB : logged (fst (layout_body pal disk other room sp mp src mic idx two three)) = map fst (saved (fst (layout_body pal disk other room sp mp src mic idx two three)))).
  { apply LB; [reflexivity|]. intros _. apply LB.
    - unfold layout_tracks. destruct src, mic; try reflexivity; (apply LB; [apply LL|]; intros ?; apply LB; [apply LL|]; reflexivity).
    - intros tr. apply LB; [destruct (two && _); [apply LI|reflexivity]|]. intros _. destruct (three && _); [apply LI|reflexivity]. }
  destruct (layout_body _ _ _ _ _ _ _ _ _ _ _) as [t [u|e]]; cbn [fst] in HB; auto.
  rewrite logged_app, saved_app, map_app, HB. cbn. rewrite !app_nil_r. reflexivity.
Qed.
Theorem C77_layout : forall pal disk other room sp mp src mic idx two three,
  room_ok room -> pos_ok (length room) sp -> pos_ok (length room) mp -> (0 < p_n sp)%nat -> (0 < p_n mp)%nat ->
  given_ok (length room) sp src -> given_ok (length room) mp mic -> (forall f, disk f = None) ->
  let log := save_scene_layout_images pal disk other room sp mp src mic idx two three in
  ~ warned log /\
  exists pictures, saved log = pictures /\
    map fst pictures = (if two then ["room_layout_2d.png"%string] else []) ++
                       (if three && (length room =? 3)%nat then ["room_layout_3d.png"%string] else []) /\
    forall f d, In (f, d) pictures ->
      let v := if string_dec f "room_layout_2d.png" then 2%nat else 3%nat in
      (given src = false /\ given mic = false /\ static_scene (firstn v room) (cut_pos v sp) (cut_pos v mp) idx d) \/
      (given src || given mic = true /\ exists ts tm, motion src sp ts /\ motion mic mp tm /\
         moving_scene (firstn v room) (cut_traj v ts) (cut_traj v tm) (cut_pos v sp) (cut_pos v mp) 1 idx d).
Proof.
  intros pal disk other room sp mp src mic idx two three HR Hs Hm Ns Nm Gs Gm Hd log.
  set (good := fun v d => (given src = false /\ given mic = false /\ static_scene (firstn v room) (cut_pos v sp) (cut_pos v mp) idx d) \/
      (given src || given mic = true /\ exists ts tm, motion src sp ts /\ motion mic mp tm /\
         moving_scene (firstn v room) (cut_traj v ts) (cut_traj v tm) (cut_pos v sp) (cut_pos v mp) 1 idx d)).
  assert (TR : exists tr, layout_tracks other sp mp src mic = ([], Ok tr) /\
     forall v f, (v = 2 \/ v = 3)%nat -> (v <= length room)%nat ->
       exists d, layout_image pal disk room sp mp tr idx v f = ([ESaved f d; EInfo f], Ok tt) /\ good v d).
  { assert (DY : given src || given mic = true -> exists ts tm,
       tbind (lift (trajectory_to_cpu src sp (traj_steps src mic (arg_len other)))) (fun ts =>
       tbind (lift (trajectory_to_cpu mic mp (traj_steps src mic (arg_len other)))) (fun tm => tret (Some (ts, tm)))) = ([], Ok (Some (ts, tm))) /\
       forall v f, (v = 2 \/ v = 3)%nat -> (v <= length room)%nat ->
         exists d, layout_image pal disk room sp mp (Some (ts, tm)) idx v f = ([ESaved f d; EInfo f], Ok tt) /\ good v d).
    { intros D. assert (S0 : (0 < traj_steps src mic (arg_len other))%nat).
      { unfold traj_steps. destruct src as [[t|]|]; [apply Gs|destruct Gs|]. destruct mic as [[t|]|]; [apply Gm|destruct Gm|discriminate D]. }
      destruct (motion_ok (length room) sp src _ Hs Ns S0 Gs) as (ts & A & B & C).
      destruct (motion_ok (length room) mp mic _ Hm Nm S0 Gm) as (tm & A' & B' & C'). exists ts, tm. rewrite A, A'. split; [reflexivity|].
      intros v f V1 V2. destruct (cut_room_ok room v V1 V2 HR) as [R1 R2].
      destruct (C76_dynamic pal (firstn v room) (cut_traj v ts) (cut_traj v tm) 1 (cut_pos v sp) (cut_pos v mp) idx) as (d & E & HS);
        auto; try lia; try (rewrite R2; eapply cut_group_ok; eauto).
      exists d. split; [|right; eauto 8]. unfold layout_image. rewrite E. unfold save_axes. cbn [lift tbind]. rewrite Hd. reflexivity. }
    destruct (given src || given mic) eqn:D.
    - destruct (DY eq_refl) as (ts & tm & E & H). exists (Some (ts, tm)). split; auto. destruct src, mic; try discriminate; exact E.
    - apply orb_false_iff in D as [D1 D2]. exists None. split; [destruct src, mic; try discriminate; reflexivity|].
      intros v f V1 V2. destruct (cut_room_ok room v V1 V2 HR) as [R1 R2].
      destruct (C76_static (firstn v room) (cut_pos v sp) (cut_pos v mp) idx) as (d & E & HS); auto; try (rewrite R2; eapply cut_pos_ok; eauto).
      exists d. split; [|left; auto]. unfold layout_image. rewrite E. unfold save_axes. cbn [lift tbind]. rewrite Hd. reflexivity. }
  destruct TR as (tr & ET & HI).
  assert (EL : log = match tbind ([EMkdir], Ok tt) (fun _ : unit => tbind ([], Ok tr) (fun tr =>
    tbind (if two && (2 <=? length room)%nat then layout_image pal disk room sp mp tr idx 2 "room_layout_2d.png" else tret tt) (fun _ =>
    if three && (3 <=? length room)%nat then layout_image pal disk room sp mp tr idx 3 "room_layout_3d.png" else tret tt)))
    with (t, Ok _) => t | (t, Err _) => t ++ [EWarn] end).
  { subst log. unfold save_scene_layout_images, layout_body. rewrite ET. reflexivity. }
  clear ET. destruct HR as [HL HR].
  replace (2 <=? length room)%nat with true in EL by (symmetry; apply Nat.leb_le; lia). rewrite andb_true_r in EL.
  replace (3 <=? length room)%nat with (length room =? 3)%nat in EL by (destruct HL as [-> | ->]; reflexivity).
  destruct (HI 2%nat "room_layout_2d.png"%string) as (d2 & E2 & G2); [auto|lia|]. cbn [tbind] in EL. rewrite E2 in EL.
  assert (E3 : (three && (length room =? 3)%nat) = true -> exists d3, layout_image pal disk room sp mp tr idx 3 "room_layout_3d.png" =
      ([ESaved "room_layout_3d.png" d3; EInfo "room_layout_3d.png"], Ok tt) /\ good 3%nat d3).
  { intros H. apply andb_true_iff in H as [_ H]. apply Nat.eqb_eq in H. apply HI; [auto|lia]. }
  destruct (three && (length room =? 3)%nat).
  - destruct (E3 eq_refl) as (d3 & E3' & G3). cbn [tbind] in EL. rewrite E3' in EL. destruct two; cbn in EL; rewrite EL.
    + split; [intros H; cbn in H; repeat destruct H as [H|H]; try discriminate; auto|]. eexists. split; [reflexivity|]. split; [reflexivity|].
      intros f d [H|[H|[]]]; injection H as <- <-; [exact G2|exact G3].
    + split; [intros H; cbn in H; repeat destruct H as [H|H]; try discriminate; auto|]. eexists. split; [reflexivity|]. split; [reflexivity|].
      intros f d [H|[]]; injection H as <- <-; exact G3.
  - destruct two; cbn in EL; rewrite EL.
    + split; [intros H; cbn in H; repeat destruct H as [H|H]; try discriminate; auto|]. eexists. split; [reflexivity|]. split; [reflexivity|].
      intros f d [H|[]]; injection H as <- <-; exact G2.
    + split; [intros H; cbn in H; repeat destruct H as [H|H]; try discriminate; auto|]. eexists. split; [reflexivity|]. split; [reflexivity|].
      intros f d [].
Qed.

(** Animations: the plane first; the space only for rooms of three sides and only if the first
    animation succeeded; the log names exactly the animations that succeeded. *)
Lemma try_renders_honest run first second : (forall q, second = Some q -> q <> first) ->
  let log := try_renders run first second in
  honest run log /\ forall q, In (ARender q) log <-> q = first \/ (second = Some q /\ run first = None).
Proof.
  intros Hd. unfold honest, try_renders, rendered. destruct (run first) as [e|] eqn:E1.
  - cbn. split; [split|].
    + intros f. split; [intros [H|[H|[]]]; discriminate H|]. intros (q & [H|[H|[]]] & K & _); try discriminate. injection H as <-. congruence.
    + split; [intros _; exists first; split; [auto|intros K; rewrite E1 in K; discriminate K]|intros _; auto].
    + intros q. split; [intros [H|[H|[]]]; [injection H as <-; auto|discriminate]|]. intros [->|[_ K]]; [auto|discriminate].
  - destruct second as [q2|].
    + destruct (run q2) as [e2|] eqn:E2; cbn.
      * split; [split|].
        -- intros f. split.
           ++ intros [H|[H|[H|[H|[]]]]]; try discriminate H. injection H as <-. exists first. auto.
           ++ intros (q & [H|[H|[H|[H|[]]]]] & K & F); try discriminate; injection H as <-; [subst f; auto|congruence].
        -- split; [intros _; exists q2; split; [auto|intros K; rewrite E2 in K; discriminate K]|auto].
        -- intros q. split.
           ++ intros [H|[H|[H|[H|[]]]]]; try discriminate H; injection H as <-; auto.
           ++ intros [->|[H _]]; [auto|injection H as ->; auto].
      * split; [split|].
        -- intros f. split.
           ++ intros [H|[H|[H|[H|[]]]]]; try discriminate H; injection H as <-; [exists first|exists q2]; auto.
           ++ intros (q & [H|[H|[H|[H|[]]]]] & K & F); try discriminate; injection H as <-; subst f; auto.
        -- split; [intros [H|[H|[H|[H|[]]]]]; discriminate H|].
           intros (q & [H|[H|[H|[H|[]]]]] & K); try discriminate; injection H as <-; contradiction.
        -- intros q. split.
           ++ intros [H|[H|[H|[H|[]]]]]; try discriminate H; injection H as <-; auto.
           ++ intros [->|[H _]]; [auto|injection H as ->; auto].
    + cbn. split; [split|].
      * intros f. split.
        -- intros [H|[H|[]]]; try discriminate H. injection H as <-. exists first. auto.
        -- intros (q & [H|[H|[]]] & K & F); try discriminate. injection H as <-. subst f. auto.
      * split; [intros [H|[H|[]]]; discriminate H|]. intros (q & [H|[H|[]]] & K); try discriminate. injection H as <-. contradiction.
      * intros q. split.
        -- intros [H|[H|[]]]; try discriminate H. injection H as <-. auto.
        -- intros [->|[H _]]; [auto|discriminate].
Qed.
Theorem C77_gifs : forall run numel prefix fps,
  let log := save_scene_gifs run numel prefix fps in
  let rate := if (0 <? fps)%Z then Some (IZR fps) else None in
  let plane := mkReq (prefix ++ ".gif") true false rate None in
  let space := mkReq (prefix ++ "_3d.gif") false true rate None in
  honest run log /\
  (forall q, In (ARender q) log <-> q = plane \/ (q = space /\ numel = 3%nat /\ run plane = None)) /\
  q_file plane <> q_file space /\ forall r, rate = Some r -> 0 < r.
Proof.
  intros run numel prefix fps log rate plane space.
  destruct (try_renders_honest run plane (if (numel =? 3)%nat then Some space else None)) as [H K].
  { intros q Hq. destruct (numel =? 3)%nat; [injection Hq as <-|discriminate]. intros E. discriminate E. }
  split; [exact H|]. split; [|split].
  - intros q. change (In (ARender q) log) with (In (ARender q) (try_renders run plane (if (numel =? 3)%nat then Some space else None))). rewrite K. destruct (Nat.eqb_spec numel 3) as [E|E].
    + split; (intros [A|[A B]]; [auto|right]); [injection A as <-; auto|]. destruct B as [_ B]. subst q. auto.
    + split; (intros [A|[A B]]; [auto|]); [discriminate|lia].
  - cbn. intros E. apply append_inj in E. discriminate E.
  - intros r. subst rate. destruct (Z.ltb_spec 0 fps); [|discriminate]. intros E. injection E as <-. apply IZR_lt in H0. exact H0.
Qed.
Theorem C77_videos : forall run numel fps save_3d mixture mux,
  let log := save_scene_videos run numel fps save_3d mixture mux in
  let sound := if mux then mixture else None in
  let plane := mkReq "room_layout_2d.mp4" true false fps sound in
  let space := mkReq "room_layout_3d.mp4" false true fps sound in
  honest run log /\
  forall q, In (ARender q) log <-> q = plane \/ (q = space /\ numel = 3%nat /\ save_3d = true /\ run plane = None).
Proof.
  intros run numel fps save_3d mixture mux log sound plane space.
  destruct (try_renders_honest run plane (if (numel =? 3)%nat && save_3d then Some space else None)) as [H K].
  { intros q Hq. destruct ((numel =? 3)%nat && save_3d); [injection Hq as <-|discriminate]. intros E. discriminate E. }
  split; [exact H|]. intros q.
  change (In (ARender q) log) with (In (ARender q) (try_renders run plane (if (numel =? 3)%nat && save_3d then Some space else None))). rewrite K.
  destruct ((numel =? 3)%nat && save_3d) eqn:E.
  - apply andb_true_iff in E as [E1 E2]. apply Nat.eqb_eq in E1. split; (intros [A|[A B]]; [auto|right]); [injection A as <-; auto|].
    destruct B as (_ & _ & B). subst q. auto.
  - apply andb_false_iff in E. split; (intros [A|[A B]]; [auto|]); [discriminate|]. destruct B as (B1 & B2 & _). apply Nat.eqb_eq in B1. destruct E; congruence.
Qed.

(** The scene of C76 and its four files of the plane and the space. *)
Definition ex_src3 : postab := mkPos 1 3 (fun _ => [1; 1; 1]).
Definition ex_mic3 : postab := mkPos 1 3 (fun _ => [2; 1; 1]).
Definition ex_ts3 : trajectory := mkTraj 3 1 3 (fun s _ => [1 + INR s; 1; 1]).
Lemma ex_valid3 : room_ok [4; 3; 2] /\ pos_ok 3 ex_src3 /\ pos_ok 3 ex_mic3 /\ given_ok 3 ex_src3 (Some (TTraj ex_ts3)) /\ given_ok 3 ex_mic3 None.
Proof. repeat split; cbn; auto; try lia. repeat constructor; lra. Qed.
Example C77_plots_ex :
  map fst (saved (save_scene_plots [] (fun _ => None) 0 [4; 3; 2] ex_src3 ex_mic3 (Some (TTraj ex_ts3)) None "run1" true true true)) =
  ["run1_static_2d.png"; "run1_dynamic_2d.png"; "run1_static_3d.png"; "run1_dynamic_3d.png"]%string.
Proof.
  destruct ex_valid3 as (A & B & C & D & E).
  destruct (C77_plots [] (fun _ => None) 0 [4; 3; 2] ex_src3 ex_mic3 (Some (TTraj ex_ts3)) None "run1" true true true) as (_ & H & _); auto; cbn; lia.
Qed.
(** A disk that fails at the third picture: two pictures are there, the log does not name them. *)
Example C77_report_ex :
  let log := save_scene_plots [] (fun f => if string_dec f "run1_static_3d.png" then Some OSError else None) 0
               [4; 3; 2] ex_src3 ex_mic3 (Some (TTraj ex_ts3)) None "run1" true true true in
  warned log /\ logged log = [] /\ In "run1_static_2d.png"%string (map fst (saved log)).
Proof.
  cbn zeta.
  destruct (C76_static [4; 3] (cut_pos 2 ex_src3) (cut_pos 2 ex_mic3) true) as (d & E & _).
  { split; [auto|]. repeat constructor; lra. } { repeat split. } { repeat split. } { cbn; lia. } { cbn; lia. }
  match goal with |- warned ?l /\ _ => set (log := l) end.
  assert (W : warned log).
  { assert (N : ~ Permutation (map fst (saved log)) (logged log) \/ warned log -> warned log).
    { intros [N|N]; auto. destruct (C77_report [] (fun f => if string_dec f "run1_static_3d.png" then Some OSError else None) 0
         [4; 3; 2] ex_src3 ex_mic3 (Some (TTraj ex_ts3)) None "run1" true true true) as [[_ K]|[K _]]; auto. contradiction. }
    subst log. unfold save_scene_plots, render_scene_plots. cbn [views length Nat.leb andb app render_views].
    destruct (render_view _ _ _ _ _ _ _ _ _ 2 _) as [t1 [[st' [a1 b1]]|e]] eqn:E2.
    2:{ cbn. unfold warned. right. apply in_or_app. right. left. reflexivity. }
    cbn [tbind]. destruct st' as [s m].
    destruct (render_view _ _ _ _ _ _ _ _ _ 3 _) as [t2 [[st2 [a2 b2]]|e]] eqn:E3.
    - exfalso. unfold render_view in E3. apply tbind_Ok in E3 as (u1 & d3 & u2 & K1 & K & _).
      apply tbind_Ok in K as (u3 & [] & u4 & K2 & _). discriminate K2.
    - cbn. unfold warned. right. apply in_or_app. right. left. reflexivity. }
  split; auto. split.
  - destruct (C77_report [] (fun f => if string_dec f "run1_static_3d.png" then Some OSError else None) 0
         [4; 3; 2] ex_src3 ex_mic3 (Some (TTraj ex_ts3)) None "run1" true true true) as [[K _]|[_ K]]; auto. contradiction.
  - apply in_map_iff. exists ("run1_static_2d.png"%string, d). split; auto. apply in_saved. subst log. clear W.
    assert (K : forall (r : traced (list string * list string)) e, In e (fst r) ->
       In e (match r with (t, Ok (a, b)) => t ++ map EInfo (a ++ b) | (t, Err _) => t ++ [EWarn] end)).
    { intros [t [[a b]|x]] e H; cbn in *; apply in_or_app; auto. }
    apply K. unfold render_scene_plots. apply in_bind_r. cbn [views length Nat.leb andb app render_views]. apply in_bind_l.
    unfold render_view. change (firstn 2 [4; 3; 2]) with [4; 3]. rewrite E. apply in_bind_r. apply in_bind_l. left. reflexivity.
Qed.
Example C77_layout_ex :
  map fst (saved (save_scene_layout_images [] (fun _ => None) 0 [4; 3; 2] ex_src3 ex_mic3 None None true false true)) = ["room_layout_3d.png"%string].
Proof.
  destruct ex_valid3 as (A & B & C & D & E).
  destruct (C77_layout [] (fun _ => None) 0 [4; 3; 2] ex_src3 ex_mic3 None None true false true) as (_ & l & <- & H & _); auto; cbn; try lia; auto.
Qed.
Example C77_gifs_ex : save_scene_gifs (fun q => if q_3d q then Some RuntimeError else None) 3 "scene" (-1) =
  [ARender (mkReq "scene.gif" true false None None); AInfo "scene.gif"; ARender (mkReq "scene_3d.gif" false true None None); AWarn].
Proof. reflexivity. Qed.
Example C77_videos_ex : save_scene_videos (fun _ => None) 3 (Some 30) false (Some "mix.wav"%string) true =
  [ARender (mkReq "room_layout_2d.mp4" true false (Some 30) (Some "mix.wav"%string)); AInfo "room_layout_2d.mp4"].
Proof. reflexivity. Qed.
Print Assumptions C76_room.
Print Assumptions C76_static.
Print Assumptions C76_dynamic.
Print Assumptions C76_every_step.
Print Assumptions C76_last_step.
Print Assumptions C76_bad_step.
Print Assumptions C76_stride_unchecked.
Print Assumptions C76_mismatch_unchecked.
Print Assumptions C77_report.
Print Assumptions C77_plots.
Print Assumptions C77_names_distinct.
Print Assumptions C77_space_independent.
Print Assumptions C77_layout_report.
Print Assumptions C77_layout.
Print Assumptions C77_gifs.
Print Assumptions C77_videos.
Print Assumptions C76_colours.
Print Assumptions C76_first_positions.
Print Assumptions C76_not_a_trajectory.
