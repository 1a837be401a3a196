(** Lemmas about directional simulations. *)
From Coq Require Import String List ZArith Reals Lia Lra Bool.
From Verif Require Import Prelude PreludeFacts SignalModel FloatModel DirModel DirSpec ImageModel ImageSpec AcousticModel
  AccumModel IsmModel IsmSpec ImageProofs IsmProofs SimProofs SimPairs DirProofs BeamSpec.
Import ListNotations.
Local Open Scope R_scope.
Local Notation length := List.length.

Lemma trows_1d o n : shape o = [n] -> wf o -> trows o = [data o].
Proof.
  intros E W. unfold trows. rewrite E. cbn [last removelast prodn fold_right seq map Nat.mul]. f_equal.
  unfold block. cbn [skipn]. apply firstn_all2. unfold wf in W. rewrite W, E. cbn. lia.
Qed.
Lemma angle_direction a : angle_vec a = direction 2 [a].
Proof. reflexivity. Qed.
Lemma direction_2 r : length r = 2%nat -> direction 2 r = r.
Proof. destruct r as [|a [|b [|]]]; try discriminate. reflexivity. Qed.
Lemma direction_3 r : length r = 3%nat -> direction 3 r = r.
Proof. destruct r as [|a [|b [|c [|]]]]; try discriminate. reflexivity. Qed.
Lemma direction_azel r : length r = 2%nat -> azel_vec (nth 0 r 0) (nth 1 r 0) = direction 3 r.
Proof. destruct r as [|a [|b [|]]]; try discriminate. reflexivity. Qed.
Lemma direction_len dim r u : (dim = 2 \/ dim = 3)%nat -> u = direction dim r -> (length r = dim \/ S (length r) = dim)%nat -> length u = dim.
Proof.
  intros [-> | ->] -> [H|H]; destruct r as [|a [|b [|c [|]]]]; cbn in H; try discriminate H; try lia; reflexivity.
Qed.
Lemma facing_unit dim o u i : wf o -> orientation_to_unit o dim = Ok u -> (ndim u <= 2)%nat -> fits (trows u) i ->
  dir_at (trows u) i = normalize_orientation (facing dim o i).
Proof.
  intros W H D F. unfold orientation_to_unit in H. unfold facing, ndim in *.
  assert (Tab : forall n d k (f g : list R -> list R), shape o = [n; d] -> (forall r, length r = d -> length (f r) = k) ->
    (forall r, length r = d -> f r = g r) -> u = of_rows [n] k (map (fun r => normalize_orientation (f r)) (trows o)) ->
    dir_at (trows u) i = normalize_orientation (g (block ((if (n =? 1)%nat then 0 else i) * d) d (data o)))).
  { intros n d k f g E L Efg ->. assert (Ln : length (trows o) = n) by (apply (length_trows_2d _ n d); auto).
    assert (Lr : Forall (fun r => length r = d) (trows o)) by (apply wf_trows in W; rewrite E in W; exact W).
    assert (Q : trows (of_rows [n] k (map (fun r => normalize_orientation (f r)) (trows o))) = map (fun r => normalize_orientation (f r)) (trows o)).
    { apply trows_of_rows; [rewrite map_length; auto|]. apply Forall_map. eapply Forall_impl; [|exact Lr]. intros r Hr. cbn beta. rewrite length_normalize. auto. }
    rewrite Q in *. unfold fits in F. rewrite map_length, Ln in F. rewrite dir_at_map by (rewrite Ln; auto). rewrite Ln.
    set (k' := (if (n =? 1)%nat then 0 else i)%nat). assert (K : (k' < n)%nat) by (unfold k'; destruct (Nat.eqb_spec n 1); lia).
    assert (Q2 : nth k' (trows o) [] = block (k' * d) d (data o)).
    { rewrite (trows_2d _ n d) by auto. rewrite nth_indep with (d' := block (0 * d) d (data o)) by (rewrite map_length, seq_length; auto).
      rewrite (map_nth (fun j => block (j * d) d (data o))), seq_nth by auto. reflexivity. }
    rewrite Q2. rewrite Efg; auto. rewrite <- Q2. apply (proj1 (Forall_forall _ _) Lr), nth_In. lia. }
  assert (One : forall k (v w : list R), length v = k -> v = w -> u = of_rows [] k [normalize_orientation v] -> dir_at (trows u) i = normalize_orientation w).
  { intros k v w L <- ->. rewrite trows_of_row by (rewrite length_normalize; auto). reflexivity. }
  destruct (Nat.eqb_spec dim 2) as [->|N2].
  - destruct (shape o) as [|n [|d [|x l]]] eqn:E; cbn [length Nat.eqb last removelast andb] in H.
    + injection H as <-. apply (One 2%nat (angle_vec (nth 0 (data o) 0))); auto.
      unfold wf in W. rewrite E in W. cbn in W. destruct (data o) as [|a [|]]; try discriminate. reflexivity.
    + assert (L : length (data o) = n) by (unfold wf in W; rewrite W, E; cbn; lia).
      destruct (Nat.eqb_spec n 1) as [->|N1].
      * injection H as <-. cbn [Nat.eqb negb andb]. destruct (data o) as [|a [|]]; try discriminate. cbn [map nth].
        apply (One 2%nat (angle_vec a)); auto.
      * unfold numel in H. rewrite E in H. cbn [prodn fold_right] in H. rewrite Nat.mul_1_r in H.
        destruct (Nat.eqb_spec n 2) as [->|N2]; cbn [negb andb] in H |- *.
        -- injection H as <-. rewrite (trows_1d o 2) in * by auto. cbn [map] in *. apply (One 2%nat (data o)); auto. rewrite direction_2; auto.
        -- injection H as <-. assert (Q : trows (of_rows [n] 2 (map (fun a => normalize_orientation (angle_vec a)) (data o))) = map (fun a => normalize_orientation (angle_vec a)) (data o)).
           { apply trows_of_rows; [rewrite map_length; auto|]. apply Forall_map, Forall_forall. intros; reflexivity. }
           rewrite Q in *. unfold fits in F. rewrite map_length, L in F. rewrite dir_at_nth by (rewrite map_length, L; auto).
           rewrite nth_indep with (d' := normalize_orientation (angle_vec 0)) by (rewrite map_length; lia).
           rewrite (map_nth (fun a => normalize_orientation (angle_vec a))). reflexivity.
    + destruct (Nat.eqb_spec d 1) as [->|N1].
      * injection H as <-. apply (Tab n 1%nat 2%nat (fun r => angle_vec (nth 0 r 0)) (direction 2) eq_refl); auto.
        -- intros [|a [|]]; try discriminate. reflexivity.
        -- f_equal. rewrite (trows_2d _ n 1) by auto. rewrite map_map.
           assert (L : length (data o) = n) by (unfold wf in W; rewrite W, E; cbn; lia).
           apply nth_ext with (d := normalize_orientation (angle_vec 0)) (d' := normalize_orientation (angle_vec 0)); [rewrite !map_length, seq_length; auto|].
           rewrite map_length, L. intros k K. rewrite (map_nth (fun a => normalize_orientation (angle_vec a))).
           rewrite nth_indep with (d' := (fun j => normalize_orientation (angle_vec (nth 0 (block (j * 1) 1 (data o)) 0))) 0%nat) by (rewrite map_length, seq_length; auto).
           rewrite (map_nth (fun j => normalize_orientation (angle_vec (nth 0 (block (j * 1) 1 (data o)) 0)))), seq_nth by auto. cbn [Nat.add].
           rewrite Nat.mul_1_r, nth_concat_single by lia. reflexivity.
      * destruct (Nat.eqb_spec d 2) as [->|N3]; [|discriminate]. injection H as <-.
        apply (Tab n 2%nat 2%nat (fun r => r) (direction 2) eq_refl); auto. intros r Hr. rewrite direction_2; auto.
    + match type of H with (if ?b then _ else _) = _ => destruct b end; [|match type of H with (if ?b then _ else _) = _ => destruct b end; [|discriminate]];
        apply (f_equal (fun z => match z with Ok w => length (shape w) | _ => 0%nat end)) in H; unfold of_rows in H; cbn [shape] in H;
        rewrite app_length in H; cbn [length removelast] in H; lia.
  - destruct (Nat.eqb_spec dim 3) as [->|N3]; [|discriminate]. change (3 =? 2)%nat with false. cbn [andb].
    destruct (shape o) as [|n [|d [|x l]]] eqn:E; cbn [length Nat.eqb last removelast andb] in H; [discriminate| | |].
    + assert (L : length (data o) = n) by (unfold wf in W; rewrite W, E; cbn; lia).
      rewrite (trows_1d o n) in H by auto. cbn [map] in H.
      destruct (Nat.eqb_spec n 3) as [->|N1]; [injection H as <-; apply (One 3%nat (data o)); auto; rewrite direction_3; auto|].
      destruct (Nat.eqb_spec n 2) as [->|N4]; [|discriminate]. injection H as <-.
      eapply (One 3%nat); [| |reflexivity]; [reflexivity|]. apply direction_azel; auto.
    + destruct (Nat.eqb_spec d 3) as [->|N1].
      * injection H as <-. apply (Tab n 3%nat 3%nat (fun r => r) (direction 3) eq_refl); auto. intros r Hr. rewrite direction_3; auto.
      * destruct (Nat.eqb_spec d 2) as [->|N4]; [|discriminate]. injection H as <-.
        apply (Tab n 2%nat 3%nat (fun r => azel_vec (nth 0 r 0) (nth 1 r 0)) (direction 3) eq_refl); auto. intros; apply direction_azel; auto.
    + match type of H with (if ?b then _ else _) = _ => destruct b end; [|match type of H with (if ?b then _ else _) = _ => destruct b end; [|discriminate]];
        apply (f_equal (fun z => match z with Ok w => length (shape w) | _ => 0%nat end)) in H; unfold of_rows in H; cbn [shape] in H;
        rewrite app_length in H; cbn [length removelast] in H; lia.
Qed.
Lemma beam_gain p f g : beam p f -> directivity_gain p = Ok g -> forall x, g (Some x) = Some (f x).
Proof.
  intros B G x. destruct B as [s name a I S|s name I S].
  - destruct (gain_first s name a I S) as (g' & G' & V). rewrite G in G'. injection G' as <-. apply V.
  - destruct (gain_half s name I S) as (g' & G' & V). rewrite G in G'. injection G' as <-. apply V.
Qed.
Lemma cos_facing v w : norm v <> 0 -> / 10 ^ 8 <= norm w -> cos_between v (normalize_orientation w) = Some (cosine v w).
Proof.
  intros V Hw. rewrite <- cos_between_cosine by auto. unfold cos_between. rewrite (normalize_fix (normalize_orientation w)); auto.
  apply normalize_unit. exact Hw.
Qed.
Lemma dir_at_repeat_one (l : list (list R)) n i : (i < n)%nat -> l = repeat (nth 0 l []) n -> dir_at l i = nth 0 l [].
Proof. intros H E. rewrite E at 1. apply dir_at_repeat. auto. Qed.
Lemma src_looks dim p o n i sd gs g v : ori_wf o -> (i < n)%nat -> src_directions p o dim n = Ok sd -> side_of p sd = Ok gs ->
  looks dim p o i g -> norm v <> 0 -> src_gain gs i v = g v.
Proof.
  intros W I H S L V. unfold src_directions, side_of in *. destruct L as [->|t f N -> B Hn].
  - rewrite String.eqb_refl in S. injection S as <-. reflexivity.
  - destruct (String.eqb_spec p "omni"); [contradiction|]. bcase_in H.
    set (rows := if (ndim a =? 1)%nat then repeat (nth 0 (trows a) []) n else trows a) in *.
    destruct (Nat.leb_spec (ndim a) 2) as [D|D]; [|discriminate]. destruct (Nat.eqb_spec (length rows) n) as [Ln|Ln]; [|discriminate].
    cbn [andb negb] in H. injection H as <-. bcase_in S. injection S as <-. cbn [src_gain].
    rewrite (beam_gain p f _ B E0 (cosine v (facing dim t i))) || idtac.
    assert (Q : dir_at rows i = normalize_orientation (facing dim t i)).
    { destruct (Nat.eqb_spec (ndim a) 1) as [O|O].
      - unfold rows. rewrite dir_at_repeat by auto. pose proof (trows_ndim1 a O) as T1.
        rewrite <- (facing_unit dim t a i); auto; [|left; rewrite T1; reflexivity]. rewrite T1 at 2. reflexivity.
      - subst rows. apply facing_unit; auto. right. lia. }
    rewrite Q, cos_facing by auto. apply (beam_gain p f); auto.
Qed.
Lemma mic_looks dim p o n i md gm g v : ori_wf o -> (i < n)%nat -> mic_directions p o dim = Ok md -> side_of p md = Ok gm ->
  dirs_fit gm n = true -> looks dim p o i g -> norm v <> 0 -> mic_gain gm i v = backwards g v.
Proof.
  intros W I H S F L V. unfold mic_directions, side_of in *. destruct L as [->|t f N -> B Hn].
  - rewrite String.eqb_refl in S. injection S as <-. reflexivity.
  - destruct (String.eqb_spec p "omni"); [contradiction|]. bcase_in H.
    destruct (Nat.leb_spec (ndim a) 2) as [D|D]; [|discriminate]. injection H as <-. bcase_in S. injection S as <-. cbn [mic_gain dirs_fit] in *.
    assert (Q : dir_at (trows a) i = normalize_orientation (facing dim t i)).
    { apply facing_unit; auto. unfold fits. destruct (Nat.eqb_spec (length (trows a)) n); [right; lia|].
      destruct (Nat.eqb_spec (length (trows a)) 1); [left; auto|]. destruct (Nat.eqb_spec n 1); [|discriminate].
      destruct (Nat.leb_spec 1 (length (trows a))); [right; lia|discriminate]. }
    unfold backwards. fold (vopp v). rewrite Q, cos_facing by (auto; rewrite norm_vopp; auto). apply (beam_gain p f); auto.
Qed.
Lemma prepare_force r srcs mics ori so mo dim : shape (r_size r) = [dim] -> (dim = 2 \/ dim = 3)%nat -> in_force srcs mics ori so mo ->
  prepare_static r srcs mics ori = Ok (unsqueeze1 (entity_pos srcs), unsqueeze1 (entity_pos mics), so, mo, data (r_size r), dim).
Proof.
  intros Hs Hd F. unfold prepare_static, prepare_entities.
  assert (Ed : ensure_dim (r_size r) = Ok (r_size r)).
  { unfold ensure_dim, ndim, numel. rewrite Hs. destruct Hd as [-> | ->]; reflexivity. }
  assert (En : numel (r_size r) = dim) by (unfold numel; rewrite Hs; cbn; lia).
  destruct F; destruct srcs, mics; cbn [bind own]; rewrite Ed; cbn [bind]; rewrite En; reflexivity.
Qed.
Lemma response_ext L kern fs c walls size images gs gm gs' gm' src mic j :
  (forall k, In k images -> gs (ray src mic size k) = gs' (ray src mic size k) /\ gm (ray src mic size k) = gm' (ray src mic size k)) ->
  response L kern fs c walls size images gs gm src mic j = response L kern fs c walls size images gs' gm' src mic j.
Proof.
  intros H. unfold response. f_equal. apply map_ext_in. intros k K. destruct (H k K) as [A B]. unfold amplitude. rewrite A, B. reflexivity.
Qed.
Lemma directional X dev r srcs mics N nb n c dim beta d ori p q so mo T :
  scene r srcs mics dim beta -> cfg_hpf_enable c = false -> patterns d p q -> in_force srcs mics ori so mo -> ori_wf so -> ori_wf mo ->
  simulate_rir X dev r srcs mics (Some N) nb (Some (Z.of_nat n)) None None (Some d) ori (Some c) = Ok T ->
  exists images, image_source_indices N dim nb = Ok images /\ xshape T = [count srcs; count mics; n] /\
  forall s m j gs gm, (s < count srcs)%nat -> (m < count mics)%nat -> (j < n)%nat ->
    (forall k, In k images -> norm (ray (position srcs s) (position mics m) (data (r_size r)) k) <> 0) ->
    looks dim p so s gs -> looks dim q mo m gm ->
    xget T [s; m; j] = response (Z.to_nat (cfg_fdl c)) (the_kernel dev c) (r_fs r) (r_c r) (beta_pairs beta) (data (r_size r)) images
      gs (backwards gm) (position srcs s) (position mics m) j.
Proof.
  intros Sc Hh P F Ws Wm H. rewrite simulate_rir_closed in H by (pose proof (sc_fs _ _ _ _ _ Sc); lra).
  unfold resolve_config in H. cbn [bind] in H. destruct (cfg_validate c) as [[]|] eqn:Hv; [|discriminate]. cbn [bind] in H.
  unfold validate_args in H. cbn [bind] in H. destruct (Z.leb_spec (Z.of_nat n) 0); [discriminate|]. destruct (Z.ltb_spec N 0); [discriminate|]. cbn [bind] in H.
  cbv zeta in H. rewrite Nat2Z.id in H.
  rewrite (prepare_force r srcs mics ori so mo dim (sc_size _ _ _ _ _ Sc) (sc_dim _ _ _ _ _ Sc) F) in H. cbn [bind] in H.
  rewrite (scene_shapes _ _ _ _ _ Sc) in H. cbn [bind] in H. rewrite (sc_beta _ _ _ _ _ Sc) in H. cbn [bind] in H.
  rewrite (scene_validate_beta _ _ _ _ _ Sc) in H. cbn [bind] in H. bcase_in H. exists a. split; auto.
  assert (Ep : split_directivity d = Ok (p, q)) by (destruct P; reflexivity). rewrite Ep in H. cbn [bind] in H.
  bcase_in H. rewrite (length_trows_2d _ _ _ (sc_src _ _ _ _ _ Sc)), (length_trows_2d _ _ _ (sc_mic _ _ _ _ _ Sc)) in H.
  bcase_in H. unfold static_closed in H. destruct (side_of p a1) as [gsd|] eqn:E3; [|discriminate]. cbn [bind] in H.
  destruct (side_of q a0) as [gmd|] eqn:E4; [|discriminate]. cbn [bind] in H.
  rewrite (length_trows_2d _ _ _ (sc_src _ _ _ _ _ Sc)), (length_trows_2d _ _ _ (sc_mic _ _ _ _ _ Sc)) in H.
  destruct (dirs_fit gsd (count srcs)); [|discriminate]. destruct (dirs_fit gmd (count mics)) eqn:Fm; [|discriminate]. cbn [andb negb] in H.
  destruct (Nat.eqb_spec (count srcs * count mics) 0); [discriminate|]. cbn [bind] in H. unfold apply_rir_hpf in H. rewrite Hh in H. cbn [negb bind] in H.
  injection H as <-. split; [reflexivity|]. intros s m j gs gm Hs Hm Hj Nz Ls Lm.
  rewrite xget_rows2 by auto. unfold pair_response. apply response_ext. intros k K. specialize (Nz k K). split.
  - apply (src_looks dim p so (count srcs) s a1); auto.
  - apply (mic_looks dim q mo (count mics) m a0); auto.
Qed.
Lemma tells_unit n dim o : (dim = 2 \/ dim = 3)%nat -> (0 < n)%nat -> tells n dim (shape o) -> wf o ->
  exists u, orientation_to_unit o dim = Ok u /\ (ndim u = 1 \/ ndim u = 2 /\ length (trows u) = n)%nat.
Proof.
  intros D Hn T W. unfold orientation_to_unit, ndim, numel in *.
  assert (Tab : forall k rows, length (trows (of_rows [n] k rows)) = n).
  { intros. unfold trows, of_rows. cbn [shape app removelast last]. rewrite map_length, seq_length. cbn. lia. }
  remember (shape o) as sh eqn:E. symmetry in E.
  destruct T; cbn [length Nat.eqb last removelast prodn fold_right andb negb].
  - eexists; split; [reflexivity|]. left; reflexivity.
  - eexists; split; [reflexivity|]. left; reflexivity.
  - rewrite Nat.mul_1_r. destruct (Nat.eqb_spec n 1); [eexists; split; [reflexivity|]; left; reflexivity|].
    destruct (Nat.eqb_spec n 2); [contradiction|]. eexists; split; [reflexivity|]. right. split; [reflexivity|]. apply Tab.
  - destruct D as [-> | ->]; cbn; (eexists; split; [reflexivity|]); left; reflexivity.
  - eexists; split; [reflexivity|]. left; reflexivity.
  - eexists; split; [reflexivity|]. right. split; [reflexivity|]. apply Tab.
  - destruct D as [-> | ->]; cbn [Nat.eqb]; (eexists; split; [reflexivity|]); right; (split; [reflexivity|]); apply Tab.
  - eexists; split; [reflexivity|]. right. split; [reflexivity|]. apply Tab.
Qed.
Lemma beam_known p f : beam p f -> exists g, directivity_gain p = Ok g.
Proof.
  intros [s name a I S|s name I S].
  - destruct (gain_first s name a I S) as (g & G & _). eauto.
  - destruct (gain_half s name I S) as (g & G & _). eauto.
Qed.
Lemma src_steered n dim p o : (dim = 2 \/ dim = 3)%nat -> (0 < n)%nat -> ori_wf o -> steered n dim p o ->
  exists sd g, src_directions p o dim n = Ok sd /\ side_of p sd = Ok g /\ dirs_fit g n = true.
Proof.
  intros D Hn W [->|t f -> B T]; unfold src_directions, side_of.
  - exists None, None. rewrite String.eqb_refl. auto.
  - destruct (String.eqb_spec p "omni"); [exists None, None; auto|]. destruct (tells_unit n dim t D Hn T W) as (u & -> & H).
    destruct (beam_known p f B) as (g & G). cbn [bind]. cbv zeta. destruct H as [H|[H L]]; rewrite H.
    + cbn [Nat.eqb Nat.leb]. rewrite repeat_length, Nat.eqb_refl. cbn [andb negb]. eexists _, _. split; [reflexivity|].
      rewrite G. cbn [bind]. split; [reflexivity|]. cbn [dirs_fit]. rewrite repeat_length, Nat.eqb_refl. reflexivity.
    + cbn [Nat.eqb Nat.leb]. rewrite L, Nat.eqb_refl. cbn [andb negb]. eexists _, _. split; [reflexivity|].
      rewrite G. cbn [bind]. split; [reflexivity|]. cbn [dirs_fit]. rewrite L, Nat.eqb_refl. reflexivity.
Qed.
Lemma mic_steered n dim p o : (dim = 2 \/ dim = 3)%nat -> (0 < n)%nat -> ori_wf o -> steered n dim p o ->
  exists sd g, mic_directions p o dim = Ok sd /\ side_of p sd = Ok g /\ dirs_fit g n = true.
Proof.
  intros D Hn W [->|t f -> B T]; unfold mic_directions, side_of.
  - exists None, None. rewrite String.eqb_refl. auto.
  - destruct (String.eqb_spec p "omni"); [exists None, None; auto|]. destruct (tells_unit n dim t D Hn T W) as (u & -> & H).
    destruct (beam_known p f B) as (g & G). cbn [bind].
    assert (Q : (ndim u <=? 2)%nat = true) by (apply Nat.leb_le; lia). rewrite Q. eexists _, _. split; [reflexivity|].
    rewrite G. cbn [bind]. split; [reflexivity|]. cbn [dirs_fit]. destruct H as [H|[H L]].
    + rewrite (trows_ndim1 u H). cbn [length]. rewrite orb_true_r. reflexivity.
    + rewrite L, Nat.eqb_refl. reflexivity.
Qed.
Lemma steered_accepted X dev r srcs mics N nb n c dim beta d ori p q so mo images :
  scene r srcs mics dim beta -> cfg_validate c = Ok tt -> cfg_hpf_enable c = false -> (0 <= N)%Z -> (0 < n)%nat ->
  image_source_indices N dim nb = Ok images -> patterns d p q -> in_force srcs mics ori so mo -> ori_wf so -> ori_wf mo ->
  steered (count srcs) dim p so -> steered (count mics) dim q mo ->
  exists T, simulate_rir X dev r srcs mics (Some N) nb (Some (Z.of_nat n)) None None (Some d) ori (Some c) = Ok T.
Proof.
  intros Sc Hv Hh HN Hn Hi P F Ws Wm Ss Sm. rewrite simulate_rir_closed by (pose proof (sc_fs _ _ _ _ _ Sc); lra).
  unfold resolve_config. cbn [bind]. rewrite Hv. cbn [bind].
  unfold validate_args. cbn [bind]. destruct (Z.leb_spec (Z.of_nat n) 0); [lia|]. destruct (Z.ltb_spec N 0); [lia|]. cbn [bind].
  cbv zeta. rewrite Nat2Z.id.
  rewrite (prepare_force r srcs mics ori so mo dim (sc_size _ _ _ _ _ Sc) (sc_dim _ _ _ _ _ Sc) F). cbn [bind].
  rewrite (scene_shapes _ _ _ _ _ Sc). cbn [bind]. rewrite (sc_beta _ _ _ _ _ Sc). cbn [bind].
  rewrite (scene_validate_beta _ _ _ _ _ Sc). cbn [bind]. rewrite Hi. cbn [bind].
  assert (Ep : split_directivity d = Ok (p, q)) by (destruct P; reflexivity). rewrite Ep. cbn [bind].
  destruct (mic_steered (count mics) dim q mo (sc_dim _ _ _ _ _ Sc) (sc_mic0 _ _ _ _ _ Sc) Wm Sm) as (md & gm & -> & Gm & Fm). cbn [bind].
  rewrite (length_trows_2d _ _ _ (sc_src _ _ _ _ _ Sc)), (length_trows_2d _ _ _ (sc_mic _ _ _ _ _ Sc)).
  destruct (src_steered (count srcs) dim p so (sc_dim _ _ _ _ _ Sc) (sc_src0 _ _ _ _ _ Sc) Ws Ss) as (sd & gs & -> & Gs & Fs). cbn [bind].
  unfold static_closed. rewrite Gs, Gm. cbn [bind].
  rewrite (length_trows_2d _ _ _ (sc_src _ _ _ _ _ Sc)), (length_trows_2d _ _ _ (sc_mic _ _ _ _ _ Sc)), Fs, Fm. cbn [andb negb].
  pose proof (sc_src0 _ _ _ _ _ Sc). pose proof (sc_mic0 _ _ _ _ _ Sc).
  destruct (Nat.eqb_spec (count srcs * count mics) 0); [nia|]. cbn [bind]. unfold apply_rir_hpf. rewrite Hh. cbn [negb bind]. eauto.
Qed.
Lemma accepted_scene X dev r srcs mics mo nb ns tmax tdiff dir ori cfg T : 0 < r_fs r -> wf (r_size r) ->
  simulate_rir X dev r srcs mics mo nb ns tmax tdiff dir ori cfg = Ok T ->
  exists dim beta, scene r srcs mics dim beta.
Proof.
  intros Fs Wz H. rewrite simulate_rir_closed in H by lra. bcase_in H. destruct a as [[[c N] tm] d].
  bcase_in H. cbv zeta in H. bcase_in H. destruct a0 as [[[[[sp mp] so] mo'] size] dim]. bcase_in H.
  unfold prepare_static in E1. bcase_in E1. destruct a1 as [s1 o1]. bcase_in E1. destruct a1 as [m1 o2]. bcase_in E1.
  injection E1 as <- <- <- <- <- <-.
  assert (Es : s1 = entity_pos srcs).
  { unfold prepare_entities in E3. destruct srcs, ori as [|t|[|x [|y [|z l]]]]; cbn in E3; try discriminate E3; injection E3 as <- _; reflexivity. }
  assert (Em : m1 = entity_pos mics).
  { unfold prepare_entities in E4. destruct mics, ori as [|t|[|x [|y [|z l]]]]; cbn in E4; try discriminate E4; injection E4 as <- _; reflexivity. }
  subst s1 m1. bcase_in H. bcase_in H. bcase_in H. bcase_in H. destruct a5 as [p q]. bcase_in H. bcase_in H. bcase_in H. clear H.
  unfold ensure_dim in E5. destruct (Nat.eqb_spec (ndim (r_size r)) 1) as [O|]; [|discriminate]. cbn [andb] in E5.
  destruct (((numel (r_size r) =? 2) || (numel (r_size r) =? 3))%nat) eqn:D; [|discriminate]. injection E5 as <-.
  apply orb_prop in D. rewrite !Nat.eqb_eq in D. unfold validate_pos_shapes in E2.
  assert (Two : forall t k, ((ndim t =? 2) && (nth 1 (shape t) 0 =? k))%nat = true -> shape t = [nth 0 (shape t) 0; k]%nat).
  { intros t k Q. unfold ndim in Q. apply andb_prop in Q. rewrite !Nat.eqb_eq in Q. destruct Q as [Q1 Q2].
    destruct (shape t) as [|x [|y [|]]]; try discriminate Q1. cbn in *. subst. reflexivity. }
  destruct (_ && _)%bool eqn:V1 in E2; [|discriminate]. cbn [negb] in E2. destruct (_ && _)%bool eqn:V2 in E2; [|discriminate]. clear E2.
  apply Two in V1, V2. fold (count srcs) in V1. fold (count mics) in V2.
  unfold validate_beta in E6. destruct (Nat.eqb_spec (length a2) (if (numel (r_size r) =? 2)%nat then 4 else 6)) as [B|]; [|discriminate].
  unfold static_closed in E11. destruct (side_of p a6); [|discriminate]. destruct (side_of q a5); [|discriminate]. cbn [bind] in E11.
  destruct (negb _) in E11; [discriminate|]. rewrite (length_trows_2d _ _ _ V1), (length_trows_2d _ _ _ V2) in E11.
  destruct (Nat.eqb_spec (count srcs * count mics) 0) as [|Nz]; [discriminate|].
  exists (numel (r_size r)), a2. constructor; auto; try nia.
  - unfold ndim in O. unfold numel. destruct (shape (r_size r)) as [|x [|]]; try discriminate. cbn. rewrite Nat.mul_1_r. reflexivity.
  - destruct D as [D|D]; rewrite D in B |- *; exact B.
Qed.
