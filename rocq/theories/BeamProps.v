(** C79 (directional responses) and the converse part of C33 (what is simulated is a well-formed
    scene). *)
From Coq Require Import String List ZArith Reals Lia Lra Bool.
From Verif Require Import Prelude PreludeFacts SignalModel FloatModel DirModel DirSpec ImageModel ImageSpec AcousticModel
  AccumModel IsmModel IsmSpec ImageProofs IsmProofs SimProofs SimPairs SimMore SimLocal SimSteps SimStages DirProofs StageSpec BeamSpec BeamProofs IsmProps StageProps.
Import ListNotations.
Local Open Scope R_scope.
Local Notation length := List.length.

(** ** C79 *)

(** Each sample is the sum over the images of the reflections, times the gain of the source
    towards the ray, times the gain of the microphone towards where the ray comes from. *)
Theorem C79_static : forall X dev r srcs mics N nb n c dim beta d ori p q so mo T,
  scene r srcs mics dim beta -> cfg_hpf_enable c = false -> patterns d p q -> in_force srcs mics ori so mo -> ori_wf so -> ori_wf mo ->
  simulate_rir X dev r srcs mics (Some N) nb (Some (Z.of_nat n)) None None (Some d) ori (Some c) = Ok T ->
  exists images, image_source_indices N dim nb = Ok images /\ xshape T = [count srcs; count mics; n] /\
  forall s m j gs gm, (s < count srcs)%nat -> (m < count mics)%nat -> (j < n)%nat ->
    (forall k, In k images -> norm (ray (position srcs s) (position mics m) (data (r_size r)) k) <> 0) ->
    looks dim p so s gs -> looks dim q mo m gm ->
    xget T [s; m; j] = response (Z.to_nat (cfg_fdl c)) (the_kernel dev c) (r_fs r) (r_c r) (beta_pairs beta) (data (r_size r)) images
      gs (backwards gm) (position srcs s) (position mics m) j.
Proof. exact directional. Qed.
(** Sides that are omnidirectional, or that have a known pattern and an orientation for every
    entity, are simulated. *)
Theorem C79_accepted : forall X dev r srcs mics N nb n c dim beta d ori p q so mo images,
  scene r srcs mics dim beta -> valid_config c -> cfg_hpf_enable c = false -> (0 <= N)%Z -> (0 < n)%nat ->
  image_source_indices N dim nb = Ok images -> patterns d p q -> in_force srcs mics ori so mo -> ori_wf so -> ori_wf mo ->
  steered (count srcs) dim p so -> steered (count mics) dim q mo ->
  exists T, simulate_rir X dev r srcs mics (Some N) nb (Some (Z.of_nat n)) None None (Some d) ori (Some c) = Ok T.
Proof. intros. eapply steered_accepted; eauto. apply C33_config_valid_iff. auto. Qed.
(** The same along trajectories, with orientations that do not move. *)
Theorem C79_dynamic : forall X dev r src mic N nb n c d ori p q so mo T,
  0 < r_fs r -> wf (r_size r) -> filt_length X -> cfg_hpf_enable c = false -> patterns d p q ->
  (forall a b, in_force (ETensor a) (ETensor b) ori so mo) -> ori_wf so -> ori_wf mo ->
  simulate_dynamic_rir X dev r src mic (Some N) nb (Some (Z.of_nat n)) None (Some d) ori (Some c) = Ok T ->
  exists steps ns nm dim beta images, (0 < steps)%nat /\ xshape T = [steps; ns; nm; n] /\ shape (r_size r) = [dim] /\
    shape (unsqueeze_traj src) = [steps; ns; dim] /\ shape (unsqueeze_traj mic) = [steps; nm; dim] /\
    resolve_beta r = Ok beta /\ image_source_indices N dim nb = Ok images /\
    forall t s m j gs gm, (t < steps)%nat -> (s < ns)%nat -> (m < nm)%nat -> (j < n)%nat ->
      let a := position (ETensor (step_tensor src t)) s in let b := position (ETensor (step_tensor mic t)) m in
      (forall k, In k images -> norm (ray a b (data (r_size r)) k) <> 0) ->
      looks dim p so s gs -> looks dim q mo m gm ->
      xget T [t; s; m; j] = response (Z.to_nat (cfg_fdl c)) (the_kernel dev c) (r_fs r) (r_c r) (beta_pairs beta) (data (r_size r)) images
        gs (backwards gm) a b j.
Proof.
  intros X dev r src mic N nb n c d ori p q so mo T Fs Wz Fl Hh P F Ws Wm H.
  assert (Fn : r_fs r <> 0) by lra.
  destruct (C25_dynamic_is_static _ _ _ _ _ _ _ _ _ _ _ _ _ Fn Fl H) as (Tn & S & M & n' & HT & Sh & L & Each).
  pose proof (Each 0%nat HT) as E0. destruct (accepted_scene _ _ _ _ _ _ _ _ _ _ _ _ _ _ Fs Wz E0) as (dim & beta & Sc).
  destruct (directional _ _ _ _ _ _ _ _ _ _ _ _ _ _ _ _ _ _ Sc Hh P (F _ _) Ws Wm E0) as (images & Ei & Sh0 & _).
  cbn [xshape] in Sh0. injection Sh0 as E1 E2 E3. subst n'.
  exists Tn, S, M, dim, beta, images. split; auto. split; auto. split; [apply (sc_size _ _ _ _ _ Sc)|].
  destruct (C33_dynamic_shape _ _ _ _ _ _ _ _ _ _ _ _ _ H) as (Tn' & S' & M' & n' & d' & H1 & H2 & H3 & _).
  rewrite Sh in H3. injection H3 as <- <- <- <-.
  assert (Ed : d' = dim).
  { destruct (step_shape _ 0 _ _ _ H1) as [Q _]. pose proof (sc_src _ _ _ _ _ Sc) as Q'. cbn [entity_pos] in Q'. rewrite Q in Q'. injection Q' as _ Q'. exact Q'. }
  subst d'. split; auto. split; auto. split; [apply (sc_beta _ _ _ _ _ Sc)|]. split; auto.
  intros t s m j gs gm Ht Hs Hm Hj a b Nz Ls Lm. subst a b. pose proof (Each t Ht) as Et.
  destruct (accepted_scene _ _ _ _ _ _ _ _ _ _ _ _ _ _ Fs Wz Et) as (dim' & beta' & Sc').
  pose proof (sc_size _ _ _ _ _ Sc) as Q1. pose proof (sc_size _ _ _ _ _ Sc') as Q2. rewrite Q1 in Q2. injection Q2 as <-.
  pose proof (sc_beta _ _ _ _ _ Sc) as Q3. pose proof (sc_beta _ _ _ _ _ Sc') as Q4. rewrite Q3 in Q4. injection Q4 as <-.
  destruct (directional _ _ _ _ _ _ _ _ _ _ _ _ _ _ _ _ _ _ Sc' Hh P (F _ _) Ws Wm Et) as (images' & Ei' & Sh' & G).
  rewrite Ei in Ei'. injection Ei' as <-. cbn [xshape] in Sh'. injection Sh' as E4 E5.
  rewrite E4 in Hs. rewrite E5 in Hm. rewrite <- (G s m j gs gm Hs Hm Hj Nz Ls Lm). rewrite <- E4 in Hs. rewrite <- E5 in Hm.
  unfold xget. rewrite Sh. cbn [xshape xdata].
  assert (K : (ravel [S; M; n] [s; m; j] < S * M * n)%nat) .
  { cbn [ravel prodn fold_right]. assert (s * M + m < S * M)%nat by nia. nia. }
  rewrite nth_block by exact K. f_equal. cbn [ravel prodn fold_right]. ring.
Qed.
(** A cardioid source pointing up and a figure-of-eight microphone pointing right: the direct
    ray (3, 4) leaves at cosine 4/5 and comes from cosine -3/5. *)
Example C79_example : forall X, exists T,
  simulate_rir X Cpu ex_room (EObj (mkT [2%nat] [1; 1]) (Some (mkT [2%nat] [0; 7])))
    (EObj (mkT [1%nat; 2%nat] [4; 5]) (Some (mkT [2%nat] [1; 0])))
    (Some 0%Z) None (Some 20%Z) None None (Some (DTuple ["cardioid"; "figure8"]%string)) ONone (Some ex_cfg) = Ok T /\
  forall j, (j < 20)%nat -> xget T [0; 0; j]%nat =
    response 3 (the_kernel Cpu ex_cfg) 2 1 (beta_pairs [/2; /3; /5; /7]) [10; 10] [[0; 0]%Z]
      (fun _ => Some (9 / 10)) (fun _ => Some (- (3 / 5))) [1; 1] [4; 5] j.
Proof.
  intros X. set (A := EObj (mkT [2%nat] [1; 1]) (Some (mkT [2%nat] [0; 7]))). set (B := EObj (mkT [1%nat; 2%nat] [4; 5]) (Some (mkT [2%nat] [1; 0]))).
  assert (Sc : scene ex_room A B 2 [/2; /3; /5; /7]) by (constructor; cbn; auto; try lra; try lia; reflexivity).
  assert (N7 : norm [0; 7] = 7) by (unfold norm; cbn; replace (0 * 0 + (7 * 7 + 0)) with (7 * 7) by ring; apply sqrt_square; lra).
  assert (N1 : norm [1; 0] = 1) by (unfold norm; cbn; replace (1 * 1 + (0 * 0 + 0)) with (1 * 1) by ring; apply sqrt_square; lra).
  assert (Bc : beam "cardioid" (fun x => 1 / 2 + (1 - 1 / 2) * x)).
  { apply (B_first "cardioid" "cardioid"); [cbn; auto 10|]. cbn. unfold reads. repeat split; auto. }
  assert (Bf : beam "figure8" (fun x => 0 + (1 - 0) * x)).
  { apply (B_first "figure8" "figure8"); [cbn; auto 20|]. cbn. unfold reads. repeat split; auto. }
  destruct (C79_accepted X Cpu ex_room A B 0 None 20 ex_cfg 2 [/2; /3; /5; /7] (DTuple ["cardioid"; "figure8"]%string) ONone "cardioid" "figure8"
    (own A) (own B) [[0; 0]%Z] Sc (proj1 (C33_config_valid_iff _) ex_cfg_valid) eq_refl ltac:(lia) ltac:(lia) eq_refl
    (P_two _ _) (F_own _ _) eq_refl eq_refl) as (T & HT).
  - eapply S_beam; [reflexivity|exact Bc|apply T_vector].
  - eapply S_beam; [reflexivity|exact Bf|apply T_vector].
  - exists T. split; [exact HT|]. intros j Hj.
    destruct (C79_static X Cpu ex_room A B 0 None 20 ex_cfg 2 [/2; /3; /5; /7] _ ONone "cardioid" "figure8" (own A) (own B) T Sc eq_refl
      (P_two _ _) (F_own _ _) eq_refl eq_refl HT) as (images & Ei & _ & G).
    assert (Ex : images = [[0; 0]%Z]) by (cbn in Ei; injection Ei as <-; reflexivity). subst images.
    assert (Ry : ray [1; 1] [4; 5] [10; 10] [0; 0]%Z = [3; 4]) by (unfold ray; cbn; repeat f_equal; lra).
    assert (N34 : norm [3; 4] = 5) by (unfold norm; cbn; replace (3 * 3 + (4 * 4 + 0)) with (5 * 5) by ring; apply sqrt_square; lra).
    assert (N43 : norm [-3; -4] = 5) by (unfold norm; cbn; replace (-3 * -3 + (-4 * -4 + 0)) with (5 * 5) by ring; apply sqrt_square; lra).
    rewrite (G 0%nat 0%nat j (fun v => Some (1 / 2 + (1 - 1 / 2) * cosine v [0; 7])) (fun v => Some (0 + (1 - 0) * cosine v [1; 0]))
      ltac:(cbn; lia) ltac:(cbn; lia) Hj).
    + change (position A 0) with [1; 1]. change (position B 0) with [4; 5]. apply response_ext. intros k [<-|[]].
      change (data (r_size ex_room)) with [10; 10]. unfold backwards. rewrite Ry. cbn [map]. unfold cosine. rewrite N7, N34, N1.
      replace (- (3)) with (-3) by ring. replace (- (4)) with (-4) by ring. rewrite N43. cbn [dot]. split; f_equal; field.
    + intros k [<-|[]]. change (position A 0) with [1; 1]. change (position B 0) with [4; 5]. change (data (r_size ex_room)) with [10; 10]. rewrite Ry, N34. lra.
    + apply (L_beam 2 "cardioid" (own A) 0 (mkT [2%nat] [0; 7]) (fun x => 1 / 2 + (1 - 1 / 2) * x)); auto; [discriminate|]. cbn. rewrite N7. lra.
    + apply (L_beam 2 "figure8" (own B) 0 (mkT [2%nat] [1; 0]) (fun x => 0 + (1 - 0) * x)); auto; [discriminate|]. cbn. rewrite N1. lra.
Qed.

(** Cardioids pointing up; at the second step the source is right below the microphone, which
    has it exactly behind. *)
Example C79_dynamic_example : forall X, filt_length X -> exists T,
  simulate_dynamic_rir X Cpu ex_room (mkT [2%nat; 2%nat] [1; 1; 4; 1]) (mkT [2%nat; 1%nat; 2%nat] [4; 5; 4; 5])
    (Some 0%Z) None (Some 20%Z) None (Some (DName "cardioid")) (OTensor (mkT [2%nat] [0; 1])) (Some ex_cfg) = Ok T /\
  forall j, (j < 20)%nat -> xget T [1; 0; 0; j]%nat =
    response 3 (the_kernel Cpu ex_cfg) 2 1 (beta_pairs [/2; /3; /5; /7]) [10; 10] [[0; 0]%Z]
      (fun _ => Some 1) (fun _ => Some 0) [4; 1] [4; 5] j.
Proof.
  intros X HX.
  assert (N1 : norm [0; 1] = 1) by (unfold norm; cbn; replace (0 * 0 + (1 * 1 + 0)) with (1 * 1) by ring; apply sqrt_square; lra).
  assert (Bc : beam "cardioid" (fun x => 1 / 2 + (1 - 1 / 2) * x)).
  { apply (B_first "cardioid" "cardioid"); [cbn; auto 10|]. cbn. unfold reads. repeat split; auto. }
  destruct (C25_static_gives_dynamic X Cpu ex_room (mkT [2%nat; 2%nat] [1; 1; 4; 1]) (mkT [2%nat; 1%nat; 2%nat] [4; 5; 4; 5])
    (Some 0%Z) None (Some 20%Z) None (Some (DName "cardioid")) (OTensor (mkT [2%nat] [0; 1])) (Some ex_cfg) 2 1 1 2) as (T & HT); auto; try (cbn; lra).
  - intros t Ht.
    assert (Sc : scene ex_room (ETensor (step_tensor (mkT [2%nat; 2%nat] [1; 1; 4; 1]) t))
      (ETensor (step_tensor (mkT [2%nat; 1%nat; 2%nat] [4; 5; 4; 5]) t)) 2 [/2; /3; /5; /7]).
    { constructor; cbn; auto; try lra; try lia. reflexivity. }
    apply (C79_accepted X Cpu ex_room _ _ 0 None 20 ex_cfg 2 _ _ _ "cardioid" "cardioid" (Some (mkT [2%nat] [0; 1])) (Some (mkT [2%nat] [0; 1])) [[0; 0]%Z]
      Sc (proj1 (C33_config_valid_iff _) ex_cfg_valid) eq_refl ltac:(lia) ltac:(lia) eq_refl (P_one _) (F_one _ _ _) eq_refl eq_refl);
      (eapply S_beam; [reflexivity|exact Bc|apply T_vector]).
  - exists T. split; [exact HT|]. intros j Hj.
    assert (F2 : 0 < r_fs ex_room) by (cbn; lra). set (up := mkT [2%nat] [0; 1]) in *.
    destruct (C79_dynamic X Cpu ex_room _ _ 0 None 20 ex_cfg _ _ "cardioid" "cardioid" (Some up) (Some up) T F2 eq_refl HX eq_refl
      (P_one _) (fun _ _ => F_one _ _ _) eq_refl eq_refl HT) as (st & ns & nm & dim & beta & images & _ & Sh & Dm & Us & Um & Be & Im & G).
    cbn in Us. injection Us as <- <- <-. cbn in Um. injection Um as <-. cbn in Be. injection Be as <-. cbn in Im. injection Im as <-.
    assert (Ry : ray [4; 1] [4; 5] [10; 10] [0; 0]%Z = [0; 4]) by (unfold ray; cbn; repeat f_equal; lra).
    assert (N4 : norm [0; 4] = 4) by (unfold norm; cbn; replace (0 * 0 + (4 * 4 + 0)) with (4 * 4) by ring; apply sqrt_square; lra).
    assert (Nm : norm [-0; -4] = 4) by (unfold norm; cbn; replace (-0 * -0 + (-4 * -4 + 0)) with (4 * 4) by ring; apply sqrt_square; lra).
    assert (Lk : looks 2 "cardioid" (Some up) 0 (fun v => Some (1 / 2 + (1 - 1 / 2) * cosine v [0; 1]))).
    { apply (L_beam 2 "cardioid" (Some up) 0 up (fun x => 1 / 2 + (1 - 1 / 2) * x)); auto; [discriminate|]. cbn. rewrite N1. lra. }
    rewrite (G 1%nat 0%nat 0%nat j _ _ ltac:(lia) ltac:(lia) ltac:(lia) Hj) with (2 := Lk) (3 := Lk).
    + apply response_ext. intros k [<-|[]]. unfold backwards.
      change (ray _ _ _ _) with (ray [4; 1] [4; 5] [10; 10] [0; 0]%Z). rewrite Ry. cbn [map]. unfold cosine. rewrite N4, N1.
      replace (- (4)) with (-4) by ring. rewrite Nm. cbn [dot]. split; f_equal; field.
    + intros k [<-|[]]. change (ray _ _ _ _) with (ray [4; 1] [4; 5] [10; 10] [0; 0]%Z). rewrite Ry, N4. lra.
Qed.

(** ** C33: what is simulated is a well-formed scene. *)
Theorem C33_accepted_scene : forall X dev r srcs mics mo nb ns tmax tdiff dir ori cfg T, 0 < r_fs r -> wf (r_size r) ->
  simulate_rir X dev r srcs mics mo nb ns tmax tdiff dir ori cfg = Ok T ->
  exists dim beta, scene r srcs mics dim beta.
Proof. exact accepted_scene. Qed.
(** Microphones with three coordinates are not accepted in a room with two, whatever else is asked. *)
Example C33_accepted_scene_example : forall X dev mo nb ns tmax tdiff dir ori cfg T,
  simulate_rir X dev ex_room ex_src (ETensor (mkT [1%nat; 3%nat] [4; 5; 6])) mo nb ns tmax tdiff dir ori cfg <> Ok T.
Proof.
  intros X dev mo nb ns tmax tdiff dir ori cfg T H. assert (F2 : 0 < r_fs ex_room) by (cbn; lra).
  destruct (C33_accepted_scene _ _ _ _ _ _ _ _ _ _ _ _ _ _ F2 eq_refl H) as (dim & beta & Sc).
  pose proof (sc_mic _ _ _ _ _ Sc) as Q. pose proof (sc_size _ _ _ _ _ Sc) as Q'. cbn in Q, Q'. congruence.
Qed.
Print Assumptions C79_static.
Print Assumptions C79_accepted.
Print Assumptions C79_dynamic.
Print Assumptions C33_accepted_scene.
