(** Properties of the simulation under changes of units and of axes: C72, C73. *)
From Coq Require Import String List ZArith Reals Lia Lra Bool Permutation.
From Verif Require Import Prelude PreludeFacts SignalModel FloatModel DirModel ImageModel ImageSpec AcousticModel
  AccumModel IsmModel IsmSpec ImageProofs IsmProofs SimProofs SimMore SimArrival SimStages SymSpec SymProofs IsmProps.
Import ListNotations.
Local Open Scope R_scope.
Local Notation length := List.length.

(** ** C72 *)
(** Lengths and speed of sound in a unit [k] times smaller: the response is divided by [k] and
    its timing does not change, for every directivity, orientation, filter and image set.
    Errors are the same. *)
Theorem C72_length_units : forall X dev r srcs mics mo nb ns tmax dir ori c k,
  r_fs r <> 0 -> 0 < k -> (r_beta r <> None \/ r_t60 r = None) ->
  (cfg_hpf_enable c = false \/ homogeneous X) ->
  (forall s m n, (s < count srcs)%nat -> (m < count mics)%nat -> length n = numel (r_size r) ->
     far k (position srcs s) (position mics m) (data (r_size r)) n) ->
  simulate_rir X dev (in_units k r) (escale k srcs) (escale k mics) mo nb ns tmax None dir ori (Some c) =
  times (/ k) (simulate_rir X dev r srcs mics mo nb ns tmax None dir ori (Some c)).
Proof. exact simulate_units. Qed.
(** The example room in half metres; every image of (1, 1) is at least 2 away from (4, 5). *)
Lemma ex_far : forall n, length n = 2%nat -> far 2 [1; 1] [4; 5] [10; 10] n.
Proof.
  intros [|a [|b [|]]] H; try discriminate. unfold far.
  assert (G : 1 <= euclid [4; 5] (image_of [1; 1] [10; 10] [a; b])); [|cbn [pow]; split; lra].
  unfold euclid. rewrite <- sqrt_1. apply sqrt_le_1_alt. unfold sqdist.
  cbn [image_of combine map fold_right fst snd]. rewrite !DirProofs.reflected_cell.
  assert (A : forall z : Z, 1 <= (4 - (IZR z * 10 + (if Z.even z then 1 else 10 - 1))) *
                                 (4 - (IZR z * 10 + (if Z.even z then 1 else 10 - 1)))).
  { intros z. destruct (Z.even z) eqn:E.
    - assert (z <= 0 \/ 1 <= z)%Z as [Hz|Hz] by lia; apply IZR_le in Hz; nra.
    - assert (z <= -1 \/ 0 <= z)%Z as [Hz|Hz] by lia; apply IZR_le in Hz; nra. }
  specialize (A a). match goal with |- 1 <= _ + (?x * ?x + 0) => pose proof (Rle_0_sqr x) as B; unfold Rsqr in B end.
  rewrite !sqrt_1 in *. eapply Rle_trans; [exact A|]. match goal with |- ?u <= ?v + (?w + 0) => change v with u; generalize dependent u; generalize dependent w end.
  intros; lra.
Qed.
Example C72_example : forall X,
  simulate_rir X Cpu (mkRoom (mkT [2%nat] [20; 20]) 2 2 (Some [/2; /3; /5; /7]) None)
    (ETensor (mkT [2%nat] [2; 2])) (ETensor (mkT [1%nat; 2%nat] [8; 10]))
    (Some 1%Z) None (Some 20%Z) None None (Some (DName "omni")) ONone (Some ex_cfg) =
  times (/ 2) (simulate_rir X Cpu ex_room ex_src ex_mic
    (Some 1%Z) None (Some 20%Z) None None (Some (DName "omni")) ONone (Some ex_cfg)) /\
  exists T, simulate_rir X Cpu ex_room ex_src ex_mic
    (Some 1%Z) None (Some 20%Z) None None (Some (DName "omni")) ONone (Some ex_cfg) = Ok T.
Proof.
  intros X. split.
  - rewrite <- C72_length_units; cbn; try lra; auto.
    + unfold in_units, escale, tscale, ex_room, ex_src, ex_mic. cbn [r_size r_fs r_c r_beta r_t60 shape data map].
      replace (2 * 10) with 20 by lra. replace (2 * 1) with 2 by lra. replace (2 * 4) with 8 by lra.
      replace (2 * 5) with 10 by lra. reflexivity.
    + intros s m n Hs Hm Hn. replace s with 0%nat by lia. replace m with 0%nat by lia. apply ex_far. auto.
  - pose proof (simulate_omni X Cpu ex_room ex_src ex_mic 1 None 20 ex_cfg 2 _ _ ex_scene ex_cfg_valid eq_refl
      ltac:(lia) ltac:(lia) eq_refl) as H. change (Z.of_nat 20) with 20%Z in H. eauto.
Qed.
(** Sampling rate and speed of sound enter the unfiltered response through their ratio only. *)
Theorem C72_time_units : forall X dev r srcs mics mo nb n tmax dir ori c k,
  r_fs r <> 0 -> 0 < k -> cfg_hpf_enable c = false ->
  simulate_rir X dev (in_time_units k r) srcs mics mo nb (Some n) tmax None dir ori (Some c) =
  simulate_rir X dev r srcs mics mo nb (Some n) tmax None dir ori (Some c).
Proof. exact simulate_time_units. Qed.
Example C72_time_example : forall X,
  simulate_rir X Cpu (mkRoom (mkT [2%nat] [10; 10]) 6 3 (Some [/2; /3; /5; /7]) None) ex_src ex_mic
    (Some 1%Z) None (Some 20%Z) None None (Some (DName "omni")) ONone (Some ex_cfg) =
  simulate_rir X Cpu ex_room ex_src ex_mic
    (Some 1%Z) None (Some 20%Z) None None (Some (DName "omni")) ONone (Some ex_cfg).
Proof.
  intros X. rewrite <- (C72_time_units X Cpu ex_room ex_src ex_mic _ _ _ _ _ _ ex_cfg 3); cbn; try lra; auto.
  unfold in_time_units, ex_room. cbn [r_size r_fs r_c r_beta r_t60].
  replace (3 * 2) with 6 by lra. replace (3 * 1) with 3 by lra. reflexivity.
Qed.

(** ** C73 *)
Theorem C73_axes : forall X dev r srcs mics srcs' mics' N nb n c dim beta p T,
  let r' := mkRoom (mkT [dim] (permute 0 p (data (r_size r)))) (r_fs r) (r_c r) (Some (permute_walls p beta)) None in
  scene r srcs mics dim beta -> wf (entity_pos srcs) -> wf (entity_pos mics) -> Permutation p (seq 0 dim) ->
  shape (unsqueeze1 (entity_pos srcs')) = [count srcs; dim] ->
  shape (unsqueeze1 (entity_pos mics')) = [count mics; dim] ->
  (forall s, (s < count srcs)%nat -> position srcs' s = permute 0 p (position srcs s)) ->
  (forall m, (m < count mics)%nat -> position mics' m = permute 0 p (position mics m)) ->
  cfg_hpf_enable c = false ->
  simulate_rir X dev r srcs mics (Some N) nb (Some (Z.of_nat n)) None None (Some (DName "omni")) ONone (Some c) = Ok T ->
  simulate_rir X dev r' srcs' mics' (Some N) (option_map (permute 0%Z p) nb) (Some (Z.of_nat n)) None None
    (Some (DName "omni")) ONone (Some c) = Ok T.
Proof.
  intros X dev r srcs mics srcs' mics' N nb n c dim beta p T r' Hsc Wa Wb Hp Hss Hsm Hps Hpm Hh H.
  destruct (omni_ok_inv _ _ _ _ _ _ _ _ _ _ _ _ Hsc Hh H) as (Hv & HN & Hn & images & Hi & _).
  assert (Cs : count srcs' = count srcs) by (unfold count at 1; rewrite Hss; reflexivity).
  assert (Cm : count mics' = count mics) by (unfold count at 1; rewrite Hsm; reflexivity).
  pose proof (perm_len dim p Hp) as LP.
  assert (L : length (data (r_size r)) = dim).
  { rewrite (sc_size_wf _ _ _ _ _ Hsc), (sc_size _ _ _ _ _ Hsc). cbn. lia. }
  assert (Lb : length (permute_walls p beta) = (2 * dim)%nat).
  { rewrite <- LP. apply length_permute_walls. }
  assert (Hsc' : scene r' srcs' mics' dim (permute_walls p beta)).
  { destruct Hsc; constructor; cbn; auto; try (rewrite ?Cs, ?Cm; auto).
    unfold wf. cbn. rewrite length_permute. lia. }
  destruct (images_permute dim p Hp N nb images HN Hi) as (images' & Hi' & P).
  rewrite (simulate_omni X dev r srcs mics N nb n c dim beta images) in H by auto. rewrite <- H.
  rewrite (simulate_omni X dev r' srcs' mics' N _ n c dim (permute_walls p beta) images') by auto.
  rewrite Cs, Cm. do 2 f_equal.
  apply flat_map_ext_in. intros s Hs. apply in_seq in Hs. apply flat_map_ext_in. intros m Hm. apply in_seq in Hm.
  apply map_ext. intros j. unfold omni_rir. rewrite Hps, Hpm by lia.
  rewrite <- (response_perm _ _ _ _ _ _ _ _ _ _ _ _ _ P).
  apply (response_axes dim); auto.
  - apply (sc_beta_len _ _ _ _ _ Hsc).
  - apply (length_position _ (count srcs)); auto; [apply (sc_src _ _ _ _ _ Hsc)|lia].
  - apply (length_position _ (count mics)); auto; [apply (sc_mic _ _ _ _ _ Hsc)|lia].
  - intros k Hk. apply (indices_length N dim nb images k); auto.
Qed.
(** The example with the two axes exchanged: (1, 1) stays, (4, 5) becomes (5, 4), a box of one
    image on the first axis and two on the second becomes the transposed box. *)
Example C73_example : forall X,
  simulate_rir X Cpu (mkRoom (mkT [2%nat] [10; 10]) 2 1 (Some [/5; /7; /2; /3]) None)
    (ETensor (mkT [1%nat; 2%nat] [1; 1])) (ETensor (mkT [1%nat; 2%nat] [5; 4]))
    (Some 1%Z) (Some [2; 1]%Z) (Some 20%Z) None None (Some (DName "omni")) ONone (Some ex_cfg) =
  simulate_rir X Cpu ex_room ex_src ex_mic
    (Some 1%Z) (Some [1; 2]%Z) (Some 20%Z) None None (Some (DName "omni")) ONone (Some ex_cfg).
Proof.
  intros X.
  pose proof (simulate_omni X Cpu ex_room ex_src ex_mic 1 (Some [1; 2]%Z) 20 ex_cfg 2 _ _ ex_scene ex_cfg_valid eq_refl
    ltac:(lia) ltac:(lia) eq_refl) as H. change (Z.of_nat 20) with 20%Z in H. rewrite H.
  eapply (C73_axes X Cpu ex_room ex_src ex_mic _ _ 1 (Some [1; 2]%Z) 20 ex_cfg 2 _ [1; 0]%nat _ ex_scene); try reflexivity; auto.
  - apply perm_swap.
  - intros s Hs. cbn in Hs. replace s with 0%nat by lia. reflexivity.
  - intros s Hs. cbn in Hs. replace s with 0%nat by lia. reflexivity.
Qed.
Print Assumptions C72_length_units.
Print Assumptions C72_time_units.
Print Assumptions C73_axes.
