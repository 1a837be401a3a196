(** Properties of directivities and orientations: C27 - C30, C38. *)
From Coq Require Import String List ZArith Reals Lia Lra Bool.
From Verif Require Import Prelude PreludeFacts SignalModel FloatModel DirModel DirSpec ImageModel ImageSpec AcousticModel
  AccumModel IsmModel IsmSpec ImageProofs IsmProofs SimProofs SimPairs DirProofs IsmProps.
Import ListNotations.
Local Open Scope R_scope.
Local Notation length := List.length.

(** ** C27 *)
Theorem C27_first_order : forall s name a, In (name, a) first_order -> spells s name ->
  exists g, directivity_gain s = Ok g /\ forall x, g (Some x) = Some (a + (1 - a) * x).
Proof. exact gain_first. Qed.
Theorem C27_half_space : forall s name, In name half_space -> spells s name ->
  exists g, directivity_gain s = Ok g /\ forall x, g (Some x) = Some (if Rlt_dec 0 x then 1 else 0).
Proof. exact gain_half. Qed.
Theorem C27_rejects_others : forall s,
  (forall name, In name (map fst first_order ++ half_space) -> ~ spells s name) ->
  directivity_gain s = Err ValueError.
Proof. exact gain_other. Qed.
(** Accepted spellings are exactly the documented ones. *)
Theorem C27_accepted_iff : forall s, (exists g, directivity_gain s = Ok g) <->
  exists name, In name (map fst first_order ++ half_space) /\ spells s name.
Proof.
  intros s. split.
  - intros [g H]. destruct first_order_names as [F1 F2].
    assert (F : Forall lowercase (map fst first_order ++ half_space)) by (apply Forall_app; auto).
    rewrite <- (str_in_spells s _ F). destruct (str_in _ _) eqn:E; auto.
    rewrite gain_other in H; [discriminate|]. intros name Hi Hs.
    assert (str_in (lower s) (map fst first_order ++ half_space) = true) by (apply str_in_spells; eauto). congruence.
  - intros (name & Hi & Hs). apply in_app_or in Hi as [Hi|Hi].
    + apply in_map_iff in Hi as ([n a] & <- & Hi). destruct (gain_first s n a Hi Hs) as (g & G & _). eauto.
    + destruct (gain_half s name Hi Hs) as (g & G & _). eauto.
Qed.
Theorem C27_bounded : forall s g x, directivity_gain s = Ok g -> -1 <= x <= 1 ->
  exists y, g (Some x) = Some y /\ Rabs y <= 1.
Proof.
  intros s g x H Hx. destruct (proj1 (C27_accepted_iff s) (ex_intro _ g H)) as (name & Hi & Hs).
  apply in_app_or in Hi as [Hi|Hi].
  - apply in_map_iff in Hi as ([n a] & <- & Hi). destruct (gain_first s n a Hi Hs) as (g' & G & V).
    rewrite H in G. injection G as <-. eexists. split; [apply V|].
    assert (0 <= a <= 1) by (cbn in Hi; repeat destruct Hi as [Hi|Hi]; try contradiction; injection Hi as _ <-; lra).
    apply Rabs_le. nra.
  - destruct (gain_half s name Hi Hs) as (g' & G & V). rewrite H in G. injection G as <-.
    eexists. split; [apply V|]. destruct (Rlt_dec 0 x); rewrite Rabs_right; lra.
Qed.
Theorem C27_on_axis : forall s g, directivity_gain s = Ok g -> g (Some 1) = Some 1.
Proof.
  intros s g H. destruct (proj1 (C27_accepted_iff s) (ex_intro _ g H)) as (name & Hi & Hs).
  apply in_app_or in Hi as [Hi|Hi].
  - apply in_map_iff in Hi as ([n a] & <- & Hi). destruct (gain_first s n a Hi Hs) as (g' & G & V).
    rewrite H in G. injection G as <-. rewrite V. f_equal. lra.
  - destruct (gain_half s name Hi Hs) as (g' & G & V). rewrite H in G. injection G as <-. rewrite V.
    destruct (Rlt_dec 0 1); auto. lra.
Qed.
(** Rear gains: omni 1, subcardioid 1/2, cardioid 0, hypercardioid -1/2, figure of eight -1,
    half space 0. *)
Theorem C27_rear : forall s,
  (forall name a, In (name, a) first_order -> spells s name ->
     exists g, directivity_gain s = Ok g /\ g (Some (-1)) = Some (2 * a - 1)) /\
  (forall name, In name half_space -> spells s name ->
     exists g, directivity_gain s = Ok g /\ g (Some (-1)) = Some 0).
Proof.
  intros s. split.
  - intros name a Hi Hs. destruct (gain_first s name a Hi Hs) as (g & G & V). exists g. split; auto. rewrite V. f_equal. lra.
  - intros name Hi Hs. destruct (gain_half s name Hi Hs) as (g & G & V). exists g. split; auto. rewrite V.
    destruct (Rlt_dec 0 (-1)); auto. lra.
Qed.
Example C27_example : exists g, directivity_gain "HyperCardioid" = Ok g /\ g (Some (1/2)) = Some (5/8) /\
  directivity_gain "hyper-cardioid" = Err ValueError.
Proof.
  destruct (C27_first_order "HyperCardioid" "hypercardioid" (1/4)) as (g & G & V).
  - cbn; auto 10.
  - cbn. unfold reads. repeat split; auto; right; cbn; lia.
  - exists g. split; auto. split; [rewrite V; f_equal; lra|reflexivity].
Qed.
Print Assumptions C27_first_order.
Print Assumptions C27_half_space.
Print Assumptions C27_rejects_others.
Print Assumptions C27_accepted_iff.
Print Assumptions C27_bounded.
Print Assumptions C27_on_axis.
Print Assumptions C27_rear.

(** ** C28 *)
(** The meaning of "physical": walking from the image in direction v is, in the room,
    walking from the source in the direction reversed on the axes with odd index. *)
Theorem C28_departure_is_physical : forall len x n v, 0 < x < len ->
  folded len (reflected len x n) = x /\
  exists e, 0 < e /\ forall t, 0 <= t < e ->
    folded len (reflected len x n + t * v) = x + t * (if Z.even n then v else - v).
Proof.
  intros len x n v H. destruct (ray_leaves len x n v H) as (e & He & G). split.
  - specialize (G 0 ltac:(lra)). replace (reflected len x n + 0 * v) with (reflected len x n) in G by ring.
    rewrite G. ring.
  - eauto.
Qed.
(** The cosine used for the source is the physical one for the orientation mirrored on the
    axes with odd index, instead of the orientation itself. *)
Theorem C28_source_cosine_exact : forall src mic size n ori, length (image_vec src mic size n) = length n ->
  length ori = length n -> norm (image_vec src mic size n) <> 0 -> / 10 ^ 8 <= norm ori ->
  cos_between (image_vec src mic size n) ori =
  Some (cosine (departure n (image_vec src mic size n)) (departure n ori)).
Proof.
  intros src mic size n ori L1 L2 Hn Ho. rewrite cos_between_cosine by auto. f_equal.
  rewrite cosine_departure by (auto; clear -L2; revert ori L2; induction n; intros [|x v] H; cbn in *; try lia; rewrite IHn by lia; auto).
  rewrite departure_twice by auto. reflexivity.
Qed.
Theorem C28_source_directivity_refuted : exists src mic size ori n g,
  inside src size /\ inside mic size /\ directivity_gain "cardioid" = Ok g /\
  g (cos_between (image_vec src mic size n) ori) = Some 0 /\
  g (Some (cosine (departure n (image_vec src mic size n)) ori)) = Some 1.
Proof.
  exists [2; 5; 5], [8; 5; 5], [10; 10; 10], [1; 0; 0], [1; 0; 0]%Z. eexists.
  split; [repeat constructor; lra|]. split; [repeat constructor; lra|]. split; [reflexivity|].
  rewrite image_vec_ray. unfold ray.
  assert (E : diff [8; 5; 5] (image_of [2; 5; 5] [10; 10; 10] [1; 0; 0]%Z) = [-10; 0; 0]).
  { cbn [image_of]. rewrite !reflected_cell. cbn [Z.even diff]. f_equal; [lra|f_equal; [lra|f_equal; lra]]. }
  rewrite E.
  assert (N : norm [-10; 0; 0] = 10).
  { unfold norm. cbn [dot]. replace (-10 * -10 + (0 * 0 + (0 * 0 + 0))) with (10 * 10) by ring. apply sqrt_square. lra. }
  assert (N1 : norm [1; 0; 0] = 1).
  { unfold norm. cbn [dot]. replace (1 * 1 + (0 * 0 + (0 * 0 + 0))) with 1 by ring. apply sqrt_1. }
  split.
  - rewrite cos_between_cosine; [|rewrite N; lra|rewrite N1; apply Rlt_le, eps8_lt1].
    unfold cosine. rewrite N, N1. cbn [dot option_map]. f_equal. lra.
  - cbn [departure Z.even]. unfold cosine.
    assert (N2 : norm [- -10; 0; 0] = 10).
    { unfold norm. cbn [dot]. replace (- -10 * - -10 + (0 * 0 + (0 * 0 + 0))) with (10 * 10) by ring. apply sqrt_square. lra. }
    rewrite N2, N1. cbn [dot option_map]. f_equal. lra.
Qed.
(** What holds: images with even indices only, in particular the direct path. *)
Theorem C28_even_images_partial : forall src mic size n ori, length (image_vec src mic size n) = length n ->
  Forall (fun k => Z.even k = true) n -> norm (image_vec src mic size n) <> 0 -> / 10 ^ 8 <= norm ori ->
  cos_between (image_vec src mic size n) ori = Some (cosine (departure n (image_vec src mic size n)) ori).
Proof.
  intros src mic size n ori L1 F Hn Ho. rewrite cos_between_cosine by auto. rewrite departure_even by auto. reflexivity.
Qed.
(** Also every image, when the source points along axes with even index only. *)
Theorem C28_aligned_orientation_partial : forall src mic size n ori, length (image_vec src mic size n) = length n ->
  length ori = length n -> Forall2 (fun k x => Z.even k = true \/ x = 0) n ori ->
  norm (image_vec src mic size n) <> 0 -> / 10 ^ 8 <= norm ori ->
  cos_between (image_vec src mic size n) ori = Some (cosine (departure n (image_vec src mic size n)) ori).
Proof.
  intros src mic size n ori L1 L2 F Hn Ho. rewrite C28_source_cosine_exact by auto. do 2 f_equal.
  clear -F. induction F as [|k x n ori [H|H] F IH]; cbn; auto.
  - rewrite H, IH. auto.
  - subst. rewrite IH. destruct (Z.even k); auto. f_equal. ring.
Qed.
(** The microphone side is right for every image: the ray reaches the microphone from the
    direction [- vec], and the cosine is taken with that direction. *)
Theorem C28_mic_cosine : forall src mic size n ori, norm (image_vec src mic size n) <> 0 -> / 10 ^ 8 <= norm ori ->
  cos_between (vopp (image_vec src mic size n)) ori = Some (cosine (vopp (image_vec src mic size n)) ori).
Proof. intros. apply cos_between_cosine; auto. rewrite norm_vopp. auto. Qed.
Theorem C28_mic_arrival_is_physical : forall len m v, 0 < m < len ->
  exists e, 0 < e /\ forall t, 0 <= t < e -> folded len (m - t * v) = m - t * v.
Proof. exact ray_arrives. Qed.
Example C28_example : folded 10 (reflected 10 2 1 + 1 * -5) = 7 /\ folded 10 (reflected 10 2 (-1) + 1 * 7) = 5.
Proof.
  rewrite !reflected_cell. cbn [Z.even]. split.
  - replace (1 * 10 + (10 - 2) + 1 * -5) with (1 * 10 + 3) by ring. rewrite (folded_at 10 1 3) by lra. cbn. lra.
  - replace (-1 * 10 + (10 - 2) + 1 * 7) with (0 * 10 + 5) by ring. rewrite (folded_at 10 0 5) by lra. reflexivity.
Qed.
Print Assumptions C28_departure_is_physical.
Print Assumptions C28_source_cosine_exact.
Print Assumptions C28_source_directivity_refuted.
Print Assumptions C28_even_images_partial.
Print Assumptions C28_aligned_orientation_partial.
Print Assumptions C28_mic_cosine.
Print Assumptions C28_mic_arrival_is_physical.

(** ** C29 *)
Theorem C29_is_the_cosine : forall vec ori, norm vec <> 0 -> / 10 ^ 8 <= norm ori ->
  cos_between vec ori = Some (dot vec ori / (norm vec * norm ori)).
Proof. exact cos_between_cosine. Qed.
Theorem C29_bounded : forall vec ori c, cos_between vec ori = Some c -> -1 <= c <= 1.
Proof. exact cos_between_bounded. Qed.
Theorem C29_undefined_iff : forall vec ori, cos_between vec ori = None <-> norm vec = 0.
Proof.
  intros. unfold cos_between. rewrite vnorm_norm. destruct (Req_EM_T (norm vec) 0); split; auto; try discriminate. contradiction.
Qed.
Theorem C29_scaling : forall vec ori c, 0 < c -> / 10 ^ 8 <= norm ori -> / 10 ^ 8 <= c * norm ori ->
  cos_between vec (vscale c ori) = cos_between vec ori.
Proof.
  intros vec ori c Hc H1 H2. destruct (Req_dec (norm vec) 0) as [E|E].
  - assert (forall o, cos_between vec o = None) as U by (intros; apply C29_undefined_iff; auto). rewrite !U. auto.
  - rewrite !cos_between_cosine; auto; [|rewrite norm_vscale by lra; auto]. f_equal. apply cosine_scale; auto.
    pose proof eps8_pos. unfold eps8 in *. lra.
Qed.
Example C29_example : cos_between [3; 4] [2; 0] = Some (3 / 5) /\ cos_between [0; 0] [2; 0] = None.
Proof.
  assert (N : norm [3; 4] = 5) by (unfold norm; cbn [dot]; replace (3 * 3 + (4 * 4 + 0)) with (5 * 5) by ring; apply sqrt_square; lra).
  assert (M : norm [2; 0] = 2) by (unfold norm; cbn [dot]; replace (2 * 2 + (0 * 0 + 0)) with (2 * 2) by ring; apply sqrt_square; lra).
  split.
  - rewrite C29_is_the_cosine; [|lra|pose proof eps8_lt1; unfold eps8 in *; lra]. rewrite N, M. cbn [dot]. f_equal. lra.
  - apply C29_undefined_iff. unfold norm. cbn [dot]. replace (0 * 0 + (0 * 0 + 0)) with 0 by ring. apply sqrt_0.
Qed.
Print Assumptions C29_is_the_cosine.
Print Assumptions C29_bounded.
Print Assumptions C29_undefined_iff.
Print Assumptions C29_scaling.

(** ** C30 *)
(** A spelling other than "omni" needs an orientation although the pattern has none. *)
Theorem C30_alias_without_orientation_refuted : forall X dev r s m mo nb ns tmax tdiff sp mp cfg T,
  (sp <> "omni" \/ mp <> "omni")%string ->
  simulate_rir X dev r (ETensor s) (ETensor m) mo nb ns tmax tdiff (Some (DTuple [sp; mp])) ONone cfg <> Ok T.
Proof. exact no_orientation. Qed.
Theorem C30_alias_refuted : forall X, exists T,
  spells "Omni" "omni" /\
  simulate_rir X Cpu ex_room ex_src ex_mic (Some 0%Z) None (Some 20%Z) None None (Some (DName "omni")) ONone
    (Some ex_cfg) = Ok T /\
  simulate_rir X Cpu ex_room ex_src ex_mic (Some 0%Z) None (Some 20%Z) None None (Some (DName "Omni")) ONone
    (Some ex_cfg) = Err ValueError.
Proof.
  intros X. destruct (C22_example X) as (T & H & _). exists T. split.
  - cbn. unfold reads. repeat split; auto. right. cbn. lia.
  - split; auto. unfold simulate_rir. rewrite (resolve_dir _ _ _ (DName "Omni") (DName "omni")).
    unfold resolve_config. cbn [bind]. rewrite ex_cfg_valid. reflexivity.
Qed.
(** What holds: whenever the call with an alias succeeds it returns what "omni" returns. *)
Theorem C30_alias_result_partial : forall X dev r srcs mics mo nb ns tmax tdiff d ori cfg T,
  simulate_rir X dev r srcs mics mo nb ns tmax tdiff (Some d) ori cfg = Ok T ->
  simulate_rir X dev r srcs mics mo nb ns tmax tdiff (Some (canon_dir d)) ori cfg = Ok T.
Proof. exact simulate_canon. Qed.
Theorem C30_alias_result_dynamic_partial : forall X dev r src mic mo nb ns tmax d ori cfg T,
  simulate_dynamic_rir X dev r src mic mo nb ns tmax (Some d) ori cfg = Ok T ->
  simulate_dynamic_rir X dev r src mic mo nb ns tmax (Some (canon_dir d)) ori cfg = Ok T.
Proof. exact simulate_dynamic_canon. Qed.
(** ... and it behaves identically when both sides have an orientation vector. *)
Theorem C30_alias_with_orientation_partial : forall X dev r ps os pm om mo nb ns tmax tdiff p q cfg,
  (spells p "omni" \/ spells p "omnidirectional") -> (spells q "omni" \/ spells q "omnidirectional") ->
  wf os -> wf om -> shape os = [numel (r_size r)] -> shape om = [numel (r_size r)] ->
  simulate_rir X dev r (EObj ps (Some os)) (EObj pm (Some om)) mo nb ns tmax tdiff (Some (DTuple [p; q])) ONone cfg =
  simulate_rir X dev r (EObj ps (Some os)) (EObj pm (Some om)) mo nb ns tmax tdiff (Some (DName "omni")) ONone cfg.
Proof. intros. apply alias_equal; auto; apply alias_spells; auto. Qed.
Example C30_example : forall X, exists T,
  simulate_rir X Cpu ex_room (EObj (mkT [2%nat] [1; 1]) (Some (mkT [2%nat] [0; 1])))
    (EObj (mkT [1%nat; 2%nat] [4; 5]) (Some (mkT [2%nat] [1; 0])))
    (Some 1%Z) None (Some 20%Z) None None (Some (DTuple ["OMNI"; "omnidirectional"]%string)) ONone (Some ex_cfg) = Ok T.
Proof.
  intros X. rewrite C30_alias_with_orientation_partial; try reflexivity.
  - assert (Sc : scene ex_room (EObj (mkT [2%nat] [1; 1]) (Some (mkT [2%nat] [0; 1])))
      (EObj (mkT [1%nat; 2%nat] [4; 5]) (Some (mkT [2%nat] [1; 0]))) 2 [/2; /3; /5; /7]).
    { constructor; cbn; auto; try lra; try lia. reflexivity. }
    pose proof (simulate_omni X Cpu ex_room _ _ 1 None 20 ex_cfg 2 _ _ Sc ex_cfg_valid eq_refl
      ltac:(lia) ltac:(lia) eq_refl) as H. change (Z.of_nat 20) with 20%Z in H. eauto.
  - left. cbn. unfold reads. repeat split; auto; right; cbn; lia.
  - right. cbn. unfold reads. repeat split; auto.
Qed.
Print Assumptions C30_alias_without_orientation_refuted.
Print Assumptions C30_alias_refuted.
Print Assumptions C30_alias_result_partial.
Print Assumptions C30_alias_result_dynamic_partial.
Print Assumptions C30_alias_with_orientation_partial.

(** ** C38 *)
Theorem C38_unit_norm : forall v, / 10 ^ 8 <= norm v ->
  norm (normalize_orientation v) = 1 /\ v = vscale (norm v) (normalize_orientation v).
Proof.
  intros v H. split; [apply normalize_unit; auto|]. pose proof (normalize_parallel v) as P.
  rewrite Rmax_left in P by exact H. exact P.
Qed.
Theorem C38_short_vectors : forall v, norm v <= / 10 ^ 8 ->
  norm (normalize_orientation v) = norm v * 10 ^ 8 /\ v = vscale (/ 10 ^ 8) (normalize_orientation v).
Proof.
  intros v H. split.
  - rewrite normalize_norm. unfold eps8, Rdiv. rewrite Rinv_inv. apply Rmin_right.
    assert (0 < 10 ^ 8) by (apply pow_lt; lra). apply Rmult_le_reg_r with (/ 10 ^ 8); [apply Rinv_0_lt_compat; auto|].
    rewrite Rmult_assoc, Rinv_r by lra. lra.
  - pose proof (normalize_parallel v) as P. rewrite Rmax_right in P by exact H. exact P.
Qed.
(** An input row as a direction: an angle, a vector, or (azimuth, elevation). *)
Definition meant (dim : nat) (row : list R) : list R :=
  match dim, row with
  | 2%nat, [a] => [cos a; sin a]
  | 3%nat, [az; el] => [cos el * cos az; cos el * sin az; sin el]
  | _, _ => row
  end.
(** Rows of the orientation argument: scalars and (in 2-D) vectors of length other than 2 are
    lists of angles. *)
Definition ori_rows (dim : nat) (o : tensor) : list (list R) :=
  if ((dim =? 2) && ((ndim o =? 0) || ((ndim o =? 1) && negb (numel o =? 2))))%nat
  then map (fun a => [a]) (data o) else trows o.
Theorem C38_orientation_rows : forall o dim u, wf o -> orientation_to_unit o dim = Ok u ->
  (dim = 2%nat \/ dim = 3%nat) /\ last (shape u) 0%nat = dim /\
  data u = concat (map (fun row => normalize_orientation (meant dim row)) (ori_rows dim o)).
Proof.
  intros o dim u W H. unfold orientation_to_unit in H. unfold ori_rows.
  destruct (Nat.eqb_spec dim 2) as [->|D2].
  - cbn [andb]. destruct (Nat.eqb_spec (ndim o) 0) as [N|N].
    { injection H as <-. cbn [orb]. split; auto. split; [reflexivity|].
      unfold wf, ndim in *. destruct (shape o); [|discriminate]. cbn in W. destruct (data o) as [|a [|]]; try discriminate.
      reflexivity. }
    cbn [orb]. destruct (Nat.eqb_spec (last (shape o) 0%nat) 1) as [L1|L1].
    { injection H as <-. split; auto. split; [apply last_last|]. cbn [of_rows data].
      assert (T : trows o = map (fun a => [a]) (data o)).
      { unfold trows. rewrite L1. assert (Hn : shape o <> []) by (unfold ndim in N; destruct (shape o); cbn in *; congruence).
        assert (Q : prodn (removelast (shape o)) = length (data o)).
        { rewrite W, (prodn_last (shape o) Hn), L1. lia. }
        rewrite Q. rewrite <- (map_nth_seq (fun a => [a]) (data o) 0). apply map_ext_in. intros i Hi. apply in_seq in Hi.
        rewrite Nat.mul_1_r. apply nth_concat_single. lia. }
      destruct ((ndim o =? 1) && negb (numel o =? 2))%nat; rewrite ?T, map_map; reflexivity. }
    destruct ((ndim o =? 1) && negb (numel o =? 2))%nat eqn:E1.
    { injection H as <-. split; auto. split; [apply last_last|]. cbn [of_rows data]. rewrite map_map. reflexivity. }
    destruct (Nat.eqb_spec (last (shape o) 0%nat) 2) as [L2|L2]; [|discriminate].
    injection H as <-. split; auto. split; [apply last_last|]. cbn [of_rows data]. f_equal. apply map_ext_in.
    intros row Hr. f_equal. pose proof (wf_trows o W) as F. rewrite Forall_forall in F. apply F in Hr. rewrite L2 in Hr.
    destruct row as [|a [|b [|]]]; cbn in Hr; try lia. reflexivity.
  - destruct (Nat.eqb_spec dim 3) as [->|D3]; [|discriminate]. cbn [andb].
    destruct (Nat.eqb_spec (ndim o) 0); [discriminate|].
    destruct (Nat.eqb_spec (last (shape o) 0%nat) 3) as [L3|L3].
    { injection H as <-. split; auto. split; [apply last_last|]. cbn [of_rows data]. f_equal. apply map_ext_in.
      intros row Hr. f_equal. pose proof (wf_trows o W) as F. rewrite Forall_forall in F. apply F in Hr. rewrite L3 in Hr.
      destruct row as [|a [|b [|c [|]]]]; cbn in Hr; try lia. reflexivity. }
    destruct (Nat.eqb_spec (last (shape o) 0%nat) 2) as [L2|L2]; [|discriminate].
    injection H as <-. split; auto. split; [apply last_last|]. cbn [of_rows data]. f_equal. apply map_ext_in.
    intros row Hr. f_equal. pose proof (wf_trows o W) as F. rewrite Forall_forall in F. apply F in Hr. rewrite L2 in Hr.
    destruct row as [|a [|b [|]]]; cbn in Hr; try lia. reflexivity.
Qed.
(** Angles are always turned into exact unit vectors. *)
Theorem C38_angles : forall a az el,
  normalize_orientation (meant 2 [a]) = [cos a; sin a] /\ norm [cos a; sin a] = 1 /\
  normalize_orientation (meant 3 [az; el]) = [cos el * cos az; cos el * sin az; sin el] /\
  norm [cos el * cos az; cos el * sin az; sin el] = 1.
Proof.
  intros. pose proof (norm_angle a). pose proof (norm_azel az el). cbn [meant].
  split; [apply normalize_fix; auto|]. split; auto. split; auto. apply normalize_fix; auto.
Qed.
Example C38_example : exists u, orientation_to_unit (mkT [2%nat; 3%nat] [0; 0; 2; 3; 0; 4]) 3 = Ok u /\
  shape u = [2; 3]%nat /\ data u = [0; 0; 1; 3/5; 0; 4/5].
Proof.
  eexists. split; [reflexivity|]. split; [reflexivity|]. cbn. unfold normalize_orientation, vnorm, vdot. cbn.
  replace (0 * 0 + (0 * 0 + (2 * 2 + 0))) with (2 * 2) by ring.
  replace (3 * 3 + (0 * 0 + (4 * 4 + 0))) with (5 * 5) by ring. rewrite !sqrt_square by lra.
  rewrite !Rmax_left by lra. repeat (f_equal; try lra).
Qed.
(** One row of a table of orientations: the entity gets the direction meant by its own row. *)
Lemma block_row k (l : list R) a : (a + k <= length l)%nat -> block a k l = map (fun j => nth (a + j) l 0) (seq 0 k).
Proof.
  intros H. apply (nth_ext _ _ 0 0); rewrite length_block by auto; rewrite ?map_length, ?seq_length; auto. intros i Hi. rewrite nth_block by auto.
  rewrite nth_map_seq by auto. reflexivity.
Qed.
Theorem C38_select : forall o idx count k dim, wf o -> shape o = [count; k] -> (dim = 2%nat /\ (k = 1%nat \/ k = 2%nat) \/ dim = 3%nat /\ (k = 2%nat \/ k = 3%nat)) ->
  ((idx < count)%nat -> select_orientation o idx count dim = Ok (mkT [dim] (normalize_orientation (meant dim (map (fun j => nth (idx * k + j) (data o) 0) (seq 0 k)))))) /\
  ((count <= idx)%nat -> select_orientation o idx count dim = Err IndexError) /\
  (forall other, other <> count -> select_orientation o idx other dim = Err ValueError).
Proof.
  intros o idx count k dim W Sh D. unfold select_orientation. unfold ndim. rewrite Sh. cbn [length Nat.leb Nat.eqb andb nth last]. split; [|split].
  - intros I. rewrite Nat.eqb_refl, (trows_2d o count k Sh). assert (L : (idx * k + k <= length (data o))%nat).
    { unfold wf in W. rewrite W, Sh. cbn [prodn fold_right]. nia. }
    rewrite (map_nth_error (fun i => block (i * k) k (data o)) idx (seq 0 count) (d := idx)).
    2:{ rewrite (nth_error_nth' _ 0%nat) by (rewrite seq_length; auto). rewrite seq_nth by auto. reflexivity. }
    rewrite (block_row k _ _ L). cbn [seq map].
    destruct D as [(E1 & [E2|E2])|(E1 & [E2|E2])]; subst k dim; cbn [seq map]; reflexivity.
  - intros I. rewrite Nat.eqb_refl, (trows_2d o count k Sh). rewrite (proj2 (nth_error_None _ _)); [reflexivity|]. rewrite map_length, seq_length. auto.
  - intros other N. replace (count =? other)%nat with false by (symmetry; apply Nat.eqb_neq; auto). reflexivity.
Qed.
(** A single orientation serves everyone. *)
Theorem C38_select_shared : forall o idx count dim, (ndim o <= 1)%nat -> select_orientation o idx count dim = orientation_to_unit o dim.
Proof. intros o idx count dim H. unfold select_orientation. apply Nat.leb_le in H. rewrite H. reflexivity. Qed.
Example C38_select_example : exists u, select_orientation (mkT [2%nat; 3%nat] [0; 0; 2; 3; 0; 4]) 1 2 3 = Ok u /\ shape u = [3%nat] /\ data u = [3/5; 0; 4/5].
Proof.
  destruct (C38_select (mkT [2%nat; 3%nat] [0; 0; 2; 3; 0; 4]) 1 2 3 3) as (E & _); auto; [reflexivity|]. rewrite E by lia. eexists. split; [reflexivity|]. split; [reflexivity|].
  cbn. unfold normalize_orientation, vnorm, vdot. cbn. replace (3 * 3 + (0 * 0 + (4 * 4 + 0))) with (5 * 5) by ring. rewrite !sqrt_square by lra.
  rewrite !Rmax_left by lra. repeat (f_equal; try lra).
Qed.
Print Assumptions C38_unit_norm.
Print Assumptions C38_short_vectors.
Print Assumptions C38_orientation_rows.
Print Assumptions C38_angles.
Print Assumptions C38_select.
Print Assumptions C38_select_shared.
