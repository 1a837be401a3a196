(** Property theorems C12 - C15: image enumeration, positions, gains and coverage. *)
From Coq Require Import List ZArith Reals Lia Lra Bool.
From Verif Require Import Prelude PreludeFacts ImageModel ImageSpec AcousticModel ImageProofs.
Import ListNotations.
Local Open Scope R_scope.

(** ** C12 *)
Theorem C12_order_enumeration : forall N dim, (0 <= N)%Z ->
  exists l, image_source_indices N dim None = Ok l /\ NoDup l /\
    forall v, In v l <-> length v = dim /\ (order_of v <= N)%Z.
Proof. exact indices_order. Qed.
Theorem C12_box_enumeration : forall max_order dim nb, length nb = dim ->
  Forall (fun n => (0 <= n)%Z) nb ->
  exists l, image_source_indices max_order dim (Some nb) = Ok l /\ NoDup l /\
    forall v, In v l <-> Forall2 (fun x n => (Z.abs x <= n)%Z) v nb.
Proof. exact indices_box. Qed.
Theorem C12_wrong_length_rejected : forall max_order dim nb, length nb <> dim ->
  image_source_indices max_order dim (Some nb) = Err ValueError.
Proof. exact indices_box_reject. Qed.
Theorem C12_negative_count_raises : forall max_order dim nb, length nb = dim ->
  Exists (fun n => (n < 0)%Z) nb ->
  image_source_indices max_order dim (Some nb) = Err RuntimeError.
Proof. exact indices_box_negative. Qed.
Theorem C12_count_2d : forall N : nat, exists l,
  image_source_indices (Z.of_nat N) 2 None = Ok l /\ length l = (2 * N * N + 2 * N + 1)%nat.
Proof. exact indices_count_2. Qed.
Theorem C12_count_3d : forall N : nat, exists l,
  image_source_indices (Z.of_nat N) 3 None = Ok l /\
  (3 * length l = (2 * N + 1) * (2 * N * N + 2 * N + 3))%nat.
Proof. exact indices_count_3. Qed.
Example C12_example : image_source_indices 1 2 None =
  Ok [[-1; 0]; [0; -1]; [0; 0]; [0; 1]; [1; 0]]%Z.
Proof. reflexivity. Qed.
Example C12_example_box : image_source_indices 7 2 (Some [0; 1]%Z) = Ok [[0; -1]; [0; 0]; [0; 1]]%Z.
Proof. reflexivity. Qed.
Print Assumptions C12_order_enumeration.
Print Assumptions C12_box_enumeration.
Print Assumptions C12_wrong_length_rejected.
Print Assumptions C12_negative_count_raises.
Print Assumptions C12_count_2d.
Print Assumptions C12_count_3d.

(** ** C13 *)
Theorem C13_iterated_reflection : forall src size n i x len k,
  nth_error src i = Some x -> nth_error size i = Some len -> nth_error n i = Some k ->
  nth_error (image_position src size n) i = Some (reflected len x k).
Proof.
  intros. rewrite <- image_coord_reflected. apply nth_image_position; auto.
Qed.
Theorem C13_mirror_cell : forall src size n i x len k,
  nth_error src i = Some x -> nth_error size i = Some len -> nth_error n i = Some k ->
  0 <= x <= len ->
  exists y, nth_error (image_position src size n) i = Some y /\
    IZR k * len <= y <= IZR (k + 1) * len.
Proof.
  intros. eexists; split; [apply nth_image_position; eauto|]. apply image_coord_cell; auto.
Qed.
(** Image 3 of x = 1 in a room of length 4: mirrored at 4, 8 and 12. *)
Example C13_example : image_position [1] [4] [3%Z] = [15] /\ reflected 4 1 3 = 15.
Proof.
  split.
  - pose proof (C13_iterated_reflection [1] [4] [3%Z] 0 1 4 3 eq_refl eq_refl eq_refl) as H.
    cbn in H. injection H as H. unfold image_position, map2. cbn. f_equal. rewrite H.
    change (Pos.to_nat 3) with 3%nat. cbn. unfold mirror. lra.
  - cbn [reflected]. change (Pos.to_nat 3) with 3%nat. cbn. unfold mirror. lra.
Qed.
Print Assumptions C13_iterated_reflection.
Print Assumptions C13_mirror_cell.

(** ** C14 *)
Theorem C14_path_product : forall n beta,
  reflection_coefficient n beta = path_gain (beta_pairs beta) n.
Proof. exact reflection_path. Qed.
(** The walls in the product are exactly the wall copies that lie between the image and the
    receiver, each once. *)
Theorem C14_walls_crossed : forall len x m n, 0 < len -> 0 < x < len -> 0 < m < len ->
  NoDup (planes n) /\ forall j,
  In j (planes n) <->
   (m < IZR j * len < reflected len x n \/ reflected len x n < IZR j * len < m).
Proof.
  intros. split; [apply NoDup_planes|]. intros j. rewrite <- image_coord_reflected.
  apply planes_crossed; auto.
Qed.
Theorem C14_range : forall n beta, Forall (fun b => 0 <= b <= 1) beta ->
  0 <= reflection_coefficient n beta <= 1.
Proof. intros. rewrite reflection_path. apply path_gain_range. apply (beta_pairs_forall (fun b => 0 <= b <= 1)); auto. Qed.
Theorem C14_monotone : forall n beta beta', Forall2 (fun b b' => 0 <= b <= b') beta beta' ->
  reflection_coefficient n beta <= reflection_coefficient n beta'.
Proof.
  intros n b b' H. rewrite !reflection_path.
  apply (path_gain_mono _ _ n (beta_pairs_forall2 _ _ _ H)).
Qed.
Theorem C14_direct : forall dim beta, reflection_coefficient (repeat 0%Z dim) beta = 1.
Proof. intros. rewrite reflection_path. apply path_gain_direct. Qed.
(** beta = [low x; high x; low y; high y; ...]: a zero coefficient on the low (even plane)
    or high (odd plane) wall of axis [i] removes every image whose path meets it. *)
Theorem C14_absorbed : forall n beta i k j,
  (2 * i + 1 < length beta)%nat -> nth_error n i = Some k -> In j (planes k) ->
  nth (2 * i + if Z.even j then 0 else 1) beta 0 = 0 ->
  reflection_coefficient n beta = 0.
Proof.
  intros n beta i k j Hi Hk Hj Hz. rewrite reflection_path.
  eapply path_gain_zero; [apply nth_beta_pairs; eauto|eauto|exact Hj|].
  unfold wall_of. destruct (Z.even j); [rewrite Nat.add_0_r in Hz|]; auto.
Qed.
(** With all coefficients zero only the direct path remains. *)
Theorem C14_all_absorbing : forall n dim, length n = dim -> n <> repeat 0%Z dim ->
  reflection_coefficient n (repeat 0 (2 * dim)) = 0.
Proof.
  intros n dim Hn Hne.
  assert (exists i k, nth_error n i = Some k /\ k <> 0%Z) as (i & k & Hi & Hk).
  { subst dim. induction n as [|x n IH]; [destruct Hne; reflexivity|].
    destruct (Z.eq_dec x 0) as [->|]; [|exists 0%nat, x; auto].
    destruct IH as (i & k & H1 & H2); [|exists (S i), k; auto].
    intros E. apply Hne. cbn. congruence. }
  assert (Hl : (i < dim)%nat) by (subst dim; apply nth_error_Some; congruence).
  assert (exists j, In j (planes k)) as (j & Hj).
  { destruct (Z_lt_le_dec 0 k); [exists 1%Z|exists 0%Z]; apply in_planes; lia. }
  apply (C14_absorbed n _ i k j); [rewrite repeat_length; lia|exact Hi|exact Hj|].
  apply (nth_repeat_any 0).
Qed.
Example C14_example : reflection_coefficient [2; -1]%Z [/2; /3; /5; /7] = / 30.
Proof.
  rewrite C14_path_product. cbn [beta_pairs path_gain planes].
  change (Pos.to_nat 2) with 2%nat. change (Pos.to_nat 1) with 1%nat.
  cbn. unfold wall_of. cbn. lra.
Qed.
Print Assumptions C14_path_product.
Print Assumptions C14_walls_crossed.
Print Assumptions C14_range.
Print Assumptions C14_monotone.
Print Assumptions C14_direct.
Print Assumptions C14_absorbed.
Print Assumptions C14_all_absorbing.

(** ** C15 *)
Theorem C15_coverage : forall tmax size c nb src mic n, 0 < c -> wf size ->
  estimate_image_counts_from_tmax tmax size c = Ok nb ->
  Forall (fun l => 0 < l) (data size) -> inside src (data size) -> inside mic (data size) ->
  length n = length (data size) -> ~ Forall2 (fun x k => (Z.abs x <= k)%Z) n nb ->
  tmax * c <= euclid mic (image_position src (data size) n).
Proof. exact coverage. Qed.
Theorem C15_counts_positive : forall tmax size c nb, 0 < c ->
  estimate_image_counts_from_tmax tmax size c = Ok nb ->
  Forall (fun l => 0 < l) (data size) -> Forall (fun k => (1 <= k)%Z) nb.
Proof. exact box_counts_nonneg. Qed.
Example C15_example : estimate_image_counts_from_tmax 1 (mkT [2%nat] [2; 5]) 10 = Ok [5; 2]%Z.
Proof.
  unfold estimate_image_counts_from_tmax. destruct (Rle_dec 1 0); [lra|]. cbn [ensure_dim ndim shape
    length numel prodn fold_right Nat.eqb Nat.mul Nat.add andb orb bind data map].
  rewrite (ceilZ_unique (1 * 10 / 2) 5), (ceilZ_unique (1 * 10 / 5) 2) by lra. reflexivity.
Qed.
Print Assumptions C15_coverage.
Print Assumptions C15_counts_positive.
