(** Symmetries, monotonicity and locality of the simulated responses. *)
From Coq Require Import String List ZArith Reals Lia Lra Bool Permutation.
From Verif Require Import Prelude PreludeFacts SignalModel FloatModel DirModel ImageModel ImageSpec AcousticModel
  AccumModel IsmModel IsmSpec ImageProofs AccumProofs IsmProofs SimProofs.
Import ListNotations.
Local Open Scope R_scope.
Local Notation length := List.length.

(** ** Reciprocity *)
Lemma swap_index_inv n : swap_index (swap_index n) = n.
Proof. unfold swap_index. destruct (Z.even n) eqn:E; [rewrite Z.even_opp, E; lia|rewrite E; auto]. Qed.
Lemma swap_index_abs n : Z.abs (swap_index n) = Z.abs n.
Proof. unfold swap_index. destruct (Z.even n); lia. Qed.
Lemma reflected_swap len x y n :
  (y - reflected len x n) * (y - reflected len x n) =
  (x - reflected len y (swap_index n)) * (x - reflected len y (swap_index n)).
Proof.
  rewrite <- !image_coord_reflected. unfold swap_index. destruct (parity n) as [k [->| ->]].
  - replace (Z.even (2 * k)) with true by (rewrite Z.even_mul; reflexivity).
    replace (- (2 * k))%Z with (2 * (- k))%Z by lia. rewrite !image_coord_even.
    rewrite !mult_IZR, opp_IZR. ring.
  - replace (Z.even (2 * k + 1)) with false by (rewrite Z.even_add, Z.even_mul; reflexivity).
    rewrite !image_coord_odd. ring.
Qed.
Lemma wall_product_swap lo hi n : wall_product lo hi (planes n) = wall_product lo hi (planes (swap_index n)).
Proof.
  rewrite <- !axis_coeff_path. unfold swap_index. destruct (parity n) as [k [->| ->]].
  - replace (Z.even (2 * k)) with true by (rewrite Z.even_mul; reflexivity).
    assert (G : forall k, axis_coeff lo hi (2 * k) = hi ^ Z.to_nat (Z.abs k) * lo ^ Z.to_nat (Z.abs k)).
    { clear k. intros k. unfold axis_coeff, n_hi, n_lo. destruct (Z.leb_spec 0 (2 * k)).
      - z2. replace (Z.abs k) with k by lia. reflexivity.
      - replace (Z.abs (2 * k)) with (2 * Z.abs k)%Z by lia. z2. reflexivity. }
    replace (- (2 * k))%Z with (2 * (- k))%Z by lia. rewrite !G, Z.abs_opp. reflexivity.
  - replace (Z.even (2 * k + 1)) with false by (rewrite Z.even_add, Z.even_mul; reflexivity). reflexivity.
Qed.
Lemma path_gain_swap ws n : path_gain ws n = path_gain ws (map swap_index n).
Proof.
  revert n. induction ws as [|[lo hi] ws IH]; intros [|k n]; cbn [path_gain map]; auto.
  rewrite <- wall_product_swap, <- IH. reflexivity.
Qed.
Lemma ray_length_swap src mic size n : length src = length size -> length mic = length size ->
  ray_length src mic size n = ray_length mic src size (map swap_index n).
Proof.
  intros Hs Hm. unfold ray_length, euclid. do 2 f_equal. unfold sqdist. revert src mic n Hs Hm.
  induction size as [|l size IH]; intros [|x src] [|y mic] [|k n] Hs Hm; try discriminate; auto.
  cbn [image_of map combine fold_right fst snd]. rewrite reflected_swap. f_equal. apply IH; auto.
Qed.
Lemma perm_involution (images : list (list Z)) (phi : list Z -> list Z) :
  NoDup images -> (forall n, In n images -> phi (phi n) = n) ->
  (forall n, In n images -> In (phi n) images) -> Permutation (map phi images) images.
Proof.
  intros Hn Hi Hp. apply NoDup_Permutation; auto.
  - clear Hp. assert (G : forall l, incl l images -> NoDup l -> NoDup (map phi l)).
    { induction l; intros Hl Hd; cbn; constructor.
      - intros Hin. apply in_map_iff in Hin as (b & E & Hb). inversion Hd; subst.
        assert (a = b). { rewrite <- (Hi a), <- (Hi b), E; auto; apply Hl; [right|left]; auto. }
        subst. auto.
      - apply IHl; [|inversion Hd; auto]. intros x Hx. apply Hl. right; auto. }
    apply G; auto. apply incl_refl.
  - intros n. split.
    + intros H. apply in_map_iff in H as (m & <- & Hm). auto.
    + intros H. apply in_map_iff. exists (phi n). auto.
Qed.
Lemma response_reciprocal L k fs c ws size images src mic j :
  length src = length size -> length mic = length size ->
  NoDup images -> (forall n, In n images -> In (map swap_index n) images) ->
  response L k fs c ws size images unity unity src mic j =
  response L k fs c ws size images unity unity mic src j.
Proof.
  intros Hs Hm Hn Hc. unfold response.
  rewrite (map_ext _ (fun n => pulse L k (ray_length mic src size (map swap_index n) * fs / c)
     (amplitude ws unity unity mic src size (map swap_index n)) j)).
  - rewrite <- (map_map (map swap_index) (fun n => pulse L k (ray_length mic src size n * fs / c)
     (amplitude ws unity unity mic src size n) j)).
    apply xsum_perm, Permutation_map, perm_involution; auto.
    intros n _. rewrite map_map. rewrite <- (map_id n) at 2. apply map_ext. apply swap_index_inv.
  - intros n. unfold amplitude. rewrite <- path_gain_swap, <- ray_length_swap by auto. reflexivity.
Qed.
Lemma order_map_abs f n : (forall k, Z.abs (f k) = Z.abs k) -> order_of (map f n) = order_of n.
Proof. intros H. unfold order_of. rewrite map_map. f_equal. apply map_ext. auto. Qed.
Lemma indices_closed N dim nb images phi : (0 <= N)%Z -> image_source_indices N dim nb = Ok images ->
  (forall n, length (phi n) = length n) ->
  (forall n, map Z.abs (phi n) = map Z.abs n) ->
  NoDup images /\ (forall n, In n images -> In (phi n) images).
Proof.
  intros HN H Hl Ha. destruct nb as [nb|].
  - destruct (Nat.eq_dec (length nb) dim) as [Hd|Hd].
    + destruct (Forall_Exists_dec (fun n => (0 <= n)%Z) (fun n => Z_le_dec 0 n) nb) as [F|F].
      * destruct (indices_box N dim nb Hd F) as (l' & E & D & I). rewrite E in H. injection H as <-.
        split; auto. intros n Hn. apply I in Hn. apply I.
        assert (G : forall a b, Forall2 (fun x k => (Z.abs x <= k)%Z) a b <-> Forall2 Z.le (map Z.abs a) b).
        { intros a b. split.
          - induction 1; cbn; constructor; auto.
          - revert a. induction b; intros [|x a0] G; cbn in G; inversion G; subst; constructor; auto. }
        apply G. rewrite Ha. apply G. auto.
      * rewrite indices_box_negative in H; [discriminate|auto|].
        eapply Exists_impl; [|exact F]. intros; cbv beta in *; lia.
    + rewrite indices_box_reject in H by auto. discriminate.
  - destruct (indices_order N dim HN) as (l' & E & D & I). rewrite E in H. injection H as <-.
    split; auto. intros n Hn. apply I in Hn as [H1 H2]. apply I. split; [rewrite Hl; auto|].
    unfold order_of in *. rewrite Ha. auto.
Qed.
Lemma indices_length N dim nb images n : (0 <= N)%Z -> image_source_indices N dim nb = Ok images ->
  In n images -> length n = dim.
Proof.
  intros HN H Hn. destruct nb as [nb|].
  - destruct (Nat.eq_dec (length nb) dim) as [Hd|Hd].
    + destruct (Forall_Exists_dec (fun n => (0 <= n)%Z) (fun n => Z_le_dec 0 n) nb) as [F|F].
      * destruct (indices_box N dim nb Hd F) as (l' & E & D & I). rewrite E in H. injection H as <-.
        apply I in Hn. apply Forall2_length in Hn. congruence.
      * rewrite indices_box_negative in H; [discriminate|auto|].
        eapply Exists_impl; [|exact F]. intros; cbv beta in *; lia.
    + rewrite indices_box_reject in H by auto. discriminate.
  - destruct (indices_order N dim HN) as (l' & E & D & I). rewrite E in H. injection H as <-.
    apply I in Hn as [H1 _]. auto.
Qed.

(** ** Mirror symmetry *)
Lemma reflected_mirror len x n : reflected len (len - x) (- n) = len - reflected len x n.
Proof.
  rewrite <- !image_coord_reflected. destruct (parity n) as [k [->| ->]].
  - replace (- (2 * k))%Z with (2 * (- k))%Z by lia. rewrite !image_coord_even, !mult_IZR, opp_IZR. ring.
  - replace (- (2 * k + 1))%Z with (2 * (- k - 1) + 1)%Z by lia. rewrite !image_coord_odd.
    rewrite !plus_IZR, !mult_IZR, minus_IZR, opp_IZR. ring.
Qed.
Lemma wall_product_mirror lo hi n : wall_product hi lo (planes (- n)) = wall_product lo hi (planes n).
Proof.
  rewrite <- !axis_coeff_path. unfold axis_coeff.
  assert (G : forall n, n_hi (- n) = n_lo n).
  { clear. intros n. unfold n_hi, n_lo. destruct (Z.leb_spec 0 (- n)), (Z.leb_spec 0 n).
    - replace n with 0%Z by lia. reflexivity.
    - replace (Z.abs n) with (- n)%Z by lia. reflexivity.
    - replace (Z.abs (- n)) with n by lia. reflexivity.
    - lia. }
  rewrite G. assert (G2 : n_lo (- n) = n_hi n) by (rewrite <- G; f_equal; lia).
  rewrite G2. ring.
Qed.
Lemma path_gain_mirror i beta n :
  path_gain (beta_pairs (swap_walls i beta)) (negate_at i n) = path_gain (beta_pairs beta) n.
Proof.
  revert beta n. induction i; intros [|lo [|hi beta]] [|k n]; auto;
    cbn [swap_walls negate_at beta_pairs path_gain].
  - rewrite wall_product_mirror. reflexivity.
  - rewrite IHi. reflexivity.
Qed.
Lemma ray_length_mirror i size src mic n : length src = length size -> length mic = length size ->
  length n = length size ->
  ray_length (mirrored i size src) (mirrored i size mic) size (negate_at i n) = ray_length src mic size n.
Proof.
  intros Hs Hm Hn. unfold ray_length, euclid. do 2 f_equal. unfold sqdist. revert i src mic n Hs Hm Hn.
  induction size as [|l size IH]; intros [|i] [|x src] [|y mic] [|k n] Hs Hm Hn; try discriminate; auto;
    cbn [mirrored negate_at image_of combine map fold_right fst snd].
  - rewrite reflected_mirror. f_equal. ring.
  - f_equal. apply IH; auto.
Qed.
Lemma negate_at_inv i n : negate_at i (negate_at i n) = n.
Proof. revert n. induction i; intros [|k n]; cbn; auto; f_equal; auto. lia. Qed.
Lemma negate_at_length i n : length (negate_at i n) = length n.
Proof. revert n. induction i; intros [|k n]; cbn; auto. Qed.
Lemma negate_at_abs i n : map Z.abs (negate_at i n) = map Z.abs n.
Proof. revert n. induction i; intros [|k n]; cbn; auto; f_equal; auto. lia. Qed.
Lemma response_mirror i L k fs c beta size images src mic j :
  length src = length size -> length mic = length size ->
  NoDup images -> (forall n, In n images -> In (negate_at i n) images /\ length n = length size) ->
  response L k fs c (beta_pairs (swap_walls i beta)) size images unity unity
    (mirrored i size src) (mirrored i size mic) j =
  response L k fs c (beta_pairs beta) size images unity unity src mic j.
Proof.
  intros Hs Hm Hn Hc. unfold response. symmetry.
  rewrite (map_ext_in _ (fun n => pulse L k (ray_length (mirrored i size src) (mirrored i size mic) size (negate_at i n) * fs / c)
     (amplitude (beta_pairs (swap_walls i beta)) unity unity (mirrored i size src) (mirrored i size mic) size (negate_at i n)) j)).
  - rewrite <- (map_map (negate_at i) (fun n => pulse L k (ray_length (mirrored i size src) (mirrored i size mic) size n * fs / c)
     (amplitude (beta_pairs (swap_walls i beta)) unity unity (mirrored i size src) (mirrored i size mic) size n) j)).
    apply xsum_perm, Permutation_map, perm_involution; auto.
    + intros; apply negate_at_inv.
    + intros; apply Hc; auto.
  - intros n Hin. unfold amplitude. rewrite path_gain_mirror, ray_length_mirror; auto. apply Hc; auto.
Qed.

(** ** Adding images *)
Lemma response_app L k fs c ws size a b gs gm src mic j :
  response L k fs c ws size (a ++ b) gs gm src mic j =
  xadd (response L k fs c ws size a gs gm src mic j) (response L k fs c ws size b gs gm src mic j).
Proof. unfold response. rewrite map_app, xsum_app. reflexivity. Qed.
Lemma response_perm L k fs c ws size a b gs gm src mic j : Permutation a b ->
  response L k fs c ws size a gs gm src mic j = response L k fs c ws size b gs gm src mic j.
Proof. intros H. unfold response. apply xsum_perm, Permutation_map, H. Qed.
Lemma perm_filter {A} (p : A -> bool) l : Permutation l (filter p l ++ filter (fun x => negb (p x)) l).
Proof.
  induction l as [|a l IH]; cbn; auto. destruct (p a); cbn.
  - constructor. auto.
  - apply Permutation_cons_app. auto.
Qed.
Lemma indices_extend N dim l l' : (0 <= N)%Z -> image_source_indices N dim None = Ok l ->
  image_source_indices (N + 1) dim None = Ok l' ->
  exists news, Permutation l' (l ++ news) /\ NoDup news /\
    forall n, In n news <-> length n = dim /\ order_of n = (N + 1)%Z.
Proof.
  intros HN H H'. destruct (indices_order N dim HN) as (k & E & D & I).
  rewrite E in H. injection H as <-. destruct (indices_order (N + 1) dim ltac:(lia)) as (k' & E' & D' & I').
  rewrite E' in H'. injection H' as <-.
  exists (filter (fun n => negb (order_of n <=? N)%Z) k'). split; [|split].
  - rewrite (perm_filter (fun n => (order_of n <=? N)%Z) k') at 1. apply Permutation_app_tail.
    apply NoDup_Permutation; auto using NoDup_filter. intros n. rewrite filter_In, I, I', Z.leb_le. lia.
  - apply NoDup_filter; auto.
  - intros n. rewrite filter_In, I', negb_true_iff, Z.leb_gt. lia.
Qed.
Lemma pulse_zero L k d j : pulse L k d (Some 0) j = Some 0.
Proof. unfold pulse. destruct (_ && _)%bool; cbn; auto. f_equal. ring. Qed.
Lemma response_absorbing L k fs c dim size images src mic j :
  (forall n, In n images -> length n = dim /\ n <> repeat 0%Z dim) ->
  response L k fs c (beta_pairs (repeat 0 (2 * dim))) size images unity unity src mic j = Some 0.
Proof.
  intros H. unfold response. apply xsum_zero. intros x Hx. apply in_map_iff in Hx as (n & <- & Hn).
  apply H in Hn as [H1 H2].
  replace (amplitude _ unity unity src mic size n) with (Some 0); [apply pulse_zero|].
  unfold amplitude, unity. cbn [xmul xscale option_map]. rewrite <- reflection_path.
  assert (E : reflection_coefficient n (repeat 0 (2 * dim)) = 0).
  { assert (exists i k, nth_error n i = Some k /\ k <> 0%Z) as (i & q & Hi & Hk).
    { subst dim. clear -H2. induction n as [|x n IH]; [destruct H2; reflexivity|].
      destruct (Z.eq_dec x 0) as [->|]; [|exists 0%nat, x; auto].
      destruct IH as (i & k & G1 & G2); [|exists (S i), k; auto].
      intros E. apply H2. cbn. congruence. }
    assert (Hl : (i < dim)%nat) by (subst dim; apply nth_error_Some; congruence).
    assert (exists j, In j (planes q)) as (p & Hp).
    { destruct (Z_lt_le_dec 0 q); [exists 1%Z|exists 0%Z]; apply in_planes; lia. }
    rewrite reflection_path.
    apply (path_gain_zero _ n i 0 0 q p).
    - rewrite nth_beta_pairs by (rewrite repeat_length; lia). rewrite !(nth_repeat_any 0). reflexivity.
    - auto.
    - auto.
    - unfold wall_of. destruct (Z.even p); auto. }
  rewrite E. f_equal. unfold Rdiv. ring.
Qed.

(** ** Causality *)
Lemma pulse_support L k d a j : (Z.of_nat j < floorZ d \/ floorZ d + Z.of_nat L <= Z.of_nat j)%Z ->
  pulse L k d a j = Some 0.
Proof.
  intros H. unfold pulse. destruct (Z.leb_spec 0 (Z.of_nat j - floorZ d)); cbn [andb]; auto.
  destruct (Z.ltb_spec (Z.of_nat j - floorZ d) (Z.of_nat L)); auto. lia.
Qed.
Lemma response_causal L k fs c ws size images gs gm src mic j :
  (forall n, In n images -> (Z.of_nat j < floorZ (ray_length src mic size n * fs / c)%R)%Z) ->
  response L k fs c ws size images gs gm src mic j = Some 0.
Proof.
  intros H. unfold response. apply xsum_zero. intros x Hx. apply in_map_iff in Hx as (n & <- & Hn).
  apply pulse_support. left. auto.
Qed.
