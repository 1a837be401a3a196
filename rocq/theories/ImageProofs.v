(** Lemmas about image enumeration, image positions and reflection coefficients. *)
From Coq Require Import List ZArith Reals Lia Lra Bool Permutation.
From Verif Require Import Prelude PreludeFacts DirModel ImageModel ImageSpec AcousticModel.
Import ListNotations.
Local Open Scope R_scope.

(** ** Ranges and grids *)
Lemma Forall2_length {A B} (P : A -> B -> Prop) l1 l2 : Forall2 P l1 l2 -> length l1 = length l2.
Proof. induction 1; cbn; auto. Qed.
Lemma arange_ok lo hi : (lo <= hi)%Z -> exists l, arange lo hi = Ok l /\ NoDup l /\
  length l = Z.to_nat (hi - lo) /\
  forall x, In x l <-> (lo <= x < hi)%Z.
Proof.
  intros H. unfold arange. destruct (Z.ltb_spec hi lo); [lia|].
  eexists; split; [reflexivity|]. repeat split.
  - apply FinFun.Injective_map_NoDup; [|apply seq_NoDup]. intros a b; lia.
  - rewrite map_length, seq_length. reflexivity.
  - apply in_map_iff in H1. destruct H1 as (i & <- & Hi). apply in_seq in Hi. lia.
  - apply in_map_iff in H1. destruct H1 as (i & <- & Hi). apply in_seq in Hi. lia.
  - intros Hx. apply in_map_iff. exists (Z.to_nat (x - lo)). rewrite in_seq. lia.
Qed.
Lemma arange_bad lo hi : (hi < lo)%Z -> arange lo hi = Err RuntimeError.
Proof. intros H. unfold arange. destruct (Z.ltb_spec hi lo); auto; lia. Qed.

Lemma in_meshgrid rs v : In v (meshgrid rs) <-> Forall2 (fun x r => In x r) v rs.
Proof.
  revert v. induction rs as [|r rs IH]; intros v; cbn [meshgrid].
  - split; [intros [<-|[]]; constructor|]. inversion 1; cbn; auto.
  - rewrite in_flat_map. split.
    + intros (x & Hx & Hv). apply in_map_iff in Hv. destruct Hv as (w & <- & Hw).
      constructor; auto. apply IH; auto.
    + inversion 1; subst. eexists; split; eauto. apply in_map. apply IH; auto.
Qed.
Lemma NoDup_app_disj {A} (l1 l2 : list A) : NoDup l1 -> NoDup l2 ->
  (forall x, In x l1 -> ~ In x l2) -> NoDup (l1 ++ l2).
Proof.
  induction l1; cbn; intros H1 H2 H; auto. inversion H1; subst. constructor.
  - rewrite in_app_iff. intros [?|?]; auto. eapply H; eauto.
  - apply IHl1; auto.
Qed.
Lemma NoDup_flat_map_cons {A} (r : list A) (l : list (list A)) : NoDup r -> NoDup l ->
  NoDup (flat_map (fun x => map (cons x) l) r).
Proof.
  induction r; cbn; intros Hr Hl; [constructor|]. inversion Hr; subst.
  apply NoDup_app_disj; auto.
  - apply FinFun.Injective_map_NoDup; auto. intros ? ?; congruence.
  - intros v Hv Hv2. apply in_map_iff in Hv. destruct Hv as (w & <- & _).
    apply in_flat_map in Hv2. destruct Hv2 as (y & Hy & Hy2).
    apply in_map_iff in Hy2. destruct Hy2 as (w' & E & _). congruence.
Qed.
Lemma NoDup_meshgrid rs : Forall (@NoDup Z) rs -> NoDup (meshgrid rs).
Proof.
  induction 1; cbn [meshgrid].
  - constructor; [intros []|constructor].
  - apply NoDup_flat_map_cons; auto.
Qed.
Lemma l1_order n : l1 n = order_of n.
Proof. induction n; cbn; auto. unfold l1, order_of in *. rewrite IHn. reflexivity. Qed.

Lemma mapM_ranges nb : Forall (fun n => (0 <= n)%Z) nb ->
  exists rs, mapM (fun n => arange (- n) (n + 1)) nb = Ok rs /\
    Forall (@NoDup Z) rs /\
    Forall2 (fun n r => forall x, In x r <-> (Z.abs x <= n)%Z) nb rs /\
    Forall2 (fun n r => length r = Z.to_nat (2 * n + 1)) nb rs.
Proof.
  induction 1 as [|n nb Hn _ IH].
  - exists []. repeat split; constructor.
  - destruct IH as (rs & E & H1 & H2 & H3).
    destruct (arange_ok (- n) (n + 1) ltac:(lia)) as (l & El & Nl & Ll & Il).
    exists (l :: rs). cbn [mapM]. rewrite El. cbn [bind]. rewrite E. cbn [bind].
    repeat split; constructor; auto.
    + intros x. rewrite Il. lia.
    + rewrite Ll. f_equal. lia.
Qed.

Lemma indices_box max_order dim nb : length nb = dim -> Forall (fun n => (0 <= n)%Z) nb ->
  exists l, image_source_indices max_order dim (Some nb) = Ok l /\ NoDup l /\
    forall v, In v l <-> Forall2 (fun x n => (Z.abs x <= n)%Z) v nb.
Proof.
  intros Hl Hn. unfold image_source_indices. rewrite Hl, Nat.eqb_refl. cbn [negb].
  destruct (mapM_ranges nb Hn) as (rs & E & H1 & H2 & _).
  rewrite E. cbn [bind]. eexists; split; [reflexivity|]. split; [apply NoDup_meshgrid; auto|].
  intros v. rewrite in_meshgrid. clear E H1 Hl Hn. revert v.
  induction H2 as [|n r nb rs Hr _ IH]; intros v.
  - split; inversion 1; constructor.
  - split; inversion 1; subst; constructor; try apply Hr; auto; apply IH; auto.
Qed.
Lemma indices_box_reject max_order dim nb : length nb <> dim ->
  image_source_indices max_order dim (Some nb) = Err ValueError.
Proof.
  intros H. unfold image_source_indices.
  destruct (Nat.eqb_spec (length nb) dim); [contradiction|reflexivity].
Qed.
Lemma indices_box_negative max_order dim nb : length nb = dim -> Exists (fun n => (n < 0)%Z) nb ->
  image_source_indices max_order dim (Some nb) = Err RuntimeError.
Proof.
  intros Hl He. unfold image_source_indices. rewrite Hl, Nat.eqb_refl. cbn [negb].
  replace (mapM _ nb) with (@Err (list (list Z)) RuntimeError); [reflexivity|].
  clear Hl. induction nb as [|n nb IH]; [inversion He|]. cbn [mapM].
  destruct (Z.ltb_spec n 0).
  - rewrite arange_bad by lia. reflexivity.
  - inversion He; subst; [lia|].
    destruct (arange_ok (- n) (n + 1) ltac:(lia)) as (l & El & _). rewrite El. cbn [bind].
    rewrite <- IH by auto. reflexivity.
Qed.

Lemma order_nonneg n : (0 <= order_of n)%Z.
Proof. induction n; unfold order_of in *; cbn; lia. Qed.
Lemma order_bound v : forall x, In x v -> (Z.abs x <= order_of v)%Z.
Proof.
  induction v; intros x; cbn; [intros []|]. pose proof (order_nonneg v).
  unfold order_of in *. cbn. intros [<-|H1]; [lia|]. specialize (IHv _ H1). lia.
Qed.

Lemma indices_order N dim : (0 <= N)%Z ->
  exists l, image_source_indices N dim None = Ok l /\ NoDup l /\
    forall v, In v l <-> length v = dim /\ (order_of v <= N)%Z.
Proof.
  intros HN. unfold image_source_indices.
  destruct (arange_ok (- N) (N + 1) ltac:(lia)) as (r & Er & Nr & _ & Ir).
  rewrite Er. cbn [bind]. eexists; split; [reflexivity|]. split.
  - apply NoDup_filter, NoDup_meshgrid. apply Forall_forall. intros x Hx.
    apply repeat_spec in Hx. subst; auto.
  - intros v. rewrite filter_In, in_meshgrid, l1_order, Z.leb_le.
    split; intros [H1 H2]; split; auto.
    + apply Forall2_length in H1. rewrite repeat_length in H1. auto.
    + subst dim. assert (B : forall x, In x v -> In x r).
      { intros x Hx. apply Ir. pose proof (order_bound v x Hx). lia. }
      clear H2. induction v; cbn; constructor; [apply B; left; auto|].
      apply IHv. intros; apply B; right; auto.
Qed.

(** ** Counting *)
Definition zsum (l : list Z) : Z := fold_right Z.add 0%Z l.
Lemma zsum_app a b : zsum (a ++ b) = (zsum a + zsum b)%Z.
Proof. unfold zsum. induction a; cbn [app fold_right]; [reflexivity|]. rewrite IHa. lia. Qed.
Lemma length_flat_map {A B} (f : A -> list B) l :
  Z.of_nat (length (flat_map f l)) = zsum (map (fun x => Z.of_nat (length (f x))) l).
Proof. induction l; cbn; auto. rewrite app_length, Nat2Z.inj_add, IHl. reflexivity. Qed.
Lemma filter_flat_map {A B} (p : B -> bool) (f : A -> list B) l :
  filter p (flat_map f l) = flat_map (fun x => filter p (f x)) l.
Proof. induction l; cbn; auto. rewrite filter_app, IHl. reflexivity. Qed.
Lemma filter_map_cons p x (l : list (list Z)) :
  filter p (map (cons x) l) = map (cons x) (filter (fun v => p (x :: v)) l).
Proof. induction l; cbn; auto. rewrite IHl. destruct (p (x :: a)); reflexivity. Qed.

(** Number of grid vectors of length [d] over [rng] with L1 norm at most [r]. *)
Definition ball (rng : list Z) (d : nat) (r : Z) : Z :=
  Z.of_nat (length (filter (fun n => (l1 n <=? r)%Z) (meshgrid (repeat rng d)))).
Lemma ball_S rng d r : ball rng (S d) r = zsum (map (fun x => ball rng d (r - Z.abs x)) rng).
Proof.
  unfold ball at 1. cbn [repeat meshgrid]. rewrite filter_flat_map, length_flat_map.
  f_equal. apply map_ext. intros x. rewrite filter_map_cons, map_length. unfold ball.
  do 2 f_equal. apply filter_ext. intros v. cbn [l1 fold_right].
  fold (l1 v). destruct (Z.leb_spec (Z.abs x + l1 v) r), (Z.leb_spec (l1 v) (r - Z.abs x)); auto; lia.
Qed.
Lemma ball_0 rng r : ball rng 0 r = if (0 <=? r)%Z then 1%Z else 0%Z.
Proof. unfold ball. cbn. destruct (0 <=? r)%Z; reflexivity. Qed.

(** Sum over the symmetric range. *)
Fixpoint half_sum (f : Z -> Z) (k : nat) : Z :=
  match k with O => 0%Z | S j => (half_sum f j + f (Z.of_nat k))%Z end.
Lemma zsum_range f lo k :
  zsum (map f (map (fun i => (lo + Z.of_nat i)%Z) (seq 0 (S k)))) =
  (zsum (map f (map (fun i => (lo + Z.of_nat i)%Z) (seq 0 k))) + f (lo + Z.of_nat k))%Z.
Proof. rewrite seq_S, !map_app, zsum_app. cbn. lia. Qed.
Lemma zsum_shift f lo k :
  zsum (map f (map (fun i => (lo + Z.of_nat i)%Z) (seq 0 (S k)))) =
  (f lo + zsum (map f (map (fun i => (lo + 1 + Z.of_nat i)%Z) (seq 0 k))))%Z.
Proof.
  unfold zsum. cbn [seq map fold_right]. rewrite <- seq_shift, !map_map.
  rewrite Z.add_0_r. f_equal. f_equal. apply map_ext. intros a. f_equal. lia.
Qed.
Lemma zsum_sym f (N : nat) :
  zsum (map (fun x => f (Z.abs x)) (map (fun i => (- Z.of_nat N + Z.of_nat i)%Z) (seq 0 (2 * N + 1))))
  = (f 0 + 2 * half_sum f N)%Z.
Proof.
  induction N as [|N IH]; [cbn; lia|].
  replace (2 * S N + 1)%nat with (S (S (2 * N + 1))) by lia.
  rewrite zsum_range, zsum_shift.
  replace (map (fun i => (- Z.of_nat (S N) + 1 + Z.of_nat i)%Z) (seq 0 (2 * N + 1)))
    with (map (fun i => (- Z.of_nat N + Z.of_nat i)%Z) (seq 0 (2 * N + 1)))
    by (apply map_ext; intros; lia).
  rewrite IH. cbn [half_sum].
  replace (Z.abs (- Z.of_nat (S N))) with (Z.of_nat (S N)) by lia.
  replace (Z.abs (- Z.of_nat (S N) + Z.of_nat (S (2 * N + 1)))) with (Z.of_nat (S N)) by lia. lia.
Qed.
Lemma arange_sym (N : nat) : arange (- Z.of_nat N) (Z.of_nat N + 1) =
  Ok (map (fun i => (- Z.of_nat N + Z.of_nat i)%Z) (seq 0 (2 * N + 1))).
Proof.
  unfold arange. destruct (Z.ltb_spec (Z.of_nat N + 1) (- Z.of_nat N)); [lia|].
  do 2 f_equal. f_equal. lia.
Qed.
Definition srange (N : nat) := map (fun i => (- Z.of_nat N + Z.of_nat i)%Z) (seq 0 (2 * N + 1)).
Lemma half_sum_ext f g k : (forall i, (1 <= i <= Z.of_nat k)%Z -> f i = g i) -> half_sum f k = half_sum g k.
Proof. induction k; cbn [half_sum]; intros H; auto. rewrite IHk, H; auto; intros; try apply H; lia. Qed.
Lemma half_sum_cut f (N r : nat) : (r <= N)%nat ->
  (forall i, (Z.of_nat r < i)%Z -> f i = 0%Z) -> half_sum f N = half_sum f r.
Proof.
  induction N; intros H1 H2. { replace r with 0%nat by lia. reflexivity. }
  destruct (Nat.eq_dec r (S N)) as [->|]; [reflexivity|]. cbn [half_sum].
  rewrite IHN by (auto; lia). rewrite (H2 (Z.of_nat (S N))) by lia. lia.
Qed.
Lemma ball_neg rng d r : (r < 0)%Z -> ball rng d r = 0%Z.
Proof.
  intros H. unfold ball. replace (filter _ _) with (@nil (list Z)); [reflexivity|].
  symmetry. induction (meshgrid (repeat rng d)); cbn; auto.
  destruct (Z.leb_spec (l1 a) r); auto. rewrite l1_order in *. pose proof (order_nonneg a). lia.
Qed.
Lemma ball_rec N d r : (Z.of_nat r <= Z.of_nat N)%Z ->
  ball (srange N) (S d) (Z.of_nat r) =
  (ball (srange N) d (Z.of_nat r) + 2 * half_sum (fun i => ball (srange N) d (Z.of_nat r - i)) r)%Z.
Proof.
  intros H. rewrite ball_S. unfold srange at 2.
  rewrite (zsum_sym (fun a => ball (srange N) d (Z.of_nat r - a)) N).
  rewrite Z.sub_0_r. do 2 f_equal. apply half_sum_cut; [lia|]. intros. apply ball_neg. lia.
Qed.
Lemma half_sum_rev f (r : nat) : half_sum (fun i => f (Z.of_nat r - i)%Z) r =
  (half_sum f r - f (Z.of_nat r) + f 0)%Z.
Proof.
  assert (G : forall k (c : Z), half_sum (fun i => f (c + Z.of_nat k - i)%Z) k =
     (half_sum (fun i => f (c + i)%Z) k - f (c + Z.of_nat k)%Z + f c)%Z).
  { induction k; intros c; cbn [half_sum]; [rewrite Z.add_0_r; lia|].
    rewrite (half_sum_ext _ (fun i => f (c + 1 + Z.of_nat k - i)%Z)) by (intros; f_equal; lia).
    rewrite IHk.
    assert (E : (half_sum (fun i => f (c + 1 + i)%Z) k + f (c + 1) =
      half_sum (fun i => f (c + i)%Z) k + f (c + Z.of_nat (S k))%Z)%Z).
    { clear IHk. induction k; cbn [half_sum].
      - change (Z.of_nat 1) with 1%Z. lia.
      - replace (c + 1 + Z.of_nat (S k))%Z with (c + Z.of_nat (S (S k)))%Z by lia. lia. }
    replace (c + 1 + Z.of_nat k)%Z with (c + Z.of_nat (S k))%Z by lia.
    replace (c + Z.of_nat (S k) - Z.of_nat (S k))%Z with c by lia. lia. }
  specialize (G r 0%Z). cbn [Z.add] in G.
  etransitivity; [|etransitivity; [exact G|]]; auto.
Qed.
Lemma ball_1 N r : (r <= N)%nat -> ball (srange N) 1 (Z.of_nat r) = (2 * Z.of_nat r + 1)%Z.
Proof.
  intros H. rewrite ball_rec by lia. rewrite ball_0. destruct (Z.leb_spec 0 (Z.of_nat r)); [|lia].
  rewrite (half_sum_ext _ (fun _ => 1%Z)).
  - assert (G : forall k, half_sum (fun _ => 1%Z) k = Z.of_nat k) by (induction k; cbn [half_sum]; lia).
    rewrite G. lia.
  - intros i Hi. rewrite ball_0. destruct (Z.leb_spec 0 (Z.of_nat r - i)); lia.
Qed.
Lemma ball_2 N r : (r <= N)%nat ->
  ball (srange N) 2 (Z.of_nat r) = (2 * Z.of_nat r * Z.of_nat r + 2 * Z.of_nat r + 1)%Z.
Proof.
  intros H. rewrite ball_rec by lia. rewrite ball_1 by lia.
  rewrite (half_sum_ext _ (fun i => 2 * (Z.of_nat r - i) + 1)%Z).
  - rewrite (half_sum_rev (fun j => 2 * j + 1)%Z).
    assert (G : forall k, half_sum (fun j => 2 * j + 1)%Z k = (Z.of_nat k * Z.of_nat k + 2 * Z.of_nat k)%Z)
      by (induction k; cbn [half_sum]; lia).
    rewrite G. lia.
  - intros i Hi. replace (Z.of_nat r - i)%Z with (Z.of_nat (r - Z.to_nat i)) by lia.
    rewrite ball_1 by lia. lia.
Qed.
Lemma ball_3 N r : (r <= N)%nat ->
  (3 * ball (srange N) 3 (Z.of_nat r) =
   (2 * Z.of_nat r + 1) * (2 * Z.of_nat r * Z.of_nat r + 2 * Z.of_nat r + 3))%Z.
Proof.
  intros H. rewrite ball_rec by lia. rewrite ball_2 by lia.
  rewrite (half_sum_ext _ (fun i => 2 * (Z.of_nat r - i) * (Z.of_nat r - i) + 2 * (Z.of_nat r - i) + 1)%Z).
  - rewrite (half_sum_rev (fun j => 2 * j * j + 2 * j + 1)%Z).
    assert (G : forall k, (3 * half_sum (fun j => 2 * j * j + 2 * j + 1)%Z k =
       2 * Z.of_nat k * Z.of_nat k * Z.of_nat k + 6 * Z.of_nat k * Z.of_nat k + 7 * Z.of_nat k)%Z).
    { induction k; cbn [half_sum]; [lia|]. rewrite Z.mul_add_distr_l, IHk. lia. }
    specialize (G r). lia.
  - intros i Hi. replace (Z.of_nat r - i)%Z with (Z.of_nat (r - Z.to_nat i)) by lia.
    rewrite ball_2 by lia. reflexivity.
Qed.
Lemma indices_count_2 (N : nat) : exists l, image_source_indices (Z.of_nat N) 2 None = Ok l /\
  length l = (2 * N * N + 2 * N + 1)%nat.
Proof.
  unfold image_source_indices. rewrite arange_sym. cbn [bind]. eexists; split; [reflexivity|].
  pose proof (ball_2 N N ltac:(lia)) as H. unfold ball, srange in H. lia.
Qed.
Lemma indices_count_3 (N : nat) : exists l, image_source_indices (Z.of_nat N) 3 None = Ok l /\
  (3 * length l = (2 * N + 1) * (2 * N * N + 2 * N + 3))%nat.
Proof.
  unfold image_source_indices. rewrite arange_sym. cbn [bind]. eexists; split; [reflexivity|].
  pose proof (ball_3 N N ltac:(lia)) as H. unfold ball, srange in H. lia.
Qed.

(** ** Image coordinates *)
Lemma image_coord_even x len k : image_coord x len (2 * k) = IZR (2 * k) * len + x.
Proof.
  unfold image_coord. rewrite (Z.mul_comm 2 k), Z_mod_mult. cbn [Z.eqb].
  replace ((k * 2 + 1) / 2)%Z with k.
  - rewrite mult_IZR. ring.
  - rewrite Z.add_comm, Z_div_plus by lia. reflexivity.
Qed.
Lemma image_coord_odd x len k : image_coord x len (2 * k + 1) = IZR (2 * k + 2) * len - x.
Proof.
  unfold image_coord. replace ((2 * k + 1) mod 2)%Z with 1%Z
    by (rewrite Z.add_comm, (Z.mul_comm 2 k), Z_mod_plus_full; reflexivity). cbn [Z.eqb].
  replace ((2 * k + 1 + 1) / 2)%Z with (k + 1)%Z.
  - rewrite !plus_IZR, mult_IZR. ring.
  - replace (2 * k + 1 + 1)%Z with ((k + 1) * 2)%Z by lia. rewrite Z_div_mult; lia.
Qed.
Lemma parity n : exists k, n = (2 * k)%Z \/ n = (2 * k + 1)%Z.
Proof. exists (n / 2)%Z. pose proof (Z_div_mod_eq_full n 2). pose proof (Z.mod_pos_bound n 2). lia. Qed.

Lemma image_coord_step x len n :
  image_coord x len (n + 1) = mirror (IZR (n + 1) * len) (image_coord x len n).
Proof.
  unfold mirror. destruct (parity n) as [k [->| ->]].
  - rewrite image_coord_odd, image_coord_even, !plus_IZR. ring.
  - replace (2 * k + 1 + 1)%Z with (2 * (k + 1))%Z by lia.
    rewrite image_coord_odd, image_coord_even.
    replace (2 * (k + 1))%Z with (2 * k + 2)%Z by lia. ring.
Qed.
Lemma image_coord_pred x len n :
  image_coord x len (n - 1) = mirror (IZR n * len) (image_coord x len n).
Proof.
  pose proof (image_coord_step x len (n - 1)) as H. replace (n - 1 + 1)%Z with n in H by lia.
  rewrite H. unfold mirror. ring.
Qed.
Lemma image_coord_0 x len : image_coord x len 0 = x.
Proof. change 0%Z with (2 * 0)%Z. rewrite image_coord_even. cbn [Z.mul]. lra. Qed.
Lemma image_coord_reflected x len n : image_coord x len n = reflected len x n.
Proof.
  destruct n as [|p|p]; cbn [reflected].
  - apply image_coord_0.
  - rewrite <- (positive_nat_Z p). induction (Pos.to_nat p).
    + apply image_coord_0.
    + rewrite Nat2Z.inj_succ, <- Z.add_1_r, image_coord_step, IHn. cbn [reflect_up].
      f_equal. rewrite INR_IZR_INZ, Nat2Z.inj_succ, <- Z.add_1_r. reflexivity.
  - change (Z.neg p) with (- Z.pos p)%Z. rewrite <- (positive_nat_Z p). induction (Pos.to_nat p).
    + apply image_coord_0.
    + replace (- Z.of_nat (S n))%Z with (- Z.of_nat n - 1)%Z by lia.
      rewrite image_coord_pred, IHn. cbn [reflect_down]. f_equal.
      rewrite opp_IZR, INR_IZR_INZ. reflexivity.
Qed.
Lemma image_coord_cell x len n : 0 <= x <= len ->
  IZR n * len <= image_coord x len n <= IZR (n + 1) * len.
Proof.
  intros H. destruct (parity n) as [k [->| ->]].
  - rewrite image_coord_even, plus_IZR. lra.
  - rewrite image_coord_odd. replace (2 * k + 1 + 1)%Z with (2 * k + 2)%Z by lia.
    rewrite !plus_IZR. lra.
Qed.

(** ** Reflection coefficients *)
Lemma wall_product_app lo hi a b : wall_product lo hi (a ++ b) = wall_product lo hi a * wall_product lo hi b.
Proof. induction a; cbn [app wall_product]; [ring|]. rewrite IHa. ring. Qed.
Lemma n_hi_nonneg n : (0 <= n_hi n)%Z.
Proof. unfold n_hi. destruct (Z.leb_spec 0 n); apply Z.div_pos; lia. Qed.
Lemma n_lo_nonneg n : (0 <= n_lo n)%Z.
Proof. unfold n_lo. destruct (Z.leb_spec 0 n); apply Z.div_pos; lia. Qed.
Lemma axis_coeff_0 lo hi : axis_coeff lo hi 0 = 1.
Proof. unfold axis_coeff. change (n_hi 0) with 0%Z. change (n_lo 0) with 0%Z. cbn [Z.to_nat pow]. ring. Qed.
Lemma div2_even k : (2 * k / 2 = k)%Z.
Proof. rewrite Z.mul_comm. apply Z_div_mult. lia. Qed.
Lemma div2_odd k : ((2 * k + 1) / 2 = k)%Z.
Proof. rewrite Z.add_comm, Z.mul_comm, Z_div_plus by lia. reflexivity. Qed.
Ltac z2 := repeat first [rewrite div2_even | rewrite div2_odd].
Lemma axis_coeff_up lo hi n : (0 <= n)%Z ->
  axis_coeff lo hi (n + 1) = axis_coeff lo hi n * wall_of lo hi (n + 1).
Proof.
  intros Hn. unfold axis_coeff, n_hi, n_lo, wall_of.
  destruct (Z.leb_spec 0 (n + 1)); [|lia]. destruct (Z.leb_spec 0 n); [|lia].
  destruct (parity n) as [k [->| ->]].
  - replace (2 * k + 1 + 1)%Z with (2 * (k + 1))%Z by lia. z2.
    replace (Z.even (2 * k + 1)) with false by (rewrite Z.even_add, Z.even_mul; reflexivity).
    replace (Z.to_nat (k + 1)) with (S (Z.to_nat k)) by lia. cbn [pow]. ring.
  - replace (2 * k + 1 + 1)%Z with (2 * (k + 1))%Z by lia. z2.
    replace (2 * (k + 1) + 1)%Z with (2 * (k + 1) + 1)%Z by lia. z2.
    replace (Z.even (2 * (k + 1))) with true by (rewrite Z.even_mul; reflexivity).
    replace (Z.to_nat (k + 1)) with (S (Z.to_nat k)) by lia. cbn [pow]. ring.
Qed.
Lemma axis_coeff_down lo hi n : (0 <= n)%Z ->
  axis_coeff lo hi (- (n + 1)) = axis_coeff lo hi (- n) * wall_of lo hi (- n).
Proof.
  intros Hn. unfold axis_coeff, n_hi, n_lo, wall_of.
  destruct (Z.leb_spec 0 (- (n + 1))); [lia|].
  replace (Z.abs (- (n + 1))) with (n + 1)%Z by lia.
  rewrite Z.even_opp.
  destruct (Z.leb_spec 0 (- n)).
  - replace n with 0%Z by lia. change ((0 + 1) / 2)%Z with 0%Z. change ((0 + 1 + 1) / 2)%Z with 1%Z.
    change (0 / 2)%Z with 0%Z. cbn. change (Pos.to_nat 1) with 1%nat. cbn. ring.
  - replace (Z.abs (- n)) with n by lia.
    destruct (parity n) as [k [->| ->]].
    + replace (2 * k + 1 + 1)%Z with (2 * (k + 1))%Z by lia. z2.
      replace (Z.even (2 * k)) with true by (rewrite Z.even_mul; reflexivity).
      replace (Z.to_nat (k + 1)) with (S (Z.to_nat k)) by lia. cbn [pow]. ring.
    + replace (2 * k + 1 + 1)%Z with (2 * (k + 1))%Z by lia. z2.
      replace (Z.even (2 * k + 1)) with false by (rewrite Z.even_add, Z.even_mul; reflexivity).
      replace (Z.to_nat (k + 1)) with (S (Z.to_nat k)) by lia. cbn [pow]. ring.
Qed.
Lemma axis_coeff_path lo hi n : axis_coeff lo hi n = wall_product lo hi (planes n).
Proof.
  destruct n as [|p|p]; cbn [planes].
  - apply axis_coeff_0.
  - rewrite <- (positive_nat_Z p). induction (Pos.to_nat p) as [|q IH]; [apply axis_coeff_0|].
    rewrite Nat2Z.inj_succ, <- Z.add_1_r, axis_coeff_up by lia.
    rewrite seq_S, map_app, wall_product_app, IH. cbn [map wall_product].
    replace (Z.of_nat (0 + q) + 1)%Z with (Z.of_nat q + 1)%Z by lia. ring.
  - change (Z.neg p) with (- Z.pos p)%Z. rewrite <- (positive_nat_Z p).
    induction (Pos.to_nat p) as [|q IH]; [apply axis_coeff_0|].
    rewrite Nat2Z.inj_succ, <- Z.add_1_r, axis_coeff_down by lia.
    rewrite seq_S, map_app, wall_product_app, IH. cbn [map wall_product].
    replace (- Z.of_nat (0 + q))%Z with (- Z.of_nat q)%Z by lia. ring.
Qed.
Lemma reflection_path n beta : reflection_coefficient n beta = path_gain (beta_pairs beta) n.
Proof.
  unfold reflection_coefficient. generalize (beta_pairs beta). intros ws. revert n.
  induction ws as [|[lo hi] ws IH]; intros [|k n]; auto.
  unfold map2. cbn [combine map rprod fst snd path_gain]. rewrite axis_coeff_path.
  f_equal. apply IH.
Qed.

Lemma in_planes n j : In j (planes n) <-> (1 <= j <= n \/ n + 1 <= j <= 0)%Z.
Proof.
  destruct n as [|p|p]; cbn [planes].
  - cbn. lia.
  - rewrite in_map_iff. split.
    + intros (i & <- & Hi). apply in_seq in Hi. lia.
    + intros H. exists (Z.to_nat (j - 1)). rewrite in_seq. lia.
  - rewrite in_map_iff. split.
    + intros (i & <- & Hi). apply in_seq in Hi. lia.
    + intros H. exists (Z.to_nat (- j)). rewrite in_seq. lia.
Qed.
Lemma NoDup_planes n : NoDup (planes n).
Proof.
  destruct n as [|p|p]; cbn [planes]; [constructor| |];
    (apply FinFun.Injective_map_NoDup; [intros a b; lia|apply seq_NoDup]).
Qed.
(** The planes of [planes n] are exactly those separating the image from the receiver. *)
Lemma planes_crossed len x m n j : 0 < len -> 0 < x < len -> 0 < m < len ->
  (In j (planes n) <->
   (m < IZR j * len < image_coord x len n \/ image_coord x len n < IZR j * len < m)).
Proof.
  intros HL Hx Hm. rewrite in_planes.
  assert (C : IZR n * len < image_coord x len n < IZR (n + 1) * len).
  { destruct (parity n) as [k [->| ->]].
    - rewrite image_coord_even, plus_IZR. nra.
    - rewrite image_coord_odd. replace (2 * k + 1 + 1)%Z with (2 * k + 2)%Z by lia.
      rewrite !plus_IZR. nra. }
  split.
  - intros [[H1 H2]|[H1 H2]]; apply IZR_le in H1; apply IZR_le in H2.
    + left. nra.
    + right. rewrite plus_IZR in *. nra.
  - intros [[H1 H2]|[H1 H2]].
    + left. assert (0 < IZR j) by nra. assert (IZR j < IZR (n + 1)) by nra.
      apply lt_IZR in H. apply lt_IZR in H0. lia.
    + right. assert (IZR n < IZR j) by nra. assert (IZR j < 1) by nra.
      apply lt_IZR in H. apply lt_IZR in H0. lia.
Qed.

Lemma wall_of_range lo hi j : 0 <= lo <= 1 -> 0 <= hi <= 1 -> 0 <= wall_of lo hi j <= 1.
Proof. unfold wall_of. destruct (Z.even j); auto. Qed.
Lemma wall_product_range lo hi js : 0 <= lo <= 1 -> 0 <= hi <= 1 -> 0 <= wall_product lo hi js <= 1.
Proof.
  intros H1 H2. induction js; cbn [wall_product]; [lra|].
  pose proof (wall_of_range lo hi a H1 H2). nra.
Qed.
Lemma wall_product_mono lo hi lo' hi' js : 0 <= lo <= lo' -> 0 <= hi <= hi' ->
  0 <= wall_product lo hi js <= wall_product lo' hi' js.
Proof.
  intros H1 H2. induction js; cbn [wall_product]; [lra|].
  assert (0 <= wall_of lo hi a <= wall_of lo' hi' a) by (unfold wall_of; destruct (Z.even a); lra).
  nra.
Qed.
Lemma path_gain_range ws n : Forall (fun w => 0 <= fst w <= 1 /\ 0 <= snd w <= 1) ws ->
  0 <= path_gain ws n <= 1.
Proof.
  intros H. revert n. induction H as [|[lo hi] ws [H1 H2] _ IH]; intros [|k n]; cbn [path_gain]; try lra.
  pose proof (wall_product_range lo hi (planes k) H1 H2). specialize (IH n). nra.
Qed.
Lemma path_gain_mono ws ws' n :
  Forall2 (fun w w' => 0 <= fst w <= fst w' /\ 0 <= snd w <= snd w') ws ws' ->
  0 <= path_gain ws n <= path_gain ws' n.
Proof.
  intros H. revert n. induction H as [|[lo hi] [lo' hi'] ws ws' [H1 H2] _ IH]; intros [|k n];
    cbn [path_gain]; try lra.
  pose proof (wall_product_mono lo hi lo' hi' (planes k) H1 H2). specialize (IH n). nra.
Qed.
Lemma wall_product_zero lo hi js j : In j js -> wall_of lo hi j = 0 -> wall_product lo hi js = 0.
Proof.
  induction js; cbn [In wall_product]; [intros []|]. intros [->|H] E; [rewrite E; ring|].
  rewrite IHjs; auto; ring.
Qed.
Lemma path_gain_zero ws n i lo hi k j : nth_error ws i = Some (lo, hi) -> nth_error n i = Some k ->
  In j (planes k) -> wall_of lo hi j = 0 -> path_gain ws n = 0.
Proof.
  revert n i. induction ws as [|[a b] ws IH]; intros [|q n] [|i]; cbn; intros H1 H2 H3 H4; try discriminate.
  - injection H1 as -> ->. injection H2 as ->. rewrite (wall_product_zero _ _ _ j); auto; ring.
  - rewrite (IH n i) by auto. ring.
Qed.
Lemma path_gain_direct ws d : path_gain ws (repeat 0%Z d) = 1.
Proof. revert d. induction ws as [|[lo hi] ws IH]; intros [|d]; cbn; auto. rewrite IH. ring. Qed.
Lemma beta_pairs_forall (P : R -> Prop) beta : Forall P beta ->
  Forall (fun w => P (fst w) /\ P (snd w)) (beta_pairs beta).
Proof.
  assert (G : forall n beta, (length beta <= n)%nat -> Forall P beta ->
     Forall (fun w => P (fst w) /\ P (snd w)) (beta_pairs beta)).
  { induction n; intros [|a [|b l]] Hn H; cbn in *; try constructor; try lia.
    - inversion H as [|? ? Ha H']; subst. inversion H'; subst. auto.
    - apply IHn; [lia|]. inversion H as [|? ? Ha H']; subst. inversion H'; auto. }
  apply (G (length beta)); auto.
Qed.
Lemma beta_pairs_forall2 (P : R -> R -> Prop) b b' : Forall2 P b b' ->
  Forall2 (fun w w' => P (fst w) (fst w') /\ P (snd w) (snd w')) (beta_pairs b) (beta_pairs b').
Proof.
  assert (G : forall n b b', (length b <= n)%nat -> Forall2 P b b' ->
     Forall2 (fun w w' => P (fst w) (fst w') /\ P (snd w) (snd w')) (beta_pairs b) (beta_pairs b')).
  { induction n; intros a b2 Hn H; destruct H as [|x y l l' Hxy H]; cbn in *; try constructor; try lia.
    destruct H as [|x' y' m m' Hxy' H]; cbn in *; constructor; cbn; auto. apply IHn; auto; lia. }
  apply (G (length b)); auto.
Qed.
Lemma nth_beta_pairs beta i : (2 * i + 1 < length beta)%nat ->
  nth_error (beta_pairs beta) i = Some (nth (2 * i) beta 0, nth (2 * i + 1) beta 0).
Proof.
  revert beta. induction i; intros [|a [|b l]] H; cbn in H; try lia.
  - reflexivity.
  - cbn [beta_pairs nth_error]. rewrite IHi by lia.
    replace (2 * S i)%nat with (S (S (2 * i))) by lia. reflexivity.
Qed.

(** ** Coverage of tmax *)
Lemma far_axis len x m n k T : 0 < len -> 0 <= x <= len -> 0 <= m <= len -> 0 <= T ->
  k = ceilZ (T / len) -> (k < Z.abs n)%Z -> T <= Rabs (m - image_coord x len n).
Proof.
  intros HL Hx Hm HT -> Hk. pose proof (image_coord_cell x len n Hx) as C.
  destruct (ceilZ_spec (T / len)) as [_ H]. set (k := ceilZ (T / len)) in *.
  assert (HTk : T <= IZR k * len).
  { replace T with (T / len * len) by (field; lra). apply Rmult_le_compat_r; lra. }
  destruct (Z.le_ge_cases 0 n).
  - assert (Hn : (k + 1 <= n)%Z) by lia. apply IZR_le in Hn. rewrite plus_IZR in Hn.
    rewrite Rabs_left1; nra.
  - assert (Hn : (n + 1 <= - k)%Z) by lia. apply IZR_le in Hn. rewrite opp_IZR in Hn.
    rewrite Rabs_right; nra.
Qed.
Lemma sqdist_nonneg p q : 0 <= sqdist p q.
Proof.
  unfold sqdist. revert q. induction p as [|a p IH]; intros [|b q]; cbn; try lra.
  specialize (IH q). pose proof (Rle_0_sqr (a - b)) as H. unfold Rsqr in H. lra.
Qed.
Lemma euclid_axis p q i a b : nth_error p i = Some a -> nth_error q i = Some b ->
  Rabs (a - b) <= euclid p q.
Proof.
  intros Ha Hb. unfold euclid. rewrite <- sqrt_Rsqr_abs. apply sqrt_le_1_alt. unfold Rsqr.
  revert q i Ha Hb. unfold sqdist.
  induction p as [|x p IH]; intros [|y q] [|i] Ha Hb; cbn in *; try discriminate.
  - injection Ha as ->. injection Hb as ->. pose proof (sqdist_nonneg p q) as H. unfold sqdist in H. lra.
  - specialize (IH q i Ha Hb). pose proof (Rle_0_sqr (x - y)) as H. unfold Rsqr in H. lra.
Qed.
Lemma nth_image_position src size n i x len k : nth_error src i = Some x ->
  nth_error size i = Some len -> nth_error n i = Some k ->
  nth_error (image_position src size n) i = Some (image_coord x len k).
Proof.
  unfold image_position, map2. revert size n i.
  induction src as [|a src IH]; intros [|b size] [|c n] [|i] H1 H2 H3; cbn in *; try discriminate.
  - congruence.
  - apply IH; auto.
Qed.
Lemma Forall2_nth {A B} (P : A -> B -> Prop) l1 l2 i a b : Forall2 P l1 l2 ->
  nth_error l1 i = Some a -> nth_error l2 i = Some b -> P a b.
Proof.
  intros H. revert i. induction H; intros [|i] H1 H2; cbn in *; try discriminate.
  - congruence.
  - eauto.
Qed.
Lemma Forall2_nth_inv {A B} (P : A -> B -> Prop) l1 l2 : length l1 = length l2 ->
  (forall i a b, nth_error l1 i = Some a -> nth_error l2 i = Some b -> P a b) -> Forall2 P l1 l2.
Proof.
  revert l2. induction l1; intros [|b l2] Hl H; cbn in Hl; try discriminate; constructor.
  - apply (H 0%nat); reflexivity.
  - apply IHl1; [lia|]. intros i x y H1 H2. apply (H (S i)); auto.
Qed.
Lemma nth_error_len {A B} (l1 : list A) (l2 : list B) i a : length l1 = length l2 ->
  nth_error l1 i = Some a -> exists b, nth_error l2 i = Some b.
Proof.
  intros H H1. destruct (nth_error l2 i) eqn:E; eauto.
  apply nth_error_None in E. assert (nth_error l1 i <> None) by congruence.
  apply nth_error_Some in H0. lia.
Qed.
Lemma not_box v nb : length v = length nb -> ~ Forall2 (fun x n => (Z.abs x <= n)%Z) v nb ->
  exists i x n, nth_error v i = Some x /\ nth_error nb i = Some n /\ (n < Z.abs x)%Z.
Proof.
  revert nb. induction v as [|x v IH]; intros [|n nb] Hl H; cbn in Hl; try discriminate.
  - exfalso. apply H. constructor.
  - destruct (Z_le_gt_dec (Z.abs x) n).
    + destruct (IH nb) as (i & y & m & H1 & H2 & H3); [lia| |].
      * intros G. apply H. constructor; auto.
      * exists (S i), y, m. auto.
    + exists 0%nat, x, n. cbn. repeat split; auto. lia.
Qed.
Lemma coverage tmax size c nb src mic n : 0 < c -> wf size ->
  estimate_image_counts_from_tmax tmax size c = Ok nb ->
  Forall (fun l => 0 < l) (data size) -> inside src (data size) -> inside mic (data size) ->
  length n = length (data size) -> ~ Forall2 (fun x k => (Z.abs x <= k)%Z) n nb ->
  tmax * c <= euclid mic (image_position src (data size) n).
Proof.
  intros Hc Hwf E Hpos Hs Hm Hn Hout. unfold estimate_image_counts_from_tmax in E.
  destruct (Rle_dec tmax 0) as [|Ht]; [discriminate|]. apply Rnot_le_lt in Ht.
  unfold ensure_dim in E. destruct (_ && _)%bool; [|discriminate]. cbn [bind] in E. injection E as <-.
  apply not_box in Hout; [|rewrite map_length; auto]. destruct Hout as (i & k & q & Hk & Hq & Hlt).
  assert (Hlen : nth_error (map (fun l => ceilZ (tmax * c / l)) (data size)) i <> None) by congruence.
  apply nth_error_Some in Hlen. rewrite map_length in Hlen.
  destruct (nth_error (data size) i) as [len|] eqn:El; [|apply nth_error_None in El; lia].
  rewrite (map_nth_error _ _ _ El) in Hq. injection Hq as <-.
  assert (Ls : length src = length (data size)) by (apply Forall2_length in Hs; auto).
  assert (Lm : length mic = length (data size)) by (apply Forall2_length in Hm; auto).
  destruct (nth_error_len (data size) src i len ltac:(auto) El) as (x & Hx).
  destruct (nth_error_len (data size) mic i len ltac:(auto) El) as (y & Hy).
  pose proof (Forall2_nth _ _ _ _ _ _ Hs Hx El) as Bx.
  pose proof (Forall2_nth _ _ _ _ _ _ Hm Hy El) as By. cbn in Bx, By.
  assert (0 < len) by (apply nth_error_In in El; rewrite Forall_forall in Hpos; auto).
  eapply Rle_trans; [|apply (euclid_axis _ _ i y (image_coord x len k) Hy); eapply nth_image_position; eauto].
  eapply far_axis; eauto. nra.
Qed.
Lemma box_counts_nonneg tmax size c nb : 0 < c -> estimate_image_counts_from_tmax tmax size c = Ok nb ->
  Forall (fun l => 0 < l) (data size) -> Forall (fun k => (1 <= k)%Z) nb.
Proof.
  intros Hc E H. unfold estimate_image_counts_from_tmax in E.
  destruct (Rle_dec tmax 0) as [|Ht]; [discriminate|]. apply Rnot_le_lt in Ht.
  unfold ensure_dim in E. destruct (_ && _)%bool; [|discriminate]. cbn [bind] in E. injection E as <-.
  apply Forall_map. eapply Forall_impl; [|exact H]. intros l Hl. cbn.
  assert (0 < tmax * c / l) by (apply Rdiv_lt_0_compat; nra).
  destruct (ceilZ_spec (tmax * c / l)) as [_ G]. apply Z.lt_pred_le. cbn. apply lt_IZR. lra.
Qed.
