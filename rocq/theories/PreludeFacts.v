(** Facts about the shared vocabulary of [Prelude]. *)
From Coq Require Import List ZArith Reals Lia Lra Bool Permutation.
From Verif Require Import Prelude.
Import ListNotations.
Local Open Scope R_scope.

(** ** Boolean comparisons *)
Lemma Rleb_spec x y : reflect (x <= y) (Rleb x y).
Proof. unfold Rleb; destruct (Rle_dec x y); constructor; auto. Qed.
Lemma Rltb_spec x y : reflect (x < y) (Rltb x y).
Proof. unfold Rltb; destruct (Rlt_dec x y); constructor; auto. Qed.
Lemma Reqb_spec x y : reflect (x = y) (Reqb x y).
Proof. unfold Reqb; destruct (Req_EM_T x y); constructor; auto. Qed.

(** Resolve comparisons with [lra]-decidable truth values. *)
Ltac rdec :=
  repeat match goal with
  | |- context [Rleb ?x ?y] => destruct (Rleb_spec x y)
  | |- context [Rltb ?x ?y] => destruct (Rltb_spec x y)
  | |- context [Reqb ?x ?y] => destruct (Reqb_spec x y)
  | |- context [Rle_dec ?x ?y] => destruct (Rle_dec x y)
  | |- context [Rlt_dec ?x ?y] => destruct (Rlt_dec x y)
  end; try lra.

(** ** Floor, ceiling, truncation *)
Lemma floorZ_spec x : IZR (floorZ x) <= x < IZR (floorZ x) + 1.
Proof.
  unfold floorZ. rewrite minus_IZR. destruct (archimed x). lra.
Qed.
Lemma floorZ_unique x z : IZR z <= x < IZR z + 1 -> floorZ x = z.
Proof.
  intros [H1 H2]. destruct (floorZ_spec x) as [H3 H4].
  assert (IZR z < IZR (floorZ x + 1)) by (rewrite plus_IZR; lra).
  assert (IZR (floorZ x) < IZR (z + 1)) by (rewrite plus_IZR; lra).
  apply lt_IZR in H. apply lt_IZR in H0. lia.
Qed.
Lemma floorZ_IZR z : floorZ (IZR z) = z.
Proof. apply floorZ_unique; lra. Qed.
Lemma floorZ_add x z : floorZ (x + IZR z) = (floorZ x + z)%Z.
Proof.
  apply floorZ_unique. rewrite plus_IZR. destruct (floorZ_spec x). lra.
Qed.
Lemma floorZ_mono x y : x <= y -> (floorZ x <= floorZ y)%Z.
Proof.
  intros H. destruct (floorZ_spec x), (floorZ_spec y).
  assert (IZR (floorZ x) < IZR (floorZ y + 1)) by (rewrite plus_IZR; lra).
  apply lt_IZR in H4. lia.
Qed.
Lemma floorZ_ge x z : IZR z <= x -> (z <= floorZ x)%Z.
Proof. intros H. rewrite <- (floorZ_IZR z). apply floorZ_mono; auto. Qed.
Lemma floorZ_lt x z : x < IZR z -> (floorZ x < z)%Z.
Proof.
  intros H. apply lt_IZR. destruct (floorZ_spec x). lra.
Qed.
Lemma ceilZ_spec x : IZR (ceilZ x) - 1 < x <= IZR (ceilZ x).
Proof.
  unfold ceilZ. rewrite opp_IZR. destruct (floorZ_spec (- x)). lra.
Qed.
Lemma ceilZ_unique x z : IZR z - 1 < x <= IZR z -> ceilZ x = z.
Proof.
  intros [H1 H2]. unfold ceilZ. rewrite (floorZ_unique (- x) (- z)); [lia|].
  rewrite opp_IZR. lra.
Qed.
Lemma ceilZ_IZR z : ceilZ (IZR z) = z.
Proof. apply ceilZ_unique; lra. Qed.
Lemma ceilZ_le x z : x <= IZR z -> (ceilZ x <= z)%Z.
Proof.
  intros H. destruct (ceilZ_spec x).
  assert (IZR (ceilZ x) < IZR (z + 1)) by (rewrite plus_IZR; lra).
  apply lt_IZR in H2. lia.
Qed.
Lemma ceilZ_mono x y : x <= y -> (ceilZ x <= ceilZ y)%Z.
Proof.
  intros H. apply ceilZ_le. destruct (ceilZ_spec y). lra.
Qed.
Lemma truncZ_nonneg x : 0 <= x -> truncZ x = floorZ x.
Proof. intros H. unfold truncZ. destruct (Rle_dec 0 x); auto; lra. Qed.

(** ** Finite sums *)
Lemma rsum_ext n f g : (forall i, (i < n)%nat -> f i = g i) -> rsum n f = rsum n g.
Proof.
  induction n; simpl; intros H; auto.
  rewrite IHn, H; auto.
Qed.
Lemma rsum_zero n f : (forall i, (i < n)%nat -> f i = 0) -> rsum n f = 0.
Proof.
  induction n; simpl; intros H; auto.
  rewrite IHn, H; auto; lra.
Qed.
Lemma rsum_plus n f g : rsum n (fun i => f i + g i) = rsum n f + rsum n g.
Proof. induction n; simpl; try rewrite IHn; lra. Qed.
Lemma rsum_scal n c f : rsum n (fun i => c * f i) = c * rsum n f.
Proof. induction n; simpl; try rewrite IHn; lra. Qed.
Lemma rsum_scal_r n c f : rsum n (fun i => f i * c) = rsum n f * c.
Proof. induction n; simpl; try rewrite IHn; lra. Qed.
Lemma rsum_split n k f : (k <= n)%nat ->
  rsum n f = rsum k f + rsum (n - k) (fun i => f (k + i)%nat).
Proof.
  intros H. replace n with (k + (n - k))%nat at 1 by lia.
  generalize (n - k)%nat as m. induction m; simpl.
  - rewrite Nat.add_0_r. lra.
  - rewrite Nat.add_succ_r. simpl. rewrite IHm. lra.
Qed.
Lemma rsum_swap n m f :
  rsum n (fun i => rsum m (fun j => f i j)) = rsum m (fun j => rsum n (fun i => f i j)).
Proof.
  induction n; simpl.
  - symmetry. apply rsum_zero; auto.
  - rewrite IHn, rsum_plus. reflexivity.
Qed.
Lemma rsum_S_l n f : rsum (S n) f = f 0%nat + rsum n (fun i => f (S i)).
Proof.
  rewrite (rsum_split (S n) 1) by lia. simpl. rewrite Nat.sub_0_r.
  replace (0 + f 0%nat) with (f 0%nat) by lra. reflexivity.
Qed.
Lemma rsum_single n k f : (k < n)%nat ->
  (forall i, (i < n)%nat -> i <> k -> f i = 0) -> rsum n f = f k.
Proof.
  intros Hk H. rewrite (rsum_split n k) by lia.
  rewrite rsum_zero by (intros; apply H; lia).
  replace (n - k)%nat with (S (n - k - 1)) by lia.
  rewrite rsum_S_l, Nat.add_0_r, rsum_zero; [lra|].
  intros; apply H; lia.
Qed.
Lemma rsum_trunc n m f : (m <= n)%nat ->
  (forall i, (m <= i < n)%nat -> f i = 0) -> rsum n f = rsum m f.
Proof.
  intros Hm H. rewrite (rsum_split n m) by lia.
  rewrite (rsum_zero (n - m)); [lra|]. intros; apply H; lia.
Qed.
Lemma rsum_opp n f : rsum n (fun i => - f i) = - rsum n f.
Proof. induction n; simpl; try rewrite IHn; lra. Qed.
Lemma rsum_minus n f g : rsum n (fun i => f i - g i) = rsum n f - rsum n g.
Proof. induction n; simpl; try rewrite IHn; lra. Qed.
Lemma rsum_const n c : rsum n (fun _ => c) = INR n * c.
Proof. induction n; simpl rsum; [simpl; lra|]. rewrite IHn, S_INR. lra. Qed.
Lemma rsum_le n f g : (forall i, (i < n)%nat -> f i <= g i) -> rsum n f <= rsum n g.
Proof.
  induction n; simpl; intros H; [lra|].
  apply Rplus_le_compat; auto.
Qed.
Lemma rsum_nonneg n f : (forall i, (i < n)%nat -> 0 <= f i) -> 0 <= rsum n f.
Proof.
  intros H. rewrite <- (rsum_zero n (fun _ => 0)); auto. apply rsum_le; auto.
Qed.

(** List sums *)
Lemma lsum_app l1 l2 : lsum (l1 ++ l2) = lsum l1 + lsum l2.
Proof. induction l1; simpl; try rewrite IHl1; lra. Qed.
Lemma lsum_perm l1 l2 : Permutation l1 l2 -> lsum l1 = lsum l2.
Proof. induction 1; simpl; lra. Qed.
Lemma lsum_map_plus {A} (f g : A -> R) l :
  lsum (map (fun x => f x + g x) l) = lsum (map f l) + lsum (map g l).
Proof. induction l; simpl; try rewrite IHl; lra. Qed.
Lemma lsum_map_scal {A} c (f : A -> R) l :
  lsum (map (fun x => c * f x) l) = c * lsum (map f l).
Proof. induction l; simpl; try rewrite IHl; lra. Qed.
Lemma lsum_map_ext {A} (f g : A -> R) l :
  (forall x, In x l -> f x = g x) -> lsum (map f l) = lsum (map g l).
Proof.
  induction l; simpl; intros H; auto. rewrite IHl, H; auto.
Qed.
Lemma lsum_map_zero {A} (f : A -> R) l :
  (forall x, In x l -> f x = 0) -> lsum (map f l) = 0.
Proof.
  induction l; simpl; intros H; auto. rewrite IHl, H; auto; lra.
Qed.
Lemma lsum_seq f n : lsum (map f (seq 0 n)) = rsum n f.
Proof.
  induction n; auto. rewrite seq_S, map_app, lsum_app, IHn. simpl. lra.
Qed.

(** ** Lists *)
Lemma nth_ext_R (l1 l2 : list R) : length l1 = length l2 ->
  (forall i, (i < length l1)%nat -> nth i l1 0 = nth i l2 0) -> l1 = l2.
Proof. intros. apply nth_ext with (d := 0) (d' := 0); auto. Qed.

Lemma nth_firstn_lt {A} (d : A) n l i : (i < n)%nat -> nth i (firstn n l) d = nth i l d.
Proof.
  revert l i; induction n; intros l i H; [lia|].
  destruct l, i; simpl; auto. apply IHn; lia.
Qed.
Lemma nth_skipn {A} (d : A) n l i : nth i (skipn n l) d = nth (n + i) l d.
Proof. revert l; induction n; destruct l; simpl; auto. destruct i; auto. Qed.
Lemma nth_block {A} (d : A) off len l i : (i < len)%nat -> nth i (block off len l) d = nth (off + i) l d.
Proof. intros H. unfold block. rewrite nth_firstn_lt, nth_skipn; auto. Qed.
Lemma length_block {A} off len (l : list A) : (off + len <= length l)%nat -> length (block off len l) = len.
Proof. intros. unfold block. rewrite firstn_length, skipn_length. lia. Qed.

Lemma length_upd_nth {A} i (f : A -> A) l : length (upd_nth i f l) = length l.
Proof. revert i; induction l; destruct i; simpl; auto. Qed.
Lemma nth_upd_nth_eq {A} i (f : A -> A) l d : (i < length l)%nat -> nth i (upd_nth i f l) d = f (nth i l d).
Proof. revert i; induction l; destruct i; simpl; intros; try lia; auto. apply IHl; lia. Qed.
Lemma nth_upd_nth_neq {A} i j (f : A -> A) l d : i <> j -> nth j (upd_nth i f l) d = nth j l d.
Proof. revert i j; induction l; destruct i, j; simpl; intros; auto; lia. Qed.

Lemma length_tabulate {A} n (f : nat -> A) : length (tabulate n f) = n.
Proof. unfold tabulate. rewrite map_length, seq_length. auto. Qed.
Lemma nth_tabulate {A} n (f : nat -> A) i d : (i < n)%nat -> nth i (tabulate n f) d = f i.
Proof.
  intros. unfold tabulate. rewrite nth_indep with (d' := f 0%nat) by (rewrite map_length, seq_length; auto).
  rewrite map_nth, seq_nth; auto.
Qed.
Lemma length_map2 {A B C} (f : A -> B -> C) l1 l2 : length (map2 f l1 l2) = Nat.min (length l1) (length l2).
Proof. unfold map2. rewrite map_length, combine_length. auto. Qed.
Lemma nth_map2 {A B C} (f : A -> B -> C) l1 l2 i da db dc :
  (i < length l1)%nat -> (i < length l2)%nat ->
  nth i (map2 f l1 l2) dc = f (nth i l1 da) (nth i l2 db).
Proof.
  revert l2 i; induction l1; destruct l2; simpl; intros; try lia.
  destruct i; simpl; auto. unfold map2 in *; simpl. apply IHl1; lia.
Qed.
Lemma nth_repeat_lt {A} (x d : A) n i : (i < n)%nat -> nth i (repeat x n) d = x.
Proof. revert i; induction n; destruct i; simpl; intros; try lia; auto. apply IHn; lia. Qed.
Lemma nth_repeat_any (x : R) n i : nth i (repeat 0 n) 0 = 0.
Proof. revert i; induction n; destruct i; simpl; auto. Qed.

(** ** foldM / mapM *)
Lemma foldM_app {A B} (f : B -> A -> result B) l1 l2 b :
  foldM f (l1 ++ l2) b = bind (foldM f l1 b) (fun b' => foldM f l2 b').
Proof.
  revert b; induction l1; simpl; intros; auto.
  destruct (f b a); simpl; auto.
Qed.
(** Invariant rule for loops whose body never raises on the invariant. *)
Lemma foldM_inv {A B} (P : nat -> B -> Prop) (f : B -> A -> result B) l b :
  P 0%nat b ->
  (forall i b x, (i < length l)%nat -> nth_error l i = Some x -> P i b -> exists b', f b x = Ok b' /\ P (S i) b') ->
  exists b', foldM f l b = Ok b' /\ P (length l) b'.
Proof.
  revert P b. induction l; simpl; intros P b H0 HS.
  - eauto.
  - destruct (HS 0%nat b a) as (b1 & E & H1); auto; try lia.
    rewrite E; simpl.
    apply (IHl (fun i => P (S i))); auto.
    intros i b2 x Hi Hn HP. apply (HS (S i) b2 x); auto. lia.
Qed.
Lemma foldM_Ok {A B} (f : B -> A -> B) l b :
  foldM (fun b x => Ok (f b x)) l b = Ok (fold_left f l b).
Proof. revert b; induction l; simpl; auto. Qed.
Lemma foldM_ext {A B} (f g : B -> A -> result B) l b :
  (forall b x, In x l -> f b x = g b x) -> foldM f l b = foldM g l b.
Proof.
  revert b; induction l; simpl; intros; auto.
  rewrite H by auto. destruct (g b a); simpl; auto.
Qed.
Lemma bind_ok {A B} (r : result A) (f : A -> result B) b :
  bind r f = Ok b -> exists a, r = Ok a /\ f a = Ok b.
Proof. destruct r; simpl; intros; try discriminate. eauto. Qed.
Lemma mapM_length {A B} (f : A -> result B) l ys : mapM f l = Ok ys -> length ys = length l.
Proof.
  revert ys; induction l; simpl; intros.
  - injection H as <-; auto.
  - apply bind_ok in H as (y & _ & H). apply bind_ok in H as (ys' & H' & H).
    injection H as <-. simpl. f_equal; auto.
Qed.
Lemma mapM_Ok_map {A B} (f : A -> result B) (g : A -> B) l :
  (forall x, In x l -> f x = Ok (g x)) -> mapM f l = Ok (map g l).
Proof.
  induction l; simpl; intros; auto.
  rewrite H by auto. simpl. rewrite IHl by auto. reflexivity.
Qed.
Lemma mapM_nth {A B} (f : A -> result B) l ys i da db :
  mapM f l = Ok ys -> (i < length l)%nat -> f (nth i l da) = Ok (nth i ys db).
Proof.
  revert ys i; induction l; simpl; intros; try lia.
  apply bind_ok in H as (y & Hy & H). apply bind_ok in H as (ys' & H' & H).
  injection H as <-. destruct i; simpl; auto. apply IHl; auto; lia.
Qed.

(** ** Python slices with in-range non-negative bounds *)
Lemma slice_bound_nat n k : slice_bound n (Z.of_nat k) = Nat.min k n.
Proof. unfold slice_bound. destruct (Z.ltb_spec (Z.of_nat k) 0); lia. Qed.
Lemma pyslice_nat {A} a b (l : list A) : (a <= b)%nat ->
  pyslice (Z.of_nat a) (Z.of_nat b) l = block a (b - a) l.
Proof.
  intros. unfold pyslice, block. rewrite !slice_bound_nat.
  destruct (Nat.le_gt_cases b (length l)).
  - rewrite !Nat.min_l by lia. auto.
  - rewrite (Nat.min_r b) by lia. destruct (Nat.le_gt_cases a (length l)).
    + rewrite Nat.min_l by lia.
      rewrite !firstn_all2; auto; rewrite skipn_length; lia.
    + rewrite Nat.min_r by lia.
      rewrite !skipn_all2 by lia. rewrite !firstn_nil. auto.
Qed.
Lemma pyslice_0 {A} b (l : list A) : pyslice 0 (Z.of_nat b) l = block 0 b l.
Proof. change 0%Z with (Z.of_nat 0). rewrite pyslice_nat by lia. rewrite Nat.sub_0_r. auto. Qed.
