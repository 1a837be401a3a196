(** Lemmas about the dependence of responses on the walls. *)
From Coq Require Import List ZArith Reals Lia Lra Bool Permutation.
From Verif Require Import Prelude PreludeFacts FloatModel ImageModel ImageSpec ImageProofs AccumModel IsmModel IsmSpec KernelProofs ContSpec ContProofs BetaSpec.
Import ListNotations.
Local Open Scope R_scope.
Local Notation length := List.length.

Definition prod (l : list R) : R := fold_right Rmult 1 l.
Lemma prod_app l l' : prod (l ++ l') = prod l * prod l'.
Proof. induction l; cbn in *; [unfold prod; cbn; ring|]. fold (prod (l ++ l')) (prod l) in *. rewrite IHl. ring. Qed.
Lemma gain_met ws : forall n, path_gain ws n = prod (met ws n).
Proof.
  induction ws as [|[lo hi] ws IH]; intros [|k n]; cbn [path_gain met]; try reflexivity. rewrite prod_app, <- IH. f_equal.
  induction (planes k) as [|j l IHl]; [reflexivity|]. cbn [wall_product map]. rewrite IHl. reflexivity.
Qed.
Lemma length_planes k : Z.of_nat (length (planes k)) = Z.abs k.
Proof. destruct k; cbn [planes Z.abs]; rewrite ?map_length, ?seq_length; try lia. reflexivity. Qed.
Lemma length_met ws : forall n, length n = length ws -> Z.of_nat (length (met ws n)) = order_of n.
Proof.
  induction ws as [|[lo hi] ws IH]; intros [|k n] H; try discriminate; cbn [met]; [reflexivity|].
  rewrite app_length, map_length, Nat2Z.inj_add, length_planes, IH by (cbn in H; lia). reflexivity.
Qed.
Lemma met_rel (P : R -> R -> Prop) : forall ws ws' n, Forall2 (fun p q => P (fst p) (fst q) /\ P (snd p) (snd q)) ws ws' -> Forall2 P (met ws n) (met ws' n).
Proof.
  intros ws ws' n F. revert n. induction F as [|[lo hi] [lo' hi'] ws ws' (A & B) F IH]; intros [|k n]; cbn [met]; try constructor.
  apply Forall2_app; [|apply IH]. induction (planes k); constructor; auto. unfold wall_of. destruct (Z.even _); auto.
Qed.
Lemma pairs_rel (P : R -> R -> Prop) dim : forall b b', length b = (2 * dim)%nat -> Forall2 P b b' ->
  Forall2 (fun p q => P (fst p) (fst q) /\ P (snd p) (snd q)) (beta_pairs b) (beta_pairs b').
Proof.
  induction dim as [|dim IH]; intros b b' L F.
  - destruct b; [|cbn in L; lia]. inversion F. constructor.
  - destruct b as [|x [|y b]]; try (cbn in L; lia). inversion F as [|? x' ? b1 Px F1]; subst. inversion F1 as [|? y' ? b2 Py F2]; subst.
    cbn [beta_pairs]. constructor; [cbn; auto|]. apply IH; auto. cbn in L. lia.
Qed.
Lemma length_pairs dim : forall b, length b = (2 * dim)%nat -> length (beta_pairs b) = dim.
Proof.
  induction dim as [|dim IH]; intros b L; [destruct b; [reflexivity|cbn in L; lia]|].
  destruct b as [|x [|y b]]; try (cbn in L; lia). cbn [beta_pairs length]. rewrite IH; [lia|]. cbn in L. lia.
Qed.
Lemma prod_bound B l : 0 <= B -> Forall (fun x => Rabs x <= B) l -> Rabs (prod l) <= B ^ length l.
Proof.
  intros H F. induction F as [|x l A F IH]; cbn; [rewrite Rabs_R1; lra|]. fold (prod l). rewrite Rabs_mult. apply Rmult_le_compat; auto; apply Rabs_pos.
Qed.
Lemma prod_change del l l' : Forall (fun x => Rabs x <= 1) l -> Forall (fun x => Rabs x <= 1) l' -> Forall2 (fun x y => Rabs (y - x) <= del) l l' ->
  Rabs (prod l' - prod l) <= INR (length l) * del.
Proof.
  intros F F' D. revert F F'. induction D as [|x y l l' A D IH]; intros F F'.
  - cbn. rewrite Rminus_eq_0, Rabs_R0. lra.
  - inversion_clear F as [|? ? Fx Fl]. inversion_clear F' as [|? ? Fy Fl']. cbn [prod fold_right length]. fold (prod l) (prod l'). rewrite S_INR.
    replace (y * prod l' - x * prod l) with ((y - x) * prod l' + x * (prod l' - prod l)) by ring.
    pose proof (prod_bound 1 l' ltac:(lra) Fl') as B. rewrite pow1 in B. specialize (IH Fl Fl').
    eapply Rle_trans; [apply Rabs_triang|]. rewrite !Rabs_mult. pose proof (Rabs_pos (y - x)). pose proof (Rabs_pos x). pose proof (Rabs_pos (prod l')). pose proof (Rabs_pos (prod l' - prod l)).
    nra.
Qed.
Lemma prod_scaled t l l' : Forall2 (fun x y => y = t * x) l l' -> prod l' = t ^ length l * prod l.
Proof.
  induction 1 as [|x y l l' A F IH]; [cbn; ring|]. subst y. cbn [prod fold_right length pow]. fold (prod l) (prod l'). rewrite IH. ring.
Qed.
Lemma prod_zero l : In 0 l -> prod l = 0.
Proof. induction l as [|x l IH]; intros []; cbn; fold (prod l); [subst; ring|rewrite IH by auto; ring]. Qed.

(** ** Values *)
Lemma rsum_split {A} (f : A -> R) (p : A -> bool) l :
  rsum (map f l) = rsum (map f (filter p l)) + rsum (map f (filter (fun x => negb (p x)) l)).
Proof. unfold rsum. induction l as [|x l IH]; cbn; [ring|]. destruct (p x); cbn; rewrite IH; ring. Qed.
Lemma rsum_nil {A} (f : A -> R) l : (forall x, In x l -> f x = 0) -> rsum (map f l) = 0.
Proof. unfold rsum. induction l as [|x l IH]; intros H; cbn; [reflexivity|]. rewrite H by (left; auto). rewrite IH by (intros; apply H; right; auto). ring. Qed.
Section Values.
Variables (L : nat) (table : option nat) (fs c : R) (size src mic : list R) (j : nat).
Hypothesis T0 : forall g, table = Some g -> (0 < g)%nat.
Lemma term_change G G' n : Rabs (G' / ray_length src mic size n * shape_at L (kernel table) j (arrival fs c src mic size n) -
    G / ray_length src mic size n * shape_at L (kernel table) j (arrival fs c src mic size n)) <= Rabs (G' - G) / ray_length src mic size n.
Proof.
  pose proof (ray_pos src mic size n) as P. pose proof (shape_abs L table j (arrival fs c src mic size n) T0) as S.
  set (r := ray_length src mic size n) in *. set (s := shape_at _ _ _ _) in *. replace (G' / r * s - G / r * s) with ((G' - G) * / r * s) by (field; lra).
  assert (0 < / r) by (apply Rinv_0_lt_compat; auto). rewrite !Rabs_mult, (Rabs_right (/ r)) by lra. unfold Rdiv.
  rewrite <- (Rmult_1_r (Rabs (G' - G) * / r)) at 2. apply Rmult_le_compat_l; [|auto]. apply Rmult_le_pos; [apply Rabs_pos|lra].
Qed.
Lemma walls_change walls walls' images del : length walls' = length walls -> (forall n, In n images -> length n = length walls) ->
  Forall (fun p => Rabs (fst p) <= 1 /\ Rabs (snd p) <= 1) walls -> Forall (fun p => Rabs (fst p) <= 1 /\ Rabs (snd p) <= 1) walls' ->
  Forall2 (fun p q => Rabs (fst q - fst p) <= del /\ Rabs (snd q - snd p) <= del) walls walls' ->
  Rabs (value L (kernel table) fs c walls' size images src mic j - value L (kernel table) fs c walls size images src mic j) <=
  del * reflections_over_distance size src mic images.
Proof.
  intros Lw Ln F F' D. unfold value.
  replace (del * reflections_over_distance size src mic images) with (rsum (map (fun n => IZR (order_of n) / ray_length src mic size n * del) images)).
  2:{ rewrite rsum_scal. unfold reflections_over_distance, rsum. ring. }
  apply rsum_diff. intros n Hn. eapply Rle_trans; [apply term_change|].
  assert (Q : forall ws, Forall (fun p => Rabs (fst p) <= 1 /\ Rabs (snd p) <= 1) ws -> Forall (fun x => Rabs x <= 1) (met ws n)).
  { clear. intros ws F. assert (F2 : Forall2 (fun p q : R * R => (fun x _ => Rabs x <= 1) (fst p) (fst q) /\ (fun x _ => Rabs x <= 1) (snd p) (snd q)) ws ws) by (induction F; constructor; auto).
    apply (met_rel _ _ _ n) in F2. revert F2. generalize (met ws n) at 1 3. intros l F2. induction F2; constructor; auto. }
  rewrite !gain_met. pose proof (prod_change del (met walls n) (met walls' n) (Q _ F) (Q _ F') (met_rel _ _ _ n D)) as B.
  rewrite INR_IZR_INZ, length_met in B by auto. pose proof (ray_pos src mic size n) as P.
  assert (0 < / ray_length src mic size n) by (apply Rinv_0_lt_compat; auto). unfold Rdiv.
  replace (IZR (order_of n) * / ray_length src mic size n * del) with (IZR (order_of n) * del * / ray_length src mic size n) by ring.
  apply Rmult_le_compat_r; lra.
Qed.
Lemma walls_bound walls images B k : 0 <= B <= 1 -> (forall n, In n images -> length n = length walls /\ (Z.of_nat k <= order_of n)%Z) ->
  Forall (fun p => Rabs (fst p) <= B /\ Rabs (snd p) <= B) walls ->
  Rabs (value L (kernel table) fs c walls size images src mic j) <= B ^ k * inverse_distances size src mic images.
Proof.
  intros HB Ln F. unfold value.
  replace (B ^ k * inverse_distances size src mic images) with (rsum (map (fun n => / ray_length src mic size n * B ^ k) images)).
  2:{ rewrite rsum_scal. unfold inverse_distances, rsum. ring. }
  replace (rsum (map _ images)) with (rsum (map (fun n => path_gain walls n / ray_length src mic size n * shape_at L (kernel table) j (arrival fs c src mic size n)) images) -
    rsum (map (fun _ => 0) images)) by (rewrite (rsum_nil (fun _ => 0)); auto; ring).
  apply rsum_diff. intros n Hn. destruct (Ln n Hn) as (L1 & L2).
  pose proof (term_change 0 (path_gain walls n) n) as T. eapply Rle_trans; [|eapply Rle_trans; [exact T|]].
  { right. f_equal. unfold Rdiv. ring. }
  assert (Q : Forall (fun x => Rabs x <= B) (met walls n)).
  { assert (F2 : Forall2 (fun p q : R * R => (fun x _ => Rabs x <= B) (fst p) (fst q) /\ (fun x _ => Rabs x <= B) (snd p) (snd q)) walls walls) by (clear - F; induction F; constructor; auto).
    apply (met_rel _ _ _ n) in F2. clear - F2. revert F2. generalize (met walls n) at 1 3. intros l F2. induction F2; constructor; auto. }
  rewrite Rminus_0_r, gain_met. pose proof (prod_bound B _ ltac:(lra) Q) as P1. rewrite <- length_met with (ws := walls) in L2 by auto.
  assert (P2 : B ^ length (met walls n) <= B ^ k).
  { replace (length (met walls n)) with (k + (length (met walls n) - k))%nat by lia. rewrite pow_add. rewrite <- (Rmult_1_r (B ^ k)) at 2.
    apply Rmult_le_compat_l; [apply pow_le; lra|]. rewrite <- (pow1 (length (met walls n) - k)). apply pow_incr. lra. }
  pose proof (ray_pos src mic size n) as P. assert (0 < / ray_length src mic size n) by (apply Rinv_0_lt_compat; auto). unfold Rdiv. rewrite Rmult_comm.
  apply Rmult_le_compat_l; lra.
Qed.
Lemma walls_scaled t walls walls' images k : length walls' = length walls -> (forall n, In n images -> length n = length walls /\ order_of n = Z.of_nat k) ->
  Forall2 (fun p q => fst q = t * fst p /\ snd q = t * snd p) walls walls' ->
  value L (kernel table) fs c walls' size images src mic j = t ^ k * value L (kernel table) fs c walls size images src mic j.
Proof.
  intros Lw Ln D. unfold value, rsum. induction images as [|n images IH]; cbn [map fold_right]; [ring|]. rewrite IH by (intros; apply Ln; right; auto).
  destruct (Ln n (or_introl eq_refl)) as (L1 & L2). rewrite !gain_met. rewrite (prod_scaled t _ _ (met_rel (fun x y => y = t * x) _ _ n D)).
  rewrite <- length_met with (ws := walls) in L2 by auto. apply Nat2Z.inj in L2. rewrite L2. unfold Rdiv. ring.
Qed.
Lemma value_filter walls images (p : list Z -> bool) : (forall n, In n images -> p n = false -> path_gain walls n = 0) ->
  value L (kernel table) fs c walls size images src mic j = value L (kernel table) fs c walls size (filter p images) src mic j.
Proof.
  intros H. unfold value. rewrite (rsum_split _ p). rewrite (rsum_nil _ (filter (fun x => negb (p x)) images)); [ring|].
  intros n Hn. apply filter_In in Hn as (Hn & E). rewrite H; auto; [unfold Rdiv; ring|]. destruct (p n); [discriminate|auto].
Qed.
Lemma value_split walls images (p : list Z -> bool) :
  value L (kernel table) fs c walls size images src mic j =
  value L (kernel table) fs c walls size (filter p images) src mic j + value L (kernel table) fs c walls size (filter (fun n => negb (p n)) images) src mic j.
Proof. unfold value. apply rsum_split. Qed.
End Values.
