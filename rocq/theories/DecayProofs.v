(** Lemmas for C101: reflections and the length of ways. *)
From Coq Require Import List ZArith Reals Lia Lra Psatz Bool Permutation.
From Verif Require Import Prelude PreludeFacts FloatModel DirModel DirProofs ImageModel ImageSpec ImageProofs AccumModel IsmModel IsmSpec KernelProofs ContSpec ContProofs BetaSpec BetaProofs.
Import ListNotations.
Local Open Scope R_scope.
Local Notation length := List.length.

(** Sum of the distances along the axes. *)
Definition along (p q : list R) : R := fold_right Rplus 0 (map (fun ab => Rabs (fst ab - snd ab)) (combine p q)).
Lemma along_nonneg p : forall q, 0 <= along p q.
Proof. induction p as [|a p IH]; intros [|b q]; unfold along; cbn; try lra. pose proof (Rabs_pos (a - b)). specialize (IH q). unfold along in IH. lra. Qed.
Lemma sq_along p : forall q, length p = length q -> sqdist p q <= along p q * along p q.
Proof.
  induction p as [|a p IH]; intros [|b q] H; try discriminate; unfold sqdist, along; cbn [combine map fold_right fst snd]; [lra|].
  specialize (IH q ltac:(cbn in H; lia)). pose proof (along_nonneg p q) as A. fold (along p q). fold (sqdist p q). pose proof (Rabs_pos (a - b)).
  assert (E : (a - b) * (a - b) = Rabs (a - b) * Rabs (a - b)) by (rewrite <- Rabs_mult; symmetry; apply Rabs_pos_eq; pose proof (Rle_0_sqr (a - b)) as Q; unfold Rsqr in Q; lra).
  rewrite E. nra.
Qed.
Lemma along_sq p : forall q, length p = length q -> along p q * along p q <= INR (length p) * sqdist p q.
Proof.
  induction p as [|a p IH]; intros [|b q] H; try discriminate; unfold sqdist, along; cbn [combine map fold_right fst snd length]; [cbn; lra|].
  assert (Lq : length p = length q) by (cbn in H; lia). specialize (IH q Lq). fold (along p q). fold (sqdist p q). rewrite S_INR.
  assert (E : (a - b) * (a - b) = Rabs (a - b) * Rabs (a - b)) by (rewrite <- Rabs_mult; symmetry; apply Rabs_pos_eq; pose proof (Rle_0_sqr (a - b)) as Q; unfold Rsqr in Q; lra).
  rewrite E. set (u := Rabs (a - b)). set (s := along p q) in *. set (Q := sqdist p q) in *. pose proof (sqdist_nonneg p q) as HQ. fold Q in HQ.
  assert (C : 2 * u * s <= INR (length p) * (u * u) + Q).
  { destruct p as [|x p'] eqn:Ep.
    - cbn in IH. assert (s = 0) by (unfold s, along; reflexivity). rewrite H0. cbn. lra.
    - assert (Hn : 0 < INR (length (x :: p'))) by (apply lt_0_INR; cbn; lia). set (n := INR (length (x :: p'))) in *.
      assert (n * (2 * u * s) <= n * (n * (u * u) + Q)) by (pose proof (Rle_0_sqr (n * u - s)) as W; unfold Rsqr in W; nra).
      apply Rmult_le_reg_l with n; auto. }
  nra.
Qed.
(** A cell [k] away is between [|k| - 1] and [|k| + 1] sides away. *)
Lemma axis_between len x m k : 0 <= x <= len -> 0 <= m <= len -> (IZR (Z.abs k) - 1) * len <= Rabs (m - reflected len x k) <= (IZR (Z.abs k) + 1) * len.
Proof.
  intros Hx Hm. rewrite reflected_cell. set (y := if Z.even k then x else len - x). assert (Hy : 0 <= y <= len) by (unfold y; destruct (Z.even k); lra).
  destruct (Z.le_gt_cases 0 k) as [Hk|Hk].
  - rewrite Z.abs_eq by auto. apply IZR_le in Hk. unfold Rabs. destruct (Rcase_abs _); split; nra.
  - rewrite Z.abs_neq by lia. rewrite opp_IZR. apply IZR_lt in Hk. assert (IZR k <= -1) by (apply IZR_le; apply lt_IZR in Hk; lia). unfold Rabs. destruct (Rcase_abs _); split; nra.
Qed.
Lemma along_between lo hi : 0 <= lo -> forall size src mic v, ImageSpec.inside src size -> ImageSpec.inside mic size -> length v = length size -> Forall (fun l => lo <= l <= hi) size ->
  IZR (order_of v) * lo - fold_right Rplus 0 size <= along mic (image_of src size v) /\ along mic (image_of src size v) <= (IZR (order_of v) + INR (length size)) * hi.
Proof.
  intros Hlo. induction size as [|l size IH]; intros src mic v Hs Hm Lv F.
  - destruct v; [|discriminate]. inversion Hs. inversion Hm. unfold order_of, along. cbn. lra.
  - destruct src as [|x src]; [inversion Hs|]. destruct mic as [|m mic]; [inversion Hm|]. destruct v as [|k v]; [discriminate|].
    assert (Hs' : 0 <= x <= l /\ ImageSpec.inside src size) by (inversion Hs; auto). assert (Hm' : 0 <= m <= l /\ ImageSpec.inside mic size) by (inversion Hm; auto).
    assert (F' : lo <= l <= hi /\ Forall (fun l => lo <= l <= hi) size) by (inversion F; auto). destruct Hs' as (Hx & Hs'). destruct Hm' as (Hm1 & Hm'). destruct F' as (Hl & F').
    destruct (IH src mic v Hs' Hm' ltac:(cbn in Lv; lia) F') as (A & B).
    unfold along, order_of. cbn [image_of combine map fold_right fst snd length]. fold (along mic (image_of src size v)). fold (order_of v). rewrite plus_IZR, S_INR.
    pose proof (axis_between l x m k Hx Hm1) as (U & V).
    assert (P : 0 <= IZR (Z.abs k)) by (apply IZR_le; lia). split; [|nra].
    assert (IZR (Z.abs k) * lo <= IZR (Z.abs k) * l) by (apply Rmult_le_compat_l; lra). nra.
Qed.
Lemma sum_sizes_le hi size : Forall (fun l => l <= hi) size -> fold_right Rplus 0 size <= INR (length size) * hi.
Proof. induction 1; cbn [fold_right length]; [cbn; lra|]. rewrite S_INR. lra. Qed.
Lemma euclid_le_along p q : length p = length q -> euclid p q <= along p q.
Proof. intros H. unfold euclid. rewrite <- (sqrt_square (along p q)) by apply along_nonneg. apply sqrt_le_1_alt, sq_along, H. Qed.
Lemma along_le_euclid p q : length p = length q -> along p q <= sqrt (INR (length p)) * euclid p q.
Proof.
  intros H. unfold euclid. rewrite <- sqrt_mult by (apply pos_INR || apply sqdist_nonneg). rewrite <- (sqrt_square (along p q)) by apply along_nonneg. apply sqrt_le_1_alt, along_sq, H.
Qed.
(** ** Products *)
Lemma prod_le B l : Forall (fun x => Rabs x <= B) l -> Rabs (prod l) <= B ^ length l.
Proof.
  induction 1 as [|x l Hx F IH]; cbn [length pow]; unfold prod; cbn [fold_right]; [rewrite Rabs_R1; lra|]. fold (prod l). rewrite Rabs_mult.
  apply Rmult_le_compat; auto using Rabs_pos.
Qed.
Lemma prod_ge b l : 0 <= b -> Forall (fun x => b <= x) l -> b ^ length l <= prod l.
Proof.
  intros Hb. induction 1 as [|x l Hx F IH]; cbn [length pow]; unfold prod; cbn [fold_right]; [lra|]. fold (prod l). apply Rmult_le_compat; auto. apply pow_le; auto.
Qed.
Lemma met_forall (P : R -> Prop) ws : Forall (fun p => P (fst p) /\ P (snd p)) ws -> forall v, Forall P (met ws v).
Proof.
  induction 1 as [|[lo hi] ws (A & B) F IH]; intros [|k v]; cbn [met]; try constructor. apply Forall_app. split; auto. apply Forall_forall. intros x I. apply in_map_iff in I as (z & <- & _).
  unfold wall_of. destruct (Z.even z); auto.
Qed.
Lemma pow_anti b m k : 0 <= b <= 1 -> (m <= k)%nat -> b ^ k <= b ^ m.
Proof.
  intros Hb H. replace k with (m + (k - m))%nat by lia. rewrite pow_add. assert (0 <= b ^ m) by (apply pow_le; lra). assert (b ^ (k - m) <= 1) by (rewrite <- (pow1 (k - m)); apply pow_incr; lra). nra.
Qed.
Lemma sum_filter {A} (f : A -> R) (p : A -> bool) l : (forall v, In v l -> p v = false -> f v = 0) -> ContSpec.rsum (map f l) = ContSpec.rsum (map f (filter p l)).
Proof.
  unfold ContSpec.rsum. induction l as [|v l IH]; intros H; [reflexivity|]. cbn [map fold_right filter]. rewrite IH by (intros; apply H; auto; right; auto).
  destruct (p v) eqn:E; [reflexivity|]. rewrite (H v) by (auto; left; auto). ring.
Qed.
