(** Lemmas about the fractional-delay accumulation. *)
From Coq Require Import List ZArith Reals Lia Lra Bool Permutation.
From Verif Require Import Prelude PreludeFacts SignalModel DirModel AccumModel ImageSpec IsmSpec.
Import ListNotations.
Local Open Scope R_scope.

(** ** Sums of possibly undefined numbers *)
Lemma xadd_comm a b : xadd a b = xadd b a.
Proof. destruct a, b; cbn; auto. f_equal; ring. Qed.
Lemma xadd_assoc a b c : xadd a (xadd b c) = xadd (xadd a b) c.
Proof. destruct a, b, c; cbn; auto. f_equal; ring. Qed.
Lemma xadd_0_l a : xadd (Some 0) a = a.
Proof. destruct a; cbn; auto. f_equal; ring. Qed.
Lemma xadd_0_r a : xadd a (Some 0) = a.
Proof. rewrite xadd_comm. apply xadd_0_l. Qed.
Lemma xscale_1 a : xscale 1 a = a.
Proof. destruct a; cbn; auto. f_equal; ring. Qed.
Lemma xsum_cons a l : xsum (a :: l) = xadd a (xsum l).
Proof. reflexivity. Qed.
Lemma xsum_app a b : xsum (a ++ b) = xadd (xsum a) (xsum b).
Proof.
  induction a; cbn [app]; [symmetry; apply xadd_0_l|]. rewrite !xsum_cons, IHa. apply xadd_assoc.
Qed.
Lemma xsum_perm a b : Permutation a b -> xsum a = xsum b.
Proof.
  induction 1; rewrite ?xsum_cons; auto; try congruence.
  rewrite !xadd_assoc. f_equal. apply xadd_comm.
Qed.
Lemma xsum_zero l : (forall x, In x l -> x = Some 0) -> xsum l = Some 0.
Proof.
  induction l as [|a l IH]; auto. intros H. rewrite xsum_cons, (H a), IH by (cbn in *; auto).
  apply xadd_0_l.
Qed.
Lemma xsum_concat l : xsum (concat l) = xsum (map xsum l).
Proof. induction l; cbn [concat map]; auto. rewrite xsum_app, xsum_cons, IHl. reflexivity. Qed.
Lemma xsum_flat_map {A} (f : A -> list xr) l : xsum (flat_map f l) = xsum (map (fun x => xsum (f x)) l).
Proof. rewrite flat_map_concat_map, xsum_concat, map_map. reflexivity. Qed.

(** ** Scatter *)
Definition hits (q : Z) (upd : list (Z * xr)) : list xr :=
  map snd (filter (fun p => (fst p =? q)%Z) upd).
Lemma hits_app q a b : hits q (a ++ b) = hits q a ++ hits q b.
Proof. unfold hits. rewrite filter_app, map_app. reflexivity. Qed.
Lemma hits_concat q l : hits q (concat l) = concat (map (hits q) l).
Proof. induction l; cbn [concat map]; auto. rewrite hits_app, IHl. reflexivity. Qed.
Lemma scatter_spec buf upd :
  Forall (fun p => (0 <= fst p < Z.of_nat (length buf))%Z) upd ->
  exists out, scatter_add buf upd = Ok out /\ length out = length buf /\
    forall q, (q < length buf)%nat ->
      nth q out None = xadd (nth q buf None) (xsum (hits (Z.of_nat q) upd)).
Proof.
  unfold scatter_add. revert buf. induction upd as [|[z v] upd IH]; intros buf H.
  - exists buf. repeat split. intros q Hq. cbn. symmetry. apply xadd_0_r.
  - inversion H as [|? ? Hz H']; subst. cbn [fst] in Hz. cbn [foldM fst snd].
    destruct (Z.leb_spec 0 z); [|lia]. destruct (Z.ltb_spec z (Z.of_nat (length buf))); [|lia].
    cbn [andb bind].
    destruct (IH (upd_nth (Z.to_nat z) (fun w => xadd w v) buf)) as (out & E & L & N).
    { eapply Forall_impl; [|exact H']. cbn beta. intros p Hp. rewrite length_upd_nth. auto. }
    exists out. rewrite length_upd_nth in *. repeat split; auto.
    intros q Hq. rewrite N by auto. unfold hits. cbn [filter fst].
    destruct (Z.eqb_spec z (Z.of_nat q)).
    + cbn [map snd]. rewrite xsum_cons.
      replace (Z.to_nat z) with q by lia.
      rewrite nth_upd_nth_eq by auto. rewrite xadd_assoc. reflexivity.
    + rewrite nth_upd_nth_neq by lia. reflexivity.
Qed.

(** ** Tables *)
Lemma half_odd L : Nat.Odd L -> half L = (L / 2)%nat.
Proof.
  intros [k ->]. unfold half. replace (2 * k + 1 - 1)%nat with (k * 2)%nat by lia.
  rewrite Nat.div_mul by lia. replace (2 * k + 1)%nat with (1 + k * 2)%nat by lia.
  rewrite Nat.div_add by lia. reflexivity.
Qed.
Lemma odd_half L : Nat.Odd L -> L = (2 * half L + 1)%nat.
Proof.
  intros [k ->]. unfold half. replace (2 * k + 1 - 1)%nat with (k * 2)%nat by lia.
  rewrite Nat.div_mul; lia.
Qed.
Lemma sinc_nsinc x : sinc x = nsinc x.
Proof. reflexivity. Qed.
Lemma length_window L : length (fdl_window L) = L.
Proof. unfold fdl_window. destruct (Nat.eqb_spec L 1); [subst; reflexivity|apply length_tabulate]. Qed.
Lemma window_hann L k : (k < L)%nat -> nth k (fdl_window L) 0 = hann L k.
Proof.
  intros H. unfold fdl_window, hann. destruct (Nat.eqb_spec L 1).
  - subst. replace k with 0%nat by lia. reflexivity.
  - rewrite nth_tabulate by auto.
    replace (2 * PI * INR k / INR (L - 1)) with (2 * (PI * INR k / INR (L - 1))).
    + rewrite cos_2a_sin. cbn [pow]. lra.
    + field. apply not_0_INR. lia.
Qed.
Lemma length_lut L g : (0 < g)%nat -> length (sinc_lut L g) = ((L + 1) * g + 1)%nat.
Proof.
  intros H. unfold sinc_lut. rewrite map_length. unfold linspace.
  destruct (Nat.eqb_spec ((L + 1) * g + 1) 1); [nia|]. apply length_tabulate.
Qed.
Lemma nth_lut L g p : Nat.Odd L -> (0 < g)%nat -> (p < (L + 1) * g + 1)%nat ->
  nth p (sinc_lut L g) 0 = nsinc (INR p / INR g - INR (half L) - 1).
Proof.
  intros HL Hg Hp. unfold sinc_lut.
  rewrite nth_indep with (d' := sinc 0) by (rewrite map_length; unfold linspace;
    destruct (Nat.eqb_spec ((L + 1) * g + 1) 1); [nia|]; rewrite length_tabulate; auto).
  rewrite map_nth, sinc_nsinc. f_equal. unfold linspace.
  destruct (Nat.eqb_spec ((L + 1) * g + 1) 1); [nia|]. rewrite nth_tabulate by auto.
  replace ((L + 1) * g + 1 - 1)%nat with ((L + 1) * g)%nat by lia.
  rewrite mult_INR. pose proof (odd_half L HL) as E.
  assert (EL : INR (L + 1) = 2 * INR (half L) + 2).
  { rewrite plus_INR. rewrite E at 1. rewrite plus_INR, mult_INR. cbn. lra. }
  rewrite EL. pose proof (pos_INR (half L)). assert (0 < INR g) by (apply lt_0_INR; auto).
  field. lra.
Qed.
Lemma take_ok t i : (0 <= i < Z.of_nat (length t))%Z -> take t i = Ok (nth (Z.to_nat i) t 0).
Proof.
  intros H. unfold take. destruct (Z.leb_spec (- Z.of_nat (length t)) i); [|lia].
  destruct (Z.ltb_spec i (Z.of_nat (length t))); [|lia]. destruct (Z.ltb_spec i 0); [lia|]. reflexivity.
Qed.

(** ** Table positions under an arbitrary rounding *)
Definition good_rounding (rnd : R -> R) (g : nat) : Prop :=
  (forall x y, x <= y -> rnd x <= rnd y) /\ rnd 0 = 0 /\ rnd 1 = 1 /\ rnd (INR g) = INR g.
Lemma good_id g : good_rounding (fun x => x) g.
Proof. repeat split; auto. Qed.
Lemma frac_range rnd g s : good_rounding rnd g -> 0 <= rnd (s - IZR (floorZ s)) <= 1.
Proof.
  intros (M & R0 & R1 & _). pose proof (floorZ_spec s). split.
  - rewrite <- R0. apply M. lra.
  - rewrite <- R1. apply M. lra.
Qed.
Lemma lut_offset_range rnd g f : good_rounding rnd g -> 0 <= f <= 1 ->
  (0 <= floorZ (rnd (rnd (1 - f) * INR g))%R <= Z.of_nat g)%Z.
Proof.
  intros (M & R0 & R1 & Rg) Hf.
  assert (H1 : 0 <= rnd (1 - f) <= 1).
  { split; [rewrite <- R0|rewrite <- R1]; apply M; lra. }
  pose proof (pos_INR g).
  assert (H2 : 0 <= rnd (rnd (1 - f) * INR g) <= INR g).
  { split; [rewrite <- R0 at 1|rewrite <- Rg at 2]; apply M; nra. }
  split.
  - apply floorZ_ge. cbn. lra.
  - rewrite <- (floorZ_IZR (Z.of_nat g)). apply floorZ_mono. rewrite <- INR_IZR_INZ. lra.
Qed.
Lemma filter_tap_total rnd u L g f k : good_rounding rnd g -> (0 < g)%nat -> 0 <= f <= 1 ->
  (k < L)%nat -> exists v, filter_tap rnd u L g f k = Ok v.
Proof.
  intros Hr Hg Hf Hk. unfold filter_tap. destruct u; [|eauto].
  pose proof (lut_offset_range rnd g f Hr Hf) as B.
  set (o := floorZ (rnd (rnd (1 - f) * INR g))) in *.
  rewrite !take_ok; [cbn [bind]; eauto| |]; rewrite length_lut by auto; nia.
Qed.

(** ** Exact taps *)
Lemma tap_exact u L g f k : Nat.Odd L -> (0 < g)%nat -> 0 <= f <= 1 -> (k < L)%nat ->
  filter_tap (fun x => x) u L g f k =
  Ok (kernel (if u then Some g else None) (INR k - INR (half L) - f) * hann L k).
Proof.
  intros HL Hg Hf Hk. unfold filter_tap. rewrite window_hann by auto. destruct u.
  - pose proof (lut_offset_range (fun x => x) g f (good_id g) Hf) as B. cbv beta in B.
    assert (G : 0 < INR g) by (apply lt_0_INR; auto).
    assert (EF : floorZ ((INR k - INR (half L) - f) * INR g) =
                 (floorZ ((1 - f) * INR g)%R + (Z.of_nat k - Z.of_nat (half L) - 1) * Z.of_nat g)%Z).
    { rewrite <- floorZ_add. f_equal. rewrite mult_IZR, !minus_IZR, <- !INR_IZR_INZ. ring. }
    unfold kernel, grid_interp. rewrite EF.
    set (o := floorZ ((1 - f) * INR g)) in *.
    rewrite !take_ok; try (rewrite length_lut by auto; nia). cbn [bind].
    rewrite !nth_lut; auto; try nia.
    rewrite !INR_IZR_INZ, !Z2Nat.id by nia.
    rewrite !plus_IZR, !mult_IZR, !minus_IZR, <- !INR_IZR_INZ.
    f_equal. f_equal.
    replace ((IZR o + (INR k - INR (half L) - 1) * INR g) / INR g)
      with ((IZR o + INR k * INR g) / INR g - INR (half L) - 1) by (field; lra).
    replace ((IZR o + (INR k - INR (half L) - 1) * INR g + 1) / INR g)
      with ((IZR o + INR k * INR g + 1) / INR g - INR (half L) - 1) by (field; lra).
    f_equal. f_equal. ring.
  - unfold fdl_grid. rewrite nth_tabulate by auto. reflexivity.
Qed.

(** ** Updates of one image *)
Lemma in_combine_seq {A} (d : A) (f : nat -> Z) (l : list A) p :
  In p (combine (map f (seq 0 (length l))) l) -> exists k, (k < length l)%nat /\ p = (f k, nth k l d).
Proof.
  intros H. apply In_nth with (d := (f 0%nat, d)) in H. destruct H as (k & Hk & E).
  rewrite combine_length, map_length, seq_length, Nat.min_id in Hk.
  rewrite combine_nth in E by (rewrite map_length, seq_length; reflexivity).
  exists k. split; auto. rewrite <- E. f_equal.
  rewrite map_nth. rewrite seq_nth by auto. reflexivity.
Qed.
Lemma updates_ok rnd u L g nsample sm sample amp : good_rounding rnd g -> (0 < g)%nat ->
  exists us, image_updates rnd u L g nsample sm sample amp = Ok us /\
    Forall (fun p => (Z.of_nat (sm * nsample) <= fst p < Z.of_nat (sm * nsample + nsample))%Z) us.
Proof.
  intros Hr Hg. unfold image_updates.
  pose proof (frac_range rnd g sample Hr) as Hf. set (f := rnd (sample - IZR (floorZ sample))) in *.
  assert (exists filt, mapM (filter_tap rnd u L g f) (seq 0 L) = Ok filt) as (filt & E).
  { assert (G : forall l, (forall k, In k l -> (k < L)%nat) ->
        exists filt, mapM (filter_tap rnd u L g f) l = Ok filt).
    { induction l as [|k l IH]; intros H; cbn [mapM]; [eauto|].
      destruct (filter_tap_total rnd u L g f k Hr Hg Hf) as (v & Ev); [apply H; left; auto|].
      rewrite Ev. cbn [bind]. destruct IH as (vs & Evs); [intros; apply H; right; auto|].
      rewrite Evs. cbn [bind]. eauto. }
    apply G. intros k Hk. apply in_seq in Hk. lia. }
  rewrite E. cbn [bind]. eexists; split; [reflexivity|].
  apply Forall_map. apply Forall_forall. intros p Hp. apply filter_In in Hp. destruct Hp as [_ Hp].
  apply andb_prop in Hp as [H1 H2]. apply Z.leb_le in H1. apply Z.ltb_lt in H2. cbn [fst]. nia.
Qed.
(** Exact arithmetic: the updates of one image for sample [j] of its row. *)
Lemma filter_hits_shift (q off : Z) l :
  hits (q + off) (map (fun p : Z * xr => ((fst p + off)%Z, snd p)) l) = hits q l.
Proof.
  unfold hits. induction l as [|[z v] l IH]; cbn [map filter fst snd]; auto.
  destruct (Z.eqb_spec (z + off) (q + off)), (Z.eqb_spec z q); try lia; cbn [map snd]; congruence.
Qed.
Lemma hits_valid q n l : (0 <= q < n)%Z ->
  hits q (filter (fun p : Z * xr => (0 <=? fst p) && (fst p <? n))%Z l) = hits q l.
Proof.
  intros H. unfold hits. induction l as [|[z v] l IH]; cbn [filter fst]; auto.
  destruct ((0 <=? z) && (z <? n))%Z eqn:E; cbn [filter fst]; destruct (Z.eqb_spec z q); cbn [map]; try congruence.
  subst. apply andb_false_iff in E. rewrite Z.leb_gt, Z.ltb_ge in E. lia.
Qed.
Lemma hits_targets q base (vs : list xr) (start : nat) :
  hits q (combine (map (fun k => (base + Z.of_nat k)%Z) (seq start (length vs))) vs) =
  if ((0 <=? q - base - Z.of_nat start) && (q - base - Z.of_nat start <? Z.of_nat (length vs)))%Z
  then [nth (Z.to_nat (q - base - Z.of_nat start)) vs None] else [].
Proof.
  revert start. induction vs as [|v vs IH]; intros start.
  - cbn. destruct (0 <=? _)%Z eqn:E1; auto. cbn. destruct (Z.ltb_spec (q - base - Z.of_nat start) 0); auto. apply Z.leb_le in E1. lia.
  - cbn [length seq map combine]. unfold hits in *. cbn [filter fst].
    destruct (Z.eqb_spec (base + Z.of_nat start) q).
    + cbn [map snd]. rewrite IH.
      destruct (Z.leb_spec 0 (q - base - Z.of_nat start)); [|lia].
      destruct (Z.ltb_spec (q - base - Z.of_nat start) (Z.of_nat (S (length vs)))); [|lia].
      destruct (Z.leb_spec 0 (q - base - Z.of_nat (S start))); [lia|]. cbn [andb].
      replace (q - base - Z.of_nat start)%Z with 0%Z by lia. reflexivity.
    + rewrite IH.
      destruct (Z.leb_spec 0 (q - base - Z.of_nat (S start)));
      destruct (Z.leb_spec 0 (q - base - Z.of_nat start)); cbn [andb]; try lia; auto.
      destruct (Z.ltb_spec (q - base - Z.of_nat (S start)) (Z.of_nat (length vs)));
      destruct (Z.ltb_spec (q - base - Z.of_nat start) (Z.of_nat (S (length vs)))); try lia; auto.
      replace (Z.to_nat (q - base - Z.of_nat start)) with (S (Z.to_nat (q - base - Z.of_nat (S start)))) by lia.
      reflexivity.
Qed.
Lemma nth_map_xscale f amp k L : (k < L)%nat ->
  nth k (map (fun v => xscale v amp) (map f (seq 0 L))) None = xscale (f k) amp.
Proof.
  intros H. rewrite map_map, nth_indep with (d' := xscale (f 0%nat) amp)
    by (rewrite map_length, seq_length; auto).
  rewrite (map_nth (fun x => xscale (f x) amp)), seq_nth by auto. reflexivity.
Qed.
Lemma updates_exact u L g nsample sm sample amp j : Nat.Odd L -> (0 < g)%nat -> (j < nsample)%nat ->
  exists us, image_updates (fun x => x) u L g nsample sm sample amp = Ok us /\
    xsum (hits (Z.of_nat (sm * nsample + j)) us) =
    pulse L (kernel (if u then Some g else None)) (sample - INR (half L)) amp j.
Proof.
  intros HL Hg Hj. unfold image_updates. set (i := floorZ sample). set (f := sample - IZR i).
  assert (Hf : 0 <= f <= 1) by (pose proof (floorZ_spec sample); fold i in H; unfold f; lra).
  set (tp := fun k => kernel (if u then Some g else None) (INR k - INR (half L) - f) * hann L k).
  rewrite (mapM_Ok_map _ tp).
  2:{ intros k Hk. apply in_seq in Hk. apply tap_exact; auto. lia. }
  cbn [bind]. eexists; split; [reflexivity|].
  replace (Z.of_nat (sm * nsample + j)) with (Z.of_nat j + Z.of_nat sm * Z.of_nat nsample)%Z by lia.
  rewrite filter_hits_shift, hits_valid by lia.
  assert (ET : map (fun o => (i + o)%Z) (fdl_offsets L) =
     map (fun k => (i - Z.of_nat (half L) + Z.of_nat k)%Z)
       (seq 0 (length (map (fun v => xscale v amp) (map tp (seq 0 L)))))).
  { unfold fdl_offsets, tabulate. rewrite map_map, !map_length, seq_length. apply map_ext. intros; lia. }
  rewrite ET, hits_targets. rewrite !map_length, seq_length. rewrite Z.sub_0_r.
  unfold pulse.
  assert (EF : floorZ (sample - INR (half L)) = (i - Z.of_nat (half L))%Z).
  { unfold i. replace (sample - INR (half L)) with (sample + IZR (- Z.of_nat (half L))).
    - rewrite floorZ_add. lia.
    - rewrite opp_IZR, <- INR_IZR_INZ. ring. }
  rewrite EF.
  destruct ((0 <=? Z.of_nat j - (i - Z.of_nat (half L))) &&
     (Z.of_nat j - (i - Z.of_nat (half L)) <? Z.of_nat L))%Z eqn:E; [|reflexivity].
  apply andb_prop in E as [E1 E2]. apply Z.leb_le in E1. apply Z.ltb_lt in E2.
  rewrite nth_map_xscale by lia. unfold xsum. cbn [fold_right]. rewrite xadd_0_r. unfold tp.
  f_equal. f_equal. f_equal. rewrite <- half_odd by auto.
  rewrite (INR_IZR_INZ (Z.to_nat _)), Z2Nat.id by lia. unfold f.
  rewrite !minus_IZR, <- !INR_IZR_INZ. ring.
Qed.
Lemma hits_outside q lo hi us :
  Forall (fun p => (lo <= fst p < hi)%Z) us -> ~ (lo <= q < hi)%Z -> hits q us = [].
Proof.
  intros H Hq. unfold hits. induction H as [|[z v] us Hz _ IH]; auto. cbn [filter fst] in *.
  destruct (Z.eqb_spec z q); auto. lia.
Qed.

(** ** Chunked loops *)
Lemma chunk_seq n c : (0 < c)%nat ->
  flat_map (fun s => seq s (Nat.min (s + c) n - s)) (py_range_step n c) = seq 0 n.
Proof.
  intros Hc. unfold py_range_step.
  assert (G : forall k, flat_map (fun s => seq s (Nat.min (s + c) n - s)) (map (fun i => (i * c)%nat) (seq 0 k))
     = seq 0 (Nat.min (k * c) n)).
  { induction k; auto. rewrite seq_S, map_app, flat_map_app, IHk. cbn [map flat_map Nat.add].
    rewrite app_nil_r. destruct (Nat.le_gt_cases n (k * c)).
    - rewrite !(Nat.min_r _ n) by lia. replace (n - k * c)%nat with 0%nat by lia. apply app_nil_r.
    - rewrite (Nat.min_l (k * c)) by lia.
      replace (Nat.min (S k * c) n) with (k * c + (Nat.min (k * c + c) n - k * c))%nat by lia.
      rewrite seq_app. reflexivity. }
  rewrite G. f_equal. apply Nat.min_r.
  pose proof (Nat.div_mod (n + c - 1) c ltac:(lia)).
  pose proof (Nat.mod_upper_bound (n + c - 1) c ltac:(lia)). nia.
Qed.
Lemma foldM_accum {A} (f : list xr -> A -> result (list xr)) (g : A -> nat -> xr) N l b :
  length b = N ->
  (forall b x, In x l -> length b = N -> exists b', f b x = Ok b' /\ length b' = N /\
     forall q, (q < N)%nat -> nth q b' None = xadd (nth q b None) (g x q)) ->
  exists b', foldM f l b = Ok b' /\ length b' = N /\
     forall q, (q < N)%nat -> nth q b' None = xadd (nth q b None) (xsum (map (fun x => g x q) l)).
Proof.
  revert b. induction l as [|x l IH]; intros b Hb H; cbn [foldM map].
  - exists b. repeat split; auto. intros. symmetry. apply xadd_0_r.
  - destruct (H b x) as (b1 & E & L & N1); auto; [left; auto|]. rewrite E. cbn [bind].
    destruct (IH b1) as (b2 & E2 & L2 & N2); auto. { intros; apply H; auto; right; auto. }
    exists b2. repeat split; auto. intros q Hq. rewrite N2, N1 by auto. rewrite xsum_cons.
    symmetry. apply xadd_assoc.
Qed.
Lemma mapM_exists {A B} (f : A -> result B) (P : A -> B -> Prop) l :
  (forall x, In x l -> exists y, f x = Ok y /\ P x y) -> exists ys, mapM f l = Ok ys /\ Forall2 P l ys.
Proof.
  induction l as [|x l IH]; intros H; cbn [mapM]; [exists []; auto|].
  destruct (H x) as (y & E & Py); [left; auto|]. rewrite E. cbn [bind].
  destruct IH as (ys & E2 & P2); [intros; apply H; right; auto|]. rewrite E2. cbn [bind]. eauto.
Qed.
Lemma Forall2_concat_hits q (l : list nat) (yss : list (list (Z * xr))) (h : nat -> xr) :
  Forall2 (fun i us => xsum (hits q us) = h i) l yss ->
  xsum (hits q (concat yss)) = xsum (map h l).
Proof.
  induction 1; auto. cbn [concat map]. rewrite hits_app, xsum_app, IHForall2, H. reflexivity.
Qed.
Lemma xsum_select (n sm : nat) (h : xr) : (sm < n)%nat ->
  xsum (map (fun k => if Nat.eqb k sm then h else Some 0) (seq 0 n)) = h.
Proof.
  intros H. replace n with (sm + S (n - sm - 1))%nat by lia.
  rewrite seq_app, map_app, xsum_app. cbn [seq map]. rewrite xsum_cons, Nat.add_0_l, Nat.eqb_refl.
  rewrite xsum_zero, xsum_zero, xadd_0_l, xadd_0_r; auto.
  - intros x Hx. apply in_map_iff in Hx as (k & <- & Hk). apply in_seq in Hk.
    destruct (Nat.eqb_spec k sm); auto; lia.
  - intros x Hx. apply in_map_iff in Hx as (k & <- & Hk). apply in_seq in Hk.
    destruct (Nat.eqb_spec k sm); auto; lia.
Qed.

(** One (row, image) cell: the bundle of facts about the update list. *)
Lemma updates_cell u L g nsample sm sample amp : Nat.Odd L -> (0 < g)%nat ->
  exists us, image_updates (fun x => x) u L g nsample sm sample amp = Ok us /\
    Forall (fun p => (Z.of_nat (sm * nsample) <= fst p < Z.of_nat (sm * nsample + nsample))%Z) us /\
    forall sm' j, (j < nsample)%nat ->
     xsum (hits (Z.of_nat (sm' * nsample + j)) us) =
     if Nat.eqb sm sm' then pulse L (kernel (if u then Some g else None)) (sample - INR (half L)) amp j
     else Some 0.
Proof.
  intros HL Hg.
  destruct (updates_ok (fun x => x) u L g nsample sm sample amp (good_id g) Hg) as (us & E & F).
  exists us. repeat split; auto. intros sm' j Hj. destruct (Nat.eqb_spec sm sm') as [<-|Hne].
  - destruct (updates_exact u L g nsample sm sample amp j HL Hg Hj) as (us' & E' & H). congruence.
  - rewrite (hits_outside _ _ _ _ F); [reflexivity|].
    destruct (Nat.lt_gt_cases sm sm') as [H _]. destruct (H Hne); nia.
Qed.

Lemma accumulate_chunk u L g nsample n_sm (smp : nat -> nat -> R) (amp : nat -> nat -> xr) is buf :
  Nat.Odd L -> (0 < g)%nat -> length buf = (n_sm * nsample)%nat ->
  exists out,
    (do upds <- mapM (fun sm =>
       do us <- mapM (fun i => image_updates (fun x => x) u L g nsample sm (smp sm i) (amp sm i)) is;
       Ok (concat us)) (seq 0 n_sm); scatter_add buf (concat upds)) = Ok out /\
    length out = (n_sm * nsample)%nat /\
    forall q, (q < n_sm * nsample)%nat -> nth q out None = xadd (nth q buf None)
      (xsum (map (fun i => pulse L (kernel (if u then Some g else None))
         (smp (q / nsample)%nat i - INR (half L)) (amp (q / nsample)%nat i) (q mod nsample)%nat) is)).
Proof.
  intros HL Hg Hb.
  set (P := fun sm (us : list (Z * xr)) =>
    Forall (fun p => (Z.of_nat (sm * nsample) <= fst p < Z.of_nat (sm * nsample + nsample))%Z) us /\
    forall sm' j, (j < nsample)%nat -> xsum (hits (Z.of_nat (sm' * nsample + j)) us) =
     if Nat.eqb sm sm' then xsum (map (fun i => pulse L (kernel (if u then Some g else None))
        (smp sm i - INR (half L)) (amp sm i) j) is) else Some 0).
  destruct (mapM_exists (fun sm =>
       do us <- mapM (fun i => image_updates (fun x => x) u L g nsample sm (smp sm i) (amp sm i)) is;
       Ok (concat us)) P (seq 0 n_sm)) as (upds & E & F).
  { intros sm _.
    destruct (mapM_exists (fun i => image_updates (fun x => x) u L g nsample sm (smp sm i) (amp sm i))
      (fun i us => Forall (fun p => (Z.of_nat (sm * nsample) <= fst p < Z.of_nat (sm * nsample + nsample))%Z) us /\
        forall sm' j, (j < nsample)%nat -> xsum (hits (Z.of_nat (sm' * nsample + j)) us) =
        if Nat.eqb sm sm' then pulse L (kernel (if u then Some g else None)) (smp sm i - INR (half L)) (amp sm i) j
        else Some 0) is) as (us & E & F).
    { intros i _. apply updates_cell; auto. }
    rewrite E. cbn [bind]. eexists; split; [reflexivity|]. split.
    - clear E. induction F; cbn [concat]; [constructor|]. apply Forall_app. split; [apply H|auto].
    - intros sm' j Hj. rewrite (Forall2_concat_hits _ is us (fun i => if Nat.eqb sm sm' then
        pulse L (kernel (if u then Some g else None)) (smp sm i - INR (half L)) (amp sm i) j else Some 0)).
      + destruct (Nat.eqb sm sm'); auto. apply xsum_zero. intros x Hx.
        apply in_map_iff in Hx as (? & <- & _). reflexivity.
      + clear E. induction F; constructor; auto. apply H; auto. }
  rewrite E. cbn [bind].
  destruct (scatter_spec buf (concat upds)) as (out & Es & Ls & Ns).
  { assert (Fs : Forall2 P (seq 0 n_sm) upds) by auto. clear E F. rewrite Hb.
    assert (Hin : forall sm, In sm (seq 0 n_sm) -> (sm < n_sm)%nat) by (intros ? H; apply in_seq in H; lia).
    induction Fs as [|sm us l upds [Hr _] _ IH]; cbn [concat]; [constructor|].
    apply Forall_app. split; [|apply IH; intros; apply Hin; right; auto].
    eapply Forall_impl; [|exact Hr]. cbn beta. intros p Hp.
    pose proof (Hin sm (or_introl eq_refl)). nia. }
  exists out. rewrite Hb in *. repeat split; auto. intros q Hq. rewrite Ns by auto. f_equal.
  assert (Hn : (0 < nsample)%nat) by (destruct nsample; lia).
  pose proof (Nat.div_mod q nsample ltac:(lia)) as Eq.
  pose proof (Nat.mod_upper_bound q nsample ltac:(lia)) as Bq.
  set (sm := (q / nsample)%nat) in *. set (j := (q mod nsample)%nat) in *.
  assert (Hsm : (sm < n_sm)%nat) by (unfold sm; apply Nat.div_lt_upper_bound; lia).
  replace q with (sm * nsample + j)%nat by lia.
  rewrite (Forall2_concat_hits _ (seq 0 n_sm) upds (fun k => if Nat.eqb k sm then
     xsum (map (fun i => pulse L (kernel (if u then Some g else None)) (smp sm i - INR (half L)) (amp sm i) j) is) else Some 0)).
  - apply xsum_select; auto.
  - clear - F Bq. induction F as [|k us l upds [_ H] _ IH]; constructor; auto. rewrite H by auto.
    destruct (Nat.eqb_spec k sm); subst; auto.
Qed.
Lemma accumulate_exact u L g nsample n_sm n_img chunk sample amp buf :
  Nat.Odd L -> (0 < g)%nat -> (0 < chunk)%nat -> (0 < n_sm)%nat ->
  length buf = (n_sm * nsample)%nat -> length sample = (n_sm * n_img)%nat ->
  length amp = (n_sm * n_img)%nat ->
  exists out, accumulate_impl (fun x => x) n_sm nsample buf sample amp L g u chunk = Ok out /\
    length out = (n_sm * nsample)%nat /\
    forall q, (q < n_sm * nsample)%nat -> nth q out None = xadd (nth q buf None)
      (xsum (map (fun i => pulse L (kernel (if u then Some g else None))
         (nth ((q / nsample) * n_img + i) sample 0 - INR (half L))
         (nth ((q / nsample) * n_img + i) amp None) (q mod nsample)%nat) (seq 0 n_img))).
Proof.
  intros HL Hg Hc Hsm Hb Hs Ha. unfold accumulate_impl.
  destruct (Nat.eqb_spec n_sm 0); [lia|]. rewrite Hs, Ha.
  replace (n_sm * n_img / n_sm)%nat with n_img by (rewrite Nat.mul_comm, Nat.div_mul; lia).
  destruct (foldM_accum (fun buf start => 
      let stop := Nat.min (start + chunk) n_img in
      do upds <- mapM (fun sm =>
        do us <- mapM (fun i =>
            image_updates (fun x => x) u L g nsample sm
              (nth (sm * n_img + i) sample 0) (nth (sm * n_img + i) amp None))
          (seq start (stop - start));
        Ok (concat us)) (seq 0 n_sm);
      scatter_add buf (concat upds))
    (fun start q => xsum (map (fun i => pulse L (kernel (if u then Some g else None))
         (nth ((q / nsample) * n_img + i) sample 0 - INR (half L))
         (nth ((q / nsample) * n_img + i) amp None) (q mod nsample)%nat)
         (seq start (Nat.min (start + chunk) n_img - start))))
    (n_sm * nsample)%nat (py_range_step n_img chunk) buf Hb) as (out & E & L1 & N1).
  { intros b start _ Hb'. cbv zeta.
    apply (accumulate_chunk u L g nsample n_sm (fun sm i => nth (sm * n_img + i) sample 0)
      (fun sm i => nth (sm * n_img + i) amp None)); auto. }
  exists out. repeat split; auto. intros q Hq. rewrite N1 by auto. f_equal.
  rewrite <- (chunk_seq n_img chunk Hc).
  rewrite !flat_map_concat_map, concat_map, map_map, xsum_concat, map_map. reflexivity.
Qed.

(** ** Never out of range, for every admissible rounding *)
Lemma scatter_total buf upd :
  Forall (fun p => (0 <= fst p < Z.of_nat (length buf))%Z) upd ->
  exists out, scatter_add buf upd = Ok out /\ length out = length buf.
Proof. intros H. destruct (scatter_spec buf upd H) as (out & E & L & _). eauto. Qed.
Lemma accumulate_total rnd u L g nsample n_sm chunk sample amp buf :
  good_rounding rnd g -> (0 < g)%nat -> (0 < n_sm)%nat ->
  length buf = (n_sm * nsample)%nat ->
  exists out, accumulate_impl rnd n_sm nsample buf sample amp L g u chunk = Ok out /\
    length out = (n_sm * nsample)%nat.
Proof.
  intros Hr Hg Hsm Hb. unfold accumulate_impl. destruct (Nat.eqb_spec n_sm 0); [lia|].
  set (n_img := (length sample / n_sm)%nat). set (cols := (length amp / n_sm)%nat).
  generalize (py_range_step n_img chunk). intros l. revert buf Hb.
  induction l as [|start l IH]; intros buf Hb; cbn [foldM]; [eauto|].
  set (is := seq start (Nat.min (start + chunk) n_img - start)).
  set (P := fun sm (us : list (Z * xr)) =>
    Forall (fun p => (Z.of_nat (sm * nsample) <= fst p < Z.of_nat (sm * nsample + nsample))%Z) us).
  destruct (mapM_exists (fun sm =>
       do us <- mapM (fun i => image_updates rnd u L g nsample sm
          (nth (sm * n_img + i) sample 0) (nth (sm * cols + i) amp None)) is;
       Ok (concat us)) P (seq 0 n_sm)) as (upds & E & F).
  { intros sm _.
    destruct (mapM_exists (fun i => image_updates rnd u L g nsample sm
          (nth (sm * n_img + i) sample 0) (nth (sm * cols + i) amp None))
        (fun _ us => P sm us) is) as (us & E & F).
    { intros i _. apply updates_ok; auto. }
    rewrite E. cbn [bind]. eexists; split; [reflexivity|]. unfold P in *.
    clear E. induction F; cbn [concat]; [constructor|]. apply Forall_app; auto. }
  rewrite E. cbn [bind].
  destruct (scatter_total buf (concat upds)) as (out & Es & Ls).
  { clear E IH. rewrite Hb.
    assert (Hin : forall sm, In sm (seq 0 n_sm) -> (sm < n_sm)%nat) by (intros ? H; apply in_seq in H; lia).
    induction F as [|sm us l' upds Hp _ IHF]; cbn [concat]; [constructor|].
    apply Forall_app. split; [|apply IHF; intros; apply Hin; right; auto].
    eapply Forall_impl; [|exact Hp]. cbn beta. intros p Hp'.
    pose proof (Hin sm (or_introl eq_refl)). nia. }
  rewrite Es. cbn [bind]. apply IH. lia.
Qed.
