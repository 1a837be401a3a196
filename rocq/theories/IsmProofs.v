(** Lemmas about the image source simulation. *)
From Coq Require Import String List ZArith Reals Lia Lra Bool Permutation.
From Verif Require Import Prelude PreludeFacts SignalModel DirModel ImageModel ImageSpec AcousticModel
  AccumModel IsmModel IsmSpec ImageProofs AccumProofs.
Import ListNotations.
Local Open Scope R_scope.
Local Notation length := List.length.

(** ** Rows *)
Lemma length_flat_rows {A} (f : nat -> list A) K n a :
  (forall k, (a <= k < a + K)%nat -> length (f k) = n) -> length (flat_map f (seq a K)) = (K * n)%nat.
Proof.
  revert a. induction K; intros a H; cbn [seq flat_map]; auto.
  rewrite app_length, H, IHK; [lia| |lia]. intros; apply H; lia.
Qed.
Lemma nth_flat_rows {A} (f : nat -> list A) K n k i d : (forall k, (k < K)%nat -> length (f k) = n) ->
  (k < K)%nat -> (i < n)%nat -> nth (k * n + i) (flat_map f (seq 0 K)) d = nth i (f k) d.
Proof.
  intros H Hk Hi.
  assert (G : forall K a k, (forall k, (a <= k < a + K)%nat -> length (f k) = n) -> (k < K)%nat ->
     nth (k * n + i) (flat_map f (seq a K)) d = nth i (f (a + k)%nat) d).
  { clear K k H Hk. induction K; intros a k H Hk; [lia|]. cbn [seq flat_map]. destruct k.
    - cbn [Nat.mul Nat.add]. rewrite app_nth1 by (rewrite H by lia; auto). rewrite Nat.add_0_r. auto.
    - rewrite app_nth2 by (rewrite H by lia; nia). rewrite H by lia.
      replace (S k * n + i - n)%nat with (k * n + i)%nat by lia.
      rewrite IHK; [f_equal; f_equal; lia| |lia]. intros; apply H; lia. }
  rewrite G; auto. intros; apply H; lia.
Qed.
Lemma flat_map_pairs {A} (F : nat -> nat -> list A) S M :
  flat_map (fun s => flat_map (F s) (seq 0 M)) (seq 0 S) =
  flat_map (fun q => F (q / M)%nat (q mod M)%nat) (seq 0 (S * M)).
Proof.
  destruct (Nat.eq_dec M 0) as [->|HM].
  { rewrite Nat.mul_0_r. cbn [seq flat_map]. induction (seq 0 S); cbn [flat_map]; auto. }
  induction S; auto. rewrite seq_S, flat_map_app, IHS. cbn [flat_map Nat.add]. rewrite app_nil_r.
  replace (S * M + M)%nat with (S * M + M)%nat by lia. replace ((Datatypes.S S) * M)%nat with (S * M + M)%nat by lia.
  rewrite seq_app, flat_map_app. f_equal. cbn [Nat.add].
  rewrite !flat_map_concat_map. f_equal.
  replace (seq (S * M) M) with (map (fun m => (S * M + m)%nat) (seq 0 M)).
  - rewrite map_map. apply map_ext_in. intros m Hm. apply in_seq in Hm.
    rewrite (Nat.add_comm (S * M)), Nat.div_add, Nat.mod_add by auto.
    rewrite Nat.div_small, Nat.mod_small by lia. reflexivity.
  - clear. generalize (S * M)%nat as a. intros a. revert a. induction M; intros a; auto.
    rewrite seq_S, map_app, IHM. rewrite (seq_S M a). reflexivity.
Qed.
Lemma flat_map_ext_in {A B} (f g : A -> list B) l : (forall x, In x l -> f x = g x) -> flat_map f l = flat_map g l.
Proof. induction l; cbn; intros H; auto. rewrite H, IHl; auto. Qed.
Lemma block_map {A B} (f : A -> B) a n l : block a n (map f l) = map f (block a n l).
Proof. unfold block. rewrite skipn_map, firstn_map. reflexivity. Qed.
Lemma map2_map_r {A B C} (f : A -> B -> C) g l : map2 f l (map g l) = map (fun x => f x (g x)) l.
Proof. unfold map2. induction l; cbn; auto. f_equal; auto. Qed.
Lemma map2_map_l {A B C D} (f : B -> C -> D) (g : A -> B) l1 l2 : map2 f (map g l1) l2 = map2 (fun x => f (g x)) l1 l2.
Proof. unfold map2. revert l2. induction l1; intros [|b l2]; cbn; auto. f_equal; auto. Qed.
Lemma map_nth_seq {A B} (f : A -> B) l d : map (fun i => f (nth i l d)) (seq 0 (length l)) = map f l.
Proof.
  induction l; cbn [length seq map nth]; auto. f_equal. rewrite <- seq_shift, map_map. auto.
Qed.
Lemma nth_map_seq {A} (f : nat -> A) a n i d : (i < n)%nat -> nth i (map f (seq a n)) d = f (a + i)%nat.
Proof.
  intros H. rewrite (nth_indep _ d (f 0%nat)) by (rewrite map_length, seq_length; auto).
  rewrite map_nth, seq_nth by auto. reflexivity.
Qed.
Lemma blocks_all {A} (l : list A) c : (0 < c)%nat ->
  flat_map (fun s => block s (Nat.min (s + c) (length l) - s) l) (py_range_step (length l) c) = l.
Proof.
  intros Hc. transitivity (map (fun x => x) l); [|apply map_id].
  destruct l as [|d l']; [cbn; unfold py_range_step; rewrite Nat.div_small by lia; reflexivity|].
  set (l := d :: l') in *.
  rewrite <- (map_nth_seq (fun x => x) l d), <- (chunk_seq (length l) c Hc).
  rewrite !flat_map_concat_map, concat_map, map_map. f_equal. apply map_ext_in. intros s Hs.
  assert (Hlt : (s < length l)%nat).
  { unfold py_range_step in Hs. apply in_map_iff in Hs as (i & <- & Hi). apply in_seq in Hi.
    pose proof (Nat.div_mod (length l + c - 1) c ltac:(lia)).
    pose proof (Nat.mod_upper_bound (length l + c - 1) c ltac:(lia)). nia. }
  set (n := (Nat.min (s + c) (length l) - s)%nat).
  apply nth_ext with (d := d) (d' := d).
  - rewrite length_block by lia. rewrite map_length, seq_length. reflexivity.
  - intros i Hi. rewrite length_block in Hi by lia. rewrite nth_block by auto.
    rewrite nth_map_seq by auto. reflexivity.
Qed.
Lemma list_rows_ext N n (f : nat -> nat -> xr) out : length out = (N * n)%nat ->
  (forall q, (q < N * n)%nat -> nth q out None = f (q / n)%nat (q mod n)%nat) ->
  out = flat_map (fun r => map (f r) (seq 0 n)) (seq 0 N).
Proof.
  intros L H. apply nth_ext with (d := None) (d' := None).
  - rewrite (length_flat_rows _ _ n); auto. intros. rewrite map_length, seq_length. auto.
  - intros q Hq. rewrite L in Hq. rewrite H by auto.
    assert (Hn : (n <> 0)%nat) by nia.
    pose proof (Nat.div_mod q n Hn) as E. pose proof (Nat.mod_upper_bound q n Hn).
    rewrite E at 3. rewrite (Nat.mul_comm n).
    rewrite nth_flat_rows with (n := n).
    + rewrite (nth_indep _ None (f (q / n)%nat 0%nat)) by (rewrite map_length, seq_length; auto).
      rewrite (map_nth (f (q / n)%nat)), seq_nth by auto. reflexivity.
    + intros; rewrite map_length, seq_length; auto.
    + apply Nat.div_lt_upper_bound; auto. lia.
    + auto.
Qed.

(** ** Image loop *)
Section image_loop.
  Variables (L g chunk achunk nsample n_sm : nat) (u : bool).
  Variables (smp : nat -> list Z -> R) (amp : nat -> list Z -> xr).
  Hypotheses (HL : Nat.Odd L) (Hg : (0 < g)%nat) (Hc : (0 < chunk)%nat) (Ha : (0 < achunk)%nat)
    (Hsm : (0 < n_sm)%nat).
  Definition row_value (sm : nat) (images : list (list Z)) (j : nat) : xr :=
    xsum (map (fun n => pulse L (kernel (if u then Some g else None))
                          (smp sm n - INR (half L)) (amp sm n) j) images).
  Lemma image_loop n_vec (contrib : list (list Z) -> list R -> result (list R * list xr)) rc :
    (forall nv, contrib nv (map rc nv) = Ok (flat_map (fun sm => map (smp sm) nv) (seq 0 n_sm),
        flat_map (fun sm => map (amp sm) nv) (seq 0 n_sm))) ->
    foldM (fun rir start =>
      let stop := Nat.min (start + chunk) (length n_vec) in
      do (sample, att) <- contrib (block start (stop - start) n_vec) (block start (stop - start) (map rc n_vec));
      accumulate_impl (fun x => x) n_sm nsample rir sample att L g u achunk)
      (py_range_step (length n_vec) chunk) (repeat (Some 0) (n_sm * nsample)) =
    Ok (flat_map (fun sm => map (row_value sm n_vec) (seq 0 nsample)) (seq 0 n_sm)).
  Proof.
    intros Hct.
    destruct (foldM_accum (fun rir start =>
      let stop := Nat.min (start + chunk) (length n_vec) in
      do (sample, att) <- contrib (block start (stop - start) n_vec) (block start (stop - start) (map rc n_vec));
      accumulate_impl (fun x => x) n_sm nsample rir sample att L g u achunk)
      (fun start q => row_value (q / nsample)%nat
         (block start (Nat.min (start + chunk) (length n_vec) - start) n_vec) (q mod nsample)%nat)
      (n_sm * nsample)%nat (py_range_step (length n_vec) chunk)
      (repeat (Some 0) (n_sm * nsample))) as (out & E & L1 & N1).
    - apply repeat_length.
    - intros b start _ Hb. cbv zeta. rewrite block_map.
      set (nv := block start (Nat.min (start + chunk) (length n_vec) - start) n_vec).
      rewrite Hct. cbn [bind].
      destruct (accumulate_exact u L g nsample n_sm (length nv) achunk
        (flat_map (fun sm => map (smp sm) nv) (seq 0 n_sm))
        (flat_map (fun sm => map (amp sm) nv) (seq 0 n_sm)) b) as (out & E & L1 & N1); auto;
        try (apply length_flat_rows; intros; apply map_length).
      exists out. repeat split; auto. intros q Hq. rewrite N1 by auto. f_equal. unfold row_value.
      f_equal. rewrite <- (map_nth_seq (fun n => pulse L _ (smp _ n - _) (amp _ n) _) nv []).
      apply map_ext_in. intros i Hi. apply in_seq in Hi.
      assert (Hr : (q / nsample < n_sm)%nat) by (apply Nat.div_lt_upper_bound; nia).
      rewrite !nth_flat_rows with (n := length nv); auto; try (intros; apply map_length); try lia.
      rewrite (nth_indep _ 0 (smp (q / nsample)%nat [])) by (rewrite map_length; lia).
      rewrite (nth_indep _ None (amp (q / nsample)%nat [])) by (rewrite map_length; lia).
      rewrite (map_nth (smp _)), (map_nth (amp _)). reflexivity.
    - rewrite E. f_equal. apply list_rows_ext; auto. intros q Hq. rewrite N1 by auto.
      rewrite nth_repeat_lt by auto. rewrite xadd_0_l.
      pose proof (f_equal (fun l => row_value (q / nsample)%nat l (q mod nsample)%nat)
        (blocks_all n_vec chunk Hc)) as B. cbv beta in B. rewrite <- B. unfold row_value.
      rewrite !flat_map_concat_map, concat_map, xsum_concat, !map_map. reflexivity.
  Qed.
End image_loop.

(** ** Rays and amplitudes *)
Lemma image_position_of src size n : image_position src size n = image_of src size n.
Proof.
  unfold image_position, map2. revert size n.
  induction src as [|x src IH]; intros [|l size] [|k n]; cbn; auto.
  rewrite image_coord_reflected. f_equal. apply IH.
Qed.
Lemma vsub_diff a b : vsub a b = diff a b.
Proof. unfold vsub, map2. revert b. induction a; intros [|y b]; cbn; auto. f_equal. apply IHa. Qed.
Lemma image_vec_ray src mic size n : image_vec src mic size n = ray src mic size n.
Proof. unfold image_vec, ray. rewrite image_position_of, vsub_diff. reflexivity. Qed.
Lemma vnorm_diff a b : vnorm (diff a b) = euclid a b.
Proof.
  unfold vnorm, euclid. f_equal. unfold vdot, map2, sqdist. revert b.
  induction a as [|x a IH]; intros [|y b]; cbn; auto. rewrite IH. reflexivity.
Qed.
Lemma clamped_ray src mic size n : clamped_dist (ray src mic size n) = ray_length src mic size n.
Proof. unfold clamped_dist, ray_length, ray. rewrite vnorm_diff. reflexivity. Qed.
Lemma ray_length_pos src mic size n : 0 < ray_length src mic size n.
Proof.
  unfold ray_length. eapply Rlt_le_trans; [|apply Rmax_r]. apply Rinv_0_lt_compat. lra.
Qed.
Lemma sample_ray fs c h src mic size n : fs <> 0 ->
  image_sample fs c h (ray src mic size n) - INR h = ray_length src mic size n * fs / c.
Proof. intros H. unfold image_sample. rewrite clamped_ray. unfold Rdiv.
  rewrite Rmult_plus_distr_r, (Rmult_assoc (INR h)), Rinv_l by auto. ring. Qed.

(** Gains of one side as functions of the ray. *)
Definition src_gain (gs : side) (i : nat) : gains :=
  match gs with None => unity | Some (g, ds) => fun v => g (cos_between v (dir_at ds i)) end.
Definition mic_gain (gm : side) (i : nat) : gains :=
  match gm with None => unity | Some (g, ds) => fun v => g (cos_between (vopp v) (dir_at ds i)) end.
Lemma attenuation_amplitude gs gm s m src mic size n beta :
  image_attenuation gs gm s m (ray src mic size n) (reflection_coefficient n beta) =
  amplitude (beta_pairs beta) (src_gain gs s) (mic_gain gm m) src mic size n.
Proof.
  unfold image_attenuation, amplitude. rewrite clamped_ray, reflection_path.
  generalize (path_gain (beta_pairs beta) n) as p. intros p. generalize (ray_length src mic size n) as d. intros d.
  unfold src_gain, mic_gain, unity.
  destruct gs as [[g ds]|], gm as [[g' ds']|]; cbn [xmul].
  - destruct (g _), (g' _); cbn; auto. f_equal. unfold Rdiv. ring.
  - destruct (g _); cbn; auto. f_equal. unfold Rdiv. ring.
  - destruct (g' _); cbn; auto. f_equal. unfold Rdiv. ring.
  - cbn. f_equal. unfold Rdiv. ring.
Qed.

(** ** The static loop in closed form *)
Record cfg_ok (c : config) : Prop := {
  ok_fdl : Nat.Odd (Z.to_nat (cfg_fdl c)); ok_fdl0 : (0 < cfg_fdl c)%Z;
  ok_gran : (0 < cfg_gran c)%Z; ok_img : (0 < cfg_img_chunk c)%Z; ok_acc : (0 < cfg_acc_chunk c)%Z }.
Lemma cfg_validate_ok c : cfg_validate c = Ok tt -> cfg_ok c.
Proof.
  unfold cfg_validate. intros H.
  repeat match type of H with (if ?b then _ else _) = _ => destruct b eqn:?; [discriminate|] end.
  apply orb_false_iff in Heqb3 as [E1 E2].
  apply Z.leb_gt in E1. apply Z.eqb_neq in E2. apply Z.leb_gt in Heqb4, Heqb5, Heqb6.
  constructor; auto. exists (Z.to_nat (cfg_fdl c / 2)).
  pose proof (Z_div_mod_eq_full (cfg_fdl c) 2). pose proof (Z.mod_pos_bound (cfg_fdl c) 2). lia.
Qed.
Definition the_kernel (dev : device_type) (c : config) : R -> R :=
  kernel (if lut_enabled (cfg_use_lut c) dev then Some (Z.to_nat (cfg_gran c)) else None).
Definition pair_response (dev : device_type) (c : config) (fs cc : R) (beta size : list R)
    (images : list (list Z)) (gs gm : gains) (src mic : list R) (j : nat) : xr :=
  response (Z.to_nat (cfg_fdl c)) (the_kernel dev c) fs cc (beta_pairs beta) size images gs gm src mic j.
Lemma row_value_response L g u fs c beta size images gs gm src mic (smp : nat -> list Z -> R)
    (amp : nat -> list Z -> xr) q j : fs <> 0 ->
  (forall n, smp q n = image_sample fs c (half L) (ray src mic size n)) ->
  (forall n, amp q n = amplitude (beta_pairs beta) gs gm src mic size n) ->
  row_value L g u smp amp q images j =
  response L (kernel (if u then Some g else None)) fs c (beta_pairs beta) size images gs gm src mic j.
Proof.
  intros Hfs Hs Ha. unfold row_value, response. f_equal. apply map_ext. intros n.
  rewrite Hs, Ha, sample_ray by auto. reflexivity.
Qed.
Lemma flat_map_const_nil {A B} (l : list A) : flat_map (fun _ => @nil B) l = [].
Proof. induction l; auto. Qed.
Lemma foldM_err {A B} (f : B -> A -> result B) l b e : l <> [] -> (forall b x, f b x = Err e) ->
  foldM f l b = Err e.
Proof. destruct l; [congruence|]. intros _ H. cbn. rewrite H. reflexivity. Qed.
Lemma range_nonempty n c : (0 < n)%nat -> (0 < c)%nat -> py_range_step n c <> [].
Proof.
  intros Hn Hc H. unfold py_range_step in H. apply map_eq_nil in H.
  assert (L : length (seq 0 ((n + c - 1) / c)) = 0%nat) by (rewrite H; auto).
  rewrite seq_length in L. apply Nat.div_small_iff in L; lia.
Qed.
Lemma static_loop_eq dev c nsample src mic size fs cc n_vec beta sp mp sd md :
  cfg_ok c -> fs <> 0 -> n_vec <> [] ->
  static_loop dev c nsample src mic size fs cc n_vec
    (map (fun n => reflection_coefficient n beta) n_vec) sp mp sd md =
  do gs <- side_of sp sd;
  do gm <- side_of mp md;
  if negb (dirs_fit gs (length src) && dirs_fit gm (length mic)) then Err RuntimeError
  else if (length src * length mic =? 0)%nat then Err RuntimeError
  else Ok (flat_map (fun s => flat_map (fun m =>
        map (pair_response dev c fs cc beta size n_vec (src_gain gs s) (mic_gain gm m)
              (nth s src []) (nth m mic [])) (seq 0 nsample))
        (seq 0 (length mic))) (seq 0 (length src))).
Proof.
  intros [H1 H0 H2 H3 H4] Hfs Hne. unfold static_loop, image_chunk.
  destruct (Z.leb_spec (cfg_img_chunk c) 0); [lia|].
  assert (Hn : (0 < length n_vec)%nat) by (destruct n_vec; [congruence|cbn; lia]).
  assert (Hr : py_range_step (length n_vec) (Z.to_nat (cfg_img_chunk c)) <> [])
    by (apply range_nonempty; lia).
  destruct (side_of sp sd) as [gs|e] eqn:Es.
  2:{ cbn [bind]. apply foldM_err; auto. intros. cbv zeta. unfold contributions_batch. rewrite Es. reflexivity. }
  cbn [bind]. destruct (side_of mp md) as [gm|e] eqn:Em.
  2:{ cbn [bind]. apply foldM_err; auto. intros. cbv zeta. unfold contributions_batch. rewrite Es, Em. reflexivity. }
  cbn [bind]. destruct (negb (dirs_fit gs (length src) && dirs_fit gm (length mic))) eqn:Ed.
  { apply foldM_err; auto. intros. cbv zeta. unfold contributions_batch. rewrite Es, Em. cbn [bind]. rewrite Ed. reflexivity. }
  destruct (Nat.eqb_spec (length src * length mic) 0).
  { apply foldM_err; auto. intros. cbv zeta. unfold contributions_batch. rewrite Es, Em. cbn [bind]. rewrite Ed. cbn [bind].
    unfold accumulate_impl. rewrite e. reflexivity. }
  set (M := length mic) in *. set (S := length src) in *.
  set (smp := fun q n => image_sample fs cc (half (Z.to_nat (cfg_fdl c)))
     (ray (nth (q / M)%nat src []) (nth (q mod M)%nat mic []) size n)).
  set (amp := fun q n => amplitude (beta_pairs beta) (src_gain gs (q / M)%nat) (mic_gain gm (q mod M)%nat)
     (nth (q / M)%nat src []) (nth (q mod M)%nat mic []) size n).
  rewrite (image_loop (Z.to_nat (cfg_fdl c)) (Z.to_nat (cfg_gran c)) (Z.to_nat (cfg_img_chunk c))
    (Z.to_nat (cfg_acc_chunk c)) nsample (S * M)%nat (lut_enabled (cfg_use_lut c) dev) smp amp)
    with (contrib := fun nv rf => contributions_batch src mic size fs cc (half (Z.to_nat (cfg_fdl c))) nv rf sp mp sd md);
    auto; try lia.
  - f_equal. rewrite flat_map_pairs. apply flat_map_ext_in. intros q _. apply map_ext. intros j.
    unfold pair_response, the_kernel. apply row_value_response; auto.
  - intros nv. unfold contributions_batch. rewrite Es, Em. cbn [bind].
    fold S M. rewrite Ed. f_equal. f_equal.
    + rewrite flat_map_pairs. apply flat_map_ext_in. intros q _. unfold smp. rewrite map_map.
      apply map_ext. intros n1. rewrite image_vec_ray. reflexivity.
    + rewrite flat_map_pairs. apply flat_map_ext_in. intros q _. unfold amp.
      rewrite map2_map_l, map2_map_r. apply map_ext. intros n1.
      rewrite image_vec_ray. apply attenuation_amplitude.
Qed.
Lemma dynamic_loop_eq dev c nsample steps src mic n_src n_mic size fs cc n_vec beta sp mp sd md :
  cfg_ok c -> fs <> 0 -> n_vec <> [] ->
  dynamic_loop dev c nsample steps src mic n_src n_mic size fs cc n_vec
    (map (fun n => reflection_coefficient n beta) n_vec) sp mp sd md =
  do gs <- side_of sp sd;
  do gm <- side_of mp md;
  if negb (dirs_fit gs n_src && dirs_fit gm n_mic) then Err RuntimeError
  else if (steps * n_src * n_mic =? 0)%nat then Err RuntimeError
  else Ok (flat_map (fun t => flat_map (fun s => flat_map (fun m =>
        map (pair_response dev c fs cc beta size n_vec (src_gain gs s) (mic_gain gm m)
              (nth s (src t) []) (nth m (mic t) [])) (seq 0 nsample))
        (seq 0 n_mic)) (seq 0 n_src)) (seq 0 steps)).
Proof.
  intros [H1 H0 H2 H3 H4] Hfs Hne. unfold dynamic_loop, image_chunk.
  destruct (Z.leb_spec (cfg_img_chunk c) 0); [lia|].
  assert (Hn : (0 < length n_vec)%nat) by (destruct n_vec; [congruence|cbn; lia]).
  assert (Hr : py_range_step (length n_vec) (Z.to_nat (cfg_img_chunk c)) <> [])
    by (apply range_nonempty; lia).
  destruct (side_of sp sd) as [gs|e] eqn:Es.
  2:{ cbn [bind]. apply foldM_err; auto. intros. cbv zeta. unfold contributions_time_batch. rewrite Es. reflexivity. }
  cbn [bind]. destruct (side_of mp md) as [gm|e] eqn:Em.
  2:{ cbn [bind]. apply foldM_err; auto. intros. cbv zeta. unfold contributions_time_batch. rewrite Es, Em. reflexivity. }
  cbn [bind]. destruct (negb (dirs_fit gs n_src && dirs_fit gm n_mic)) eqn:Ed.
  { apply foldM_err; auto. intros. cbv zeta. unfold contributions_time_batch. rewrite Es, Em. cbn [bind]. rewrite Ed. reflexivity. }
  destruct (Nat.eqb_spec (steps * n_src * n_mic) 0).
  { apply foldM_err; auto. intros. cbv zeta. unfold contributions_time_batch. rewrite Es, Em. cbn [bind]. rewrite Ed. cbn [bind].
    unfold accumulate_impl. rewrite e. reflexivity. }
  set (tt := fun q => (q / (n_src * n_mic))%nat).
  set (ss := fun q => (q mod (n_src * n_mic) / n_mic)%nat).
  set (mm := fun q => (q mod (n_src * n_mic) mod n_mic)%nat).
  set (smp := fun q n => image_sample fs cc (half (Z.to_nat (cfg_fdl c)))
     (ray (nth (ss q) (src (tt q)) []) (nth (mm q) (mic (tt q)) []) size n)).
  set (amp := fun q n => amplitude (beta_pairs beta) (src_gain gs (ss q)) (mic_gain gm (mm q))
     (nth (ss q) (src (tt q)) []) (nth (mm q) (mic (tt q)) []) size n).
  assert (FL : forall A (F : nat -> nat -> nat -> list A),
    flat_map (fun t => flat_map (fun s => flat_map (F t s) (seq 0 n_mic)) (seq 0 n_src)) (seq 0 steps) =
    flat_map (fun q => F (tt q) (ss q) (mm q)) (seq 0 (steps * n_src * n_mic))).
  { intros A F. rewrite <- Nat.mul_assoc.
    transitivity (flat_map (fun t => flat_map (fun r => F t (r / n_mic)%nat (r mod n_mic)%nat)
      (seq 0 (n_src * n_mic))) (seq 0 steps)).
    - apply flat_map_ext_in. intros t _. apply flat_map_pairs.
    - apply (flat_map_pairs (fun t r => F t (r / n_mic)%nat (r mod n_mic)%nat)). }
  rewrite (image_loop (Z.to_nat (cfg_fdl c)) (Z.to_nat (cfg_gran c)) (Z.to_nat (cfg_img_chunk c))
    (Z.to_nat (cfg_acc_chunk c)) nsample (steps * n_src * n_mic)%nat (lut_enabled (cfg_use_lut c) dev) smp amp)
    with (contrib := fun nv rf => contributions_time_batch steps src mic n_src n_mic size fs cc
       (half (Z.to_nat (cfg_fdl c))) nv rf sp mp sd md);
    auto; try lia.
  - f_equal. rewrite FL. apply flat_map_ext_in. intros q _. apply map_ext. intros j.
    unfold pair_response, the_kernel. apply row_value_response; auto.
  - intros nv. unfold contributions_time_batch. rewrite Es, Em. cbn [bind].
    rewrite Ed. f_equal. f_equal.
    + rewrite FL. apply flat_map_ext_in. intros q _. unfold smp. rewrite map_map.
      apply map_ext. intros n1. rewrite image_vec_ray. reflexivity.
    + rewrite FL. apply flat_map_ext_in. intros q _. unfold amp.
      rewrite map2_map_l, map2_map_r. apply map_ext. intros n1.
      rewrite image_vec_ray. apply attenuation_amplitude.
Qed.
