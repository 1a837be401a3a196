(** Lemmas about the metadata model. *)
From Coq Require Import String List ZArith Reals Lia Lra Bool.
From Verif Require Import Prelude PreludeFacts AccumModel DirModel DirSpec DirProofs RoomModel GeoModel MetaModel MetaSpec GeoProofs GeoSampling.
Import ListNotations.
Local Open Scope R_scope.
Local Notation length := List.length.

(** ** Python values *)
Section PyInd.
  Variable P : pyval -> Prop.
  Hypothesis HN : P PNone.
  Hypothesis HS : forall x, P (PScalar x).
  Hypothesis HStr : forall s, P (PStr s).
  Hypothesis HT : forall sh l, P (PTensor sh l).
  Hypothesis HPa : forall s, P (PPath s).
  Hypothesis HD : forall l, Forall (fun p => P (snd p)) l -> P (PDict l).
  Hypothesis HL : forall l, Forall P l -> P (PList l).
  Hypothesis HTu : forall l, Forall P l -> P (PTuple l).
  Hypothesis HO : forall i, P (POther i).
  Fixpoint pyval_nested (v : pyval) : P v :=
    match v with
    | PNone => HN | PScalar x => HS x | PStr s => HStr s | PTensor sh l => HT sh l | PPath s => HPa s
    | PDict l => HD l ((fix go l : Forall (fun p => P (snd p)) l :=
        match l with [] => Forall_nil _ | p :: l' => Forall_cons p (pyval_nested (snd p)) (go l') end) l)
    | PList l => HL l ((fix go l : Forall P l :=
        match l with [] => Forall_nil _ | p :: l' => Forall_cons p (pyval_nested p) (go l') end) l)
    | PTuple l => HTu l ((fix go l : Forall P l :=
        match l with [] => Forall_nil _ | p :: l' => Forall_cons p (pyval_nested p) (go l') end) l)
    | POther i => HO i
    end.
End PyInd.
Lemma json_list l : json (PList l) <-> Forall json l.
Proof.
  induction l as [|x l IH]; [split; cbn; auto|]. split.
  - intros [H1 H2]. constructor; auto. apply IH. exact H2.
  - intros H. inversion H; subst. split; auto. apply IH. auto.
Qed.
Lemma json_dict l : json (PDict l) <-> Forall (fun p => (exists s, fst p = KStr s) /\ json (snd p)) l.
Proof.
  induction l as [|[k x] l IH]; [split; cbn; auto|]. split.
  - intros (H1 & H2 & H3). constructor; auto. apply IH. exact H3.
  - intros H. inversion H as [|? ? [A B] C]; subst. split; [exact A|split; [exact B|]]. apply IH. auto.
Qed.
Lemma supported_list l : (supported (PList l) <-> Forall supported l) /\ (supported (PTuple l) <-> Forall supported l).
Proof.
  induction l as [|x l [IH1 IH2]]; [cbn; split; split; auto|]. split; split.
  - intros [H1 H2]. constructor; auto. apply IH1. exact H2.
  - intros H. inversion H; subst. split; auto. apply IH1. auto.
  - intros [H1 H2]. constructor; auto. apply IH2. exact H2.
  - intros H. inversion H; subst. split; auto. apply IH2. auto.
Qed.
Lemma supported_dict l : supported (PDict l) <-> Forall (fun p => (exists s, fst p = KStr s) /\ supported (snd p)) l.
Proof.
  induction l as [|[k x] l IH]; [split; cbn; auto|]. split.
  - intros (H1 & H2 & H3). constructor; auto. apply IH. exact H3.
  - intros H. inversion H as [|? ? [A B] C]; subst. split; [exact A|split; [exact B|]]. apply IH. auto.
Qed.
Lemma tolist_json sh l : json (tolist sh l).
Proof.
  revert l. induction sh as [|n sh IH]; intros l; cbn [tolist].
  - destruct l; cbn; auto.
  - apply json_list. apply Forall_forall. intros x H. apply in_map_iff in H as (i & <- & _). apply IH.
Qed.
Lemma Forall_iff_in {A} (P Q : A -> Prop) l : Forall (fun x => P x <-> Q x) l -> (Forall P l <-> Forall Q l).
Proof. induction 1 as [|x l H F IH]; split; intros G; auto; inversion G; subst; constructor; tauto. Qed.
Lemma serializable_json v : json (to_serializable v) <-> supported v.
Proof.
  induction v using pyval_nested; cbn [to_serializable].
  1,2,3,5: cbn; tauto.
  - cbn [supported]. split; auto. intros _. apply tolist_json.
  - rewrite json_dict, supported_dict, Forall_map. apply Forall_iff_in.
    eapply Forall_impl; [|exact H]. cbn. intros [k x] E. cbn in *. tauto.
  - rewrite json_list, (proj1 (supported_list l)), Forall_map. apply Forall_iff_in. auto.
  - rewrite json_list, (proj2 (supported_list l)), Forall_map. apply Forall_iff_in. auto.
  - cbn. tauto.
Qed.
Lemma map_id_in {A} (f : A -> A) l : Forall (fun x => f x = x) l -> map f l = l.
Proof. induction 1; cbn; congruence. Qed.
Lemma json_fixed v : json v -> to_serializable v = v.
Proof.
  induction v using pyval_nested; intros J; cbn [to_serializable]; auto; try (cbn in J; contradiction).
  - f_equal. apply json_dict in J. apply map_id_in. rewrite Forall_forall in *. intros [k x] Hi.
    destruct (J _ Hi) as [_ Jx]. specialize (H _ Hi Jx). cbn [fst snd] in *. rewrite H. auto.
  - f_equal. apply json_list in J. apply map_id_in. rewrite Forall_forall in *. auto.
Qed.
Lemma serializable_idem v : to_serializable (to_serializable v) = to_serializable v.
Proof.
  induction v using pyval_nested; cbn [to_serializable]; auto.
  - apply json_fixed, tolist_json.
  - f_equal. rewrite map_map. apply map_ext_in. intros [k x] Hi. cbn. rewrite Forall_forall in H. f_equal. apply (H _ Hi).
  - f_equal. rewrite map_map. apply map_ext_in. rewrite Forall_forall in H. auto.
  - f_equal. rewrite map_map. apply map_ext_in. rewrite Forall_forall in H. auto.
Qed.

(** ** Entries *)
Lemma ravel_within sh idx : within idx sh -> (ravel sh idx < prodn sh)%nat.
Proof.
  intros H. induction H as [|i n idx sh Hi H IH]; [cbn; lia|]. cbn [ravel]. change (prodn (n :: sh)) with (n * prodn sh)%nat. nia.
Qed.
Lemma tolist_item sh : forall l idx d, length l = prodn sh -> within idx sh ->
  item (tolist sh l) idx = Some (PScalar (nth (ravel sh idx) l d)).
Proof.
  induction sh as [|n sh IH]; intros l idx d L W; inversion W as [|i ? idx' ? Hi W']; subst.
  - cbn in *. destruct l as [|x [|? ?]]; try discriminate. auto.
  - cbn [tolist item ravel]. change (prodn (n :: sh)) with (n * prodn sh)%nat in L.
    rewrite nth_error_map, nth_error_nth' with (d := 0%nat) by (rewrite seq_length; auto).
    rewrite seq_nth by auto. cbn [option_map]. rewrite Nat.add_0_l.
    rewrite (IH _ idx' d); auto.
    + do 2 f_equal. rewrite nth_block; auto. apply ravel_within; auto.
    + apply length_block. nia.
Qed.
Lemma tolist_outside sh : forall l idx, length idx = length sh -> ~ within idx sh -> item (tolist sh l) idx = None.
Proof.
  induction sh as [|n sh IH]; intros l [|i idx] L W; try discriminate.
  - destruct W. constructor.
  - cbn [tolist item]. rewrite nth_error_map. destruct (Nat.lt_ge_cases i n) as [H|H].
    + rewrite nth_error_nth' with (d := 0%nat) by (rewrite seq_length; auto). cbn [option_map]. apply IH; auto.
      intros W'. apply W. constructor; auto.
    + rewrite (proj2 (nth_error_None _ _)) by (rewrite seq_length; auto). auto.
Qed.
Lemma pyt_item t idx : wf t -> within idx (shape t) -> item (to_serializable (pyt t)) idx = Some (number (tget t idx)).
Proof.
  intros H W. unfold pyt. cbn [to_serializable]. 
  rewrite (tolist_item _ _ _ (SFloat (Some 0))); auto; [|rewrite map_length; auto].
  unfold number, tget. do 2 f_equal. rewrite (map_nth (fun x => SFloat (Some x))). auto.
Qed.

(** ** Angles *)
Lemma atan2_spec x y : let r := sqrt (x ^ 2 + y ^ 2) in
  x = r * cos (atan2 y x) /\ y = r * sin (atan2 y x) /\ - PI < atan2 y x <= PI.
Proof.
  intros r. pose proof PI_RGT_0. unfold atan2.
  assert (S : forall u, 0 < 1 + u ^ 2) by (intros; nra).
  assert (K : forall k, k <> 0 -> forall b, sqrt (k ^ 2 + b ^ 2) = Rabs k * sqrt (1 + (b / k) ^ 2)).
  { intros k Hk b. rewrite <- (sqrt_Rsqr_abs k), <- sqrt_mult_alt by apply Rle_0_sqr. f_equal. unfold Rsqr. field. auto. }
  assert (SP : forall u, 0 < sqrt (1 + u ^ 2)) by (intros; apply sqrt_lt_R0; auto).
  assert (CA : forall u, cos (atan u) = / sqrt (1 + u ^ 2)).
  { intros u. rewrite cos_atan. unfold Rsqr, Rdiv. rewrite Rmult_1_l. f_equal. f_equal. ring. }
  assert (SA : forall u, sin (atan u) = u / sqrt (1 + u ^ 2)).
  { intros u. rewrite sin_atan. unfold Rsqr. f_equal. f_equal. ring. }
  destruct (Rlt_dec 0 x) as [P|P].
  - unfold r. rewrite (K x) by lra. rewrite (Rabs_right x) by lra. rewrite CA, SA. specialize (SP (y / x)).
    pose proof (atan_bound (y / x)). repeat split; try lra; field; repeat split; lra.
  - destruct (Rlt_dec x 0) as [N|N].
    + pose proof (atan_bound (y / x)) as B.
      assert (E : r = - x * sqrt (1 + (y / x) ^ 2)) by (unfold r; rewrite (K x) by lra; rewrite (Rabs_left x) by lra; auto).
      assert (IX : / x < 0) by (apply Rinv_lt_0_compat; auto).
      specialize (SP (y / x)).
      destruct (Rle_dec 0 y) as [Y|Y].
      * rewrite neg_cos, neg_sin, E, CA, SA. assert (atan (y / x) <= 0).
        { destruct (Req_dec y 0) as [->|Q]; [unfold Rdiv; rewrite Rmult_0_l, atan_0; lra|].
          rewrite <- atan_0. left. apply atan_increasing. unfold Rdiv. nra. }
        repeat split; try lra; field; repeat split; lra.
      * assert (Q : cos (atan (y / x) - PI) = - cos (atan (y / x)) /\ sin (atan (y / x) - PI) = - sin (atan (y / x))).
        { rewrite cos_minus, sin_minus, cos_PI, sin_PI. split; ring. }
        destruct Q as [-> ->]. rewrite E, CA, SA. assert (0 < atan (y / x)).
        { rewrite <- atan_0. apply atan_increasing. unfold Rdiv. nra. }
        repeat split; try lra; field; repeat split; lra.
    + assert (x = 0) as -> by lra. unfold r. replace (0 ^ 2 + y ^ 2) with (Rsqr y) by (unfold Rsqr; ring). rewrite sqrt_Rsqr_abs.
      destruct (Rlt_dec 0 y) as [Y|Y].
      * rewrite cos_PI2, sin_PI2, Rabs_right by lra. repeat split; lra.
      * destruct (Rlt_dec y 0) as [Y'|Y'].
        -- rewrite cos_neg, sin_neg, cos_PI2, sin_PI2, Rabs_left by lra. repeat split; lra.
        -- assert (y = 0) as -> by lra. rewrite cos_0, sin_0, Rabs_R0. repeat split; lra.
Qed.
Lemma atan2_half x y : 0 <= x -> - (PI / 2) <= atan2 y x <= PI / 2.
Proof.
  intros H. pose proof PI_RGT_0. unfold atan2. pose proof (atan_bound (y / x)).
  destruct (Rlt_dec 0 x); [lra|]. destruct (Rlt_dec x 0); [lra|]. destruct (Rlt_dec 0 y); [lra|]. destruct (Rlt_dec y 0); lra.
Qed.
Lemma doa3 x y z : points_along (azimuth_of [x; y; z]) (elevation_of [x; y; z]) x y z.
Proof.
  unfold points_along, azimuth_of, elevation_of. cbn [List.length Nat.ltb Nat.leb nth].
  set (p := sqrt (x ^ 2 + y ^ 2)). destruct (atan2_spec x y) as (A1 & A2 & A3). fold p in A1, A2.
  destruct (atan2_spec p z) as (B1 & B2 & B3). assert (P : p ^ 2 = x ^ 2 + y ^ 2) by (unfold p; apply pow2_sqrt; nra).
  rewrite P in B1, B2. set (d := sqrt (x ^ 2 + y ^ 2 + z ^ 2)) in *.
  repeat split; try lra.
  - rewrite A1 at 1. rewrite B1 at 1. ring.
  - rewrite A2 at 1. rewrite B1 at 1. ring.
  - apply atan2_half. apply sqrt_pos.
  - apply atan2_half. apply sqrt_pos.
Qed.
Lemma doa2 x y : elevation_of [x; y] = 0 /\ points_along (azimuth_of [x; y]) (elevation_of [x; y]) x y 0.
Proof.
  unfold elevation_of. cbn [List.length Nat.ltb Nat.leb]. split; auto. unfold points_along, azimuth_of. cbn [nth].
  destruct (atan2_spec x y) as (A1 & A2 & A3). replace (x ^ 2 + y ^ 2 + 0 ^ 2) with (x ^ 2 + y ^ 2) by ring.
  rewrite cos_0, sin_0, !Rmult_1_l. pose proof PI_RGT_0. repeat split; auto; lra.
Qed.

(** ** Trajectories *)
Definition norm3 (traj : option tensor) (pos : tensor) (dim : nat) : tensor :=
  match traj with
  | None => mkT [1%nat; hd 0%nat (shape pos); dim] (data pos)
  | Some t => if (length (shape t) =? 2)%nat then mkT [hd 0%nat (shape t); 1%nat; dim] (data t) else t
  end.
Lemma normalize_proper traj pos dim : proper traj pos dim ->
  md_normalize_traj traj pos dim = Ok (norm3 traj pos dim) /\
  shape (norm3 traj pos dim) = [steps traj; entities traj pos; dim] /\ wf (norm3 traj pos dim).
Proof.
  unfold md_normalize_traj, norm3, steps, entities, wf. destruct traj as [t|].
  - intros [W [[s E]|(s & n & E)]]; rewrite E; cbn [hd nth List.length Nat.eqb]; rewrite Nat.eqb_refl.
    + split; [auto|]. split; [auto|]. cbn [data shape]. unfold wf in W. rewrite W, E. cbn. lia.
    + split; [auto|]. split; [auto|]. auto.
  - intros (n & E & W). rewrite E. rewrite Nat.eqb_refl. repeat split. cbn [data shape hd]. rewrite W, E. cbn. lia.
Qed.
Lemma nth_concat_repeat {A} (l : list A) s t r d : (t < s)%nat -> (r < length l)%nat ->
  nth (t * length l + r) (concat (repeat l s)) d = nth r l d.
Proof.
  revert t. induction s as [|s IH]; intros t Ht Hr; [lia|]. cbn [repeat concat]. destruct t as [|t].
  - rewrite app_nth1 by lia. f_equal; lia.
  - rewrite app_nth2 by lia. rewrite <- (IH t) by lia. f_equal. lia.
Qed.
Lemma length_concat_repeat {A} (l : list A) s : length (concat (repeat l s)) = (s * length l)%nat.
Proof. induction s as [|s IH]; auto. cbn [repeat concat]. rewrite app_length, IH. lia. Qed.
Lemma norm3_get traj pos dim t i k : proper traj pos dim -> (i < entities traj pos)%nat -> (k < dim)%nat ->
  tget (norm3 traj pos dim) [if (steps traj =? 1)%nat then 0%nat else t; i; k] = place traj pos t i k.
Proof.
  unfold norm3, place, steps, entities, tget. destruct traj as [tr|].
  - intros [W [[s E]|(s & n & E)]]; rewrite E; cbn [hd nth List.length Nat.eqb shape]; intros Hi Hk.
    + cbn [ravel prodn fold_right data]. f_equal. assert (i = 0%nat) by lia. subst. lia.
    + rewrite E. auto.
  - intros (n & E & W). rewrite E. cbn [shape hd Nat.eqb data]. intros Hi Hk. cbn [ravel prodn fold_right]. f_equal.
Qed.
Lemma expand_spec traj pos dim T : proper traj pos dim -> (steps traj = T \/ (steps traj = 1 /\ 1 < T)%nat) ->
  shape (md_expand (norm3 traj pos dim) T) = [T; entities traj pos; dim] /\ wf (md_expand (norm3 traj pos dim) T) /\
  forall t i k, (t < T)%nat -> (i < entities traj pos)%nat -> (k < dim)%nat ->
    tget (md_expand (norm3 traj pos dim) T) [t; i; k] = place traj pos t i k.
Proof.
  intros P H. destruct (normalize_proper _ _ _ P) as (_ & S & W).
  assert (G := fun t i k => norm3_get traj pos dim t i k P). set (x := norm3 traj pos dim) in *.
  unfold md_expand. rewrite S.
  destruct (Nat.eqb_spec (steps traj) 1) as [E1|E1]; cbn [andb].
  - destruct (Nat.ltb_spec 1 T) as [L|L].
    + cbn [shape]. split; auto. unfold wf in *. rewrite S in W. rewrite E1 in W. cbn [prodn fold_right] in W. split.
      * cbn [data shape]. rewrite length_concat_repeat, W. cbn. lia.
      * intros t i k Ht Hi Hk. rewrite <- (G t i k Hi Hk). unfold tget. rewrite S. cbn [shape data ravel prodn fold_right].
        rewrite <- (nth_concat_repeat (data x) T t) by (try rewrite W; nia). f_equal. rewrite W. lia.
    + assert (T = 1)%nat by lia. subst T. rewrite S, E1. repeat split; auto. intros t i k Ht Hi Hk.
      rewrite <- (G t i k Hi Hk). f_equal. f_equal. lia.
  - assert (steps traj = T) by lia. rewrite S, H0. repeat split; auto.
Qed.
Lemma trajectories_ok a dim : numel (md_size a) = dim -> proper (md_src_traj a) (md_src a) dim -> proper (md_mic_traj a) (md_mic a) dim ->
  let T := Nat.max (steps (md_src_traj a)) (steps (md_mic_traj a)) in
  (compatible (steps (md_src_traj a)) (steps (md_mic_traj a)) ->
     md_trajectories a = Ok (md_expand (norm3 (md_src_traj a) (md_src a) dim) T, md_expand (norm3 (md_mic_traj a) (md_mic a) dim) T, T)) /\
  (~ compatible (steps (md_src_traj a)) (steps (md_mic_traj a)) -> md_trajectories a = Err ValueError).
Proof.
  intros D Ps Pm T. destruct (normalize_proper _ _ _ Ps) as (Ns & Ss & Ws). destruct (normalize_proper _ _ _ Pm) as (Nm & Sm & Wm).
  unfold md_trajectories. rewrite D, Ns, Nm. cbn [bind].
  assert (Hs : steps_of (norm3 (md_src_traj a) (md_src a) dim) = steps (md_src_traj a)) by (unfold steps_of; rewrite Ss; auto).
  assert (Hm : steps_of (norm3 (md_mic_traj a) (md_mic a) dim) = steps (md_mic_traj a)) by (unfold steps_of; rewrite Sm; auto).
  rewrite Hs, Hm. fold T. split.
  - intros C. assert (C1 : steps (md_src_traj a) = T \/ (steps (md_src_traj a) = 1 /\ 1 < T)%nat) by (unfold compatible, T in *; lia).
    assert (C2 : steps (md_mic_traj a) = T \/ (steps (md_mic_traj a) = 1 /\ 1 < T)%nat) by (unfold compatible, T in *; lia).
    destruct (expand_spec _ _ _ T Ps C1) as (E1 & _). destruct (expand_spec _ _ _ T Pm C2) as (E2 & _).
    unfold steps_of. rewrite E1, E2. cbn [hd]. rewrite Nat.eqb_refl. auto.
  - intros C. assert (F : forall x s n d, shape x = [s; n; d] -> steps_of (md_expand x T) = if ((s =? 1) && (1 <? T))%nat then T else s).
    { intros x s n d E. unfold md_expand. rewrite E. destruct (_ && _); unfold steps_of; [auto|rewrite E; auto]. }
    rewrite (F _ _ _ _ Ss), (F _ _ _ _ Sm). unfold compatible, T in *.
    destruct (Nat.eqb_spec (steps (md_src_traj a)) 1), (Nat.eqb_spec (steps (md_mic_traj a)) 1), (Nat.ltb_spec 1 (Nat.max (steps (md_src_traj a)) (steps (md_mic_traj a))));
      cbn [andb]; match goal with |- context [(?x =? ?y)%nat] => destruct (Nat.eqb_spec x y) end; auto; exfalso; apply C; lia.
Qed.
Lemma map2_seq (f g : nat -> R) d : forall o, map2 Rminus (map f (seq o d)) (map g (seq o d)) = map (fun k => f k - g k) (seq o d).
Proof. induction d as [|d IH]; intros o; auto. cbn [seq map]. unfold map2 in *. cbn [combine map fst snd]. f_equal. apply IH. Qed.
Lemma doa_entry s m T ns nm dim : shape s = [T; ns; dim] -> shape m = [T; nm; dim] ->
  shape (fst (compute_doa s m)) = [T; ns; nm] /\ shape (snd (compute_doa s m)) = [T; ns; nm] /\
  wf (fst (compute_doa s m)) /\ wf (snd (compute_doa s m)) /\
  forall t i j, (t < T)%nat -> (i < ns)%nat -> (j < nm)%nat ->
    let v := map (fun k => tget s [t; i; k] - tget m [t; j; k]) (seq 0 dim) in
    tget (fst (compute_doa s m)) [t; i; j] = azimuth_of v /\ tget (snd (compute_doa s m)) [t; i; j] = elevation_of v.
Proof.
  intros Es Em. unfold compute_doa. rewrite Es, Em. cbn [nth]. cbn [fst snd shape]. split; [reflexivity|]. split; [reflexivity|].
  split; [unfold wf; cbn [data shape]; rewrite map_length, seq_length; cbn; lia|].
  split; [unfold wf; cbn [data shape]; rewrite map_length, seq_length; cbn; lia|].
  intros t i j Ht Hi Hj. unfold tget at 1 4. cbn [data shape ravel prodn fold_right].
  set (k := (t * (ns * (nm * 1)) + (i * (nm * 1) + (j * 1 + 0)))%nat).
  assert (Ek : k = ((t * ns + i) * nm + j)%nat) by (unfold k; ring).
  assert (Hk : (k < T * ns * nm)%nat) by (rewrite Ek; assert (t * ns + i + 1 <= T * ns)%nat by nia; nia).
  rewrite !nth_tab by auto.
  assert (D1 : (k / (ns * nm) = t)%nat).
  { rewrite Ek. replace ((t * ns + i) * nm + j)%nat with ((i * nm + j) + t * (ns * nm))%nat by ring.
    rewrite Nat.div_add by nia. rewrite Nat.div_small by nia. auto. }
  assert (D2 : (k / nm mod ns = i)%nat).
  { rewrite Ek, Nat.add_comm, Nat.div_add by lia. rewrite (Nat.div_small j) by auto. rewrite Nat.add_0_l, Nat.add_comm, Nat.mod_add by lia.
    apply Nat.mod_small; auto. }
  assert (D3 : (k mod nm = j)%nat) by (rewrite Ek, Nat.add_comm, Nat.mod_add by lia; apply Nat.mod_small; auto).
  rewrite D1, D2, D3. unfold row. rewrite Es, Em. cbn [nth]. rewrite map2_seq. auto.
Qed.

(** ** Array *)
Lemma vnorm_distance t d i j :
  vnorm (map2 Rminus (map (fun k => tget t [i; k]) (seq 0 d)) (map (fun k => tget t [j; k]) (seq 0 d))) = distance t d i j.
Proof.
  rewrite map2_seq. unfold vnorm, distance. f_equal. rewrite vdot_dot. rewrite <- lsum_seq.
  induction (seq 0 d) as [|k l IH]; auto. cbn [map dot lsum]. rewrite IH. ring.
Qed.
Lemma fold_Rmin_spec l x : (forall y, In y (x :: l) -> fold_left Rmin l x <= y) /\ In (fold_left Rmin l x) (x :: l).
Proof.
  revert x. induction l as [|z l IH]; intros x; cbn [fold_left].
  - split; [intros y [<-|[]]; lra|left; auto].
  - destruct (IH (Rmin x z)) as [A B]. split.
    + intros y [<-|[<-|H]].
      * eapply Rle_trans; [apply A; left; auto|apply Rmin_l].
      * eapply Rle_trans; [apply A; left; auto|apply Rmin_r].
      * apply A. right. auto.
    + destruct B as [B|B]; [|right; right; auto]. rewrite <- B. unfold Rmin. destruct (Rle_dec x z); [left|right; left]; auto.
Qed.
Lemma distance_nonneg t d i j : 0 <= distance t d i j.
Proof. apply sqrt_pos. Qed.
Lemma distance_self t d i : distance t d i i = 0.
Proof. unfold distance. rewrite rsum_zero; [apply sqrt_0|]. intros. ring. Qed.
Lemma spacing_spec n d t : match spacing_of n d t with
  | Some s => closest t n d s
  | None => forall i j, (i < n)%nat -> (j < n)%nat -> distance t d i j = 0
  end.
Proof.
  unfold spacing_of. destruct (Nat.ltb_spec n 2) as [L|L].
  { intros i j Hi Hj. assert (i = 0%nat /\ j = 0%nat) as [-> ->] by lia. apply distance_self. }
  set (ds := flat_map _ _).
  assert (I : forall x, In x ds <-> exists i j, (i < n)%nat /\ (j < n)%nat /\ distance t d i j = x).
  { intros x. unfold ds. rewrite in_flat_map. split.
    - intros (i & Hi & H). apply in_map_iff in H as (j & E & Hj). apply in_seq in Hi, Hj. rewrite vnorm_distance in E.
      exists i, j. repeat split; auto; lia.
    - intros (i & j & Hi & Hj & <-). exists i. split; [apply in_seq; lia|]. apply in_map_iff. exists j. split; [apply vnorm_distance|apply in_seq; lia]. }
  assert (F : forall x, In x (filter (fun x => Rltb 0 x) ds) <-> 0 < x /\ exists i j, (i < n)%nat /\ (j < n)%nat /\ distance t d i j = x).
  { intros x. rewrite filter_In, I. destruct (Rltb_spec 0 x); split; intros [A B]; auto; try discriminate; try lra. }
  destruct (filter _ ds) as [|x l].
  - intros i j Hi Hj. pose proof (distance_nonneg t d i j). destruct (Rle_lt_or_eq_dec _ _ H) as [P|P]; auto.
    destruct (proj2 (F (distance t d i j))). split; auto. exists i, j. auto.
  - destruct (fold_Rmin_spec l x) as [A B]. apply F in B as [P E]. split; auto. split; auto.
    intros i j Hi Hj Q. apply A, F. split; auto. exists i, j. auto.
Qed.
