(** Property theorems C97: how a response depends on the walls. *)
From Coq Require Import String List ZArith Reals Lia Lra Bool Permutation.
From Verif Require Import Prelude PreludeFacts SignalModel FloatModel DirModel ImageModel ImageSpec AcousticModel
  AccumModel IsmModel IsmSpec ImageProofs AccumProofs IsmProofs SimProofs SimMore SimArrival KernelProofs ContSpec ContProofs IsmProps ContProps BetaSpec BetaProofs.
Import ListNotations.
Local Open Scope R_scope.
Local Notation length := List.length.

(** ** C97 *)
(** A response of fixed length with omnidirectional sources and microphones. *)
Local Notation simulation X dev r srcs mics N n c :=
  (simulate_rir X dev r srcs mics (Some N) None (Some (Z.of_nat n)) None None (Some (DName "omni")) ONone (Some c)).

Lemma pair_forall (P : R -> Prop) dim b : length b = (2 * dim)%nat -> Forall P b -> Forall (fun p => P (fst p) /\ P (snd p)) (beta_pairs b).
Proof.
  intros L F. assert (F2 : Forall2 (fun x _ => P x) b b) by (clear L; induction F; constructor; auto).
  apply (pairs_rel _ dim) in F2; auto. revert F2. generalize (beta_pairs b) at 1 3. intros l F2. induction F2; constructor; tauto.
Qed.
Lemma images_length r srcs mics dim beta N images : scene r srcs mics dim beta -> all_images dim N images ->
  forall v, In v images -> length v = length (beta_pairs beta).
Proof. intros Hs (_ & Im) v Hv. rewrite (length_pairs dim) by apply Hs. apply Im. exact Hv. Qed.

(** Walls that differ by at most [del] change no sample by more than [del] times the sum over the
    images of the number of reflections over the distance. *)
Theorem C97_lipschitz : forall X dev r r' srcs mics N n c dim beta beta' T T' images del,
  scene r srcs mics dim beta -> scene r' srcs mics dim beta' -> same_box r r' -> cfg_hpf_enable c = false -> all_images dim N images ->
  Forall (fun b => Rabs b <= 1) beta -> Forall (fun b => Rabs b <= 1) beta' -> Forall2 (fun b b' => Rabs (b' - b) <= del) beta beta' ->
  simulation X dev r srcs mics N n c = Ok T -> simulation X dev r' srcs mics N n c = Ok T' ->
  forall s m j, (s < count srcs)%nat -> (m < count mics)%nat -> (j < n)%nat ->
    exists h h', xget T [s; m; j] = Some h /\ xget T' [s; m; j] = Some h' /\
      Rabs (h' - h) <= del * reflections_over_distance (data (r_size r)) (position srcs s) (position mics m) images.
Proof.
  intros X dev r r' srcs mics N n c dim beta beta' T T' images del Hs Hs' (B1 & B2 & B3) Hh Im F F' D H H' s m j Ss Sm Sj.
  destruct (read_value _ _ _ _ _ _ _ _ _ _ _ _ Hs Hh Im H) as (Hv & E). destruct (read_value _ _ _ _ _ _ _ _ _ _ _ _ Hs' Hh Im H') as (_ & E').
  do 2 eexists. split; [apply E; auto|]. split; [apply E'; auto|]. rewrite B1, B2, B3. unfold the_kernel.
  assert (L1 : length (beta_pairs beta) = dim) by (apply length_pairs, Hs). assert (L2 : length (beta_pairs beta') = dim) by (apply length_pairs, Hs').
  apply walls_change; try congruence.
  - apply table_positive; auto.
  - eapply images_length; eauto.
  - eapply (pair_forall (fun b => Rabs b <= 1) dim); auto. apply Hs.
  - eapply (pair_forall (fun b => Rabs b <= 1) dim); auto. apply Hs'.
  - apply (pairs_rel (fun b b' => Rabs (b' - b) <= del) dim); auto. apply Hs.
Qed.
(** Images behind an absorbing wall do not count: the response is the sum over the images with no
    absorbing wall on their way. *)
Theorem C97_absorbing : forall X dev r srcs mics N n c dim beta T images,
  scene r srcs mics dim beta -> cfg_hpf_enable c = false -> NoDup images ->
  (forall v, In v images <-> length v = dim /\ (order_of v <= N)%Z /\ ~ In 0 (met (beta_pairs beta) v)) ->
  simulation X dev r srcs mics N n c = Ok T ->
  forall s m j, (s < count srcs)%nat -> (m < count mics)%nat -> (j < n)%nat ->
    xget T [s; m; j] = response (Z.to_nat (cfg_fdl c)) (the_kernel dev c) (r_fs r) (r_c r) (beta_pairs beta) (data (r_size r)) images unity unity
      (position srcs s) (position mics m) j.
Proof.
  intros X dev r srcs mics N n c dim beta T images Hs Hh Nd Im H s m j Ss Sm Sj.
  destruct (omni_ok_inv _ _ _ _ _ _ _ _ _ _ _ _ Hs Hh H) as (_ & HN & _ & _). destruct (indices_order N dim HN) as (l & _ & Nl & Il).
  destruct (read_value _ _ _ _ _ _ _ _ _ _ _ _ Hs Hh (conj Nl Il) H) as (Hv & E). rewrite E by auto. rewrite response_value. f_equal.
  set (p := fun v => if in_dec Req_EM_T 0 (met (beta_pairs beta) v) then false else true). unfold the_kernel.
  rewrite (value_filter _ _ _ _ _ _ _ _ _ _ p).
  - unfold value. apply rsum_perm, Permutation_map, NoDup_Permutation; auto; [apply NoDup_filter; auto|].
    intros v. rewrite filter_In, Il, Im. unfold p. destruct (in_dec _ _ _); intuition discriminate.
  - intros v _. unfold p. destruct (in_dec _ _ _) as [I|]; [|discriminate]. intros _. rewrite gain_met. apply prod_zero. exact I.
Qed.
(** In particular no order of reflection changes anything in a room without reflections. *)
Lemma met_all walls : forall v x, In x (met walls v) -> exists p, In p walls /\ (x = fst p \/ x = snd p).
Proof.
  induction walls as [|[lo hi] ws IH]; intros [|k v] x I; try destruct I. cbn [met] in I. apply in_app_or in I as [I|I].
  - apply in_map_iff in I as (z & <- & _). exists (lo, hi). split; [left; auto|]. unfold wall_of. destruct (Z.even z); auto.
  - apply IH in I as (p & Ip & E). exists p. split; [right; auto|auto].
Qed.
Theorem C97_anechoic : forall X dev r srcs mics N N' n c dim T T', scene r srcs mics dim (repeat 0 (2 * dim)) -> cfg_hpf_enable c = false ->
  simulation X dev r srcs mics N n c = Ok T -> simulation X dev r srcs mics N' n c = Ok T' ->
  forall s m j, (s < count srcs)%nat -> (m < count mics)%nat -> (j < n)%nat -> xget T [s; m; j] = xget T' [s; m; j].
Proof.
  intros X dev r srcs mics N N' n c dim T T' Hs Hh H H' s m j Ss Sm Sj.
  assert (G : forall N T, simulation X dev r srcs mics N n c = Ok T -> forall v, In v [repeat 0%Z dim] <-> length v = dim /\ (order_of v <= N)%Z /\ ~ In 0 (met (beta_pairs (repeat 0 (2 * dim))) v)).
  { clear - Hs Hh. intros N T H v. destruct (omni_ok_inv _ _ _ _ _ _ _ _ _ _ _ _ Hs Hh H) as (_ & HN & _ & _).
    assert (Lp : length (beta_pairs (repeat 0 (2 * dim))) = dim) by (apply length_pairs, repeat_length). split.
    - intros [<-|[]]. rewrite repeat_length. split; auto.
      assert (O : order_of (repeat 0%Z dim) = 0%Z) by (unfold order_of; clear; induction dim; cbn; auto). rewrite O. split; [lia|].
      rewrite <- (length_met (beta_pairs (repeat 0 (2 * dim)))) in O by (rewrite repeat_length; auto). destruct (met _ _); [intros []|cbn in O; lia].
    - intros (L & _ & Z). left. 
      assert (M : met (beta_pairs (repeat 0 (2 * dim))) v = []).
      { destruct (met _ v) as [|x l] eqn:E; auto. exfalso. apply Z. left. assert (I : In x (met (beta_pairs (repeat 0 (2 * dim))) v)) by (rewrite E; left; auto).
        apply met_all in I as ([a b] & I & Ex). pose proof (pair_forall (fun b => b = 0) dim (repeat 0 (2 * dim)) (repeat_length _ _)) as P.
        assert (P0 : Forall (fun b => b = 0) (repeat 0 (2 * dim))) by (apply Forall_forall; intros y Y; apply repeat_spec in Y; auto).
        specialize (P P0). rewrite Forall_forall in P. specialize (P _ I). cbn in P, Ex. destruct P, Ex; congruence. }
      pose proof (length_met (beta_pairs (repeat 0 (2 * dim))) v ltac:(congruence)) as O. rewrite M in O. cbn in O.
      clear - L O. revert v L O. induction dim as [|d IH]; intros [|k v] L O; try discriminate; [reflexivity|]. cbn [repeat].
      assert (P : forall v, (0 <= order_of v)%Z) by (clear; intros v; unfold order_of; induction v; cbn; lia). specialize (P v).
      unfold order_of in O, P. cbn in O. f_equal; [lia|]. apply IH; [cbn in L; lia|]. unfold order_of. lia. }
  assert (Nd : NoDup [repeat 0%Z dim]) by (constructor; [intros []|constructor]).
  rewrite (C97_absorbing _ _ _ _ _ _ _ _ _ _ _ _ Hs Hh Nd (G _ _ H) H) by auto.
  rewrite (C97_absorbing _ _ _ _ _ _ _ _ _ _ _ _ Hs Hh Nd (G _ _ H') H') by auto. reflexivity.
Qed.
(** ** Orders *)
Lemma lower_images dim N N' images : (N <= N')%Z -> all_images dim N' images -> all_images dim N (filter (fun v => (order_of v <=? N)%Z) images).
Proof.
  intros L (Nd & Im). split; [apply NoDup_filter; auto|]. intros v. rewrite filter_In, Im. split.
  - intros ((A & B) & C). apply Z.leb_le in C. auto.
  - intros (A & B). split; [split; auto; lia|apply Z.leb_le; auto].
Qed.
(** Walls that reflect at most the part [B]: all orders between [N] and [N'] together change a
    sample by at most [B ^ (N + 1)] times the sum of their inverse distances. *)
Theorem C97_truncation : forall X dev r srcs mics N N' n c dim beta T T' later B,
  scene r srcs mics dim beta -> cfg_hpf_enable c = false -> (0 <= N <= N')%Z -> 0 <= B <= 1 -> Forall (fun b => Rabs b <= B) beta ->
  NoDup later -> (forall v, In v later <-> length v = dim /\ (N < order_of v <= N')%Z) ->
  simulation X dev r srcs mics N n c = Ok T -> simulation X dev r srcs mics N' n c = Ok T' ->
  forall s m j, (s < count srcs)%nat -> (m < count mics)%nat -> (j < n)%nat ->
    exists h h', xget T [s; m; j] = Some h /\ xget T' [s; m; j] = Some h' /\
      Rabs (h' - h) <= B ^ (Z.to_nat N + 1) * inverse_distances (data (r_size r)) (position srcs s) (position mics m) later.
Proof.
  intros X dev r srcs mics N N' n c dim beta T T' later B Hs Hh HN HB F Nd Im H H' s m j Ss Sm Sj.
  destruct (indices_order N' dim ltac:(lia)) as (l & _ & Nl & Il). pose proof (lower_images dim N N' l ltac:(lia) (conj Nl Il)) as A.
  destruct (read_value _ _ _ _ _ _ _ _ _ _ _ _ Hs Hh A H) as (Hv & E). destruct (read_value _ _ _ _ _ _ _ _ _ _ _ _ Hs Hh (conj Nl Il) H') as (_ & E').
  do 2 eexists. split; [apply E; auto|]. split; [apply E'; auto|]. unfold the_kernel.
  rewrite (value_split (Z.to_nat (cfg_fdl c)) _ (r_fs r) (r_c r) (data (r_size r)) (position srcs s) (position mics m) j (beta_pairs beta) l (fun v => (order_of v <=? N)%Z)).
  match goal with |- Rabs (?a + ?b - ?a) <= _ => replace (a + b - a) with b by ring end.
  assert (P : Permutation (filter (fun v => negb (order_of v <=? N)%Z) l) later).
  { apply NoDup_Permutation; auto; [apply NoDup_filter; auto|]. intros v. rewrite filter_In, Il, Im. rewrite negb_true_iff, Z.leb_gt. intuition. }
  unfold value. rewrite (rsum_perm _ _ (Permutation_map _ P)). 
  apply (walls_bound (Z.to_nat (cfg_fdl c)) _ (r_fs r) (r_c r) (data (r_size r)) (position srcs s) (position mics m) j (table_positive dev c Hv) (beta_pairs beta) later B (Z.to_nat N + 1)); auto.
  - intros v Iv. apply Im in Iv. rewrite (length_pairs dim) by apply Hs. split; [apply Iv|]. lia.
  - apply (pair_forall (fun b => Rabs b <= B) dim); auto. apply Hs.
Qed.
(** When all coefficients are multiplied by [t], the direct sound stays and the part of the response
    of order [N] is multiplied by [t ^ N]. *)
Theorem C97_scaled : forall X dev r r' srcs mics n c dim beta beta' t, scene r srcs mics dim beta -> scene r' srcs mics dim beta' -> same_box r r' ->
  cfg_hpf_enable c = false -> Forall2 (fun b b' => b' = t * b) beta beta' ->
  forall s m j, (s < count srcs)%nat -> (m < count mics)%nat -> (j < n)%nat ->
  (forall T T', simulation X dev r srcs mics 0%Z n c = Ok T -> simulation X dev r' srcs mics 0%Z n c = Ok T' -> xget T' [s; m; j] = xget T [s; m; j]) /\
  (forall N T0 T1 T0' T1', simulation X dev r srcs mics (Z.of_nat N) n c = Ok T0 -> simulation X dev r srcs mics (Z.of_nat (S N)) n c = Ok T1 ->
     simulation X dev r' srcs mics (Z.of_nat N) n c = Ok T0' -> simulation X dev r' srcs mics (Z.of_nat (S N)) n c = Ok T1' ->
     exists h0 h1 h0' h1', xget T0 [s; m; j] = Some h0 /\ xget T1 [s; m; j] = Some h1 /\ xget T0' [s; m; j] = Some h0' /\ xget T1' [s; m; j] = Some h1' /\
       h1' - h0' = t ^ (S N) * (h1 - h0)).
Proof.
  intros X dev r r' srcs mics n c dim beta beta' t Hs Hs' (B1 & B2 & B3) Hh F s m j Ss Sm Sj.
  assert (L1 : length (beta_pairs beta) = dim) by (apply length_pairs, Hs). assert (L2 : length (beta_pairs beta') = dim) by (apply length_pairs, Hs').
  pose proof (pairs_rel (fun b b' => b' = t * b) dim beta beta' (sc_beta_len _ _ _ _ _ Hs) F) as FP. split.
  - intros T T' H H'. destruct (indices_order 0 dim ltac:(lia)) as (l & _ & Nl & Il).
    destruct (read_value _ _ _ _ _ _ _ _ _ _ _ _ Hs Hh (conj Nl Il) H) as (_ & E). destruct (read_value _ _ _ _ _ _ _ _ _ _ _ _ Hs' Hh (conj Nl Il) H') as (_ & E').
    rewrite E, E', B1, B2, B3 by auto. f_equal. unfold the_kernel. rewrite (walls_scaled _ _ _ _ _ _ _ _ t (beta_pairs beta) (beta_pairs beta') l 0%nat); [ring|congruence| |auto].
    intros v Iv. apply Il in Iv as (A & B). split; [congruence|]. assert (P : (0 <= order_of v)%Z) by (clear; unfold order_of; induction v; cbn; lia). cbn. lia.
  - intros N T0 T1 T0' T1' H0 H1 H0' H1'. destruct (indices_order (Z.of_nat (S N)) dim ltac:(lia)) as (l & _ & Nl & Il).
    pose proof (lower_images dim (Z.of_nat N) (Z.of_nat (S N)) l ltac:(lia) (conj Nl Il)) as A.
    destruct (read_value _ _ _ _ _ _ _ _ _ _ _ _ Hs Hh A H0) as (_ & E0). destruct (read_value _ _ _ _ _ _ _ _ _ _ _ _ Hs' Hh A H0') as (_ & E0').
    destruct (read_value _ _ _ _ _ _ _ _ _ _ _ _ Hs Hh (conj Nl Il) H1) as (_ & E1). destruct (read_value _ _ _ _ _ _ _ _ _ _ _ _ Hs' Hh (conj Nl Il) H1') as (_ & E1').
    do 4 eexists. split; [apply E0; auto|]. split; [apply E1; auto|]. split; [apply E0'; auto|]. split; [apply E1'; auto|]. rewrite B1, B2, B3. unfold the_kernel.
    rewrite (value_split _ _ _ _ _ _ _ _ (beta_pairs beta) l (fun v => (order_of v <=? Z.of_nat N)%Z)), (value_split _ _ _ _ _ _ _ _ (beta_pairs beta') l (fun v => (order_of v <=? Z.of_nat N)%Z)).
    match goal with |- ?a + ?b - ?a = _ * (?x + ?y - ?x) => replace (a + b - a) with b by ring; replace (x + y - x) with y by ring end.
    apply walls_scaled; [congruence| |auto]. intros v Iv. apply filter_In in Iv as (Iv & C). apply Il in Iv as (A1 & A2). split; [congruence|].
    apply negb_true_iff, Z.leb_gt in C. lia.
Qed.
(** The room of the example with halved coefficients: the part of second order is a quarter; and in
    the absorbing room order 7 is as good as order 0. *)
Definition half_room : room := mkRoom (r_size ex_room) (r_fs ex_room) (r_c ex_room) (Some [/ 4; / 6; / 10; / 14]) None.
Lemma half_scene : scene half_room ex_src ex_mic 2 [/ 4; / 6; / 10; / 14].
Proof. constructor; cbn; auto; try lra; try lia; reflexivity. Qed.
Lemma simulated X dev r srcs mics N n c dim beta : scene r srcs mics dim beta -> cfg_validate c = Ok tt -> cfg_hpf_enable c = false -> (0 <= N)%Z -> (0 < n)%nat ->
  exists T, simulation X dev r srcs mics N n c = Ok T.
Proof.
  intros Hs Hv Hh HN Hn. destruct (indices_order N dim HN) as (l & E & _). eexists. eapply simulate_omni; eauto.
Qed.
Example C97_example : forall X dev, exists T1 T2 T1' T2' h1 h2 h1' h2',
  simulation X dev ex_room ex_src ex_mic 1%Z 40 ex_cfg = Ok T1 /\ simulation X dev ex_room ex_src ex_mic 2%Z 40 ex_cfg = Ok T2 /\
  simulation X dev half_room ex_src ex_mic 1%Z 40 ex_cfg = Ok T1' /\ simulation X dev half_room ex_src ex_mic 2%Z 40 ex_cfg = Ok T2' /\
  xget T1 [0; 0; 20]%nat = Some h1 /\ xget T2 [0; 0; 20]%nat = Some h2 /\ xget T1' [0; 0; 20]%nat = Some h1' /\ xget T2' [0; 0; 20]%nat = Some h2' /\
  h2' - h1' = (h2 - h1) / 4.
Proof.
  intros X dev. pose proof ex_scene as Sc. pose proof half_scene as Sc'. pose proof ex_cfg_valid as V.
  destruct (simulated X dev _ _ _ 1 40 ex_cfg _ _ Sc V eq_refl ltac:(lia) ltac:(lia)) as (T1 & E1).
  destruct (simulated X dev _ _ _ 2 40 ex_cfg _ _ Sc V eq_refl ltac:(lia) ltac:(lia)) as (T2 & E2).
  destruct (simulated X dev _ _ _ 1 40 ex_cfg _ _ Sc' V eq_refl ltac:(lia) ltac:(lia)) as (T1' & E1').
  destruct (simulated X dev _ _ _ 2 40 ex_cfg _ _ Sc' V eq_refl ltac:(lia) ltac:(lia)) as (T2' & E2').
  destruct (C97_scaled X dev _ _ _ _ 40 ex_cfg _ _ _ (/ 2) Sc Sc') with (s := 0%nat) (m := 0%nat) (j := 20%nat) as (_ & G); try (cbn; lia).
  - repeat split.
  - repeat (constructor; [lra|]). constructor.
  - destruct (G 1%nat T1 T2 T1' T2' E1 E2 E1' E2') as (h1 & h2 & h1' & h2' & A & B & C & D & E).
    exists T1, T2, T1', T2', h1, h2, h1', h2'. repeat (split; [assumption|]). rewrite E. cbn. lra.
Qed.
Example C97_anechoic_example : forall X dev T T', simulation X dev wit_room (wit_src 0) ex_mic 0%Z 40 ex_cfg = Ok T ->
  simulation X dev wit_room (wit_src 0) ex_mic 7%Z 40 ex_cfg = Ok T' -> xget T [0; 0; 6]%nat = xget T' [0; 0; 6]%nat.
Proof. intros X dev T T' H H'. eapply (C97_anechoic X dev _ _ _ 0 7 40 ex_cfg 2); eauto; try (cbn; lia); apply (wit_scene 0). Qed.
Print Assumptions C97_lipschitz.
Print Assumptions C97_absorbing.
Print Assumptions C97_anechoic.
Print Assumptions C97_truncation.
Print Assumptions C97_scaled.
