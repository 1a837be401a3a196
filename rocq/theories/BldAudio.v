(** Lemmas about the dataset builder: signals of fixed length, mixing, axes. *)
From Coq Require Import String List ZArith Reals Lra Lia Bool Permutation.
From Verif Require Import Prelude PreludeFacts RoomModel GeoSampling DsModel DsSpec DsProofs BldModel BldSpec BldProofs.
Import ListNotations.
Local Notation length := List.length.

(** * Signals of fixed length *)
(** Invariant of the loop. *)
Definition fcollected c target spk all order idx (total : Z) st : Prop :=
  Permutation all order /\ idx <= length order /\
  (exists epochs, Forall (Permutation all) epochs /\ g_ids st = concat epochs ++ firstn idx order) /\
  total = Z.of_nat (length (concat (g_segs st))) /\
  Forall2 (fun u a => exists f, audio_of c spk u = Ok (a, f)) (g_ids st) (g_segs st) /\
  (forall pre a, g_segs st = pre ++ [a] -> (Z.of_nat (length (concat pre)) < target)%Z).
Lemma fixed_loop_spec c g target spk all fuel : fair g -> forall order idx total st st',
  fcollected c target spk all order idx total st -> fixed_loop c g target spk fuel order idx total st = Some (Ok st') ->
  exists order' idx', fcollected c target spk all order' idx' (Z.of_nat (length (concat (g_segs st')))) st' /\
    (target <= Z.of_nat (length (concat (g_segs st'))))%Z.
Proof.
  intros [Fsh _]. induction fuel as [|n IH]; intros order idx total st st' C H; [discriminate|]. cbn in H.
  destruct (Z.ltb_spec total target) as [Lt|Ge]; cbn in H.
  2:{ injection H as <-. exists order, idx. destruct C as (C1 & C2 & C3 & C4 & C5). split; [|lia]. repeat split; auto; apply C5. }
  destruct C as (C1 & C2 & (epochs & C3 & C3') & C4 & C5 & C6).
  assert (HC : exists order2 idx2 k2, (if length order <=? idx then (shuffle g (g_shuffles st) order, 0, S (g_shuffles st)) else (order, idx, g_shuffles st)) = (order2, idx2, k2)
     /\ Permutation all order2 /\ exists ep2, Forall (Permutation all) ep2 /\ g_ids st = concat ep2 ++ firstn idx2 order2).
  { destruct (length order <=? idx) eqn:El.
    - exists (shuffle g (g_shuffles st) order), 0, (S (g_shuffles st)). split; auto. split; [eapply perm_trans; [exact C1|apply Fsh]|].
      exists (epochs ++ [order]). split; [apply Forall_app; auto|]. rewrite concat_app. cbn. rewrite !app_nil_r.
      apply Nat.leb_le in El. rewrite C3', firstn_all2 by lia. auto.
    - exists order, idx, (g_shuffles st). split; auto. split; auto. exists epochs. auto. }
  destruct HC as (order2 & idx2 & k2 & Eo & P2 & ep2 & F2 & I2). rewrite Eo in H.
  destruct (nth_error order2 idx2) as [u|] eqn:Eu; [|discriminate].
  destruct (audio_of c spk u) as [[a rate]|] eqn:Ea; [|discriminate].
  assert (Lidx : S idx2 <= length order2) by (apply nth_error_Some; congruence).
  assert (I3 : g_ids st ++ [u] = concat ep2 ++ firstn (S idx2) order2) by (rewrite (firstn_S_nth _ _ _ Eu), I2, app_assoc; auto).
  assert (T3 : (total + Z.of_nat (length a))%Z = Z.of_nat (length (concat (g_segs st ++ [a])))).
  { rewrite concat_app, app_length. cbn. rewrite app_nil_r. lia. }
  apply IH in H; auto. split; auto. split; auto. split; [exists ep2; split; auto|]. split; [exact T3|]. cbn. split.
  - apply Forall2_app; auto. constructor; [eauto|constructor].
  - intros pre x E. apply app_inj_tail in E as [<- <-]. lia.
Qed.
Lemma load_fixed_spec c g target fuel k spk k' row ids : fair g -> (0 < target)%Z ->
  load_fixed_length_signal c g target fuel k spk = Some (Ok (k', row, ids)) -> fixed_row_for c (Z.to_nat target) spk ids row.
Proof.
  intros G T H. unfold load_fixed_length_signal in H. destruct (utts c spk) as [l|e] eqn:Eu; [|discriminate]. destruct l as [|u0 l']; [discriminate|]. set (l := u0 :: l') in *.
  destruct (fixed_loop _ _ _ _ _ _ _ _ _) as [[st|e]|] eqn:EL; try discriminate.
  apply (fixed_loop_spec c g target spk l) in EL; auto.
  - destruct EL as (o' & i' & (B1 & B2 & (ep & B3 & B4) & _ & B5 & B6) & A3).
    unfold cut in H. destruct (g_segs st) as [|s0 ss] eqn:Es; [discriminate|]. rewrite <- Es in *. 
    assert (E : (g_shuffles st, pyslice 0 target (concat (g_segs st)), g_ids st) = (k', row, ids)) by congruence. injection E as <- <- <-.
    rewrite pyslice_firstn by lia. split; [rewrite firstn_length; lia|]. exists l, (g_segs st). split; auto. split; [|split; [auto|split; [auto|]]].
    + exists (ep ++ [o']), (skipn i' o'). split; [apply Forall_app; auto|]. rewrite concat_app, B4. cbn. rewrite app_nil_r, <- app_assoc, firstn_skipn. auto.
    + intros pre a E. specialize (B6 pre a E). lia.
  - split; [apply (proj1 G)|]. split; [lia|]. cbn. split; [exists []; auto|]. split; auto. split; auto. intros [|] ? E; discriminate.
Qed.

(** ** Termination *)
Definition fhalts c g target spk order idx total st : Prop := exists fuel r, fixed_loop c g target spk fuel order idx total st = Some r.
Lemma fhalts_step c g target spk order idx total st u : nth_error order idx = Some u ->
  (forall a f, audio_of c spk u = Ok (a, f) ->
     fhalts c g target spk order (S idx) (total + Z.of_nat (length a)) (mkGot (g_shuffles st) None (g_segs st ++ [a]) (g_ids st ++ [u]))) ->
  fhalts c g target spk order idx total st.
Proof.
  intros Eu H. assert (L : length order <=? idx = false) by (apply Nat.leb_gt, nth_error_Some; congruence).
  destruct (total <? target)%Z eqn:Eg; [|exists 1; cbn; rewrite Eg; cbn; eauto].
  destruct (audio_of c spk u) as [[a rate]|e] eqn:Ea.
  - destruct (H a rate eq_refl) as (fuel & r & HL). exists (S fuel), r. cbn. rewrite Eg. cbn. rewrite L, Eu, Ea. auto.
  - exists 1. cbn. rewrite Eg. cbn. rewrite L, Eu, Ea. eauto.
Qed.
Lemma fhalts_wrap c g target spk order total st : order <> [] ->
  fhalts c g target spk (shuffle g (g_shuffles st) order) 0 total (mkGot (S (g_shuffles st)) (g_fs st) (g_segs st) (g_ids st)) ->
  length (shuffle g (g_shuffles st) order) = length order -> fhalts c g target spk order (length order) total st.
Proof.
  intros N (fuel & r & H) L. destruct fuel as [|n]; [discriminate|]. cbn in H.
  destruct (total <? target)%Z eqn:Eg; cbn in H.
  - exists (S n), r. cbn. rewrite Eg, Nat.leb_refl. cbn.
    rewrite L in H. assert (E : length order <=? 0 = false) by (apply Nat.leb_gt; destruct order; [contradiction|cbn; lia]). rewrite E in H. auto.
  - exists 1, (Ok st). cbn. rewrite Eg. auto.
Qed.
Lemma fhalts_some c g target spk all u0 : fair g -> In u0 all -> productive c spk u0 ->
  forall D order idx total st, Permutation all order -> idx <= length order ->
    (target <= total + Z.of_nat D)%Z -> fhalts c g target spk order idx total st.
Proof.
  intros [G _] I0 P0. induction D as [|D IHD]; intros order idx total st P L Ht.
  - exists 1. cbn. destruct (Z.ltb_spec total target); [lia|]. cbn. eauto.
  - assert (A : forall m order idx total st, m = length order - idx -> Permutation all order -> idx <= length order ->
       (target <= total + Z.of_nat (S D))%Z -> In u0 (skipn idx order) -> fhalts c g target spk order idx total st).
    { clear order idx total st P L Ht. induction m as [|m IHm]; intros order idx total st Em P L Ht Hu.
      - rewrite skipn_all2 in Hu by lia. destruct Hu.
      - destruct (nth_error order idx) as [u|] eqn:Eu; [|apply nth_error_None in Eu; lia].
        apply fhalts_step with (u := u); auto. intros a f' Ea. destruct a as [|x a].
        + apply IHm; auto; [lia|lia|cbn [length]; lia|].
          assert (Es : skipn idx order = u :: skipn (S idx) order).
          { clear -Eu. revert idx Eu. induction order as [|y order IH]; intros [|i] E; cbn in *; try discriminate; [congruence|]. apply IH. auto. }
          rewrite Es in Hu. destruct Hu as [->|Hu]; auto. destruct (P0 _ _ Ea). auto.
        + apply IHD; auto; [|cbn [length]; lia]. apply nth_error_Some. congruence. }
    remember (length order - idx) as m eqn:Em. revert order idx total st P L Ht Em. induction m as [|m IHm]; intros order idx total st P L Ht Em.
    + assert (idx = length order) by lia. subst idx.
      assert (Ls : length (shuffle g (g_shuffles st) order) = length order) by (symmetry; apply Permutation_length, G).
      assert (P' : Permutation all (shuffle g (g_shuffles st) order)) by (eapply perm_trans; [exact P|apply G]).
      apply fhalts_wrap; auto.
      * intros ->. apply Permutation_sym, Permutation_nil in P. subst all. destruct I0.
      * eapply A; [reflexivity|auto|lia|auto|]. cbn. eapply Permutation_in; eauto.
    + destruct (nth_error order idx) as [u|] eqn:Eu; [|apply nth_error_None in Eu; lia].
      apply fhalts_step with (u := u); auto. intros a f' Ea. apply IHm; auto; lia.
Qed.

(** * Normalisation *)
Local Open Scope R_scope.
Lemma fold_absmax l : forall b, b <= fold_left (fun m y => Rmax m (Rabs y)) l b /\ (forall y, In y l -> Rabs y <= fold_left (fun m y => Rmax m (Rabs y)) l b).
Proof.
  induction l as [|x l IH]; intros b; cbn; [split; [lra|intros y []]|]. destruct (IH (Rmax b (Rabs x))) as [A B]. split.
  - eapply Rle_trans; [apply Rmax_l|exact A].
  - intros y [<-|Hy]; [eapply Rle_trans; [apply Rmax_r|exact A]|auto].
Qed.
Lemma stem_peak_ge s p x : stem_peak s = Ok p -> In x s -> Rabs x <= p.
Proof.
  unfold stem_peak. destruct s as [|y l]; [discriminate|]. intros H Hx. apply Ok_inj in H. subst p. destruct (fold_absmax l (Rabs y)) as [A B].
  destruct Hx as [<-|Hx]; auto.
Qed.
Lemma fold_max_all l : forall b x, In x (b :: l) -> x <= fold_left Rmax l b.
Proof.
  induction l as [|y l IH]; intros b x H; cbn in *.
  - destruct H as [ -> |[]]; lra.
  - destruct H as [ -> |[ -> |H]].
    + eapply Rle_trans; [|apply IH; left; reflexivity]. apply Rmax_l.
    + eapply Rle_trans; [|apply IH; left; reflexivity]. apply Rmax_r.
    + apply IH. auto.
Qed.
Lemma fold_max_le l : forall b m, (forall x, In x (b :: l) -> x <= m) -> fold_left Rmax l b <= m.
Proof.
  induction l as [|y l IH]; intros b m H; cbn in *; [apply H; auto|]. apply IH. intros x [<-|Hx]; [apply Rmax_lub; apply H; auto|apply H; auto].
Qed.
Lemma fold_absmax_le l : forall b m, b <= m -> (forall y, In y l -> Rabs y <= m) -> fold_left (fun m y => Rmax m (Rabs y)) l b <= m.
Proof.
  induction l as [|y l IH]; intros b m Hb H; cbn; auto. apply IH; [apply Rmax_lub; auto; apply H; left; auto|intros; apply H; right; auto].
Qed.
Lemma stem_peak_le s p m : stem_peak s = Ok p -> (forall x, In x s -> Rabs x <= m) -> p <= m.
Proof.
  unfold stem_peak. destruct s as [|y l]; [discriminate|]. intros H Hx. apply Ok_inj in H. subst p. apply fold_absmax_le; [apply Hx; left; auto|intros; apply Hx; right; auto].
Qed.
Lemma normalize_spec limit stems out : 0 < limit -> normalize_sources limit stems = Ok out ->
  exists k, 0 < k <= 1 /\ out = map (map (fun x => x * k)) stems /\ (forall s x, In s out -> In x s -> Rabs x <= limit) /\
    ((forall s x, In s stems -> In x s -> Rabs x <= limit) -> k = 1) /\
    (forall k', 0 <= k' <= 1 -> (forall s x, In s stems -> In x s -> Rabs (x * k') <= limit) -> k' <= k).
Proof.
  intros L H. unfold normalize_sources in H. apply bind_ok in H as (peaks & Hp & H). destruct peaks as [|p ps]; [discriminate|].
  pose proof (mapM_length _ _ _ Hp) as Ln. set (peak := fold_left Rmax ps p) in *.
  assert (P : forall s x, In s stems -> In x s -> Rabs x <= peak).
  { intros s x Hs Hx. apply In_nth_error in Hs as [i Hi].
    assert (Li : (i < length stems)%nat) by (apply nth_error_Some; congruence).
    assert (K := mapM_nth stem_peak stems (p :: ps) i [] 0 Hp Li). rewrite (nth_error_nth _ _ _ Hi) in K.
    eapply Rle_trans; [eapply stem_peak_ge; eauto|]. apply fold_max_all. apply nth_In. lia. }
  assert (Q : forall m, (forall s x, In s stems -> In x s -> Rabs x <= m) -> peak <= m).
  { intros m Hm. apply fold_max_le. intros x Hx. apply In_nth with (d := 0) in Hx as (i & Li & <-). rewrite Ln in Li.
    eapply stem_peak_le; [apply (mapM_nth stem_peak stems (p :: ps) i [] 0 Hp Li)|]. intros y Hy. eapply Hm; [|exact Hy]. apply nth_In. auto. }
  assert (I1 : stems = map (map (fun x => x * 1)) stems).
  { symmetry. rewrite <- (map_id stems) at 2. apply map_ext. intros s. rewrite <- (map_id s) at 2. apply map_ext. intros. ring. }
  destruct (Rleb peak 0 || Rleb peak limit) eqn:E.
  - apply Ok_inj in H. subst out. exists 1. split; [lra|]. split; [auto|]. split; auto.
    { intros s x Hs Hx. eapply Rle_trans; [eapply P; eauto|]. apply orb_true_iff in E as [E|E]; apply rleb_true in E; lra. }
    split; auto. intros; lra.
  - apply orb_false_iff in E as [E1 E2]. apply rleb_false in E1, E2. apply Ok_inj in H. subst out. exists (limit / peak).
    assert (K : limit / peak * peak = limit) by (field; lra).
    assert (K0 : 0 < limit / peak) by (apply Rmult_lt_0_compat; auto; apply Rinv_0_lt_compat; auto).
    split; [split; [auto|nra]|]. split; [auto|]. split.
    + intros s x Hs Hx. apply in_map_iff in Hs as (s0 & <- & Hs). apply in_map_iff in Hx as (x0 & <- & Hx).
      rewrite Rabs_mult, (Rabs_pos_eq (limit / peak)) by lra. specialize (P _ _ Hs Hx). nra.
    + split; [intros Hm; specialize (Q _ Hm); lra|]. intros k' [[Z|Z] _] Hm; [|lra].
      assert (Pk : peak <= limit / k').
      { apply Q. intros s x Hs Hx. specialize (Hm s x Hs Hx). rewrite Rabs_mult, (Rabs_pos_eq k') in Hm by lra.
        apply (Rmult_le_reg_r k'); auto. replace (limit / k' * k') with limit by (field; lra). auto. }
      apply (Rmult_le_reg_r peak); auto. rewrite K. replace limit with (limit / k' * k') by (field; lra). rewrite (Rmult_comm k'). apply Rmult_le_compat_r; lra.
Qed.
Lemma mix_spec stems mix : mix_stems stems = Ok mix -> stems <> [] /\ (forall s, In s stems -> length s = length mix) /\
  forall i, (i < length mix)%nat -> nth i mix 0 = sum_at stems i.
Proof.
  unfold mix_stems. destruct stems as [|s rest]; [discriminate|]. destruct (forallb _ rest) eqn:E; [|discriminate]. intros H. apply Ok_inj in H. subst mix.
  rewrite length_tabulate. split; [discriminate|]. split.
  - intros t [<-|Ht]; auto. rewrite forallb_forall in E. apply Nat.eqb_eq. auto.
  - intros i Hi. rewrite nth_tabulate by auto. unfold sum_at. generalize (map (fun t => nth i t 0) (s :: rest)). induction l as [|x l IH]; cbn; congruence.
Qed.
Lemma mix_total stems n : stems <> [] -> (forall s, In s stems -> length s = n) -> exists mix, mix_stems stems = Ok mix.
Proof.
  intros N H. unfold mix_stems. destruct stems as [|s rest]; [contradiction|]. replace (forallb _ rest) with true; [eauto|].
  symmetry. apply forallb_forall. intros t Ht. apply Nat.eqb_eq. rewrite (H s), (H t); cbn; auto.
Qed.
Lemma normalize_total limit stems : stems <> [] -> (forall s, In s stems -> s <> []) -> exists out, normalize_sources limit stems = Ok out.
Proof.
  intros N H. unfold normalize_sources. destruct (mapM_total stem_peak stems) as [ps Hp].
  - intros s Hs. destruct s as [|x s]; [destruct (H [] Hs); auto|]. cbn. eauto.
  - rewrite Hp. cbn [bind]. apply mapM_length in Hp. destruct ps; [destruct stems; [contradiction|discriminate]|]. destruct (_ || _); eauto.
Qed.
Lemma sum_at_bound stems i m : (forall s x, In s stems -> In x s -> Rabs x <= m) -> 0 <= m -> Rabs (sum_at stems i) <= INR (length stems) * m.
Proof.
  unfold sum_at. intros H Hm. induction stems as [|s l IH]; [cbn; rewrite Rabs_R0; lra|].
  cbn [map fold_right]. change (length (s :: l)) with (S (length l)). rewrite S_INR.
  eapply Rle_trans; [apply Rabs_triang|]. assert (A : Rabs (nth i s 0) <= m).
  { destruct (nth_in_or_default i s 0) as [I| ->]; [apply (H s); [left; auto|auto]|rewrite Rabs_R0; auto]. }
  assert (B := IH (fun t x Ht Hx => H t x (or_intror Ht) Hx)). lra.
Qed.

(** * Axes *)
Lemma transpose2_get t a b i j : shape t = [a; b] -> (i < a)%nat -> (j < b)%nat -> tget (transpose2 t) [j; i] = tget t [i; j].
Proof.
  intros Sh Hi Hj. unfold transpose2. rewrite Sh. unfold tget at 1. cbn [shape data ravel prodn fold_right].
  replace (j * (a * 1) + (i * 1 + 0))%nat with (j * a + i)%nat by lia.
  assert (G : forall n off, (j < n)%nat -> nth (j * a + i) (flat_map (fun j => map (fun i => tget t [i; j]) (seq 0 a)) (seq off n)) 0 = tget t [i; (off + j)%nat]).
  { clear Hj. revert j. intros j n. revert j. induction n as [|n IH]; intros j off Hj; [lia|]. cbn [seq flat_map].
    destruct j as [|j].
    - rewrite app_nth1 by (rewrite map_length, seq_length; cbn; lia). cbn [Nat.mul Nat.add].
      rewrite nth_indep with (d' := tget t [0%nat; off]) by (rewrite map_length, seq_length; auto).
      rewrite (map_nth (fun i => tget t [i; off]) (seq 0 a) 0%nat i), seq_nth by auto. rewrite Nat.add_0_r. auto.
    - rewrite app_nth2 by (rewrite map_length, seq_length; cbn; lia). rewrite map_length, seq_length.
      replace (S j * a + i - a)%nat with (j * a + i)%nat by (cbn; lia). rewrite IH by lia. f_equal. f_equal. f_equal. lia. }
  rewrite G by auto. auto.
Qed.
