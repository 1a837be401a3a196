(** Moving entities: every time step of the dynamic simulation is a static simulation. *)
From Coq Require Import String List ZArith Reals Lia Lra Bool Permutation.
From Verif Require Import Prelude PreludeFacts SignalModel FloatModel DirModel ImageModel ImageSpec AcousticModel
  AccumModel IsmModel IsmSpec ImageProofs AccumProofs IsmProofs SimProofs SimMore SimLocal.
Import ListNotations.
Local Open Scope R_scope.
Local Notation length := List.length.

Lemma block_flat_rows {A} (f : nat -> list A) n k t : (forall i, (i < n)%nat -> length (f i) = k) -> (t < n)%nat ->
  block (t * k) k (flat_map f (seq 0 n)) = f t.
Proof.
  intros H Ht. replace n with (t + S (n - t - 1))%nat by lia.
  rewrite seq_app, flat_map_app. cbn [seq flat_map Nat.add].
  pose proof (length_flat_rows f t k 0 ltac:(intros; apply H; lia)) as L.
  rewrite <- L, <- (H t Ht). apply block_app_mid.
Qed.

(** Positions at step [t] of a (T, n, dim) or (T, dim) trajectory. *)
Definition step_tensor (traj : tensor) (t : nat) : tensor :=
  match shape traj with
  | [_; n; d] => mkT [n; d] (block (t * (n * d)) (n * d) (data traj))
  | [_; d] => mkT [1%nat; d] (block (t * d) d (data traj))
  | _ => traj
  end.

Lemma step_shape traj t T n d : shape (unsqueeze_traj traj) = [T; n; d] ->
  shape (unsqueeze1 (step_tensor traj t)) = [n; d] /\
  trows (unsqueeze1 (step_tensor traj t)) = step_rows (unsqueeze_traj traj) t.
Proof.
  unfold unsqueeze_traj, step_tensor. intros H.
  assert (E : shape traj = [T; n; d] \/ shape traj = [T; d] /\ n = 1%nat).
  { destruct (shape traj) as [|a [|b [|c [|e l]]]] eqn:E; cbn in H; try congruence.
    - injection H as <- <- <-. auto.
    - left. congruence. }
  destruct E as [E|[E ->]]; rewrite E; cbn [unsqueeze1 ndim shape length Nat.eqb].
  - split; auto. unfold unsqueeze1, ndim. cbn [shape length Nat.eqb]. rewrite (trows_2d _ n d) by reflexivity.
    unfold step_rows. rewrite E. cbn [nth data]. apply map_ext_in. intros i Hi. apply in_seq in Hi.
    rewrite block_block by nia. f_equal. lia.
  - split; auto. unfold unsqueeze1, ndim. cbn [shape length Nat.eqb]. rewrite (trows_2d _ 1 d) by reflexivity.
    unfold step_rows. cbn [nth data shape seq map]. rewrite block_block by lia. f_equal. f_equal. lia.
Qed.
Lemma validate_traj_inv src mic dim u : validate_traj_shapes src mic dim = Ok u ->
  exists T S M, shape src = [T; S; dim] /\ shape mic = [T; M; dim].
Proof.
  unfold validate_traj_shapes, ndim. intros H.
  destruct (shape src) as [|a [|b [|d [|e l]]]]; cbn in H; try discriminate.
  destruct (shape mic) as [|a' [|b' [|d' [|e l]]]]; cbn in H; try discriminate.
  destruct (Nat.eqb_spec a a'); cbn in H; [|discriminate].
  destruct (Nat.eqb_spec d dim); cbn in H; [|discriminate].
  destruct (Nat.eqb_spec d' dim); cbn in H; [|discriminate]. subst. eauto.
Qed.
Lemma prepare_step r src mic ori so mo size dim t :
  (do (so, mo) <- split_orientation ori; do size <- ensure_dim (r_size r);
   Ok (so, mo, data size, numel size)) = Ok (so, mo, size, dim) ->
  prepare_static r (ETensor (step_tensor src t)) (ETensor (step_tensor mic t)) ori =
  Ok (unsqueeze1 (step_tensor src t), unsqueeze1 (step_tensor mic t), so, mo, size, dim).
Proof.
  intros H. unfold prepare_static, prepare_entities.
  destruct ori as [|o|[|a [|b [|c l]]]]; cbn [split_orientation bind] in H |- *; try discriminate;
  (bcase_in H; injection H as <- <- <- <-; reflexivity).
Qed.
Lemma prepare_dynamic_inv r src mic ori s m so mo size dim :
  prepare_dynamic r src mic ori = Ok (s, m, so, mo, size, dim) ->
  s = unsqueeze_traj src /\ m = unsqueeze_traj mic /\
  (do (so, mo) <- split_orientation ori; do size <- ensure_dim (r_size r);
   Ok (so, mo, data size, numel size)) = Ok (so, mo, size, dim).
Proof.
  unfold prepare_dynamic. intros H. bcase_in H. destruct a as [a b]. bcase_in H. injection H as <- <- <- <- <- <-.
  cbn [bind]. auto.
Qed.
Lemma dynamic_blocks dev c n steps src mic S M size fs cc nv beta sp mp sd md rirs :
  dynamic_closed dev c n steps src mic S M size fs cc nv beta sp mp sd md = Ok rirs ->
  (forall t, length (src t) = S) -> (forall t, length (mic t) = M) ->
  length rirs = (steps * (S * M) * n)%nat /\ (0 < steps)%nat /\
  forall t, (t < steps)%nat ->
    static_closed dev c n (src t) (mic t) size fs cc nv beta sp mp sd md =
    Ok (block (t * (S * M) * n) (S * M * n) rirs).
Proof.
  unfold dynamic_closed, static_closed. intros H Hs Hm. bcase_in H. bcase_in H. cbn [bind].
  destruct (negb _) eqn:En; [discriminate|]. destruct (Nat.eqb_spec (steps * S * M) 0); [discriminate|].
  injection H as <-.
  assert (L : forall t, length (flat_map (fun s => flat_map (fun m =>
        map (pair_response dev c fs cc beta size nv (src_gain a s) (mic_gain a0 m)
              (nth s (src t) []) (nth m (mic t) [])) (seq 0 n))
        (seq 0 M)) (seq 0 S)) = (S * M * n)%nat) by (intros; apply length_rows2).
  split; [|split].
  - rewrite (length_flat_rows _ _ (S * M * n)); auto. lia.
  - nia.
  - intros t Ht. rewrite Hs, Hm, En. destruct (Nat.eqb_spec (S * M) 0); [nia|]. f_equal.
    replace (t * (S * M) * n)%nat with (t * (S * M * n))%nat by lia.
    symmetry. apply (block_flat_rows (fun t => flat_map (fun s => flat_map (fun m =>
        map (pair_response dev c fs cc beta size nv (src_gain a s) (mic_gain a0 m)
              (nth s (src t) []) (nth m (mic t) [])) (seq 0 n))
        (seq 0 M)) (seq 0 S))); auto.
Qed.
Lemma length_step_rows traj t T n d : shape traj = [T; n; d] -> length (step_rows traj t) = n.
Proof. intros H. unfold step_rows. rewrite H, map_length, seq_length. reflexivity. Qed.

Lemma dynamic_is_static X dev r src mic mo nb ns tmax dir ori cfg T : r_fs r <> 0 -> filt_length X ->
  simulate_dynamic_rir X dev r src mic mo nb ns tmax dir ori cfg = Ok T ->
  exists Tn S M n, (0 < Tn)%nat /\ xshape T = [Tn; S; M; n] /\ length (xdata T) = (Tn * (S * M * n))%nat /\
    forall t, (t < Tn)%nat ->
      simulate_rir X dev r (ETensor (step_tensor src t)) (ETensor (step_tensor mic t)) mo nb ns tmax None dir ori cfg
      = Ok (mkX [S; M; n] (block (t * (S * M * n)) (S * M * n) (xdata T))).
Proof.
  intros Hfs HX H. rewrite simulate_dynamic_closed in H by auto.
  bcase_in H. destruct a as [[[c N] tm] d]. bcase_in H. cbv zeta in H.
  bcase_in H. destruct a0 as [[[[[s0 m0] so] mo'] size] dim].
  apply prepare_dynamic_inv in E1 as (-> & -> & Ep).
  bcase_in H. apply validate_traj_inv in E1 as (Tn & S & M & Es & Em).
  rewrite Es, Em in H. cbn [nth] in H.
  bcase_in H. bcase_in H. bcase_in H. bcase_in H. destruct a4 as [sp mp]. bcase_in H. bcase_in H. bcase_in H.
  bcase_in H. injection H as <-. cbn [xshape xdata].
  apply dynamic_blocks in E7 as (L & HT & B); [|intros; eapply length_step_rows; eauto..].
  replace (Tn * S * M)%nat with (Tn * (S * M))%nat in E8 by lia.
  destruct (hpf_rows X _ _ _ _ _ _ HX L E8) as [L' R].
  exists Tn, S, M, (Z.to_nat a). split; auto. split; auto. split; [lia|].
  intros t Ht. rewrite simulate_rir_closed by auto. rewrite E. cbn [bind]. rewrite E0. cbn [bind]. cbv zeta.
  rewrite (prepare_step _ _ _ _ _ _ _ _ t Ep). cbn [bind].
  destruct (step_shape _ t _ _ _ Es) as [Es1 Es2]. destruct (step_shape _ t _ _ _ Em) as [Em1 Em2].
  unfold validate_pos_shapes, ndim. rewrite Es1, Em1. cbn [length nth]. rewrite !Nat.eqb_refl. cbn [andb negb bind].
  rewrite E1. cbn [bind]. rewrite E2. cbn [bind]. rewrite E3. cbn [bind]. rewrite E4. cbn [bind]. rewrite E5. cbn [bind].
  rewrite Es2, Em2. rewrite (length_step_rows _ t _ _ _ Es), (length_step_rows _ t _ _ _ Em).
  rewrite E6. cbn [bind]. rewrite B by auto. cbn [bind].
  rewrite R by nia. cbn [bind]. f_equal. f_equal. f_equal. lia.
Qed.

(** Conversely the dynamic simulation succeeds as soon as all its steps do. *)
Lemma static_gives_dynamic X dev r src mic mo nb ns tmax dir ori cfg Tn S M dim :
  r_fs r <> 0 -> filt_length X -> (0 < Tn)%nat ->
  shape (unsqueeze_traj src) = [Tn; S; dim] -> shape (unsqueeze_traj mic) = [Tn; M; dim] ->
  (forall t, (t < Tn)%nat -> exists R,
     simulate_rir X dev r (ETensor (step_tensor src t)) (ETensor (step_tensor mic t)) mo nb ns tmax None dir ori cfg = Ok R) ->
  exists T, simulate_dynamic_rir X dev r src mic mo nb ns tmax dir ori cfg = Ok T.
Proof.
  intros Hfs HX HT Es Em H. rewrite simulate_dynamic_closed by auto.
  assert (H' := H). destruct (H' 0%nat HT) as (R0 & H0). clear H'. rewrite simulate_rir_closed in H0 by auto.
  bcase_in H0. destruct a as [[[c N] tm] d]. cbn [bind]. bcase_in H0. cbn [bind]. cbv zeta in *.
  bcase_in H0. destruct a0 as [[[[[s0 m0] so] mo'] size] dim'].
  assert (Ep : (do (so, mo) <- split_orientation ori; do size <- ensure_dim (r_size r);
   Ok (so, mo, data size, numel size)) = Ok (so, mo', size, dim')
   /\ s0 = unsqueeze1 (step_tensor src 0) /\ m0 = unsqueeze1 (step_tensor mic 0)).
  { clear -E1. unfold prepare_static, prepare_entities in E1.
    destruct ori as [|o|[|x [|y [|z l]]]]; cbn [split_orientation bind] in E1 |- *; try discriminate;
    (bcase_in E1; injection E1 as <- <- <- <- <- <-; auto). }
  destruct Ep as (Ep & -> & ->).
  assert (Epd : prepare_dynamic r src mic ori = Ok (unsqueeze_traj src, unsqueeze_traj mic, so, mo', size, dim')).
  { unfold prepare_dynamic. bcase_in Ep. destruct a0. cbn [bind]. bcase_in Ep. cbn [bind]. congruence. }
  rewrite Epd. cbn [bind].
  destruct (step_shape _ 0%nat _ _ _ Es) as [Es1 Es2]. destruct (step_shape _ 0%nat _ _ _ Em) as [Em1 Em2].
  bcase_in H0. unfold validate_pos_shapes, ndim in E2. rewrite Es1, Em1 in E2. cbn [length nth Nat.eqb andb] in E2.
  destruct (Nat.eqb_spec dim dim'); [|discriminate]. subst dim'.
  unfold validate_traj_shapes, ndim. rewrite Es, Em. cbn [length nth]. rewrite !Nat.eqb_refl. cbn [Nat.eqb andb negb bind].
  bcase_in H0. cbn [bind]. bcase_in H0. cbn [bind]. bcase_in H0. cbn [bind].
  bcase_in H0. destruct a4 as [sp mp]. cbn [bind]. bcase_in H0. cbn [bind].
  rewrite Es2, (length_step_rows _ _ _ _ _ Es) in H0. bcase_in H0. cbn [bind].
  bcase_in H0. clear H0.
  assert (Ed : exists rirs, dynamic_closed dev c (Z.to_nat a) Tn (step_rows (unsqueeze_traj src)) (step_rows (unsqueeze_traj mic))
     S M size (r_fs r) (r_c r) a3 a2 sp mp a5 a4 = Ok rirs).
  { clear -E9 HT Em Em2 Es. unfold static_closed in E9. unfold dynamic_closed.
    rewrite Em2, (length_step_rows _ _ _ _ _ Em), (length_step_rows _ _ _ _ _ Es) in E9.
    bcase_in E9. cbn [bind]. bcase_in E9. cbn [bind]. destruct (negb _); [discriminate|].
    destruct (Nat.eqb_spec (S * M) 0); [discriminate|]. destruct (Nat.eqb_spec (Tn * S * M) 0); [nia|]. eauto. }
  destruct Ed as (rirs & Ed). rewrite Ed. cbn [bind].
  apply dynamic_blocks in Ed as (L & _ & B); [|intros; eapply length_step_rows; eauto..].
  replace (Tn * S * M)%nat with (Tn * (S * M))%nat by lia.
  destruct (hpf_join X Tn (S * M) (Z.to_nat a) rirs (r_fs r) c HX L HT) as (out & Eo).
  - intros t Ht. destruct (H t Ht) as (R & HR). rewrite simulate_rir_closed in HR by auto.
    rewrite E in HR. cbn [bind] in HR. rewrite E0 in HR. cbn [bind] in HR. cbv zeta in HR.
    rewrite (prepare_step _ _ _ _ _ _ _ _ t Ep) in HR. cbn [bind] in HR.
    destruct (step_shape _ t _ _ _ Es) as [Es1' Es2']. destruct (step_shape _ t _ _ _ Em) as [Em1' Em2'].
    unfold validate_pos_shapes, ndim in HR. rewrite Es1', Em1' in HR. cbn [length nth] in HR.
    rewrite !Nat.eqb_refl in HR. cbn [andb negb bind] in HR.
    rewrite E3 in HR. cbn [bind] in HR. rewrite E4 in HR. cbn [bind] in HR. rewrite E5 in HR. cbn [bind] in HR.
    rewrite E6 in HR. cbn [bind] in HR. rewrite E7 in HR. cbn [bind] in HR.
    rewrite Es2', Em2' in HR. rewrite (length_step_rows _ t _ _ _ Es), (length_step_rows _ t _ _ _ Em) in HR.
    rewrite E8 in HR. cbn [bind] in HR. rewrite B in HR by auto. cbn [bind] in HR. bcase_in HR.
    exists a7. rewrite <- E10. do 2 f_equal. lia.
  - rewrite Eo. cbn [bind]. eauto.
Qed.
