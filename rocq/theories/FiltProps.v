(** The symmetries C16, C17 and C73 with the high-pass filter switched on (the default). *)
From Coq Require Import String List ZArith Reals Lia Lra Bool Permutation.
From Verif Require Import Prelude PreludeFacts SignalModel FloatModel DirModel ImageModel ImageSpec AcousticModel
  AccumModel IsmModel IsmSpec ImageProofs IsmProofs SimProofs SimMore SimLocal SimArrival SimStages SymSpec SymProofs
  IsmProps StageProps SymProps.
Import ListNotations.
Local Open Scope R_scope.
Local Notation length := List.length.

Lemma without_filter X dev r srcs mics mo nb ns tmax tdiff dir ori c T :
  simulate_rir X dev r srcs mics mo nb ns tmax tdiff dir ori (Some c) = Ok T ->
  exists T0, simulate_rir X dev r srcs mics mo nb ns tmax tdiff dir ori (Some (with_hpf c false)) = Ok T0.
Proof. rewrite hpf_last. intros H. bcase_in H. eauto. Qed.

Lemma same_filtered X dev r srcs mics mo nb ns tmax tdiff dir ori r' srcs' mics' nb' c T0 T :
  r_fs r' = r_fs r ->
  simulate_rir X dev r srcs mics mo nb ns tmax tdiff dir ori (Some (with_hpf c false)) = Ok T0 ->
  simulate_rir X dev r' srcs' mics' mo nb' ns tmax tdiff dir ori (Some (with_hpf c false)) = Ok T0 ->
  simulate_rir X dev r srcs mics mo nb ns tmax tdiff dir ori (Some c) = Ok T ->
  simulate_rir X dev r' srcs' mics' mo nb' ns tmax tdiff dir ori (Some c) = Ok T.
Proof.
  intros E E0 E1 H. rewrite (hpf_last X dev r), E0 in H. rewrite (hpf_last X dev r'), E1, E. exact H.
Qed.

(** ** C16 *)
Theorem C16_reciprocity_filtered : forall X dev r a b N nb n c dim beta T,
  scene r a b dim beta -> wf (entity_pos a) -> wf (entity_pos b) -> filt_length X ->
  simulate_rir X dev r a b (Some N) nb (Some (Z.of_nat n)) None None (Some (DName "omni")) ONone (Some c) = Ok T ->
  exists T',
    simulate_rir X dev r b a (Some N) nb (Some (Z.of_nat n)) None None (Some (DName "omni")) ONone (Some c) = Ok T' /\
    xshape T = [count a; count b; n] /\ xshape T' = [count b; count a; n] /\
    forall s m j, (s < count a)%nat -> (m < count b)%nat -> (j < n)%nat ->
      xget T' [m; s; j] = xget T [s; m; j].
Proof.
  intros X dev r a b N nb n c dim beta T Hsc Wa Wb HX H.
  destruct (cfg_hpf_enable c) eqn:Hh; [|apply (C16_reciprocity X dev r a b N nb n c dim beta); auto].
  pose proof (sc_fs _ _ _ _ _ Hsc) as Hfs. pose proof (sc_size_wf _ _ _ _ _ Hsc) as Hw.
  destruct (C32_simulation X dev r a b _ _ _ _ _ _ _ c T Hfs HX Hw Hh H) as (T0 & S & M & n0 & f & E0 & Sh0 & Sh & Ef & R).
  destruct (C16_reciprocity X dev r a b N nb n (with_hpf c false) dim beta T0 Hsc Wa Wb eq_refl E0) as (T0' & E0' & Q1 & Q2 & Q).
  rewrite Sh0 in Q1. injection Q1 as -> -> ->.
  assert (Hsc' : scene r b a dim beta) by (destruct Hsc; constructor; auto).
  destruct (omni_ok_inv X dev r a b N nb n (with_hpf c false) dim beta T0 Hsc eq_refl E0) as (_ & _ & Hn & _ & _ & _ & L0 & _).
  destruct (omni_ok_inv X dev r b a N nb n (with_hpf c false) dim beta T0' Hsc' eq_refl E0') as (_ & _ & _ & _ & _ & _ & L0' & _).
  pose proof (sc_src0 _ _ _ _ _ Hsc) as C0. pose proof (sc_mic0 _ _ _ _ _ Hsc) as C1.
  assert (Rw : forall s m, (s < count a)%nat -> (m < count b)%nat ->
    block ((m * count a + s) * n) n (xdata T0') = block ((s * count b + m) * n) n (xdata T0)).
  { intros s m Hs Hm.
    assert (B1 : ((m * count a + s) * n + n <= length (xdata T0'))%nat).
    { rewrite L0'. assert (m * count a + s + 1 <= count b * count a)%nat by nia. nia. }
    assert (B2 : ((s * count b + m) * n + n <= length (xdata T0))%nat).
    { rewrite L0. assert (s * count b + m + 1 <= count a * count b)%nat by nia. nia. }
    apply (nth_ext _ _ None None); rewrite !length_block; auto.
    intros j Hj. rewrite !nth_block by auto. specialize (Q s m j Hs Hm Hj). unfold xget in Q.
    rewrite Q2, Sh0 in Q. cbn [ravel prodn fold_right] in Q.
    replace ((m * count a + s) * n + j)%nat with (m * (count a * (n * 1)) + (s * (n * 1) + (j * 1 + 0)))%nat by nia.
    replace ((s * count b + m) * n + j)%nat with (s * (count b * (n * 1)) + (m * (n * 1) + (j * 1 + 0)))%nat by nia.
    exact Q. }
  assert (Ok' : exists T', simulate_rir X dev r b a (Some N) nb (Some (Z.of_nat n)) None None (Some (DName "omni")) ONone
            (Some c) = Ok T').
  { rewrite hpf_last, E0'. cbn [bind]. rewrite Q2. cbn [nth].
    rewrite hpf_last, E0 in H. cbn [bind] in H. bcase_in H. clear H.
    unfold apply_rir_hpf, design_hpf_sos in *. rewrite Hh in *. cbn [negb] in *. destruct (negb (_ && _)); [discriminate|].
    replace (cfg_hpf_fc c / (r_fs r / 2)) with (2 * cfg_hpf_fc c / r_fs r) in Ef by (field; lra).
    rewrite Ef. cbn [bind].
    assert (G : forall l, (forall i, In i l -> (i < count b * count a)%nat) ->
      exists os, mapM (fun i => x_filt X f (block (i * n) n (xdata T0'))) l = Ok os).
    { induction l as [|i l IH]; intros Hl; [exists []; reflexivity|]. cbn [mapM].
      assert (Hi : (i < count b * count a)%nat) by auto with datatypes.
      assert (D : i = (i / count a * count a + i mod count a)%nat).
      { rewrite (Nat.div_mod_eq i (count a)) at 1. lia. }
      assert (D1 : (i mod count a < count a)%nat) by (apply Nat.mod_upper_bound; lia).
      assert (D2 : (i / count a < count b)%nat) by (apply Nat.div_lt_upper_bound; lia).
      assert (B : block (i * n) n (xdata T0') = block ((i mod count a * count b + i / count a) * n) n (xdata T0)).
      { rewrite <- Rw by auto. rewrite <- D. reflexivity. }
      rewrite B, R by auto. cbn [bind].
      destruct IH as (os & ->); auto with datatypes. cbn [bind]. eauto. }
    destruct (G (seq 0 (count b * count a))) as (os & ->); [intros i Hi; apply in_seq in Hi; lia|]. cbn [bind]. eauto. }
  destruct Ok' as (T' & E'). exists T'. split; auto. split; auto.
  destruct (C32_simulation X dev r b a _ _ _ _ _ _ _ c T' Hfs HX Hw Hh E') as (T1 & S1 & M1 & n1 & f1 & F0 & Shb & Sh' & Ef1 & R').
  assert (T1 = T0') as -> by congruence. rewrite Q2 in Shb. injection Shb as <- <- <-.
  assert (f1 = f) as -> by congruence. split; auto.
  intros s m j Hs Hm Hj. specialize (R s m Hs Hm). specialize (R' m s Hm Hs). rewrite (Rw s m Hs Hm), R in R'.
  injection R' as R'. unfold xget. rewrite Sh, Sh'. cbn [ravel prodn fold_right].
  assert (A : nth j (block ((s * count b + m) * n) n (xdata T)) None = nth j (block ((m * count a + s) * n) n (xdata T')) None) by congruence.
  rewrite !nth_block in A by auto.
  replace (m * (count a * (n * 1)) + (s * (n * 1) + (j * 1 + 0)))%nat with ((m * count a + s) * n + j)%nat by nia.
  replace (s * (count b * (n * 1)) + (m * (n * 1) + (j * 1 + 0)))%nat with ((s * count b + m) * n + j)%nat by nia.
  auto.
Qed.

(** ** C17 *)
Theorem C17_mirror_filtered : forall X dev r srcs mics srcs' mics' N nb n c dim beta i T,
  let r' := mkRoom (r_size r) (r_fs r) (r_c r) (Some (swap_walls i beta)) None in
  scene r srcs mics dim beta -> wf (entity_pos srcs) -> wf (entity_pos mics) -> (i < dim)%nat ->
  shape (unsqueeze1 (entity_pos srcs')) = [count srcs; dim] ->
  shape (unsqueeze1 (entity_pos mics')) = [count mics; dim] ->
  (forall s, (s < count srcs)%nat -> position srcs' s = mirrored i (data (r_size r)) (position srcs s)) ->
  (forall m, (m < count mics)%nat -> position mics' m = mirrored i (data (r_size r)) (position mics m)) ->
  simulate_rir X dev r srcs mics (Some N) nb (Some (Z.of_nat n)) None None (Some (DName "omni")) ONone (Some c) = Ok T ->
  simulate_rir X dev r' srcs' mics' (Some N) nb (Some (Z.of_nat n)) None None (Some (DName "omni")) ONone (Some c) = Ok T.
Proof.
  intros X dev r srcs mics srcs' mics' N nb n c dim beta i T r' Hsc Wa Wb Hi S1 S2 P1 P2 H.
  destruct (without_filter _ _ _ _ _ _ _ _ _ _ _ _ _ _ H) as (T0 & E0).
  apply (same_filtered X dev r srcs mics (Some N) nb _ _ _ _ _ r' srcs' mics' nb c T0 T); auto.
  apply (C17_mirror X dev r srcs mics srcs' mics' N nb n (with_hpf c false) dim beta i T0); auto.
Qed.

(** ** C73 *)
Theorem C73_axes_filtered : forall X dev r srcs mics srcs' mics' N nb n c dim beta p T,
  let r' := mkRoom (mkT [dim] (permute 0 p (data (r_size r)))) (r_fs r) (r_c r) (Some (permute_walls p beta)) None in
  scene r srcs mics dim beta -> wf (entity_pos srcs) -> wf (entity_pos mics) -> Permutation p (seq 0 dim) ->
  shape (unsqueeze1 (entity_pos srcs')) = [count srcs; dim] ->
  shape (unsqueeze1 (entity_pos mics')) = [count mics; dim] ->
  (forall s, (s < count srcs)%nat -> position srcs' s = permute 0 p (position srcs s)) ->
  (forall m, (m < count mics)%nat -> position mics' m = permute 0 p (position mics m)) ->
  simulate_rir X dev r srcs mics (Some N) nb (Some (Z.of_nat n)) None None (Some (DName "omni")) ONone (Some c) = Ok T ->
  simulate_rir X dev r' srcs' mics' (Some N) (option_map (permute 0%Z p) nb) (Some (Z.of_nat n)) None None
    (Some (DName "omni")) ONone (Some c) = Ok T.
Proof.
  intros X dev r srcs mics srcs' mics' N nb n c dim beta p T r' Hsc Wa Wb Hp S1 S2 P1 P2 H.
  destruct (without_filter _ _ _ _ _ _ _ _ _ _ _ _ _ _ H) as (T0 & E0).
  apply (same_filtered X dev r srcs mics (Some N) nb _ _ _ _ _ r' srcs' mics' _ c T0 T); auto.
  apply (C73_axes X dev r srcs mics srcs' mics' N nb n (with_hpf c false) dim beta p T0); auto.
Qed.

(** A filter that doubles every sample, in a room sampled at 100 Hz. *)
Definition doubling : externals :=
  mkExt unit (fun _ _ => Ok tt) (fun _ l => Ok (map (xscale 2) l)) (fun _ n => repeat 0 n).
Definition ex_room100 : room := mkRoom (mkT [2%nat] [10; 10]) 100 50 (Some [/2; /3; /5; /7]) None.
Lemma ex_scene100 : scene ex_room100 ex_src ex_mic 2 [/2; /3; /5; /7].
Proof. constructor; cbn; auto; try lra; try lia. reflexivity. Qed.
Lemma doubling_length : filt_length doubling.
Proof. intros s row out H. injection H as <-. apply map_length. Qed.
Lemma ex_filtered : exists T,
  simulate_rir doubling Cpu ex_room100 ex_src ex_mic (Some 1%Z) None (Some 20%Z) None None (Some (DName "omni")) ONone
    (Some (with_hpf ex_cfg true)) = Ok T.
Proof.
  rewrite hpf_last.
  pose proof (simulate_omni doubling Cpu ex_room100 ex_src ex_mic 1 None 20 (with_hpf (with_hpf ex_cfg true) false) 2 _ _
    ex_scene100 ex_cfg_valid eq_refl ltac:(lia) ltac:(lia) eq_refl) as H.
  change (Z.of_nat 20) with 20%Z in H. rewrite H. cbn [bind].
  match goal with |- exists T, (do out <- apply_rir_hpf _ _ ?rows ?n ?rir ?fs ?c; _) = _ =>
    destruct (C32_cutoff_accepted doubling rows n rir fs c) as (out & Eo) end.
  - cbn; lra.
  - reflexivity.
  - cbn; lra.
  - intros; exists tt; reflexivity.
  - intros; eexists; reflexivity.
  - rewrite Eo. cbn [bind]. eauto.
Qed.
Example C16_filtered_example : exists T T',
  simulate_rir doubling Cpu ex_room100 ex_src ex_mic (Some 1%Z) None (Some 20%Z) None None (Some (DName "omni")) ONone
    (Some (with_hpf ex_cfg true)) = Ok T /\
  simulate_rir doubling Cpu ex_room100 ex_mic ex_src (Some 1%Z) None (Some 20%Z) None None (Some (DName "omni")) ONone
    (Some (with_hpf ex_cfg true)) = Ok T' /\
  xget T' [0; 0; 11]%nat = xget T [0; 0; 11]%nat.
Proof.
  destruct ex_filtered as (T & H).
  destruct (C16_reciprocity_filtered doubling Cpu ex_room100 ex_src ex_mic 1 None 20 (with_hpf ex_cfg true) 2 _ T
    ex_scene100 eq_refl eq_refl doubling_length H) as (T' & H' & _ & _ & Q).
  exists T, T'. repeat split; auto. apply Q; cbn; lia.
Qed.
Example C73_filtered_example : exists T,
  simulate_rir doubling Cpu ex_room100 ex_src ex_mic (Some 1%Z) None (Some 20%Z) None None (Some (DName "omni")) ONone
    (Some (with_hpf ex_cfg true)) = Ok T /\
  simulate_rir doubling Cpu (mkRoom (mkT [2%nat] [10; 10]) 100 50 (Some [/5; /7; /2; /3]) None)
    (ETensor (mkT [1%nat; 2%nat] [1; 1])) (ETensor (mkT [1%nat; 2%nat] [5; 4]))
    (Some 1%Z) None (Some 20%Z) None None (Some (DName "omni")) ONone (Some (with_hpf ex_cfg true)) = Ok T.
Proof.
  destruct ex_filtered as (T & H). exists T. split; auto.
  apply (C73_axes_filtered doubling Cpu ex_room100 ex_src ex_mic _ _ 1 None 20 (with_hpf ex_cfg true) 2 _ [1; 0]%nat T ex_scene100); try reflexivity; auto.
  - apply perm_swap.
  - intros s Hs. cbn in Hs. replace s with 0%nat by lia. reflexivity.
  - intros s Hs. cbn in Hs. replace s with 0%nat by lia. reflexivity.
Qed.
Example C17_filtered_example : exists T,
  simulate_rir doubling Cpu ex_room100 ex_src ex_mic (Some 1%Z) None (Some 20%Z) None None (Some (DName "omni")) ONone
    (Some (with_hpf ex_cfg true)) = Ok T /\
  simulate_rir doubling Cpu (mkRoom (mkT [2%nat] [10; 10]) 100 50 (Some [/2; /3; /7; /5]) None)
    (ETensor (mkT [1%nat; 2%nat] [1; 9])) (ETensor (mkT [1%nat; 2%nat] [4; 5]))
    (Some 1%Z) None (Some 20%Z) None None (Some (DName "omni")) ONone (Some (with_hpf ex_cfg true)) = Ok T.
Proof.
  destruct ex_filtered as (T & H). exists T. split; auto.
  apply (C17_mirror_filtered doubling Cpu ex_room100 ex_src ex_mic _ _ 1 None 20 (with_hpf ex_cfg true) 2 _ 1 T ex_scene100); try reflexivity; auto.
  - intros s Hs. cbn in Hs. replace s with 0%nat by lia. cbn. do 2 f_equal. lra.
  - intros s Hs. cbn in Hs. replace s with 0%nat by lia. cbn. do 2 f_equal. lra.
Qed.
Print Assumptions C16_reciprocity_filtered.
Print Assumptions C17_mirror_filtered.
Print Assumptions C73_axes_filtered.
