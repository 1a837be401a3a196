(** Lemmas for C100. *)
From Coq Require Import String List ZArith Reals Lia Lra Bool Permutation.
From Verif Require Import Prelude PreludeFacts SignalModel SignalSpec ConvProofs FloatModel DirModel ImageModel ImageSpec AcousticModel
  AccumModel IsmModel IsmSpec ImageProofs AccumProofs IsmProofs SimProofs SimMore SimLocal SimSteps SimPairs SimArrival KernelProofs ContSpec ContProofs IsmProps ContProps ConvMore AlgProofs LoopModel RecSpec RecProofs MovSpec.
From Verif Require StageProps SignalProps.
Import ListNotations.
Local Open Scope R_scope.
Local Notation length := List.length.
Local Notation rsum := Prelude.rsum.
Local Notation at_step traj t := (ETensor (step_tensor traj t)).

Lemma moving_scene r src mic steps ns nm dim beta : moving r src mic steps ns nm dim beta ->
  forall t, scene r (at_step src t) (at_step mic t) dim beta /\ count (at_step src t) = ns /\ count (at_step mic t) = nm.
Proof.
  intros [] t. destruct (step_shape _ t _ _ _ mv_src) as (A & _). destruct (step_shape _ t _ _ _ mv_mic) as (B & _).
  assert (Cs : count (at_step src t) = ns) by (unfold count; cbn [entity_pos]; rewrite A; reflexivity).
  assert (Cm : count (at_step mic t) = nm) by (unfold count; cbn [entity_pos]; rewrite B; reflexivity).
  split; [|auto]. constructor; auto; rewrite ?Cs, ?Cm; auto.
Qed.
(** Four indices as three. *)
Lemma all_get4 T A S M n : xshape T = [A; S; M; n] -> length (xdata T) = (A * (S * M * n))%nat ->
  (forall t s m j, (t < A)%nat -> (s < S)%nat -> (m < M)%nat -> (j < n)%nat -> exists v, xget T [t; s; m; j] = Some v) -> all_numbers T = Some (reals_of T).
Proof.
  intros Sh L F. assert (G : all_numbers (mkX [(A * S)%nat; M; n] (xdata T)) = Some (reals_of (mkX [(A * S)%nat; M; n] (xdata T)))).
  { apply (all_get _ (A * S) M n); [reflexivity|cbn [xdata]; rewrite L; ring|]. intros q m j Hq Hm Hj. assert (P : (0 < S)%nat) by nia.
    destruct (F (q / S) (q mod S) m j)%nat as (v & V); auto; [apply Nat.div_lt_upper_bound; lia|apply Nat.mod_upper_bound; lia|].
    exists v. rewrite <- V. unfold xget. rewrite Sh. cbn [xshape xdata]. f_equal. cbn [ravel prodn fold_right]. pose proof (Nat.div_mod q S ltac:(lia)). nia. }
  unfold all_numbers in *. cbn [xdata] in G. destruct (forallb _ _); [reflexivity|discriminate].
Qed.

Section Moving.
  Variables (X : externals) (dev : device_type) (r : room) (src mic : tensor) (N : Z) (n : nat) (c : config) (steps ns nm dim : nat) (beta : list R) (T : xtensor).
  Hypothesis (Mv : moving r src mic steps ns nm dim beta) (Hh : cfg_hpf_enable c = false) (Fl : filt_length X)
    (H : simulate_dynamic_rir X dev r src mic (Some N) None (Some (Z.of_nat n)) None (Some (DName "omni")) ONone (Some c) = Ok T).
  (** Every step is a simulation of its own. *)
  Lemma moving_steps : (0 <= N)%Z /\ (0 < n)%nat /\ cfg_validate c = Ok tt /\ xshape T = [steps; ns; nm; n] /\ length (xdata T) = (steps * (ns * nm * n))%nat /\
    forall t, (t < steps)%nat -> exists T0,
      simulate_rir X dev r (at_step src t) (at_step mic t) (Some N) None (Some (Z.of_nat n)) None None (Some (DName "omni")) ONone (Some c) = Ok T0 /\
      forall s m j, (s < ns)%nat -> (m < nm)%nat -> (j < n)%nat -> xget T [t; s; m; j] = xget T0 [s; m; j].
  Proof.
    assert (Fn : r_fs r <> 0) by (pose proof (mv_fs _ _ _ _ _ _ _ _ Mv); lra).
    destruct (C25_dynamic_is_static _ _ _ _ _ _ _ _ _ _ _ _ _ Fn Fl H) as (Tn & S & M & n' & HT & Sh & L & Each).
    destruct (StageProps.C33_dynamic_shape _ _ _ _ _ _ _ _ _ _ _ _ _ H) as (Tn' & S' & M' & n2 & d' & H1 & H2 & H3 & _).
    rewrite Sh in H3. injection H3 as <- <- <- <-. rewrite (mv_src _ _ _ _ _ _ _ _ Mv) in H1. injection H1 as <- <- <-. rewrite (mv_mic _ _ _ _ _ _ _ _ Mv) in H2. injection H2 as <-.
    destruct (moving_scene _ _ _ _ _ _ _ _ Mv 0) as (Sc & Cs & Cm).
    destruct (omni_ok_inv _ _ _ _ _ _ _ _ _ _ _ _ Sc Hh (Each 0%nat HT)) as (Hv & HN & Hn & l & _ & Sh0 & _). cbn [xshape] in Sh0. injection Sh0 as _ _ En. subst n'.
    split; [exact HN|]. split; [lia|]. split; [exact Hv|]. split; [exact Sh|]. split; [exact L|]. intros t Ht. eexists. split; [apply Each; auto|].
    intros s m j Hs Hm Hj. unfold xget. rewrite Sh. cbn [xshape xdata]. rewrite nth_block.
    - f_equal. cbn [ravel prodn fold_right]. ring.
    - cbn [ravel prodn fold_right]. assert (Q1 : (s * nm + m < ns * nm)%nat) by nia. assert (Q2 : ((s * nm + m) * n + j < ns * nm * n)%nat) by nia. lia.
  Qed.
  Variables (dc : device_type) (x : tensor) (ts : option tensor) (fs : option R) (k : nat -> nat).
  Hypothesis (P : plays x ns) (K : played_at dc (sig_len x) steps ts fs k).
  Lemma moving_recorded (f : nat -> nat -> nat -> nat -> R) :
    (forall t s m j, (t < steps)%nat -> (s < ns)%nat -> (m < nm)%nat -> (j < n)%nat -> xget T [t; s; m; j] = Some (f t s m j)) ->
    exists h t, all_numbers T = Some h /\ convolve_trajectory dc x h ts fs = Ok t /\
      is_output t nm (sig_len x + n - 1) (fun m j => rsum ns (fun s => tv_conv (sig_view x s) k (fun t => zext n (f t s m)) j)).
  Proof.
    intros F. destruct moving_steps as (HN & Hn & Hv & Sh & Ld & _). destruct P as (P1 & P2 & P3 & P4). destruct K as (starts & K1 & K2 & K3 & K4).
    assert (A : all_numbers T = Some (reals_of T)) by (eapply all_get4; eauto; intros; eexists; apply F; auto).
    assert (Sr : shape (reals_of T) = [steps; ns; nm; n]) by exact Sh.
    assert (W : wf (reals_of T)).
    { unfold wf. rewrite Sr. unfold reals_of. cbn [data]. transitivity (length (xdata T)); [apply map_length|]. rewrite Ld. unfold prodn. cbn [fold_right]. ring. }
    destruct (SignalProps.C04_trajectory_time_varying dc x (reals_of T) ts fs starts k) as (t & E & O).
    - unfold dyn_ranks_ok, dyn_rank_ok, ndim. rewrite Sr. cbn [length]. split; [exact P1|]. split; [auto|]. discriminate.
    - exact P2.
    - exact W.
    - unfold rir_len. rewrite Sr. cbn [last]. exact Hn.
    - unfold dyn_srcs. rewrite Sr. exact P4.
    - unfold dyn_steps. rewrite Sr. exact K1.
    - unfold dyn_steps. rewrite Sr. exact K2.
    - exact K3.
    - exact K4.
    - exists (reals_of T), t. split; [exact A|]. split; [exact E|]. unfold dyn_mics, rir_len, dyn_srcs in O. rewrite Sr in O. cbn [last] in O. destruct O as (O1 & O2 & O3). split; [exact O1|]. split; [exact O2|].
      intros m j Hm Hj. rewrite O3 by auto. apply PreludeFacts.rsum_ext. intros s Ss. unfold tv_conv. apply PreludeFacts.rsum_ext. intros tau _.
      destruct (Nat.lt_ge_cases tau (sig_len x)) as [Q|Q]; [|rewrite sig_view_zero by auto; ring]. f_equal. destruct (K4 tau Q) as (Kt & _). rewrite K2 in Kt.
      unfold dyn_view. rewrite Sr. unfold zext. destruct (Nat.ltb_spec (j - tau) n); [|reflexivity]. apply get_real, F; auto.
  Qed.
End Moving.
Lemma rsum_cut a b (f : nat -> R) : (forall i, (b <= i)%nat -> f i = 0) -> (b <= a)%nat -> rsum a f = rsum b f.
Proof.
  intros Z L. induction a as [|a IH]; [replace b with 0%nat by lia; reflexivity|]. destruct (Nat.eq_dec b (S a)) as [->|]; [reflexivity|].
  cbn [Prelude.rsum]. rewrite IH, Z by lia. ring.
Qed.
Lemma rsum_same a b (f g : nat -> R) : (forall i, (i < a)%nat -> (i < b)%nat -> f i = g i) -> (forall i, (b <= i)%nat -> (i < a)%nat -> f i = 0) -> (forall i, (a <= i)%nat -> (i < b)%nat -> g i = 0) ->
  rsum a f = rsum b g.
Proof.
  intros E F G. set (m := Nat.min a b).
  assert (A : rsum a f = rsum m f). { rewrite (PreludeFacts.rsum_ext a f (fun i => if (i <? a)%nat then f i else 0)) by (intros i Hi; apply Nat.ltb_lt in Hi; rewrite Hi; reflexivity).
    rewrite (rsum_cut a m); [|intros i Hi; destruct (Nat.ltb_spec i a); [apply F; lia|reflexivity]|lia].
    apply PreludeFacts.rsum_ext. intros i Hi. replace (i <? a)%nat with true by (symmetry; apply Nat.ltb_lt; lia). reflexivity. }
  assert (B : rsum b g = rsum m g). { rewrite (PreludeFacts.rsum_ext b g (fun i => if (i <? b)%nat then g i else 0)) by (intros i Hi; apply Nat.ltb_lt in Hi; rewrite Hi; reflexivity).
    rewrite (rsum_cut b m); [|intros i Hi; destruct (Nat.ltb_spec i b); [apply G; lia|reflexivity]|lia].
    apply PreludeFacts.rsum_ext. intros i Hi. replace (i <? b)%nat with true by (symmetry; apply Nat.ltb_lt; lia). reflexivity. }
  rewrite A, B. apply PreludeFacts.rsum_ext. intros i Hi. apply E; lia.
Qed.
