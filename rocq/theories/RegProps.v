(** Property theorems C102: recordings do not depend on how sources and microphones are listed. *)
From Coq Require Import String List ZArith Reals Lia Lra Bool.
From Verif Require Import Prelude PreludeFacts SignalModel SignalSpec ConvProofs FloatModel DirModel ImageModel ImageSpec AcousticModel
  AccumModel IsmModel IsmSpec ImageProofs AccumProofs IsmProofs SimProofs SimMore SimArrival KernelProofs ContSpec ContProofs IsmProps ContProps SignalProofs ConvMore AlgProofs EdgeProofs LoopModel
  RecSpec RecProofs RecProps.
Import ListNotations.
Local Open Scope R_scope.
Local Notation length := List.length.
Local Notation rsum := Prelude.rsum.

(** ** C102 *)
(** A response of fixed length with omnidirectional sources and microphones. *)
Local Notation simulation X dev r srcs mics N n c :=
  (simulate_rir X dev r srcs mics (Some N) None (Some (Z.of_nat n)) None None (Some (DName "omni")) ONone (Some c)).
(** [t] is what comes out when the signal [x] is convolved with the simulated responses [T]. *)
Local Notation recording x T t := (exists h, all_numbers T = Some h /\ convolve_rir x h = Ok t).

(** The new source [k] stands where the old source [s] does. *)
Definition stands (f : nat -> option nat) (k s : nat) : bool := match f k with Some q => (q =? s)%nat | None => false end.
Lemma lin_conv_sum B (x : nat -> nat -> R) h j : lin_conv (fun i => rsum B (fun k => x k i)) h j = rsum B (fun k => lin_conv (x k) h j).
Proof.
  unfold lin_conv. rewrite (PreludeFacts.rsum_swap B). apply PreludeFacts.rsum_ext. intros i _. rewrite <- PreludeFacts.rsum_scal_r. apply PreludeFacts.rsum_ext. auto.
Qed.
Lemma regroup A B f (x x' : nat -> nat -> R) (h h' : nat -> nat -> R) j :
  (forall k, (k < B)%nat -> match f k with Some s => (s < A)%nat /\ forall i, h' k i = h s i | None => forall i, x' k i = 0 end) ->
  (forall s i, (s < A)%nat -> x s i = rsum B (fun k => if stands f k s then x' k i else 0)) ->
  rsum B (fun k => lin_conv (x' k) (h' k) j) = rsum A (fun s => lin_conv (x s) (h s) j).
Proof.
  intros Hf Hx.
  transitivity (rsum A (fun s => rsum B (fun k => lin_conv (fun i => if stands f k s then x' k i else 0) (h s) j))).
  - rewrite PreludeFacts.rsum_swap. apply PreludeFacts.rsum_ext. intros k Hk. specialize (Hf k Hk). unfold stands. destruct (f k) as [s|].
    + destruct Hf as (Hs & Eh). rewrite (PreludeFacts.rsum_single A s); auto.
      * apply lin_conv_ext; intros i _; [rewrite Nat.eqb_refl; reflexivity|apply Eh].
      * intros q _ Nq. apply lin_conv_silent. left. intros i. destruct (Nat.eqb_spec s q); [congruence|reflexivity].
    + rewrite lin_conv_silent by (left; exact Hf). symmetry. apply PreludeFacts.rsum_zero. intros s _. apply lin_conv_silent. left. reflexivity.
  - apply PreludeFacts.rsum_ext. intros s Hs. rewrite <- lin_conv_sum. apply lin_conv_ext; intros i _; [symmetry; apply Hx; auto|reflexivity].
Qed.
(** A second scene in the same room, whose microphones stand at places of microphones of the first
    scene and whose sources stand at places of sources of the first scene or play nothing.  If at every place of a
    source the same sound is played altogether, every microphone records what the one at its place does in the first scene. *)
Theorem C102_regrouped : forall X dev r srcs mics srcs' mics' N n c dim beta T x x' f g,
  scene r srcs mics dim beta -> scene r srcs' mics' dim beta -> cfg_hpf_enable c = false -> plays x (count srcs) -> plays x' (count srcs') -> sig_len x' = sig_len x ->
  (forall m, (m < count mics')%nat -> (g m < count mics)%nat /\ position mics' m = position mics (g m)) ->
  (forall k, (k < count srcs')%nat -> match f k with Some s => (s < count srcs)%nat /\ position srcs' k = position srcs s | None => forall i, sig_view x' k i = 0 end) ->
  (forall s i, (s < count srcs)%nat -> sig_view x s i = rsum (count srcs') (fun k => if stands f k s then sig_view x' k i else 0)) ->
  simulation X dev r srcs mics N n c = Ok T ->
  exists T' t t', simulation X dev r srcs' mics' N n c = Ok T' /\ recording x T t /\ recording x' T' t' /\
    shape t' = out_shape (count mics') (sig_len x + n - 1) /\
    forall m j, (m < count mics')%nat -> (j < sig_len x + n - 1)%nat -> out_view t' m j = out_view t (g m) j.
Proof.
  intros X dev r srcs mics srcs' mics' N n c dim beta T x x' f g Sc Sc' Hh Px Px' Lx Hg Hf Hx H.
  destruct (omni_ok_inv _ _ _ _ _ _ _ _ _ _ _ _ Sc Hh H) as (Hv & HN & Hn & l & Hl & _). destruct (images_exist N dim HN) as (images & Ai).
  assert (exists T', simulation X dev r srcs' mics' N n c = Ok T') as (T' & H') by (eexists; exact (simulate_omni X dev r srcs' mics' N None n c dim _ l Sc' Hv Hh HN Hn Hl)).
  destruct (read_value _ _ _ _ _ _ _ _ _ _ _ _ Sc Hh Ai H) as (_ & E). destruct (read_value _ _ _ _ _ _ _ _ _ _ _ _ Sc' Hh Ai H') as (_ & E').
  destruct (recorded _ _ _ _ _ _ _ _ _ _ _ _ Sc Hh H Px _ E) as (h & t & A & C & (O1 & O2 & O3)). destruct (recorded _ _ _ _ _ _ _ _ _ _ _ _ Sc' Hh H' Px' _ E') as (h' & t' & A' & C' & (O1' & O2' & O3')).
  rewrite Lx in O1', O3'. exists T', t, t'. split; [exact H'|]. split; [exists h; auto|]. split; [exists h'; auto|]. split; [exact O1'|].
  intros m j Hm Hj. destruct (Hg m Hm) as (Gm & Pm). rewrite O3', O3 by auto.
  apply (regroup (count srcs) (count srcs') f (sig_view x) (sig_view x')
    (fun s => zext n (value (Z.to_nat (cfg_fdl c)) (the_kernel dev c) (r_fs r) (r_c r) (beta_pairs beta) (data (r_size r)) images (position srcs s) (position mics (g m))))
    (fun k => zext n (value (Z.to_nat (cfg_fdl c)) (the_kernel dev c) (r_fs r) (r_c r) (beta_pairs beta) (data (r_size r)) images (position srcs' k) (position mics' m))) j); [|exact Hx].
  intros k Hk. specialize (Hf k Hk). destruct (f k) as [s|]; [|exact Hf]. destruct Hf as (Hs & Ps). split; [exact Hs|]. intros i. rewrite Ps, Pm. reflexivity.
Qed.
(** Microphones may be left out, repeated and listed in any order: each records what it does in any other list. *)
Theorem C102_microphones : forall X dev r srcs mics mics' N n c dim beta T x g,
  scene r srcs mics dim beta -> scene r srcs mics' dim beta -> cfg_hpf_enable c = false -> plays x (count srcs) ->
  (forall m, (m < count mics')%nat -> (g m < count mics)%nat /\ position mics' m = position mics (g m)) ->
  simulation X dev r srcs mics N n c = Ok T ->
  exists T' t t', simulation X dev r srcs mics' N n c = Ok T' /\ recording x T t /\ recording x T' t' /\
    forall m j, (m < count mics')%nat -> (j < sig_len x + n - 1)%nat -> out_view t' m j = out_view t (g m) j.
Proof.
  intros X dev r srcs mics mics' N n c dim beta T x g Sc Sc' Hh Px Hg H.
  destruct (C102_regrouped X dev r srcs mics srcs mics' N n c dim beta T x x Some g Sc Sc' Hh Px Px eq_refl Hg) as (T' & t & t' & A & B & C & _ & D); auto.
  - intros s i Hs. unfold stands. rewrite (PreludeFacts.rsum_single _ s); auto; [rewrite Nat.eqb_refl; reflexivity|]. intros k _ Nk. destruct (Nat.eqb_spec k s); [contradiction|reflexivity].
  - exists T', t, t'. auto.
Qed.
(** Sources may be listed in any order, with their signals. *)
Theorem C102_order : forall X dev r srcs mics srcs' N n c dim beta T x x' f b,
  scene r srcs mics dim beta -> scene r srcs' mics dim beta -> cfg_hpf_enable c = false -> plays x (count srcs) -> plays x' (count srcs') -> sig_len x' = sig_len x ->
  (forall k, (k < count srcs')%nat -> (f k < count srcs)%nat /\ b (f k) = k /\ position srcs' k = position srcs (f k) /\ forall i, sig_view x' k i = sig_view x (f k) i) ->
  (forall s, (s < count srcs)%nat -> (b s < count srcs')%nat /\ f (b s) = s) ->
  simulation X dev r srcs mics N n c = Ok T ->
  exists T' t, simulation X dev r srcs' mics N n c = Ok T' /\ recording x T t /\ recording x' T' t.
Proof.
  intros X dev r srcs mics srcs' N n c dim beta T x x' f b Sc Sc' Hh Px Px' Lx Hf Hb H.
  destruct (C102_regrouped X dev r srcs mics srcs' mics N n c dim beta T x x' (fun k => Some (f k)) (fun m => m) Sc Sc' Hh Px Px' Lx) as (T' & t & t' & A & B & C & S' & D); auto.
  - intros k Hk. destruct (Hf k Hk) as (F1 & _ & F3 & _). auto.
  - intros s i Hs. unfold stands. destruct (Hb s Hs) as (B1 & B2). rewrite (PreludeFacts.rsum_single _ (b s)); auto.
    + rewrite B2, Nat.eqb_refl. destruct (Hf _ B1) as (_ & _ & _ & F4). rewrite F4, B2. reflexivity.
    + intros k Hk Nk. destruct (Nat.eqb_spec (f k) s) as [Q|Q]; auto. destruct (Hf k Hk) as (_ & F2 & _). exfalso. apply Nk. rewrite <- F2, Q. reflexivity.
  - exists T', t. split; [exact A|]. split; [exact B|]. replace t with t'; [exact C|].
    destruct B as (h & B1 & B2). destruct C as (h' & C1 & C2).
    destruct (omni_ok_inv _ _ _ _ _ _ _ _ _ _ _ _ Sc Hh H) as (_ & HN & _). destruct (images_exist N dim HN) as (images & Ai).
    destruct (read_value _ _ _ _ _ _ _ _ _ _ _ _ Sc Hh Ai H) as (_ & E). destruct (recorded _ _ _ _ _ _ _ _ _ _ _ _ Sc Hh H Px _ E) as (h0 & t0 & A0 & C0 & O0).
    destruct (read_value _ _ _ _ _ _ _ _ _ _ _ _ Sc' Hh Ai A) as (_ & E'). destruct (recorded _ _ _ _ _ _ _ _ _ _ _ _ Sc' Hh A Px' _ E') as (h1 & t1 & A1 & C3 & O1).
    assert (t0 = t) by (apply (recording_unique x T); [exists h0; auto|exists h; auto]). assert (t1 = t') by (apply (recording_unique x' T'); [exists h1; auto|exists h'; auto]). subst t0 t1.
    rewrite Lx in O1. eapply is_output_unique; [exact O1|]. eapply is_output_ext; [exact O0|]. intros m j Hm Hj.
    destruct O0 as (_ & _ & O0). destruct O1 as (_ & _ & O1). rewrite <- O0, <- O1 by auto. symmetry. apply D; auto.
Qed.
(** The recording of all sources is the sum of the recordings of each source alone in the room. *)
Theorem C102_alone : forall X dev r srcs mics N n c dim beta T x (one : nat -> entity) (y : nat -> tensor),
  scene r srcs mics dim beta -> cfg_hpf_enable c = false -> plays x (count srcs) ->
  (forall s, (s < count srcs)%nat -> scene r (one s) mics dim beta /\ count (one s) = 1%nat /\ position (one s) 0 = position srcs s /\
     plays (y s) 1 /\ sig_len (y s) = sig_len x /\ forall i, sig_view (y s) 0 i = sig_view x s i) ->
  simulation X dev r srcs mics N n c = Ok T ->
  exists t, recording x T t /\
    (forall s, (s < count srcs)%nat -> exists T' t', simulation X dev r (one s) mics N n c = Ok T' /\ recording (y s) T' t') /\
    forall T' t', (forall s, (s < count srcs)%nat -> simulation X dev r (one s) mics N n c = Ok (T' s) /\ recording (y s) (T' s) (t' s)) ->
      forall m j, (m < count mics)%nat -> (j < sig_len x + n - 1)%nat -> out_view t m j = rsum (count srcs) (fun s => out_view (t' s) m j).
Proof.
  intros X dev r srcs mics N n c dim beta T x one y Sc Hh Px Ho H.
  destruct (omni_ok_inv _ _ _ _ _ _ _ _ _ _ _ _ Sc Hh H) as (Hv & HN & Hn & l & Hl & _). destruct (images_exist N dim HN) as (images & Ai).
  destruct (read_value _ _ _ _ _ _ _ _ _ _ _ _ Sc Hh Ai H) as (_ & E). destruct (recorded _ _ _ _ _ _ _ _ _ _ _ _ Sc Hh H Px _ E) as (h & t & A & C & (O1 & O2 & O3)).
  assert (K : forall s, (s < count srcs)%nat -> forall T', simulation X dev r (one s) mics N n c = Ok T' -> exists t', recording (y s) T' t' /\
    forall m j, (m < count mics)%nat -> (j < sig_len x + n - 1)%nat -> out_view t' m j =
      lin_conv (sig_view x s) (zext n (value (Z.to_nat (cfg_fdl c)) (the_kernel dev c) (r_fs r) (r_c r) (beta_pairs beta) (data (r_size r)) images (position srcs s) (position mics m))) j).
  { intros s Ss T' H'. destruct (Ho s Ss) as (Sc' & C1 & P1 & Py & Ly & Vy). assert (Py' : plays (y s) (count (one s))) by (rewrite C1; exact Py).
    destruct (read_value _ _ _ _ _ _ _ _ _ _ _ _ Sc' Hh Ai H') as (_ & E'). destruct (recorded _ _ _ _ _ _ _ _ _ _ _ _ Sc' Hh H' Py' _ E') as (h' & t' & A' & C' & (_ & _ & O3')).
    exists t'. split; [exists h'; auto|]. intros m j Hm Hj. rewrite O3' by (auto; rewrite Ly; auto). rewrite C1. cbn [Prelude.rsum]. rewrite Rplus_0_l, P1. apply lin_conv_ext; auto. }
  exists t. split; [exists h; auto|]. split.
  - intros s Ss. destruct (Ho s Ss) as (Sc' & _). assert (exists T', simulation X dev r (one s) mics N n c = Ok T') as (T' & H') by (eexists; exact (simulate_omni X dev r (one s) mics N None n c dim _ l Sc' Hv Hh HN Hn Hl)).
    destruct (K s Ss T' H') as (t' & R & _). exists T', t'. auto.
  - intros T' t' F m j Hm Hj. rewrite O3 by auto. apply PreludeFacts.rsum_ext. intros s Ss. destruct (F s Ss) as (H' & R'). destruct (K s Ss _ H') as (t2 & R2 & V2).
    rewrite (recording_unique _ _ _ _ R' R2). symmetry. apply V2; auto.
Qed.
(** Three sources, two of them at one place and one silent, in front of the same microphone twice, and one source at this place which plays what the two do together. *)
Definition three : entity := ETensor (mkT [3%nat; 2%nat] [1; 1; 7; 2; 1; 1]).
Definition twice : entity := ETensor (mkT [2%nat; 2%nat] [4; 5; 4; 5]).
Example C102_example : forall X, exists T T' t t',
  simulation X Cpu ex_room ex_src ex_mic 4%Z 20 ex_cfg = Ok T /\ simulation X Cpu ex_room three twice 4%Z 20 ex_cfg = Ok T' /\
  recording (mkT [2%nat] [7; -3]) T t /\ recording (mkT [3%nat; 2%nat] [5; -4; 0; 0; 2; 1]) T' t' /\ shape t' = [2; 21]%nat /\
  forall m j, (m < 2)%nat -> (j < 21)%nat -> out_view t' m j = out_view t 0 j.
Proof.
  intros X. destruct (indices_order 4 2 ltac:(lia)) as (l & El & Nl & Il).
  assert (exists T, simulation X Cpu ex_room ex_src ex_mic 4%Z 20 ex_cfg = Ok T) as (T & H)
    by (eexists; exact (simulate_omni X Cpu ex_room ex_src ex_mic 4 None 20 ex_cfg 2 _ l ex_scene ex_cfg_valid eq_refl ltac:(lia) ltac:(lia) El)).
  assert (Sc' : scene ex_room three twice 2 [/2; /3; /5; /7]) by (constructor; cbn; auto; try lra; try lia; reflexivity).
  destruct (C102_regrouped X Cpu ex_room ex_src ex_mic three twice 4%Z 20 ex_cfg 2 _ T (mkT [2%nat] [7; -3]) (mkT [3%nat; 2%nat] [5; -4; 0; 0; 2; 1])
    (fun k => if (k =? 1)%nat then None else Some 0%nat) (fun _ => 0%nat) ex_scene Sc' eq_refl) as (T' & t & t' & A & B & C & D & E); auto.
  - unfold plays, sig_rank_ok, ndim, wf, sig_len, sig_rows. cbn. intuition lia.
  - unfold plays, sig_rank_ok, ndim, wf, sig_len, sig_rows. cbn. intuition lia.
  - intros m Hm. change (count twice) with 2%nat in Hm. split; [cbn; lia|]. assert (m = 0 \/ m = 1)%nat as [-> | ->] by lia; reflexivity.
  - intros k Hk. change (count three) with 3%nat in Hk. assert (k = 0 \/ k = 1 \/ k = 2)%nat as [-> | [-> | ->]] by lia; cbn [Nat.eqb]; try (split; [cbn; lia|reflexivity]).
    intros i. unfold sig_view, zext. cbn [shape]. destruct (Nat.ltb_spec i 2); auto. assert (i = 0 \/ i = 1)%nat as [-> | ->] by lia; reflexivity.
  - intros s i Hs. change (count ex_src) with 1%nat in Hs. assert (s = 0%nat) as -> by lia. change (count three) with 3%nat. cbn [Prelude.rsum]. unfold stands. cbn [Nat.eqb].
    unfold sig_view, zext. cbn [shape]. destruct (Nat.ltb_spec i 2); [|lra]. assert (i = 0 \/ i = 1)%nat as [-> | ->] by lia; cbn; lra.
  - exists T, T', t, t'. split; [exact H|]. split; [exact A|]. split; [exact B|]. split; [exact C|]. split; [exact D|]. exact E.
Qed.
(** Two talkers at different places: what both microphones record is what they record of each of them. *)
Definition talkers : entity := ETensor (mkT [2%nat; 2%nat] [1; 1; 7; 2]).
Example C102_alone_example : forall X, exists T T1 T2 t t1 t2,
  simulation X Cpu ex_room talkers twice 4%Z 20 ex_cfg = Ok T /\ recording (mkT [2%nat; 2%nat] [7; -3; 5; 2]) T t /\
  simulation X Cpu ex_room ex_src twice 4%Z 20 ex_cfg = Ok T1 /\ recording (mkT [2%nat] [7; -3]) T1 t1 /\
  simulation X Cpu ex_room (ETensor (mkT [2%nat] [7; 2])) twice 4%Z 20 ex_cfg = Ok T2 /\ recording (mkT [2%nat] [5; 2]) T2 t2 /\
  forall m j, (m < 2)%nat -> (j < 21)%nat -> out_view t m j = out_view t1 m j + out_view t2 m j.
Proof.
  intros X. destruct (indices_order 4 2 ltac:(lia)) as (l & El & Nl & Il).
  assert (Sc : scene ex_room talkers twice 2 [/2; /3; /5; /7]) by (constructor; cbn; auto; try lra; try lia; reflexivity).
  assert (exists T, simulation X Cpu ex_room talkers twice 4%Z 20 ex_cfg = Ok T) as (T & H)
    by (eexists; exact (simulate_omni X Cpu ex_room talkers twice 4 None 20 ex_cfg 2 _ l Sc ex_cfg_valid eq_refl ltac:(lia) ltac:(lia) El)).
  set (one := fun s => match s with 0%nat => ex_src | _ => ETensor (mkT [2%nat] [7; 2]) end).
  set (y := fun s => match s with 0%nat => mkT [2%nat] [7; -3] | _ => mkT [2%nat] [5; 2] end).
  destruct (C102_alone X Cpu ex_room talkers twice 4%Z 20 ex_cfg 2 _ T (mkT [2%nat; 2%nat] [7; -3; 5; 2]) one y Sc eq_refl) as (t & R & K & V); auto.
  - unfold plays, sig_rank_ok, ndim, wf, sig_len, sig_rows. cbn. intuition lia.
  - intros s Hs. change (count talkers) with 2%nat in Hs.
    assert (P : forall a b, plays (mkT [2%nat] [a; b]) 1) by (intros a b; unfold plays, sig_rank_ok, ndim, wf, sig_len, sig_rows; cbn; intuition lia).
    assert (s = 0 \/ s = 1)%nat as [-> | ->] by lia; unfold one, y; (split; [constructor; cbn; auto; try lra; try lia; reflexivity|]); (split; [reflexivity|]); (split; [reflexivity|]); (split; [apply P|]); (split; [reflexivity|]);
      intros i; unfold sig_view, zext; cbn [shape]; (destruct (Nat.ltb_spec i 2); [|reflexivity]); assert (i = 0 \/ i = 1)%nat as [-> | ->] by lia; reflexivity.
  - destruct (K 0%nat ltac:(cbn; lia)) as (T1 & t1 & H1 & R1). destruct (K 1%nat ltac:(cbn; lia)) as (T2 & t2 & H2 & R2). exists T, T1, T2, t, t1, t2.
    repeat (split; [assumption|]). intros m j Hm Hj.
    rewrite (V (fun s => match s with 0%nat => T1 | _ => T2 end) (fun s => match s with 0%nat => t1 | _ => t2 end)); auto.
    + change (count talkers) with 2%nat. cbn [Prelude.rsum]. lra.
    + intros s Hs. change (count talkers) with 2%nat in Hs. assert (s = 0 \/ s = 1)%nat as [-> | ->] by lia; auto.
Qed.
Print Assumptions C102_regrouped.
Print Assumptions C102_microphones.
Print Assumptions C102_order.
Print Assumptions C102_alone.
