(** Lemmas for C99. *)
From Coq Require Import String List ZArith Reals Lia Lra Bool Permutation.
From Verif Require Import Prelude PreludeFacts SignalModel SignalSpec ConvProofs FloatModel DirModel ImageModel ImageSpec AcousticModel
  AccumModel IsmModel IsmSpec ImageProofs AccumProofs IsmProofs SimProofs SimMore SimArrival KernelProofs ContSpec ContProofs IsmProps ContProps ConvMore AlgProofs LoopModel BetaSpec BetaProofs RecSpec.
From Verif Require LoopAudio LoopSpec.
Import ListNotations.
Local Open Scope R_scope.
Local Notation length := List.length.
Local Notation lsum_of := ContSpec.rsum.
Local Notation rsum := Prelude.rsum.

(** ** Responses as tensors of numbers *)
Definition reals_of (T : xtensor) : tensor := mkT (xshape T) (map (fun x => match x with Some r => r | None => 0 end) (xdata T)).
Lemma numbers_inv T h : all_numbers T = Some h -> h = reals_of T.
Proof. unfold all_numbers, reals_of. destruct (forallb _ _); [congruence|discriminate]. Qed.
Lemma get_real T idx v : xget T idx = Some v -> tget (reals_of T) idx = v.
Proof.
  unfold xget, tget, reals_of. cbn [shape data]. intros H.
  set (f := fun x : xr => match x with Some r => r | None => 0 end). change (nth (ravel (xshape T) idx) (map f (xdata T)) (f None) = v). rewrite map_nth, H. reflexivity.
Qed.
Lemma all_get T S M n : xshape T = [S; M; n] -> length (xdata T) = (S * M * n)%nat ->
  (forall s m j, (s < S)%nat -> (m < M)%nat -> (j < n)%nat -> exists v, xget T [s; m; j] = Some v) -> all_numbers T = Some (reals_of T).
Proof.
  intros Sh L H. apply LoopAudio.all_numbers_ok. apply Forall_forall. intros x I. destruct (In_nth _ _ None I) as (k & Hk0 & E). assert (Hk : (k < S * M * n)%nat) by (rewrite <- L; exact Hk0).
  assert (P : (0 < n /\ 0 < M)%nat) by nia. assert (B1 : (k mod n < n)%nat) by (apply Nat.mod_upper_bound; lia). assert (B2 : ((k / n) mod M < M)%nat) by (apply Nat.mod_upper_bound; lia).
  assert (B3 : (k / n / M < S)%nat). { apply Nat.div_lt_upper_bound; [lia|]. apply Nat.div_lt_upper_bound; [lia|]. nia. }
  destruct (H (k / n / M) ((k / n) mod M) (k mod n))%nat as (v & Hv); auto.
  unfold xget in Hv. rewrite Sh in Hv. replace (ravel [S; M; n] [k / n / M; (k / n) mod M; k mod n]%nat) with k in Hv.
  - assert (x = Some v) as -> by (rewrite <- E; exact Hv). discriminate.
  - pose proof (Nat.div_mod k n ltac:(lia)). pose proof (Nat.div_mod (k / n) M ltac:(lia)). cbn [ravel prodn fold_right]. nia.
Qed.

(** ** Sums over images *)
Lemma conv_ext x h h' j : (forall i, h i = h' i) -> lin_conv x h j = lin_conv x h' j.
Proof. intros E. unfold lin_conv. apply PreludeFacts.rsum_ext. intros i _. rewrite E. reflexivity. Qed.
Lemma conv_images {A} x n (g : A -> R) (f : A -> nat -> R) l j :
  lin_conv x (zext n (fun i => lsum_of (map (fun v => g v * f v i) l))) j = lsum_of (map (fun v => g v * lin_conv x (zext n (f v)) j) l).
Proof.
  induction l as [|v l IH].
  - unfold lin_conv, zext. cbn [map lsum_of fold_right].
    rewrite PreludeFacts.rsum_zero; [ring|]. intros i _. destruct (_ <? n)%nat; ring.
  - cbn [map]. unfold lsum_of in *. cbn [fold_right]. rewrite <- IH. unfold lin_conv. rewrite <- PreludeFacts.rsum_scal, <- PreludeFacts.rsum_plus. apply PreludeFacts.rsum_ext. intros i _. unfold zext. destruct (_ <? n)%nat; ring.
Qed.

(** ** The recording *)
Section Recorded.
  Variables (X : externals) (dev : device_type) (r : room) (srcs mics : entity) (N : Z) (n : nat) (c : config) (dim : nat) (beta : list R) (T : xtensor) (x : tensor).
  Hypothesis (Hs : scene r srcs mics dim beta) (Hh : cfg_hpf_enable c = false)
    (H : simulate_rir X dev r srcs mics (Some N) None (Some (Z.of_nat n)) None None (Some (DName "omni")) ONone (Some c) = Ok T) (P : plays x (count srcs)).
  Lemma recorded (f : nat -> nat -> nat -> R) : (forall s m j, (s < count srcs)%nat -> (m < count mics)%nat -> (j < n)%nat -> xget T [s; m; j] = Some (f s m j)) ->
    exists h t, all_numbers T = Some h /\ convolve_rir x h = Ok t /\
      is_output t (count mics) (sig_len x + n - 1) (fun m j => rsum (count srcs) (fun s => lin_conv (sig_view x s) (zext n (f s m)) j)).
  Proof.
    intros F. destruct (omni_ok_inv _ _ _ _ _ _ _ _ _ _ _ _ Hs Hh H) as (_ & HN & Hn & l & _ & Sh & Ld & _).
    assert (A : all_numbers T = Some (reals_of T)) by (eapply all_get; eauto; intros; eexists; apply F; auto).
    assert (Sr : shape (reals_of T) = [count srcs; count mics; n]) by exact Sh.
    assert (St : static_ok x (reals_of T)).
    { destruct P as (P1 & P2 & P3 & P4). unfold static_ok, rir_rank_ok, rir_len, rir_srcs, ndim, wf. rewrite Sr. cbn [length last]. split; [exact P1|]. split; [auto|]. split; [exact P2|]. split; [|auto].
      unfold reals_of. cbn [data]. transitivity (length (xdata T)); [apply map_length|]. rewrite Ld. unfold prodn. cbn [fold_right]. lia. }
    destruct (static_default x (reals_of T) St) as (t & E & O). exists (reals_of T), t. split; [exact A|]. split; [exact E|].
    unfold rir_mics, rir_len, rir_srcs in O. rewrite Sr in O. cbn [last] in O. destruct O as (O1 & O2 & O3). split; [exact O1|]. split; [exact O2|].
    intros m j Hm Hj. rewrite O3 by auto. apply PreludeFacts.rsum_ext. intros s Ss. apply conv_ext. intros i. unfold rir_view. rewrite Sr. unfold zext.
    destruct (Nat.ltb_spec i n); [|reflexivity]. apply get_real, F; auto.
  Qed.
End Recorded.
Lemma images_exist N dim : (0 <= N)%Z -> exists images, all_images dim N images.
Proof. intros HN. destruct (indices_order N dim HN) as (l & _ & Nl & Il). exists l. split; auto. Qed.
Lemma conv_diff x h h' j : lin_conv x h' j - lin_conv x h j = lin_conv x (fun i => h' i - h i) j.
Proof. unfold lin_conv. rewrite <- PreludeFacts.rsum_minus. apply PreludeFacts.rsum_ext. intros i _. ring. Qed.
(** Responses that differ by at most [B s] give recordings that differ by at most the sum over the sources. *)
Lemma recordings_differ x S n (f f' : nat -> nat -> R) (Xp B : nat -> R) j :
  (forall s i, (s < S)%nat -> Rabs (x s i) <= Xp s) -> (forall s i, (s < S)%nat -> (i < n)%nat -> Rabs (f' s i - f s i) <= B s) -> (forall s, (s < S)%nat -> 0 <= B s) ->
  Rabs (rsum S (fun s => lin_conv (x s) (zext n (f' s)) j) - rsum S (fun s => lin_conv (x s) (zext n (f s)) j)) <= rsum S (fun s => Xp s * (INR n * B s)).
Proof.
  intros Hx Hf HB. rewrite <- PreludeFacts.rsum_minus. eapply Rle_trans; [apply rsum_abs|]. apply PreludeFacts.rsum_le. intros s Hs. rewrite conv_diff.
  eapply Rle_trans; [apply (lin_conv_bound _ _ n (Xp s))|].
  - intros i. apply Hx; auto.
  - intros i Hi. unfold zext. destruct (Nat.ltb_spec i n); [lia|ring].
  - apply Rmult_le_compat_l; [eapply Rle_trans; [apply Rabs_pos|apply (Hx s 0%nat Hs)]|]. rewrite <- PreludeFacts.rsum_const. apply PreludeFacts.rsum_le. intros i Hi. unfold zext.
    replace (i <? n)%nat with true by (symmetry; apply Nat.ltb_lt; auto). apply Hf; auto.
Qed.
Lemma tap_whole L table D : Nat.Odd L -> (forall g, table = Some g -> (0 < g)%nat) -> forall j, tap L (kernel table) (INR D) j = if (j =? D + (L - 1) / 2)%nat then 1 else 0.
Proof.
  intros O G j. pose proof (pulse_integer L table D 1 j O G) as P. rewrite pulse_value in P. injection P as P. unfold tap. unfold shape_at in P. rewrite Rmult_1_l in P. exact P.
Qed.
Lemma echo_whole L table n D x : Nat.Odd L -> (forall g, table = Some g -> (0 < g)%nat) -> (D + (L - 1) / 2 < n)%nat -> forall j, echo L (kernel table) n (INR D) x j = later (D + (L - 1) / 2) x j.
Proof.
  intros O G B j. unfold echo, later. rewrite lin_conv_rev. set (E := (D + (L - 1) / 2)%nat) in *. destruct (Nat.ltb_spec j E) as [Hj|Hj].
  - apply PreludeFacts.rsum_zero. intros i Hi. unfold zext. rewrite (tap_whole L table D O G). fold E. destruct (Nat.eqb_spec i E); [lia|]. destruct (_ <? n)%nat; ring.
  - rewrite (PreludeFacts.rsum_ext _ _ (fun i => if (i =? E)%nat then x (j - E)%nat else 0)).
    + rewrite (PreludeFacts.rsum_single (S j) E); [rewrite Nat.eqb_refl; reflexivity|lia|]. intros i _ N. destruct (Nat.eqb_spec i E); [contradiction|reflexivity].
    + intros i Hi. unfold zext. rewrite (tap_whole L table D O G). fold E. destruct (Nat.eqb_spec i E) as [->|]; [|destruct (_ <? n)%nat; ring].
      replace (E <? n)%nat with true by (symmetry; apply Nat.ltb_lt; auto). ring.
Qed.
