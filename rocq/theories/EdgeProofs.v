(** Convolutions at the edges: empty axes and unordered timestamps.
    Everything here is about the functions of SignalModel.v (signal/static.py:11-67,
    signal/dynamic.py:58-222). *)
From Coq Require Import String List ZArith Reals Lia Lra Bool.
From Flocq Require Import Core.
From Coquelicot Require Import Complex.
From Verif Require Import Prelude PreludeFacts FloatModel FloatProofs SignalModel SignalSpec
  DftProofs SignalProofs TrajProofs SegProofs ConvProofs ConvMore.
Import ListNotations.
Local Open Scope R_scope.

(** ** [fft_convolve] *)
Lemma fft_convolve_edge x h : (1 <= numel x + numel h)%nat -> wf x -> wf h ->
  ndim x = 1%nat -> ndim h = 1%nat ->
  exists t, fft_convolve x h = Ok t /\ wf t /\ shape t = [(numel x + numel h - 1)%nat] /\
    forall j, (j < numel x + numel h - 1)%nat ->
      tget t [j] = lin_conv (zext (numel x) (fun i => tget x [i]))
                            (zext (numel h) (fun i => tget h [i])) j.
Proof.
  intros Hx Wx Wh Nx Nh.
  destruct x as [sx dx], h as [sh dh]. unfold ndim, numel, wf in *; cbn [shape data] in *.
  destruct sx as [|nx [|? ?]]; try discriminate.
  destruct sh as [|nh [|? ?]]; try discriminate.
  cbn [prodn fold_right] in *.
  unfold fft_convolve, ndim; cbn [shape data length Nat.eqb andb negb].
  eexists; split; [reflexivity|]. cbn [shape data].
  rewrite length_fft_convolve_data by lia. split; [|split; [f_equal; lia|]].
  - cbn [shape data prodn fold_right]. lia.
  - intros j Hj. unfold tget at 1. cbn [shape data ravel].
    rewrite fft_convolve_data_nth by lia.
    cbn [prodn fold_right]. replace (j * 1 + 0)%nat with j by lia.
    apply lin_conv_ext; intros i Hi; unfold seq_of, zext, tget; cbn [shape data ravel prodn fold_right].
    + replace (i * 1 + 0)%nat with i by lia.
      destruct (Nat.ltb_spec i (nx * 1)); auto. apply nth_overflow. lia.
    + replace (i * 1 + 0)%nat with i by lia.
      destruct (Nat.ltb_spec i (nh * 1)); auto. apply nth_overflow. lia.
Qed.

(** Two empty vectors: the slice [out[:-1]] of a transform of length 4. *)
Lemma fft_convolve_nil : fft_convolve_data [] [] = [0; 0; 0].
Proof.
  unfold fft_convolve_data. cbn [length].
  change (fft_len _) with 4%nat.
  assert (E : irfft (map2 Cmult (rfft [] 4) (rfft [] 4)) 4 = [0; 0; 0; 0]).
  { apply nth_ext_R.
    - unfold irfft. rewrite length_tabulate. auto.
    - unfold irfft at 1. rewrite length_tabulate. intros j Hj.
      rewrite irfft_prod_linear by (cbn [length]; lia).
      rewrite (rsum_zero (S j)).
      + destruct j as [|[|[|[|j]]]]; auto; lia.
      + intros i Hi. destruct i; cbn; lra. }
  rewrite E. reflexivity.
Qed.

Lemma lin_conv_silent x h j : (forall i, x i = 0) \/ (forall i, h i = 0) -> lin_conv x h j = 0.
Proof. intros H. apply rsum_zero. intros i Hi. destruct H as [H|H]; rewrite H; lra. Qed.

Lemma sig_view_empty t s i : sig_len t = 0%nat -> sig_view t s i = 0.
Proof.
  unfold sig_len, sig_view, zext. destruct (shape t) as [|a [|b [|? ?]]]; auto; intros ->; auto.
Qed.
Lemma rir_view_empty t s m i : rir_len t = 0%nat -> rir_view t s m i = 0.
Proof.
  unfold rir_len, rir_view, zext. destruct (shape t) as [|a [|b [|c [|? ?]]]]; cbn; auto; intros ->; auto.
Qed.
Lemma dyn_view_empty t k s m i : rir_len t = 0%nat -> dyn_view t k s m i = 0.
Proof.
  unfold rir_len, dyn_view, zext. destruct (shape t) as [|a [|b [|c [|e [|? ?]]]]]; cbn; auto; intros ->; auto.
Qed.

(** ** [convolve_rir] *)
Lemma static_both_empty signal rirs :
  sig_rank_ok signal -> rir_rank_ok rirs -> wf signal -> wf rirs ->
  sig_rows signal = 1%nat \/ sig_rows signal = rir_srcs rirs ->
  sig_len signal = 0%nat -> rir_len rirs = 0%nat ->
  convolve_rir signal rirs = Err RuntimeError.
Proof.
  intros Rs Rr Ws Wr Hrows Hn HL.
  destruct (sig_norm signal Rs Ws) as (sg & Es & Ss & _).
  destruct (rir_norm rirs Rr Wr) as (rr & Er & Sr & _).
  unfold convolve_rir. rewrite Es; cbn [bind]. rewrite Er; cbn [bind]. rewrite Ss, Sr, Hn, HL.
  replace (negb ((sig_rows signal =? 1)%nat || (sig_rows signal =? rir_srcs rirs)%nat)) with false.
  - reflexivity.
  - destruct (Nat.eqb_spec (sig_rows signal) 1), (Nat.eqb_spec (sig_rows signal) (rir_srcs rirs)); simpl; auto; lia.
Qed.

(** ** Trajectory mode *)
Lemma nth_with_end_0 starts t : partition_starts starts 0 -> nth t (with_end starts 0) 0%Z = 0%Z.
Proof.
  intros (P1 & P2 & P3). unfold with_end.
  destruct (Nat.lt_ge_cases (length starts) t) as [H|H].
  { apply nth_overflow. rewrite app_length. cbn. lia. }
  assert (Hend : nth (length starts) (starts ++ [Z.of_nat 0]) 0%Z = 0%Z)
    by (rewrite app_nth2 by lia; rewrite Nat.sub_diag; auto).
  assert (Hup : forall k, (k <= length starts)%nat -> (0 <= nth k (starts ++ [Z.of_nat 0]) 0%Z)%Z).
  { induction k; intros Hk.
    - rewrite app_nth1 by lia. rewrite P2. lia.
    - specialize (P3 k ltac:(lia)). unfold seg_start in P3. specialize (IHk ltac:(lia)). lia. }
  assert (Hdn : forall d, (d <= length starts)%nat ->
     (nth (length starts - d) (starts ++ [Z.of_nat 0]) 0%Z <= 0)%Z).
  { induction d; intros Hd.
    - rewrite Nat.sub_0_r, Hend. lia.
    - specialize (P3 (length starts - S d)%nat ltac:(lia)). unfold seg_start in P3.
      replace (S (length starts - S d)) with (length starts - d)%nat in P3 by lia.
      specialize (IHd ltac:(lia)). lia. }
  specialize (Hup t H). specialize (Hdn (length starts - t)%nat ltac:(lia)).
  replace (length starts - (length starts - t))%nat with t in Hdn by lia. lia.
Qed.

Lemma seg_lens_0 starts x : partition_starts starts 0 -> In x (seg_lens (with_end starts 0)) -> x = 0%Z.
Proof.
  intros P H. destruct (In_nth _ _ 0%Z H) as (k & Hk & <-).
  unfold seg_lens in *. rewrite length_tabulate in Hk. rewrite nth_tabulate by auto.
  rewrite !nth_with_end_0 by auto. auto.
Qed.

Lemma traj_both_empty dev signal rirs ts fs starts :
  dyn_ranks_ok signal rirs -> wf signal -> wf rirs ->
  sig_len signal = 0%nat -> rir_len rirs = 0%nat ->
  segment_starts dev 0 (dyn_steps rirs) ts fs = Ok starts ->
  partition_starts starts 0 ->
  convolve_trajectory dev signal rirs ts fs = Err RuntimeError.
Proof.
  intros (Rs & Rr & R3) Ws Wr Hn HL Est Hp.
  destruct (sig_norm signal Rs Ws) as (sg & Es & Ss & _).
  destruct (dyn_norm signal rirs sg Rr Wr R3 Ss) as (rr & Er & Sr & _).
  unfold convolve_trajectory. rewrite Es; cbn [bind]. rewrite Er; cbn [bind]. rewrite Ss, Sr, Hn, HL.
  unfold conv_traj_core. rewrite Est; cbn [bind].
  destruct dev; [|reflexivity|reflexivity].
  unfold conv_traj_cpu.
  destruct (max_item_ok (seg_lens (with_end starts 0))) as (mx & Emx & _ & Hin).
  { unfold seg_lens, with_end. rewrite length_tabulate, app_length. cbn. destruct Hp. lia. }
  rewrite Emx; cbn [bind]. rewrite (seg_lens_0 starts mx Hp Hin). cbn [Z.ltb Z.compare Z.to_nat].
  rewrite (mapM_Ok_map _ (fun _ => repeat (repeat 0 0) (dyn_srcs rirs))).
  - reflexivity.
  - intros t _. unfold fill_segment. rewrite !nth_with_end_0 by auto. reflexivity.
Qed.

Lemma traj_no_steps dev signal rirs fs :
  dyn_ranks_ok signal rirs -> wf signal -> wf rirs -> dyn_steps rirs = 0%nat ->
  convolve_trajectory dev signal rirs None fs = Err ZeroDivisionError /\
  forall u f, wf u -> shape u = [0%nat] ->
    convolve_trajectory dev signal rirs (Some u) (Some f) = Err IndexError.
Proof.
  intros (Rs & Rr & R3) Ws Wr HT.
  destruct (sig_norm signal Rs Ws) as (sg & Es & Ss & _).
  destruct (dyn_norm signal rirs sg Rr Wr R3 Ss) as (rr & Er & Sr & _).
  unfold convolve_trajectory. rewrite Es; cbn [bind]. rewrite Er; cbn [bind]. rewrite Ss, Sr, HT.
  unfold conv_traj_core, segment_starts. split; [reflexivity|].
  intros [su du] f Wu Su. cbn [shape data] in *. subst su. unfold wf in Wu. cbn in Wu.
  destruct du; [reflexivity|discriminate].
Qed.

(** ** Hop mode *)
Lemma hop_both_empty signal rirs H :
  dyn_ranks_ok signal rirs -> wf signal -> wf rirs -> (0 < H)%nat ->
  (Z.of_nat (sig_len signal) < 2 ^ 53)%Z -> (Z.of_nat H < 2 ^ 63)%Z ->
  sig_len signal = 0%nat \/ dyn_steps rirs = 0%nat -> rir_len rirs = 0%nat ->
  convolve_hop signal rirs (Z.of_nat H) = Err RuntimeError.
Proof.
  intros (Rs & Rr & R3) Ws Wr HH Hb HHb H0 HL.
  destruct (sig_norm signal Rs Ws) as (sg & Es & Ss & _).
  destruct (dyn_norm signal rirs sg Rr Wr R3 Ss) as (rr & Er & Sr & _).
  unfold convolve_hop. rewrite Es; cbn [bind]. rewrite Er; cbn [bind]. rewrite Ss, Sr, HL.
  unfold conv_hop_core. rewrite hop_frames_ok by lia. cbn [bind].
  assert (EF : Z.min ((Z.of_nat (sig_len signal) + Z.of_nat H - 1) / Z.of_nat H) (Z.of_nat (dyn_steps rirs)) = 0%Z).
  { destruct H0 as [E|E]; rewrite E.
    - rewrite Z.div_small by lia. lia.
    - assert (0 <= (Z.of_nat (sig_len signal) + Z.of_nat H - 1) / Z.of_nat H)%Z by (apply Z.div_pos; lia). lia. }
  rewrite EF. unfold zeros2. replace (_ <? 0)%Z with true; [reflexivity|].
  symmetry. apply Z.ltb_lt. lia.
Qed.

(** ** Timestamps that go back in time *)
Lemma conv_2_1 a b c : fft_convolve_data [a; b] [c] = [a * c; b * c].
Proof.
  apply nth_ext_R; [rewrite length_fft_convolve_data; cbn; lia|].
  rewrite length_fft_convolve_data by (cbn; lia). cbn [length]. intros j Hj.
  rewrite fft_convolve_data_nth by (cbn; lia). destruct j as [|[|j]]; [| |lia]; cbn; lra.
Qed.
Lemma conv_1_1 a c : fft_convolve_data [a] [c] = [a * c].
Proof.
  apply nth_ext_R; [rewrite length_fft_convolve_data; cbn; lia|].
  rewrite length_fft_convolve_data by (cbn; lia). cbn [length]. intros j Hj.
  rewrite fft_convolve_data_nth by (cbn; lia). destruct j as [|j]; [|lia]; cbn; lra.
Qed.
Lemma irfft_2_1 a b c : irfft (map2 Cmult (rfft [a; b] 2) (rfft [c] 2)) 2 = [a * c; b * c].
Proof.
  apply nth_ext_R; [unfold irfft; rewrite length_tabulate; auto|].
  unfold irfft at 1. rewrite length_tabulate. intros j Hj.
  rewrite irfft_prod_linear by (cbn; lia). destruct j as [|[|j]]; [| |lia]; cbn; lra.
Qed.

Lemma unsorted_cpu a b c : conv_traj_cpu 3 1 [a; b; c] 3 1 1 1 [1; 1; 1] [0; 2; 1; 3]%Z
  = Ok (mkT [3%nat] [a; b + b; c]).
Proof.
  lazy beta iota zeta delta -[fft_convolve_data Rplus Rmult IZR].
  rewrite !conv_2_1, conv_1_1.
  lazy beta iota zeta delta -[Rplus Rmult IZR]. repeat f_equal; lra.
Qed.
Lemma unsorted_batched a b c : conv_traj_batched 3 1 [a; b; c] 3 1 1 1 [1; 1; 1] [0; 2; 1; 3]%Z 8
  = Ok (mkT [3%nat] [a; b + b; c]).
Proof.
  lazy beta iota zeta delta -[irfft rfft map2 Cmult Rplus Rmult IZR].
  rewrite !irfft_2_1.
  lazy beta iota zeta delta -[Rplus Rmult IZR]. repeat f_equal; lra.
Qed.
