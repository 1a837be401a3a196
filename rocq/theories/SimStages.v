(** Stages of the simulation after the image sum: diffuse tail, high-pass filter, output
    shape; Sabine's formula. *)
From Coq Require Import String List ZArith Reals Lia Lra Psatz Bool.
From Verif Require Import Prelude PreludeFacts SignalModel FloatModel FloatProofs DirModel ImageModel ImageSpec ImageProofs
  AcousticModel AccumModel IsmModel IsmSpec AccumProofs IsmProofs SimProofs SimLocal SimSteps SimPairs StageSpec.
Import ListNotations.
Local Open Scope R_scope.
Local Notation length := List.length.

Definition tail_stage (X : externals) (r : room) (rows n : nat) (base : list xr) (beta : list R) (c : config)
    (tdiff tmax : option R) : result (list xr) :=
  match tdiff, tmax with
  | Some td, Some tm =>
      if Rlt_dec td tm then apply_diffuse_tail (x_randn X) rows n base r beta td (cfg_seed c) else Ok base
  | _, _ => Ok base
  end.
Lemma ensure_dim_inv s s' : ensure_dim s = Ok s' -> s' = s /\ (numel s = 2 \/ numel s = 3)%nat.
Proof.
  unfold ensure_dim. destruct (_ && _) eqn:G; [|discriminate]. intros H; injection H as <-. split; auto.
  apply andb_true_iff in G as [_ G]. apply orb_true_iff in G as [G|G]; apply Nat.eqb_eq in G; auto.
Qed.
Lemma validate_beta_inv b dim b' : validate_beta b dim = Ok b' -> b' = b /\ length b = (if (dim =? 2)%nat then 4 else 6)%nat.
Proof.
  unfold validate_beta. destruct (negb _) eqn:G; [discriminate|]. intros H; injection H as <-. split; auto.
  apply negb_false_iff, Nat.eqb_eq in G. auto.
Qed.
Lemma validate_pos_inv src mic dim u : validate_pos_shapes src mic dim = Ok u ->
  shape src = [nth 0 (shape src) 0; dim]%nat /\ shape mic = [nth 0 (shape mic) 0; dim]%nat.
Proof.
  unfold validate_pos_shapes, ndim. intros H.
  destruct (negb _) eqn:E1 in H; [discriminate|]. destruct (negb _) eqn:E2 in H; [discriminate|].
  apply negb_false_iff, andb_true_iff in E1 as [A1 B1]. apply negb_false_iff, andb_true_iff in E2 as [A2 B2].
  apply Nat.eqb_eq in A1, B1, A2, B2.
  destruct (shape src) as [|a [|b [|]]]; try discriminate. destruct (shape mic) as [|a' [|b' [|]]]; try discriminate.
  cbn in *. subst. auto.
Qed.
Lemma simulate_stages X dev r srcs mics mo nb ns tmax dir ori cfg : r_fs r <> 0 ->
  (exists e, forall tdiff, simulate_rir X dev r srcs mics mo nb ns tmax tdiff dir ori cfg = Err e) \/
  exists c N tm d z beta base,
    resolve_config cfg mo tmax dir = Ok (c, N, tm, d) /\ validate_args (r_fs r) ns tm N = Ok z /\
    ensure_dim (r_size r) = Ok (r_size r) /\ resolve_beta r = Ok beta /\
    length beta = (if (numel (r_size r) =? 2)%nat then 4 else 6)%nat /\
    let n := Z.to_nat z in let rows := (count srcs * count mics)%nat in
    length base = (rows * n)%nat /\ (0 < rows)%nat /\
    forall tdiff, simulate_rir X dev r srcs mics mo nb ns tmax tdiff dir ori cfg =
      do rir <- tail_stage X r rows n base beta c tdiff tm;
      do rir <- apply_rir_hpf (x_design X) (x_filt X) rows n rir (r_fs r) c;
      Ok (mkX [count srcs; count mics; n] rir).
Proof.
  intros Hfs.
  assert (K : forall tdiff, simulate_rir X dev r srcs mics mo nb ns tmax tdiff dir ori cfg = _) by
    (intros; apply simulate_rir_closed; auto).
  destruct (resolve_config cfg mo tmax dir) as [[[[c N] tm] d]|e] eqn:ER; [|left; exists e; intros; rewrite K; reflexivity].
  cbn [bind] in K. destruct (validate_args (r_fs r) ns tm N) as [z|e] eqn:EV; [|left; exists e; intros; rewrite K; reflexivity].
  cbn [bind] in K. unfold prepare_static in K.
  destruct (prepare_entities srcs ori true) as [[src so]|e] eqn:E1; [|left; exists e; intros; rewrite K; reflexivity].
  cbn [bind] in K.
  destruct (prepare_entities mics ori false) as [[mic mio]|e] eqn:E2; [|left; exists e; intros; rewrite K; reflexivity].
  cbn [bind] in K.
  destruct (ensure_dim (r_size r)) as [size|e] eqn:E3; [|left; exists e; intros; rewrite K; reflexivity].
  destruct (ensure_dim_inv _ _ E3) as [-> Hd]. cbn [bind] in K.
  set (dim := numel (r_size r)) in *.
  destruct (validate_pos_shapes _ _ dim) as [u|e] eqn:E4; [|left; exists e; intros; rewrite K; reflexivity]. cbn [bind] in K.
  destruct (resolve_beta r) as [beta|e] eqn:E5; [|left; exists e; intros; rewrite K; reflexivity]. cbn [bind] in K.
  destruct (validate_beta beta dim) as [beta'|e] eqn:E6; [|left; exists e; intros; rewrite K; reflexivity]. cbn [bind] in K.
  apply validate_beta_inv in E6 as [-> Lb].
  destruct (image_source_indices N dim nb) as [nv|e] eqn:E7; [|left; exists e; intros; rewrite K; reflexivity]. cbn [bind] in K.
  destruct (split_directivity d) as [[sp mp]|e] eqn:E8; [|left; exists e; intros; rewrite K; reflexivity]. cbn [bind] in K.
  destruct (mic_directions mp mio dim) as [md|e] eqn:E9; [|left; exists e; intros; rewrite K; reflexivity]. cbn [bind] in K.
  destruct (src_directions sp so dim _) as [sd|e] eqn:E10; [|left; exists e; intros; rewrite K; reflexivity]. cbn [bind] in K.
  destruct (static_closed _ _ _ _ _ _ _ _ _ _ _ _ _ _) as [base|e] eqn:E11; [|left; exists e; intros; rewrite K; reflexivity].
  cbn [bind] in K. right. exists c, N, tm, d, z, beta, base. repeat (split; [auto; fail|]).
  assert (Ps : src = entity_pos srcs).
  { unfold prepare_entities in E1. destruct srcs, ori as [|t|[|a [|b [|]]]]; cbn in *; congruence. }
  assert (Pm : mic = entity_pos mics).
  { unfold prepare_entities in E2. destruct mics, ori as [|t|[|a [|b [|]]]]; cbn in *; congruence. }
  subst src mic. apply validate_pos_inv in E4 as [V1 V2].
  pose proof (length_trows_2d _ _ _ V1) as L1. pose proof (length_trows_2d _ _ _ V2) as L2.
  fold (count srcs) in L1. fold (count mics) in L2.
  cbv zeta. rewrite L1, L2 in K.
  unfold static_closed in E11. bcase_in E11. bcase_in E11.
  destruct (negb _) eqn:N1 in E11; [discriminate|]. rewrite L1, L2 in E11.
  destruct (Nat.eqb_spec (count srcs * count mics) 0) as [Z0|Z0]; [discriminate|]. injection E11 as <-.
  split; [apply length_rows2|]. split; [lia|]. intros tdiff. rewrite K. unfold tail_stage. reflexivity.
Qed.

(** ** Diffuse tail *)
Definition tail_start (fs td : R) (n : nat) : Z := Z.min (Z.of_nat n - 1) (floorZ (rnd64 (td * fs))).
Definition tail_decay (fs : R) (t60 : option R) (i : nat) : R :=
  let t := INR i / fs in
  match t60 with
  | Some t60 => if Rle_dec t60 0 then exp (- t * 3) else exp (- t / (t60 / 6.9078))
  | None => exp (- t * 3)
  end.
Lemma tail_spec randn rows n base r beta td seed t60 : length base = (rows * n)%nat ->
  estimate_t60_from_beta (r_size r) beta = Ok t60 ->
  exists out, apply_diffuse_tail randn rows n base r beta td seed = Ok out /\ length out = (rows * n)%nat /\
    ((tail_start (r_fs r) td n <= 0)%Z -> out = base) /\
    forall q j, (q < rows)%nat -> (j < n)%nat -> (0 < tail_start (r_fs r) td n)%Z ->
      let i0 := Z.to_nat (tail_start (r_fs r) td n) in
      nth (q * n + j) out None =
      if (j <? i0)%nat then nth (q * n + j) base None
      else xscale (nth (q * (n - i0) + (j - i0)) (randn (match seed with None => 0%Z | Some s => s end) (rows * (n - i0))%nat) 0
                   * tail_decay (r_fs r) t60 (j - i0))
             (option_map (fun x => Rabs x + / 10 ^ 8) (nth (q * n + (i0 - 1)) base None)).
Proof.
  intros Hl Ht. unfold apply_diffuse_tail. fold (tail_start (r_fs r) td n).
  destruct (Z.leb_spec (tail_start (r_fs r) td n) 0) as [L|L].
  { exists base. repeat split; auto. intros. lia. }
  rewrite Ht. cbn [bind]. set (i0 := Z.to_nat (tail_start (r_fs r) td n)).
  assert (I0 : (0 < i0 < n)%nat) by (unfold i0, tail_start in *; lia).
  eexists. split; [reflexivity|].
  set (noise := randn _ _).
  set (row := fun q : nat => block (q * n) i0 base ++ map _ (seq 0 (n - i0))).
  assert (Lr : forall q, (q < rows)%nat -> length (row q) = n).
  { intros q Hq. unfold row. rewrite app_length, map_length, seq_length, length_block by (rewrite Hl; nia). lia. }
  split; [apply length_flat_rows; intros; apply Lr; lia|]. split; [lia|]. intros q j Hq Hj _. cbv zeta.
  rewrite (nth_flat_rows row rows n) by auto. unfold row.
  destruct (Nat.ltb_spec j i0) as [J|J].
  - rewrite app_nth1 by (rewrite length_block by (rewrite Hl; nia); auto). unfold block.
    rewrite nth_firstn_lt by auto. rewrite nth_skipn. reflexivity.
  - rewrite app_nth2 by (rewrite length_block by (rewrite Hl; nia); auto). rewrite length_block by (rewrite Hl; nia).
    rewrite nth_map_seq by lia. cbn [Nat.add]. replace (q * n + i0 - 1)%nat with (q * n + (i0 - 1))%nat by lia.
    reflexivity.
Qed.
Lemma t60_ok size beta : ensure_dim size = Ok size -> wf size -> length beta = (if (numel size =? 2)%nat then 4 else 6)%nat ->
  exists t, estimate_t60_from_beta size beta = Ok t.
Proof.
  intros E W L. unfold estimate_t60_from_beta. rewrite E. cbn [bind]. apply ensure_dim_inv in E as [_ D].
  unfold wf in W. fold (numel size) in W. unfold extend_size. destruct D as [D|D]; rewrite D in *; cbn in L.
  - destruct (data size) as [|x [|y [|]]]; try discriminate. rewrite L. cbn. eauto.
  - destruct (data size) as [|x [|y [|z [|]]]] eqn:Q; try discriminate. cbn [Nat.eqb bind]. rewrite L, Q. cbn. eauto.
Qed.
Lemma decay_rate fs t60 i : tail_decay fs t60 i = exp (- (tail_rate t60 * (INR i / fs))).
Proof.
  unfold tail_decay, tail_rate. set (x := INR i / fs). destruct t60 as [t|]; [destruct (Rle_dec t 0)|]; f_equal; try lra.
  field. lra.
Qed.
Lemma rate_pos t60 : 0 < tail_rate t60.
Proof.
  unfold tail_rate. destruct t60 as [t|]; [destruct (Rle_dec t 0)|]; try lra. apply Rdiv_lt_0_compat; lra.
Qed.
Lemma exp_rate fs k i : 0 < fs -> 0 < k -> 0 < exp (- (k * (INR i / fs))) <= 1.
Proof.
  intros Hf Hk. assert (T : 0 <= INR i / fs) by (apply Rle_mult_inv_pos; auto using pos_INR).
  split; [apply exp_pos|].   destruct (Req_dec (k * (INR i / fs)) 0) as [->|N]; [rewrite Ropp_0, exp_0; lra|].
  rewrite <- exp_0. apply Rlt_le, exp_increasing. assert (0 <= k * (INR i / fs)) by (apply Rmult_le_pos; lra). lra.
Qed.

(** ** Sabine *)
Lemma size_cases size : size_ok size ->
  (exists x y, shape size = [2%nat] /\ data size = [x; y] /\ 0 < x /\ 0 < y) \/
  (exists x y z, shape size = [3%nat] /\ data size = [x; y; z] /\ 0 < x /\ 0 < y /\ 0 < z).
Proof.
  intros (d & S & [->| ->] & L & F).
  - left. destruct (data size) as [|x [|y [|]]]; try discriminate. inversion F; subst. inversion H2; subst. exists x, y. auto.
  - right. destruct (data size) as [|x [|y [|z [|]]]]; try discriminate. inversion F; subst. inversion H2; subst. inversion H4; subst. exists x, y, z. auto.
Qed.
Lemma volume_pos size : size_ok size -> 0 < volume (data size) /\ 0 < surface (data size).
Proof.
  intros H. destruct (size_cases size H) as [(x & y & _ & -> & A & B)|(x & y & z & _ & -> & A & B & C)]; cbn.
  - split; [apply Rmult_lt_0_compat|]; lra.
  - assert (0 < x * y) by (apply Rmult_lt_0_compat; auto). assert (0 < y * z) by (apply Rmult_lt_0_compat; auto).
    assert (0 < x * z) by (apply Rmult_lt_0_compat; auto). split; [apply Rmult_lt_0_compat; auto|lra].
Qed.
Lemma sabine_pos size t : size_ok size -> 0 < t -> 0 < sabine (data size) t.
Proof.
  intros H Ht. apply volume_pos in H as [V S]. unfold sabine. apply Rdiv_lt_0_compat; [lra|]. apply Rmult_lt_0_compat; auto.
Qed.
Lemma beta_closed size t : size_ok size -> 0 < t ->
  estimate_beta_from_t60 size t =
  Ok (repeat (sqrt (1 - Rmin (sabine (data size) t) 0.999)) (2 * length (data size))).
Proof.
  intros H Ht. pose proof (sabine_pos size t H Ht) as P. unfold estimate_beta_from_t60. destruct (Rle_dec t 0); [lra|].
  assert (B : forall a, 0 < a -> beta_of_alpha a = sqrt (1 - Rmin a 0.999)).
  { intros a Ha. unfold beta_of_alpha. rewrite Rmax_right; auto. apply Rmin_glb; lra. }
  destruct (size_cases size H) as [(x & y & S & D & _)|(x & y & z & S & D & _)];
    unfold ensure_dim, ndim, numel; rewrite S; cbn [length prodn fold_right Nat.eqb Nat.mul Nat.add andb orb bind]; rewrite D in *.
  - rewrite B; [|unfold sabine in P; cbn [volume surface] in P; replace (0.161 * (x * y * 1) / (t * (2 * (x + y) * 1))) with (0.161 * (x * y) / (t * (2 * (x + y)))); auto; do 2 f_equal; ring].
    do 2 f_equal. f_equal. f_equal. f_equal. unfold sabine. cbn [volume surface]. f_equal; ring.
  - unfold extend_size, numel. rewrite S. cbn [prodn fold_right Nat.mul Nat.add Nat.eqb bind]. rewrite D. rewrite B by exact P. reflexivity.
Qed.
Lemma t60_closed size b : size_ok size ->
  estimate_t60_from_beta size (repeat b (2 * length (data size))) =
  Ok (if Rle_dec (surface (data size) * (1 - b ^ 2)) 0 then None
      else Some (0.161 * volume (data size) / (surface (data size) * (1 - b ^ 2)))).
Proof.
  intros H. unfold estimate_t60_from_beta, t60_of_absorption.
  destruct (size_cases size H) as [(x & y & S & D & _)|(x & y & z & S & D & _)];
    unfold ensure_dim, ndim, numel; rewrite S; cbn [length prodn fold_right Nat.eqb Nat.mul Nat.add andb orb bind]; rewrite D in *.
  - cbn [length Nat.mul Nat.add repeat Nat.eqb negb map map2 combine fst snd lsum volume surface].
    match goal with |- Ok (if Rle_dec ?a 0 then _ else Some (?v / _)) = Ok (if Rle_dec ?a' 0 then _ else Some (?v' / _)) =>
      replace a with a' by ring; replace v with v' by ring end. reflexivity.
  - unfold extend_size, numel. rewrite S. cbn [prodn fold_right Nat.mul Nat.add Nat.eqb bind]. rewrite D.
    cbn [length Nat.mul Nat.add repeat Nat.eqb negb map map2 combine fst snd lsum volume surface].
    match goal with |- Ok (if Rle_dec ?a 0 then _ else Some (?v / _)) = Ok (if Rle_dec ?a' 0 then _ else Some (?v' / _)) =>
      replace a with a' by ring; replace v with v' by ring end. reflexivity.
Qed.
