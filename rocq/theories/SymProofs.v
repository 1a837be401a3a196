(** Lemmas about changes of units and of axes. *)
From Coq Require Import String List ZArith Reals Lia Lra Bool Permutation.
From Verif Require Import Prelude PreludeFacts SignalModel FloatModel DirModel DirSpec DirProofs ImageModel ImageSpec AcousticModel
  AccumModel IsmModel IsmSpec ImageProofs AccumProofs IsmProofs SimProofs SimMore SimArrival SimLocal SimStages SymSpec.
Import ListNotations.
Local Open Scope R_scope.
Local Notation length := List.length.

(** ** Units of length *)
Lemma reflected_scale k len x n : reflected (k * len) (k * x) n = k * reflected len x n.
Proof. rewrite !reflected_cell. destruct (Z.even n); ring. Qed.
Lemma image_of_scale k src : forall size n,
  image_of (map (Rmult k) src) (map (Rmult k) size) n = map (Rmult k) (image_of src size n).
Proof.
  induction src as [|x src IH]; intros [|l size] [|i n]; cbn [map image_of]; auto.
  rewrite reflected_scale, IH. reflexivity.
Qed.
Lemma diff_scale k a : forall b, diff (map (Rmult k) a) (map (Rmult k) b) = map (Rmult k) (diff a b).
Proof. induction a as [|x a IH]; intros [|y b]; cbn [map diff]; auto. rewrite IH. f_equal. ring. Qed.
Lemma sqdist_scale k a : forall b, sqdist (map (Rmult k) a) (map (Rmult k) b) = k * k * sqdist a b.
Proof.
  unfold sqdist. induction a as [|x a IH]; intros [|y b]; cbn [map combine fold_right fst snd]; try ring.
  rewrite IH. ring.
Qed.
Lemma euclid_scale k a b : 0 < k -> euclid (map (Rmult k) a) (map (Rmult k) b) = k * euclid a b.
Proof.
  intros H. unfold euclid. rewrite sqdist_scale, sqrt_mult; [|nra|apply sqdist_nonneg].
  rewrite sqrt_square by lra. reflexivity.
Qed.
Lemma cos_between_scale k v o : 0 < k -> cos_between (map (Rmult k) v) o = cos_between v o.
Proof.
  intros H. unfold cos_between.
  assert (N : vnorm (map (Rmult k) v) = k * vnorm v).
  { rewrite !vnorm_norm. apply (norm_vscale k v). lra. }
  rewrite N. destruct (Req_EM_T (k * vnorm v) 0) as [E|E], (Req_EM_T (vnorm v) 0) as [E'|E']; auto.
  - exfalso. apply Rmult_integral in E. lra.
  - exfalso. apply E. rewrite E'. ring.
  - rewrite map_map. f_equal. f_equal. f_equal. apply map_ext. intros x. field. lra.
Qed.
Lemma vopp_scale k v : vopp (map (Rmult k) v) = map (Rmult k) (vopp v).
Proof. unfold vopp. rewrite !map_map. apply map_ext. intros; ring. Qed.
Lemma src_gain_scale k gs i v : 0 < k -> src_gain gs i (map (Rmult k) v) = src_gain gs i v.
Proof. intros H. destruct gs as [[g ds]|]; cbn; auto. rewrite cos_between_scale; auto. Qed.
Lemma mic_gain_scale k gs i v : 0 < k -> mic_gain gs i (map (Rmult k) v) = mic_gain gs i v.
Proof. intros H. destruct gs as [[g ds]|]; cbn; auto. rewrite vopp_scale, cos_between_scale; auto. Qed.

Lemma xscale_xscale a b x : xscale a (xscale b x) = xscale (a * b) x.
Proof. destruct x; cbn; auto. f_equal. ring. Qed.
Lemma xsum_scale a l : xsum (map (xscale a) l) = xscale a (xsum l).
Proof.
  unfold xsum. induction l as [|x l IH]; cbn [map fold_right].
  - cbn. f_equal. ring.
  - rewrite IH. destruct x, (fold_right xadd (Some 0) l); cbn; auto. f_equal. ring.
Qed.
Lemma pulse_scale L kern d a b j : pulse L kern d (xscale b a) j = xscale b (pulse L kern d a j).
Proof.
  unfold pulse. destruct (_ && _).
  - rewrite !xscale_xscale. f_equal. ring.
  - cbn. f_equal. ring.
Qed.

Lemma ray_length_scale k src mic size n : 0 < k -> far k src mic size n ->
  ray_length (map (Rmult k) src) (map (Rmult k) mic) (map (Rmult k) size) n = k * ray_length src mic size n.
Proof.
  intros H [F1 F2]. unfold ray_length. rewrite image_of_scale, euclid_scale by auto.
  rewrite !Rmax_left by auto. reflexivity.
Qed.
Lemma response_scale k L kern fs c ws size images (gs gm : gains) src mic j : 0 < k ->
  (forall v, gs (map (Rmult k) v) = gs v) -> (forall v, gm (map (Rmult k) v) = gm v) ->
  (forall n, In n images -> far k src mic size n) ->
  response L kern fs (k * c) ws (map (Rmult k) size) images gs gm (map (Rmult k) src) (map (Rmult k) mic) j =
  xscale (/ k) (response L kern fs c ws size images gs gm src mic j).
Proof.
  intros H Gs Gm F. unfold response. rewrite <- xsum_scale, map_map. f_equal. apply map_ext_in. intros n Hn.
  rewrite <- pulse_scale. f_equal.
  - rewrite ray_length_scale by auto. unfold Rdiv. rewrite Rinv_mult.
    replace (k * ray_length src mic size n * fs * (/ k * / c)) with (k * / k * (ray_length src mic size n * fs * / c)) by ring.
    rewrite Rinv_r by lra. ring.
  - unfold amplitude. rewrite ray_length_scale by auto. unfold ray. rewrite image_of_scale, diff_scale, Gs, Gm.
    rewrite xscale_xscale. f_equal. unfold Rdiv. rewrite Rinv_mult. ring.
Qed.

Lemma trows_tscale k t : trows (tscale k t) = map (map (Rmult k)) (trows t).
Proof. unfold trows, tscale. cbn [shape data]. rewrite map_map. apply map_ext. intros. apply block_map. Qed.
Lemma unsqueeze1_tscale k t : unsqueeze1 (tscale k t) = tscale k (unsqueeze1 t).
Proof. unfold unsqueeze1, ndim, tscale. cbn [shape]. destruct (_ =? 1)%nat; reflexivity. Qed.
Lemma numel_tscale k t : numel (tscale k t) = numel t.
Proof. reflexivity. Qed.
Lemma ensure_dim_tscale k t : ensure_dim (tscale k t) =
  match ensure_dim t with Ok s => Ok (tscale k s) | Err e => Err e end.
Proof. unfold ensure_dim, ndim, numel, tscale. cbn [shape]. repeat match goal with |- context [if ?b then _ else _] => destruct b end; reflexivity. Qed.
Lemma prepare_entities_escale k e o b : prepare_entities (escale k e) o b =
  match prepare_entities e o b with Ok (p, q) => Ok (tscale k p, q) | Err x => Err x end.
Proof. destruct e, o as [|t|[|x [|y [|]]]]; reflexivity. Qed.
Lemma prepare_static_scale k r srcs mics ori : prepare_static (in_units k r) (escale k srcs) (escale k mics) ori =
  match prepare_static r srcs mics ori with
  | Ok (sp, mp, so, mo, size, dim) => Ok (tscale k sp, tscale k mp, so, mo, map (Rmult k) size, dim)
  | Err e => Err e
  end.
Proof.
  unfold prepare_static. rewrite !prepare_entities_escale.
  destruct (prepare_entities srcs ori true) as [[p q]|]; cbn [bind]; auto.
  destruct (prepare_entities mics ori false) as [[p' q']|]; cbn [bind]; auto.
  cbn [in_units r_size]. rewrite ensure_dim_tscale. destruct (ensure_dim (r_size r)) as [s|]; cbn [bind]; auto.
  rewrite !unsqueeze1_tscale. reflexivity.
Qed.
Lemma flat_map_scale {A B} (f g : A -> list B) (h : B -> B) l : (forall x, In x l -> f x = map h (g x)) ->
  flat_map f l = map h (flat_map g l).
Proof. induction l as [|x l IH]; intros H; cbn; auto. rewrite map_app, <- H, IH; auto with datatypes. Qed.
Lemma nth_map_nil {A} (f : A -> A) i l : nth i (map (map f) l) [] = map f (nth i l []).
Proof. change (@nil A) with (map f []) at 1. apply map_nth. Qed.

Lemma hpf_scale X a rows n rir fs c : 0 < a -> (cfg_hpf_enable c = false \/ homogeneous X) ->
  apply_rir_hpf (x_design X) (x_filt X) rows n (map (xscale a) rir) fs c =
  match apply_rir_hpf (x_design X) (x_filt X) rows n rir fs c with
  | Ok o => Ok (map (xscale a) o) | Err e => Err e end.
Proof.
  intros Ha H. unfold apply_rir_hpf. destruct (cfg_hpf_enable c); cbn [negb]; auto.
  destruct H as [H|H]; [discriminate|]. destruct (design_hpf_sos _ _ _ _) as [s|]; cbn [bind]; auto.
  assert (G : forall l, mapM (fun i => x_filt X s (block (i * n) n (map (xscale a) rir))) l =
    match mapM (fun i => x_filt X s (block (i * n) n rir)) l with
    | Ok o => Ok (map (map (xscale a)) o) | Err e => Err e end).
  { induction l as [|i l IH]; cbn [mapM]; auto. rewrite block_map, H by auto.
    destruct (x_filt X s (block (i * n) n rir)); cbn [bind]; auto.
    rewrite IH. destruct (mapM (fun i0 => x_filt X s (block (i0 * n) n rir)) l); reflexivity. }
  rewrite G. destruct (mapM _ (seq 0 rows)); cbn [bind]; auto. rewrite concat_map. reflexivity.
Qed.

Lemma simulate_units X dev r srcs mics mo nb ns tmax dir ori c k : r_fs r <> 0 -> 0 < k ->
  (r_beta r <> None \/ r_t60 r = None) -> (cfg_hpf_enable c = false \/ homogeneous X) ->
  (forall s m n, (s < count srcs)%nat -> (m < count mics)%nat -> length n = numel (r_size r) ->
     far k (position srcs s) (position mics m) (data (r_size r)) n) ->
  simulate_rir X dev (in_units k r) (escale k srcs) (escale k mics) mo nb ns tmax None dir ori (Some c) =
  times (/ k) (simulate_rir X dev r srcs mics mo nb ns tmax None dir ori (Some c)).
Proof.
  intros Hfs Hk Hb HX F. rewrite !simulate_rir_closed by (cbn; auto).
  destruct (resolve_config (Some c) mo tmax dir) as [[[[c' N] tm] d]|] eqn:E0; cbn [bind times]; auto.
  assert (c' = c) as ->.
  { destruct (resolve_config_cases _ _ _ _ _ _ _ _ E0) as (_ & [E|[E _]] & _); congruence. }
  cbn [in_units r_fs r_c]. destruct (validate_args (r_fs r) ns tm N) as [z|] eqn:E1; cbn [bind times]; auto.
  rewrite prepare_static_scale.
  destruct (prepare_static r srcs mics ori) as [[[[[[sp mp] so] mio] size] dim]|] eqn:E2; cbn [bind times]; auto.
  change (validate_pos_shapes (tscale k sp) (tscale k mp) dim) with (validate_pos_shapes sp mp dim).
  destruct (validate_pos_shapes sp mp dim) as [u|] eqn:EV; cbn [bind times]; auto.
  apply validate_pos_inv in EV as [V1 V2].
  assert (Eb : resolve_beta (in_units k r) = resolve_beta r).
  { unfold resolve_beta. cbn [in_units r_beta r_t60 r_size]. destruct (r_beta r); auto.
    destruct Hb as [Hb|Hb]; [congruence|]. rewrite Hb. reflexivity. }
  rewrite Eb. destruct (resolve_beta r) as [beta|]; cbn [bind times]; auto.
  destruct (validate_beta beta dim) as [beta'|]; cbn [bind times]; auto.
  destruct (image_source_indices N dim nb) as [nv|] eqn:E7; cbn [bind times]; auto.
  destruct (split_directivity d) as [[sn mn]|]; cbn [bind times]; auto.
  destruct (mic_directions mn mio dim) as [md|]; cbn [bind times]; auto.
  rewrite !trows_tscale, !map_length.
  destruct (src_directions sn so dim _) as [sd|]; cbn [bind times]; auto.
  unfold static_closed.
  destruct (side_of sn sd) as [gs|]; cbn [bind times]; auto. destruct (side_of mn md) as [gm|]; cbn [bind times]; auto.
  rewrite !map_length. destruct (negb _); cbn [bind times]; auto. destruct (_ =? 0)%nat; cbn [bind times]; auto.
  unfold prepare_static in E2.
  destruct (prepare_entities srcs ori true) as [[p0 q0]|] eqn:E; [|discriminate]. cbn [bind] in E2.
  destruct (prepare_entities mics ori false) as [[p1 q1]|] eqn:E3; [|discriminate]. cbn [bind] in E2.
  destruct (ensure_dim (r_size r)) as [sz|] eqn:E4; [|discriminate]. cbn [bind] in E2.
  injection E2 as <- <- <- <- <- <-.
  assert (P0 : p0 = entity_pos srcs) by (destruct srcs, ori as [|t|[|x [|y [|]]]]; cbn in E |- *; congruence).
  assert (P1 : p1 = entity_pos mics) by (destruct mics, ori as [|t|[|x [|y [|]]]]; cbn in E3 |- *; congruence).
  assert (P2 : sz = r_size r).
  { apply ensure_dim_inv in E4. tauto. }
  subst p0 p1 sz.
  rewrite (flat_map_scale _ (fun s => flat_map (fun m =>
        map (pair_response dev c (r_fs r) (r_c r) beta' (data (r_size r)) nv (src_gain gs s) (mic_gain gm m)
              (position srcs s) (position mics m)) (seq 0 (Z.to_nat z)))
        (seq 0 (length (trows (unsqueeze1 (entity_pos mics)))))) (xscale (/ k))).
  2:{ intros s Hs. apply flat_map_scale. intros m Hm. rewrite map_map.
      apply in_seq in Hs, Hm. rewrite (length_trows_2d _ _ _ V1) in Hs. rewrite (length_trows_2d _ _ _ V2) in Hm. apply map_ext. intros j.
      rewrite !nth_map_nil. unfold pair_response. apply response_scale; auto.
      - intros v. apply src_gain_scale; auto.
      - intros v. apply mic_gain_scale; auto.
      - intros n Hn. apply F; [unfold count; lia|unfold count; lia|]. eapply indices_length; eauto. apply validate_args_pos in E1. tauto. }
  assert (Hk' : 0 < / k) by (apply Rinv_0_lt_compat; auto).
  rewrite (hpf_scale X (/ k)) by auto.
  unfold position.
  destruct (apply_rir_hpf _ _ _ _ _ _ _); cbn [bind times]; auto.
Qed.

(** ** Units of time *)
Lemma simulate_time_units X dev r srcs mics mo nb n tmax dir ori c k : r_fs r <> 0 -> 0 < k ->
  cfg_hpf_enable c = false ->
  simulate_rir X dev (in_time_units k r) srcs mics mo nb (Some n) tmax None dir ori (Some c) =
  simulate_rir X dev r srcs mics mo nb (Some n) tmax None dir ori (Some c).
Proof.
  intros Hfs Hk Hh. rewrite !simulate_rir_closed; auto.
  2:{ cbn. intros E. apply Rmult_integral in E. lra. }
  destruct (resolve_config (Some c) mo tmax dir) as [[[[c' N] tm] d]|] eqn:E0; cbn [bind]; auto.
  assert (c' = c) as ->.
  { destruct (resolve_config_cases _ _ _ _ _ _ _ _ E0) as (_ & [E|[E _]] & _); congruence. }
  change (validate_args (r_fs (in_time_units k r)) (Some n) tm N) with (validate_args (r_fs r) (Some n) tm N).
  destruct (validate_args (r_fs r) (Some n) tm N) as [z|] eqn:E1; cbn [bind]; auto.
  change (prepare_static (in_time_units k r) srcs mics ori) with (prepare_static r srcs mics ori).
  destruct (prepare_static r srcs mics ori) as [[[[[[sp mp] so] mio] size] dim]|] eqn:E2; cbn [bind]; auto.
  change (resolve_beta (in_time_units k r)) with (resolve_beta r).
  cbn [in_time_units r_fs r_c].
  destruct (validate_pos_shapes sp mp dim); cbn [bind]; auto.
  destruct (resolve_beta r) as [beta|]; cbn [bind]; auto.
  destruct (validate_beta beta dim) as [beta'|]; cbn [bind]; auto.
  destruct (image_source_indices N dim nb) as [nv|] eqn:E7; cbn [bind]; auto.
  destruct (split_directivity d) as [[sn mn]|]; cbn [bind]; auto.
  destruct (mic_directions mn mio dim) as [md|]; cbn [bind]; auto.
  destruct (src_directions sn so dim _) as [sd|]; cbn [bind]; auto.
  unfold static_closed.
  destruct (side_of sn sd) as [gs|]; cbn [bind]; auto. destruct (side_of mn md) as [gm|]; cbn [bind]; auto.
  destruct (negb _); cbn [bind]; auto. destruct (_ =? 0)%nat; cbn [bind]; auto.
  unfold apply_rir_hpf. rewrite Hh. cbn [negb bind]. do 2 f_equal.
  apply flat_map_ext_in. intros s _. apply flat_map_ext_in. intros m _. apply map_ext. intros j.
  unfold pair_response, response. f_equal. apply map_ext. intros v. f_equal. unfold Rdiv. rewrite Rinv_mult.
  generalize (ray_length (nth s (trows sp) []) (nth m (trows mp) []) size v). intros x.
  replace (x * (k * r_fs r) * (/ k * / r_c r)) with (k * / k * (x * r_fs r * / r_c r)) by ring.
  rewrite Rinv_r by lra. ring.
Qed.

(** ** Axes *)
Lemma length_permute {A} (d : A) p l : length (permute d p l) = length p.
Proof. apply map_length. Qed.
Lemma length_permute_walls p beta : length (permute_walls p beta) = (2 * length p)%nat.
Proof. unfold permute_walls. induction p; cbn; auto. cbn in IHp. rewrite IHp. lia. Qed.
Lemma nth_permute {A} (d : A) p l i : (i < length p)%nat -> nth i (permute d p l) d = nth (nth i p 0%nat) l d.
Proof.
  intros H. unfold permute. rewrite (nth_indep _ d (nth 0 l d)) by (rewrite map_length; auto).
  apply (map_nth (fun j => nth j l d)).
Qed.
Fixpoint index_of (x : nat) (p : list nat) : nat :=
  match p with [] => 0%nat | y :: r => if Nat.eqb x y then 0%nat else S (index_of x r) end.
Lemma index_of_nth p : NoDup p -> forall i, (i < length p)%nat -> index_of (nth i p 0%nat) p = i.
Proof.
  induction 1 as [|y p Hy Hd IH]; intros [|i] Hi; cbn in *; try lia.
  - rewrite Nat.eqb_refl. reflexivity.
  - destruct (Nat.eqb_spec (nth i p 0%nat) y) as [E|E].
    + exfalso. apply Hy. rewrite <- E. apply nth_In. lia.
    + rewrite IH; lia.
Qed.
Lemma nth_index_of p x : In x p -> nth (index_of x p) p 0%nat = x /\ (index_of x p < length p)%nat.
Proof.
  induction p as [|y p IH]; cbn; [tauto|]. intros [->|H].
  - rewrite Nat.eqb_refl. cbn. split; auto; lia.
  - destruct (Nat.eqb_spec x y) as [->|E]; cbn; [split; auto; lia|]. destruct (IH H). split; auto; lia.
Qed.

Section Axes.
  Variables (dim : nat) (p : list nat).
  Hypothesis Hp : Permutation p (seq 0 dim).
  Let q := map (fun x => index_of x p) (seq 0 dim).
  Lemma perm_len : length p = dim.
  Proof. rewrite (Permutation_length Hp). apply seq_length. Qed.
  Lemma perm_in x : In x p <-> (x < dim)%nat.
  Proof. split; intros H.
    - apply (Permutation_in _ Hp) in H. apply in_seq in H. lia.
    - apply (Permutation_in _ (Permutation_sym Hp)). apply in_seq. lia. Qed.
  Lemma perm_nodup : NoDup p.
  Proof. apply (Permutation_NoDup (Permutation_sym Hp)). apply seq_NoDup. Qed.
  Lemma perm_nth_lt i : (i < dim)%nat -> (nth i p 0%nat < dim)%nat.
  Proof. intros H. apply perm_in, nth_In. rewrite perm_len. auto. Qed.
  Lemma inv_len : length q = dim.
  Proof. unfold q. rewrite map_length, seq_length. reflexivity. Qed.
  Lemma inv_nth i : (i < dim)%nat -> nth i q 0%nat = index_of i p.
  Proof. intros H. unfold q. rewrite nth_map_seq by auto. reflexivity. Qed.
  Lemma permute_inv {A} (d : A) l : length l = dim -> permute d p (permute d q l) = l.
  Proof.
    intros L. apply (nth_ext _ _ d d).
    - rewrite length_permute, perm_len. auto.
    - intros i Hi. rewrite length_permute, perm_len in Hi. rewrite nth_permute by (rewrite perm_len; auto).
      rewrite nth_permute by (rewrite inv_len; apply perm_nth_lt; auto).
      rewrite inv_nth by (apply perm_nth_lt; auto). rewrite index_of_nth; auto; [apply perm_nodup|].
      rewrite perm_len; auto.
  Qed.
  Lemma permute_inj {A} (d : A) l l' : length l = dim -> length l' = dim -> permute d p l = permute d p l' -> l = l'.
  Proof.
    intros L L' E. apply (nth_ext _ _ d d); [lia|]. intros i Hi. rewrite L in Hi.
    destruct (nth_index_of p i) as [N1 N2]; [apply perm_in; auto|].
    rewrite <- N1. rewrite <- !nth_permute by auto. rewrite E. reflexivity.
  Qed.
  (** Sums and products over the axes do not depend on their order. *)
  Lemma fold_axes (op : R -> R -> R) u (f f' : nat -> R) : (forall a b c, op a (op b c) = op b (op a c)) ->
    (forall i, (i < dim)%nat -> f' i = f (nth i p 0%nat)) ->
    fold_right op u (map f' (seq 0 dim)) = fold_right op u (map f (seq 0 dim)).
  Proof.
    intros Hop Hf. rewrite (map_ext_in f' (fun i => f (nth i p 0%nat))).
    2:{ intros i Hi. apply in_seq in Hi. apply Hf. lia. }
    rewrite <- perm_len at 1. rewrite map_nth_seq.
    assert (G : forall l l', Permutation l l' -> fold_right op u l = fold_right op u l').
    { clear -Hop. induction 1; cbn; auto; [rewrite IHPermutation; auto|congruence]. }
    apply G, Permutation_map. auto.
  Qed.
  Lemma sqdist_axes mic src size n : length mic = dim -> length src = dim -> length size = dim -> length n = dim ->
    sqdist mic (image_of src size n) = fold_right Rplus 0 (map (fun i =>
      (nth i mic 0 - reflected (nth i size 0) (nth i src 0) (nth i n 0%Z)) ^ 2) (seq 0 dim)).
  Proof.
    clear. revert mic src size n. induction dim as [|d IH]; intros [|m mic] [|x src] [|l size] [|k n] H1 H2 H3 H4; try discriminate; auto.
    cbn [image_of]. unfold sqdist in *. cbn [combine map fold_right fst snd seq nth]. rewrite IH by (cbn in *; lia).
    rewrite <- seq_shift, map_map. cbn [nth]. f_equal. ring.
  Qed.
  Lemma path_gain_axes ws n : length ws = dim -> length n = dim ->
    path_gain ws n = fold_right Rmult 1 (map (fun i =>
      wall_product (fst (nth i ws (0, 0))) (snd (nth i ws (0, 0))) (planes (nth i n 0%Z))) (seq 0 dim)).
  Proof.
    clear. revert ws n. induction dim as [|d IH]; intros [|[lo hi] ws] [|k n] H1 H2; try discriminate; auto.
    cbn [path_gain map fold_right seq nth fst snd]. rewrite IH by (cbn in *; lia).
    rewrite <- seq_shift, map_map. reflexivity.
  Qed.
  Lemma length_pairs beta : length beta = (2 * dim)%nat -> length (beta_pairs beta) = dim.
  Proof.
    clear. revert beta. induction dim as [|d IH]; intros beta H; [destruct beta; [auto|discriminate]|].
    destruct beta as [|a [|b beta]]; cbn in H; try lia. cbn [beta_pairs length]. rewrite IH; lia.
  Qed.
  Lemma pairs_permute beta : length beta = (2 * dim)%nat ->
    beta_pairs (permute_walls p beta) = permute (0, 0) p (beta_pairs beta).
  Proof.
    intros L. assert (G : forall i, In i p -> (i < dim)%nat) by (intros; apply perm_in; auto).
    unfold permute_walls, permute. clear Hp q. induction p as [|i p' IH]; cbn [flat_map map app beta_pairs]; auto.
    rewrite IH by auto with datatypes. f_equal.
    specialize (G i (or_introl eq_refl)). symmetry. apply nth_error_nth, nth_beta_pairs. lia.
  Qed.
  Lemma response_axes L kern fs c beta size images src mic j :
    length beta = (2 * dim)%nat -> length size = dim -> length src = dim -> length mic = dim ->
    (forall n, In n images -> length n = dim) ->
    response L kern fs c (beta_pairs (permute_walls p beta)) (permute 0 p size) (map (permute 0%Z p) images)
      unity unity (permute 0 p src) (permute 0 p mic) j =
    response L kern fs c (beta_pairs beta) size images unity unity src mic j.
  Proof.
    intros Lb Ls Lx Lm Hi. unfold response. rewrite map_map. f_equal. apply map_ext_in. intros n Hn.
    assert (Ln := Hi n Hn). pose proof perm_len as LP.
    assert (Er : ray_length (permute 0 p src) (permute 0 p mic) (permute 0 p size) (permute 0%Z p n) = ray_length src mic size n).
    { unfold ray_length, euclid. f_equal. f_equal.
      rewrite !sqdist_axes by (rewrite ?length_permute; auto). apply fold_axes; [intros; ring|].
      intros i Hl. rewrite !nth_permute by lia. reflexivity. }
    unfold amplitude, unity. rewrite Er. f_equal. f_equal. f_equal.
    rewrite pairs_permute by auto.
    rewrite !path_gain_axes by (rewrite ?length_permute; auto; apply length_pairs; auto).
    apply fold_axes; [intros; ring|]. intros i Hl.
    rewrite !nth_permute by lia. reflexivity.
  Qed.
  (** The set of images follows the axes. *)
  Lemma order_permute n : length n = dim -> order_of (permute 0%Z p n) = order_of n.
  Proof.
    intros L. unfold order_of.
    assert (G : forall l l', Permutation l l' -> fold_right Z.add 0%Z l = fold_right Z.add 0%Z l').
    { clear. induction 1; cbn; auto; lia. }
    apply G, Permutation_map. unfold permute.
    transitivity (map (fun i => nth i n 0%Z) (seq 0 dim)); [apply Permutation_map; auto|].
    rewrite <- L. rewrite (map_nth_seq (fun x => x)). rewrite map_id. reflexivity.
  Qed.
  Lemma images_permute N nb images : (0 <= N)%Z -> image_source_indices N dim nb = Ok images ->
    exists images', image_source_indices N dim (option_map (permute 0%Z p) nb) = Ok images' /\
      Permutation (map (permute 0%Z p) images) images'.
  Proof.
    intros HN H. pose proof perm_len as LP.
    assert (Inj : forall l, NoDup l -> (forall n, In n l -> length n = dim) -> NoDup (map (permute 0%Z p) l)).
    { intros l D. induction D as [|x l Hx D IH]; intros Hl; cbn; constructor; auto with datatypes.
      intros Hin. apply in_map_iff in Hin as (y & E & Hy). apply Hx.
      rewrite <- (permute_inj 0%Z y x); auto with datatypes. }
    assert (Len := fun n => indices_length N dim nb images n HN H).
    destruct nb as [nb|]; cbn [option_map].
    - destruct (Nat.eq_dec (length nb) dim) as [Hd|Hd]; [|rewrite indices_box_reject in H by auto; discriminate].
      destruct (Forall_Exists_dec (fun n => (0 <= n)%Z) (fun n => Z_le_dec 0 n) nb) as [F|F].
      2:{ rewrite indices_box_negative in H; [discriminate|auto|].
          eapply Exists_impl; [|exact F]. intros; cbv beta in *; lia. }
      destruct (indices_box N dim nb Hd F) as (l & E & D & I). rewrite E in H. injection H as <-.
      assert (F' : Forall (fun n => (0 <= n)%Z) (permute 0%Z p nb)).
      { apply Forall_forall. intros x Hx. apply in_map_iff in Hx as (i & <- & Hi). rewrite Forall_forall in F.
        apply F, nth_In. rewrite Hd. apply perm_in; auto. }
      destruct (indices_box N dim (permute 0%Z p nb)) as (l' & E' & D' & I'); [rewrite length_permute; auto|auto|].
      exists l'. split; auto. apply NoDup_Permutation; auto.
      assert (Bx : forall n b, length n = dim -> length b = dim ->
        (Forall2 (fun x k => (Z.abs x <= k)%Z) n b <-> forall i, (i < dim)%nat -> (Z.abs (nth i n 0) <= nth i b 0)%Z)).
      { clear. intros n b Ln Lb. split.
        - intros F i Hi. revert i dim Ln Lb Hi. induction F; intros i d Ln Lb Hi; cbn in *; [lia|].
          destruct i; auto. destruct d; [lia|]. apply (IHF i d); lia.
        - revert b dim Ln Lb. induction n as [|x n IH]; intros [|y b] d Ln Lb H; cbn in *; try lia; constructor.
          + apply (H 0%nat). lia.
          + destruct d; [lia|]. apply (IH b d); try lia. intros i Hi. apply (H (S i)). lia. }
      intros n'. split.
      + intros Hin. apply in_map_iff in Hin as (n & <- & Hn). apply I'. apply I in Hn.
        assert (Ln : length n = dim) by (apply Forall2_length in Hn; lia).
        rewrite Bx in Hn by auto. apply Bx; [rewrite length_permute; auto|rewrite length_permute; auto|].
        intros i Hi. rewrite !nth_permute by lia. apply Hn, perm_nth_lt; auto.
      + intros Hin. assert (Ln' : length n' = dim).
        { apply I' in Hin. apply Forall2_length in Hin. rewrite length_permute in Hin. lia. }
        apply in_map_iff. exists (permute 0%Z q n'). split; [apply permute_inv; auto|].
        apply I. apply I' in Hin. rewrite Bx in Hin by (rewrite ?length_permute; auto).
        apply Bx; [rewrite length_permute; apply inv_len|auto|]. intros i Hi.
        rewrite nth_permute by (rewrite inv_len; auto). rewrite inv_nth by auto.
        destruct (nth_index_of p i) as [N1 N2]; [apply perm_in; auto|].
        specialize (Hin (index_of i p) ltac:(lia)). rewrite nth_permute in Hin by auto. rewrite N1 in Hin. auto.
    - destruct (indices_order N dim HN) as (l & E & D & I). rewrite E in H. injection H as <-.
      exists l. split; auto. apply NoDup_Permutation; auto.
      intros n'. split.
      + intros Hin. apply in_map_iff in Hin as (n & <- & Hn). apply I in Hn as [L1 L2]. apply I.
        rewrite length_permute, order_permute; auto.
      + intros Hin. apply I in Hin as [L1 L2]. apply in_map_iff. exists (permute 0%Z q n').
        split; [apply permute_inv; auto|]. apply I. split; [rewrite length_permute; apply inv_len|].
        rewrite <- (order_permute (permute 0%Z q n')) by (rewrite length_permute; apply inv_len).
        rewrite permute_inv; auto.
  Qed.
End Axes.
