(** Property C26: caches never change results. *)
From Coq Require Import String List ZArith Reals Lia Lra Bool.
From Verif Require Import Prelude PreludeFacts SignalModel DirModel AccumModel IsmModel CacheModel.
Import ListNotations.
Local Open Scope R_scope.
Local Notation length := List.length.

Section C.
Variable rd : string -> R -> R.

(** Every entry of every cache is what would be computed afresh for its key on the device
    with the key's string. *)
Definition faithful (k : caches) : Prop :=
  (forall f g s t v, In ((f, g, s, t), v) (k_lut k) -> forall ty, v = fresh_lut rd f g (mkDev ty s) t) /\
  (forall f s t v, In ((f, s, t), v) (k_grid k) -> forall ty, v = fresh_grid rd f (mkDev ty s) t) /\
  (forall f s v, In ((f, s), v) (k_offs k) -> forall ty, v = fresh_offsets f (mkDev ty s)) /\
  (forall f s t v, In ((f, s, t), v) (k_win k) -> forall ty, v = fresh_window rd f (mkDev ty s) t) /\
  (forall s t f g u c v, In ((s, t, f, g, u, c), v) (k_fn k) -> v = mkBound f g u c).
Lemma faithful_init : faithful no_caches.
Proof. repeat split; cbn; contradiction. Qed.

Lemma serve_spec {K V} (eqb : K -> K -> bool) (k : K) (fresh : V) c v c' :
  (forall a b, eqb a b = true -> a = b) -> serve eqb k fresh c = (v, c') ->
  (In (k, v) c /\ c' = c) \/ (v = fresh /\ c' = (k, fresh) :: c).
Proof.
  intros He. unfold serve. destruct (find _ c) as [p|] eqn:E; intros H; injection H as <- <-; auto.
  apply find_some in E as [H1 H2]. apply He in H2. subst. destruct p; auto.
Qed.
Lemma eq_nss_ok a b : eq_nss a b = true -> a = b.
Proof. destruct a as [[? ?] ?], b as [[? ?] ?]. cbn. rewrite !andb_true_iff, Nat.eqb_eq, !String.eqb_eq. intros [[-> ->] ->]; auto. Qed.
Lemma eq_ns_ok a b : eq_ns a b = true -> a = b.
Proof. destruct a, b. cbn. rewrite !andb_true_iff, Nat.eqb_eq, !String.eqb_eq. intros [-> ->]; auto. Qed.
Lemma eq_nnss_ok a b : eq_nnss a b = true -> a = b.
Proof. destruct a as [[[? ?] ?] ?], b as [[[? ?] ?] ?]. cbn. rewrite !andb_true_iff, !Nat.eqb_eq, !String.eqb_eq. intros [[[-> ->] ->] ->]; auto. Qed.
Lemma eq_fn_ok a b : eq_fn a b = true -> a = b.
Proof.
  destruct a as [[[[[? ?] ?] ?] ?] ?], b as [[[[[? ?] ?] ?] ?] ?]. cbn.
  rewrite !andb_true_iff, !Nat.eqb_eq, !String.eqb_eq, eqb_true_iff. intros [[[[[-> ->] ->] ->] ->] ->]; auto.
Qed.

Ltac open_serve eqok H :=
  match type of H with (let (_, _) := serve ?e ?k ?f ?c in _) = _ =>
    let E := fresh "E" in let v := fresh "v" in let c' := fresh "c'" in
    destruct (serve e k f c) as [v c'] eqn:E; injection H as <- <-;
    apply (serve_spec e k f c v c' eqok) in E end.

Lemma get_grid_ok f d t k v k' : faithful k -> get_grid rd f d t k = (v, k') -> v = fresh_grid rd f d t /\ faithful k'.
Proof.
  intros F H. unfold get_grid in H. open_serve eq_nss_ok H. destruct d as [ty s]. destruct F as (F1 & F2 & F3 & F4 & F5).
  destruct E as [[E ->] | [-> ->]]; [split; [apply (F2 _ _ _ _ E)|repeat split; auto]|].
  split; auto. repeat split; auto. cbn. intros ? ? ? ? [G|G] ty'; eauto. injection G as <- <- <- <-. reflexivity.
Qed.
Lemma get_offsets_ok f d k v k' : faithful k -> get_offsets f d k = (v, k') -> v = fresh_offsets f d /\ faithful k'.
Proof.
  intros F H. unfold get_offsets in H. open_serve eq_ns_ok H. destruct d as [ty s]. destruct F as (F1 & F2 & F3 & F4 & F5).
  destruct E as [[E ->] | [-> ->]]; [split; [apply (F3 _ _ _ E)|repeat split; auto]|].
  split; auto. repeat split; auto. cbn. intros ? ? ? [G|G] ty'; eauto. injection G as <- <- <-. reflexivity.
Qed.
Lemma get_window_ok f d t k v k' : faithful k -> get_window rd f d t k = (v, k') -> v = fresh_window rd f d t /\ faithful k'.
Proof.
  intros F H. unfold get_window in H. open_serve eq_nss_ok H. destruct d as [ty s]. destruct F as (F1 & F2 & F3 & F4 & F5).
  destruct E as [[E ->] | [-> ->]]; [split; [apply (F4 _ _ _ _ E)|repeat split; auto]|].
  split; auto. repeat split; auto. cbn. intros ? ? ? ? [G|G] ty'; eauto. injection G as <- <- <- <-. reflexivity.
Qed.
Lemma get_lut_ok f g d t k v k' : faithful k -> get_lut rd f g d t k = (v, k') -> v = fresh_lut rd f g d t /\ faithful k'.
Proof.
  intros F H. unfold get_lut in H. open_serve eq_nnss_ok H. destruct d as [ty s]. destruct F as (F1 & F2 & F3 & F4 & F5).
  destruct E as [[E ->] | [-> ->]]; [split; [apply (F1 _ _ _ _ _ E)|repeat split; auto]|].
  split; auto. repeat split; auto. cbn. intros ? ? ? ? ? [G|G] ty'; eauto. injection G as <- <- <- <- <-. reflexivity.
Qed.
Lemma get_fn_ok c d t k v k' : faithful k -> get_fn c d t k = (v, k') -> v = bind_config c d /\ faithful k'.
Proof.
  intros F H. unfold get_fn in H. destruct (negb (compiles c d)); [injection H as <- <-; auto|].
  open_serve eq_fn_ok H. destruct F as (F1 & F2 & F3 & F4 & F5).
  destruct E as [[E ->] | [-> ->]].
  - split; [rewrite (F5 _ _ _ _ _ _ _ E); reflexivity|repeat split; auto].
  - split; auto. repeat split; auto. cbn. intros ? ? ? ? ? ? ? [G|G]; eauto. injection G as <- <- <- <- <- <- <-. reflexivity.
Qed.

(** What a call returns when every table is computed afresh. *)
Definition from_fresh (a : call) : result (list xr) :=
  let b := bind_config (a_cfg a) (a_dev a) in
  let d := a_dev a in let t := a_sdtype a in
  if (a_sm a =? 0)%nat then Err RuntimeError
  else loop_from rd a b (fresh_grid rd (b_fdl b) d t) (fresh_window rd (b_fdl b) d t) (fresh_offsets (b_fdl b) d)
         (if b_lut b then Some (fresh_lut rd (b_fdl b) (b_gran b) d t) else None).

Lemma cached_step a k : faithful k ->
  fst (accumulate_cached rd a k) = from_fresh a /\ faithful (snd (accumulate_cached rd a k)).
Proof.
  intros F. unfold accumulate_cached, from_fresh.
  destruct (get_fn _ _ _ k) as [b k1] eqn:E1. apply get_fn_ok in E1 as [-> F1]; auto.
  destruct (a_sm a =? 0)%nat; [auto|].
  destruct (get_grid _ _ _ _ k1) as [g k2] eqn:E2. apply get_grid_ok in E2 as [-> F2]; auto.
  destruct (get_offsets _ _ k2) as [o k3] eqn:E3. apply get_offsets_ok in E3 as [-> F3]; auto.
  destruct (get_window _ _ _ _ k3) as [w k4] eqn:E4. apply get_window_ok in E4 as [-> F4]; auto.
  destruct (b_lut _); auto.
  destruct (get_lut _ _ _ _ _ k4) as [l k5] eqn:E5. apply get_lut_ok in E5 as [-> F5]; auto.
Qed.
Lemma after_faithful h : forall k, faithful k -> faithful (after rd h k).
Proof. induction h as [|a h IH]; intros k F; cbn; auto. apply IH. apply cached_step; auto. Qed.
End C.

(** ** C26 *)
Theorem C26_history_irrelevant : forall rd h h' a,
  fst (accumulate_cached rd a (after rd h no_caches)) = fst (accumulate_cached rd a (after rd h' no_caches)).
Proof.
  intros. etransitivity; [apply cached_step, after_faithful, faithful_init|symmetry; apply cached_step, after_faithful, faithful_init].
Qed.
(** The tables and the bound constants served after any history are the fresh ones. *)
Theorem C26_served_tables : forall rd h f g d t c, let k := after rd h no_caches in
  fst (get_grid rd f d t k) = mkCached (dev_str d) t (map (rd t) (fdl_grid f)) /\
  fst (get_window rd f d t k) = mkCached (dev_str d) t (map (rd t) (fdl_window f)) /\
  fst (get_offsets f d k) = mkCached (dev_str d) "int64" (fdl_offsets f) /\
  fst (get_lut rd f g d t k) = mkCached (dev_str d) t (map (rd t) (sinc_lut f g)) /\
  fst (get_fn c d t k) = mkBound (Z.to_nat (cfg_fdl c)) (Z.to_nat (cfg_gran c))
    (cfg_use_lut c && match dev_type d with Mps => false | _ => true end) (Z.to_nat (cfg_acc_chunk c)).
Proof.
  intros. assert (F : faithful rd k) by apply after_faithful, faithful_init.
  destruct (get_grid rd f d t k) eqn:E1, (get_window rd f d t k) eqn:E2, (get_offsets f d k) eqn:E3,
    (get_lut rd f g d t k) eqn:E4, (get_fn c d t k) eqn:E5.
  apply get_grid_ok in E1 as [-> _]; auto. apply get_window_ok in E2 as [-> _]; auto.
  apply (get_offsets_ok rd _ _ _ _ _ F) in E3 as [-> _]. apply get_lut_ok in E4 as [-> _]; auto.
  apply (get_fn_ok rd _ _ _ _ _ _ F) in E5 as [-> _]. repeat split.
Qed.
Lemma tap_from_exact u L g frac i : (i < L)%nat ->
  tap_from (fun _ x => x) "t" (fdl_grid L) (fdl_window L) (if u : bool then Some (sinc_lut L g) else None) L g frac i =
  filter_tap (fun x => x) u L g frac i.
Proof.
  intros Hi. unfold tap_from, filter_tap.
  assert (E : nth i (fdl_grid L) 0 = INR i).
  { unfold fdl_grid, tabulate. rewrite (nth_indep _ 0 (INR 0)) by (rewrite map_length, seq_length; auto).
    rewrite map_nth, seq_nth by auto. reflexivity. }
  destruct u; auto. rewrite E, (INR_IZR_INZ i).
  assert (T : truncZ (IZR (Z.of_nat i)) = Z.of_nat i).
  { unfold truncZ. destruct (Rle_dec 0 _) as [_|N]; [apply floorZ_IZR|]. exfalso. apply N. rewrite <- INR_IZR_INZ. apply pos_INR. }
  rewrite T. reflexivity.
Qed.
Lemma window_length L : (0 < L)%nat -> length (fdl_window L) = L.
Proof. intros. unfold fdl_window, tabulate. destruct (Nat.eqb_spec L 1); subst; auto. rewrite map_length, seq_length. auto. Qed.
Lemma mapM_ext_seq {B} (f g : nat -> result B) n : forall s, (forall i, (s <= i < s + n)%nat -> f i = g i) -> mapM f (seq s n) = mapM g (seq s n).
Proof. induction n; intros s H; cbn; auto. rewrite (H s) by lia. rewrite (IHn (Datatypes.S s)); auto. intros; apply H; lia. Qed.
Lemma foldM_ext {A B} (f g : B -> A -> result B) l : (forall b a, f b a = g b a) -> forall b, foldM f l b = foldM g l b.
Proof. intros H. induction l; intros b; cbn; auto. rewrite H. destruct (g b a); cbn; auto. Qed.
(** In exact arithmetic the cached accumulation is the plain one, after any history. *)
Theorem C26_is_plain : forall h a, let rd := fun (_ : string) x => x in
  (0 < Z.to_nat (cfg_fdl (a_cfg a)))%nat ->
  fst (accumulate_cached rd a (after rd h no_caches)) =
  accumulate_impl (fun x => x) (a_sm a) (a_nsample a) (a_rir a) (a_sample a) (a_amp a)
    (Z.to_nat (cfg_fdl (a_cfg a))) (Z.to_nat (cfg_gran (a_cfg a)))
    (lut_enabled (cfg_use_lut (a_cfg a)) (dev_type (a_dev a))) (Z.to_nat (cfg_acc_chunk (a_cfg a))).
Proof.
  intros h a rd HL. etransitivity; [apply cached_step, after_faithful, faithful_init|].
  unfold from_fresh, accumulate_impl. cbn [bind_config b_fdl b_gran b_lut b_chunk].
  destruct (a_sm a =? 0)%nat; auto. set (L := Z.to_nat (cfg_fdl (a_cfg a))) in *. set (g := Z.to_nat (cfg_gran _)).
  set (u := lut_enabled _ _). unfold loop_from.
  cbn [fresh_grid fresh_window fresh_offsets ct_dev ct_dtype ct_vals b_fdl b_gran b_lut b_chunk].
  unfold rd. rewrite !map_id.
  assert (G : length (fdl_grid L) = L) by (unfold fdl_grid, tabulate; rewrite map_length, seq_length; auto).
  assert (O : length (fdl_offsets L) = L) by (unfold fdl_offsets, tabulate; rewrite map_length, seq_length; auto).
  rewrite (window_length L HL), G, O, !String.eqb_refl, Nat.eqb_refl.
  replace (match (if u then Some (fresh_lut (fun (_ : string) x => x) L g (a_dev a) (a_sdtype a)) else None) with
    | Some l => String.eqb (ct_dev l) (dev_str (a_dev a)) | None => true end) with true
    by (destruct u; auto; cbn; rewrite String.eqb_refl; auto).
  replace (match (if u then Some (fresh_lut (fun (_ : string) x => x) L g (a_dev a) (a_sdtype a)) else None) with
    | Some l => String.eqb (ct_dtype l) (a_sdtype a) | None => true end) with true
    by (destruct u; auto; cbn; rewrite String.eqb_refl; auto).
  cbn [negb andb].
  replace (option_map ct_vals (if u then Some (fresh_lut (fun (_ : string) x => x) L g (a_dev a) (a_sdtype a)) else None))
    with (if u then Some (sinc_lut L g) else None) by (destruct u; auto; cbn; rewrite map_id; auto).
  apply foldM_ext. intros buf start.
  match goal with |- bind (mapM ?f ?l) _ = bind (mapM ?f' _) _ => replace (mapM f l) with (mapM f' l); auto end.
  apply mapM_ext_seq. intros sm _. f_equal. apply mapM_ext_seq. intros i _.
  unfold updates_from, image_updates. rewrite G. f_equal.
  apply mapM_ext_seq. intros j Hj. symmetry. rewrite <- tap_from_exact by lia. reflexivity.
Qed.
(** A float32 call on "cuda:0" followed by a float64 one: the second is served float64
    tables, not the cached float32 ones. *)
Example C26_example : let rd (t : string) (x : R) := if String.eqb t "float32" then 2 * x else x in
  let c32 := mkCall (mkConfig None None None None None None true false 3 4 2 1 true false 10 None)
    (mkDev Cuda "cuda:0") "float32" "float32" 1 5 (repeat (Some 0) 5) [1.5] [Some 1] in
  let k := after rd [c32] no_caches in
  length (k_win k) = 1%nat /\ length (k_fn k) = 1%nat /\
  fst (get_window rd 3 (mkDev Cuda "cuda:0") "float64" k) = mkCached "cuda:0" "float64" (map (fun x => x) (fdl_window 3)).
Proof. repeat split. Qed.
Print Assumptions C26_history_irrelevant.
Print Assumptions C26_served_tables.
Print Assumptions C26_is_plain.
