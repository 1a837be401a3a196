(** Every (source, microphone) pair of a simulation is an independent simulation; images
    beyond the estimated counts arrive late. *)
From Coq Require Import String List ZArith Reals Lia Lra Bool Permutation.
From Verif Require Import Prelude PreludeFacts SignalModel FloatModel DirModel ImageModel ImageSpec AcousticModel
  AccumModel IsmModel IsmSpec ImageProofs AccumProofs IsmProofs SimProofs SimMore SimLocal SimSteps.
Import ListNotations.
Local Open Scope R_scope.
Local Notation length := List.length.

(** ** Orientations of single entities *)
(** Orientation of entity [i] in a room of dimension [dim]: row [i] of a (n, k) tensor (a
    single row is shared), angle [i] of a vector of angles, otherwise the shared tensor. *)
Definition pick_ori (dim : nat) (o : tensor) (i : nat) : tensor :=
  match shape o with
  | [n; d] => mkT [1%nat; d] (block ((if (n =? 1)%nat then 0 else i) * d) d (data o))
  | [n] => if ((dim =? 2) && negb (n =? 1) && negb (n =? 2))%nat then mkT [1%nat] [nth i (data o) 0] else o
  | _ => o
  end.
Definition pick_ori_arg (dim : nat) (o : ori_arg) (s m : nat) : ori_arg :=
  match o with
  | ONone => ONone
  | OTensor t => OTuple [Some (pick_ori dim t s); Some (pick_ori dim t m)]
  | OTuple [a; b] => OTuple [option_map (fun t => pick_ori dim t s) a; option_map (fun t => pick_ori dim t m) b]
  | OTuple l => OTuple l
  end.
(** Entity number [i] alone. *)
Definition pick_pos (p : tensor) (i : nat) : tensor :=
  let d := last (shape p) 0%nat in mkT [1%nat; d] (block (i * d) d (data p)).
Definition pick_entity (dim : nat) (e : entity) (i : nat) : entity :=
  match e with
  | EObj p q => EObj (pick_pos p i) (option_map (fun t => pick_ori dim t i) q)
  | ETensor p => ETensor (pick_pos p i)
  end.
(** All orientation tensors have as many entries as their shape says. *)
Definition ori_wf (o : option tensor) : Prop := match o with Some t => wf t | None => True end.
Definition ori_arg_wf (o : ori_arg) : Prop :=
  match o with ONone => True | OTensor t => wf t | OTuple l => Forall ori_wf l end.
Definition entity_ori_wf (e : entity) : Prop := match e with EObj _ q => ori_wf q | ETensor _ => True end.

Lemma trows_of_rows n d rows : length rows = n -> Forall (fun r => length r = d) rows ->
  trows (of_rows [n] d rows) = rows.
Proof.
  intros Hn Hd. unfold of_rows. rewrite (trows_2d _ n d) by reflexivity. cbn [data].
  apply nth_ext with (d := []) (d' := []); [rewrite map_length, seq_length; auto|].
  intros i Hi. rewrite map_length, seq_length in Hi. rewrite nth_map_seq by auto. cbn [Nat.add].
  subst n. revert i Hi. induction Hd as [|r rows Hr Hd IH]; intros i Hi; [cbn in Hi; lia|].
  cbn [concat]. destruct i.
  - cbn [Nat.mul nth]. unfold block. cbn [skipn]. rewrite firstn_app, <- Hr, Nat.sub_diag, firstn_all, firstn_O, app_nil_r. reflexivity.
  - cbn [nth]. rewrite <- IH by (cbn in Hi; lia). unfold block. f_equal.
    rewrite skipn_app. replace (S i * d - length r)%nat with (i * d)%nat by nia.
    rewrite skipn_all2 by nia. reflexivity.
Qed.
Lemma trows_of_row d row : length row = d -> trows (of_rows [] d [row]) = [row].
Proof.
  intros H. unfold trows, of_rows. cbn [app shape last removelast prodn fold_right seq map Nat.mul data concat].
  rewrite app_nil_r. unfold block. cbn [skipn]. rewrite <- H, firstn_all. reflexivity.
Qed.
Lemma length_normalize v : length (normalize_orientation v) = length v.
Proof. unfold normalize_orientation. apply map_length. Qed.
Lemma prodn_app x y : prodn (x ++ y) = (prodn x * prodn y)%nat.
Proof.
  induction x; [cbn [app]; change (prodn []) with 1%nat; lia|]. change ((a * prodn (x ++ y))%nat = (a * prodn x * prodn y)%nat). rewrite IHx. lia.
Qed.
Lemma prodn_last l : l <> [] -> prodn l = (prodn (removelast l) * last l 0)%nat.
Proof. intros H. rewrite (app_removelast_last 0%nat H) at 1. rewrite prodn_app. cbn [prodn fold_right]. lia. Qed.
Lemma trows_length t : Forall (fun r => length r = last (shape t) 0%nat) (trows t) \/ ~ wf t.
Proof.
  destruct (Nat.eq_dec (length (data t)) (prodn (shape t))) as [Hw|]; [left|right; auto].
  unfold trows. apply Forall_map, Forall_forall. intros i Hi. apply in_seq in Hi. apply length_block.
  rewrite Hw. destruct (shape t) as [|a l] eqn:E; [cbn [last prodn fold_right]; lia|].
  rewrite (prodn_last (a :: l)) by discriminate. nia.
Qed.
Lemma wf_trows t : wf t -> Forall (fun r => length r = last (shape t) 0%nat) (trows t).
Proof. intros H. destruct (trows_length t); tauto. Qed.
Lemma nth_concat_single (l : list R) i : (i < length l)%nat -> block i 1 l = [nth i l 0].
Proof.
  revert i. induction l as [|x l IH]; intros i H; [cbn in H; lia|]. destruct i; [reflexivity|].
  cbn [nth]. rewrite <- IH by (cbn in H; lia). reflexivity.
Qed.
Lemma length_trows t : length (trows t) = prodn (removelast (shape t)).
Proof. unfold trows. rewrite map_length, seq_length. reflexivity. Qed.

(** The directions of the whole tensor and of the tensor of one entity. *)
Definition fits (l : list (list R)) (i : nat) : Prop := length l = 1%nat \/ (i < length l)%nat.
Lemma dir_at_nth ds i : length ds <> 1%nat -> dir_at ds i = nth i ds [].
Proof. destruct ds as [|a [|b l]]; cbn; auto. congruence. Qed.
Lemma dir_at_map (f : list R -> list R) ds i : (length ds = 1%nat \/ (i < length ds)%nat) ->
  dir_at (map f ds) i = f (nth (if (length ds =? 1)%nat then 0 else i)%nat ds []).
Proof.
  intros H. destruct ds as [|a [|b l]]; [cbn in H; lia|reflexivity|].
  change (length (a :: b :: l) =? 1)%nat with false. cbv iota.
  rewrite dir_at_nth by (rewrite map_length; cbn; lia).
  rewrite nth_indep with (d' := f []) by (rewrite map_length; destruct H as [H|H]; [cbn in H; lia|exact H]).
  apply map_nth.
Qed.
Lemma pick_ori_unit dim o u i : wf o -> orientation_to_unit o dim = Ok u -> (ndim u <= 2)%nat -> fits (trows u) i ->
  exists u', orientation_to_unit (pick_ori dim o i) dim = Ok u' /\ (ndim u' <= 2)%nat /\
    trows u' = [dir_at (trows u) i].
Proof.
  intros Hw H Hd Hf. unfold ndim in Hd.
  destruct (shape o) as [|n [|d [|x l]]] eqn:Es.
  - (* scalar *) unfold orientation_to_unit, ndim in H. rewrite Es in H. cbn [length Nat.eqb last removelast] in H.
    unfold pick_ori. rewrite Es. unfold orientation_to_unit, ndim. rewrite Es. cbn [length Nat.eqb].
    destruct (dim =? 2)%nat.
    + injection H as <-. eexists. split; [reflexivity|]. split; [cbn; lia|].
      rewrite trows_of_row by reflexivity. reflexivity.
    + destruct (dim =? 3)%nat; discriminate.
  - (* vector *)
    assert (Hl : length (data o) = n) by (rewrite Hw, Es; cbn; lia).
    unfold orientation_to_unit, ndim, numel in H. rewrite Es in H.
    cbn [length Nat.eqb last removelast prodn fold_right andb] in H. rewrite Nat.mul_1_r in H.
    unfold pick_ori. rewrite Es.
    destruct (dim =? 2)%nat eqn:E2; cbn [andb].
    + destruct (Nat.eqb_spec n 1); cbn [negb andb].
      * revert Hl. subst n. intros Hl. injection H as <-. eexists. split.
        { unfold orientation_to_unit, ndim. rewrite Es, E2. cbn [length Nat.eqb last]. reflexivity. }
        destruct (data o) as [|a [|b l]]; cbn in Hl; try lia. split; [cbn; lia|].
        cbn [map]. rewrite trows_of_row by reflexivity. reflexivity.
      * destruct (Nat.eqb_spec n 2); cbn [negb andb].
        { revert Hl. subst n. intros Hl. cbn [negb Nat.eqb] in H. injection H as <-. eexists. split.
          { unfold orientation_to_unit, ndim, numel. rewrite Es, E2. cbn [length Nat.eqb last prodn fold_right Nat.mul Nat.add andb negb]. reflexivity. }
          split; [cbn; lia|]. unfold trows at 2 4. rewrite Es. cbn [last removelast prodn fold_right seq map Nat.mul].
          rewrite trows_of_row by (rewrite length_normalize; apply length_block; lia). reflexivity. }
        cbn [negb] in H. injection H as <-. cbn [of_rows shape app] in Hd.
        change (of_rows [n] 2) with (of_rows [n] 2) in *.
        assert (Et : trows (of_rows [n] 2 (map (fun a => normalize_orientation (angle_vec a)) (data o))) =
                     map (fun a => normalize_orientation (angle_vec a)) (data o)).
        { apply trows_of_rows; [rewrite map_length; auto|]. apply Forall_map, Forall_forall. intros; reflexivity. }
        rewrite Et in *. unfold orientation_to_unit. cbn [shape ndim length Nat.eqb last removelast data map].
        rewrite E2. eexists. split; [reflexivity|]. split; [cbn; lia|].
        rewrite trows_of_row by reflexivity. f_equal. unfold fits in Hf. rewrite map_length in Hf.
        rewrite dir_at_nth by (rewrite map_length; lia).
        rewrite nth_indep with (d' := normalize_orientation (angle_vec 0)) by (rewrite map_length; lia).
        symmetry. apply (map_nth (fun a => normalize_orientation (angle_vec a))).
    + exists u. split; [|split].
      * unfold orientation_to_unit, ndim. rewrite Es, E2. cbn [length Nat.eqb last removelast]. exact H.
      * auto.
      * assert (L1 : forall f, length (trows (of_rows [] 3 [f])) = 1%nat) by reflexivity.
        destruct (dim =? 3)%nat; [|discriminate].
        assert (G : length (trows u) = 1%nat).
        { destruct (n =? 3)%nat; [|destruct (n =? 2)%nat; [|discriminate]]; injection H as <-; reflexivity. }
        destruct (trows u) as [|a [|b l]]; cbn in G; try lia. reflexivity.
  - (* matrix *)
    assert (Hl : length (data o) = (n * d)%nat) by (rewrite Hw, Es; cbn; lia).
    assert (Hrows : Forall (fun r => length r = d) (trows o)).
    { pose proof (wf_trows o Hw) as G. rewrite Es in G. exact G. }
    assert (Hn : length (trows o) = n) by (rewrite (trows_2d _ n d Es), map_length, seq_length; auto).
    unfold pick_ori. rewrite Es. set (k := (if (n =? 1)%nat then 0 else i)%nat).
    unfold orientation_to_unit, ndim in H |- *. rewrite Es in H.
    cbn [length Nat.eqb last removelast shape data andb] in H |- *.
    assert (Hk : (length (trows u) = n) -> (k < n)%nat).
    { intros E. unfold fits in Hf. rewrite E in Hf. unfold k. destruct (Nat.eqb_spec n 1); lia. }
    assert (Hkd : (k < n)%nat -> length (block (k * d) d (data o)) = d) by (intros; apply length_block; nia).
    assert (Hrow : (k < n)%nat -> nth k (trows o) [] = block (k * d) d (data o)).
    { intros. rewrite (trows_2d _ n d Es), nth_map_seq by auto. reflexivity. }
    assert (Ht1 : (k < n)%nat -> trows (mkT [1%nat; d] (block (k * d) d (data o))) = [block (k * d) d (data o)]).
    { intros. rewrite (trows_2d _ 1 d) by reflexivity. cbn [seq map data Nat.mul].
      unfold block at 1. cbn [skipn]. rewrite firstn_all2 by (rewrite Hkd; auto). reflexivity. }
    (* generic conclusion for a row-wise function *)
    assert (G : forall D (f : list R -> list R), (forall r, length r = d -> length (f r) = D) ->
      u = of_rows [n] D (map f (trows o)) ->
      exists u', Ok (of_rows [1%nat] D (map f (trows (mkT [1%nat; d] (block (k * d) d (data o)))))) = Ok u' /\
        (length (shape u') <= 2)%nat /\ trows u' = [dir_at (trows u) i]).
    { intros D f HD ->.
      assert (Et : trows (of_rows [n] D (map f (trows o))) = map f (trows o)).
      { apply trows_of_rows; [rewrite map_length; auto|]. apply Forall_map. eapply Forall_impl; [|exact Hrows].
        intros; cbv beta; auto. }
      rewrite Et in *. rewrite map_length in Hk. specialize (Hk Hn).
      eexists. split; [reflexivity|]. split; [cbn; lia|].
      rewrite Ht1 by auto. cbn [map]. rewrite trows_of_rows by (auto; constructor; auto).
      f_equal. unfold fits in Hf. rewrite map_length in Hf. rewrite dir_at_map by auto. rewrite Hn. f_equal.
      fold k. symmetry; auto. }
    destruct (dim =? 2)%nat.
    + destruct (Nat.eqb_spec d 1).
      * subst d. injection H as <-.
        assert (Ed : map (fun a => normalize_orientation (angle_vec a)) (data o) =
          map (fun r => normalize_orientation (angle_vec (nth 0 r 0))) (trows o)).
        { rewrite (trows_2d _ n 1 Es), map_map.
          rewrite <- (map_nth_seq (fun a => normalize_orientation (angle_vec a)) (data o) 0).
          rewrite Hl, Nat.mul_1_r. apply map_ext_in. intros j Hj. apply in_seq in Hj.
          rewrite Nat.mul_1_r, nth_concat_single by lia. reflexivity. }
        destruct (G 2%nat (fun r => normalize_orientation (angle_vec (nth 0 r 0))) ltac:(reflexivity)) as (u' & E1 & E2 & E3).
        { rewrite Ed. reflexivity. }
        exists u'. split; auto. rewrite <- E1. do 2 f_equal.
        assert (Hkn : (k < n)%nat).
        { apply Hk. rewrite Ed, trows_of_rows; [rewrite map_length; auto|rewrite map_length; auto|].
          apply Forall_map, Forall_forall. intros; reflexivity. }
        rewrite Ht1 by auto. cbn [map]. rewrite nth_concat_single by (rewrite Hl; lia). reflexivity.
      * destruct (d =? 2)%nat eqn:Ed2; [|discriminate]. injection H as Hu. symmetry in Hu.
        apply (G 2%nat normalize_orientation); auto. intros r Hr. rewrite length_normalize. apply Nat.eqb_eq in Ed2. congruence.
    + destruct (dim =? 3)%nat; [|discriminate].
      destruct (d =? 3)%nat eqn:Ed3.
      * injection H as Hu. symmetry in Hu. apply (G 3%nat normalize_orientation); auto.
        intros r Hr. rewrite length_normalize. apply Nat.eqb_eq in Ed3. congruence.
      * destruct (d =? 2)%nat; [|discriminate]. injection H as Hu. symmetry in Hu.
        apply (G 3%nat (fun r => normalize_orientation (azel_vec (nth 0 r 0) (nth 1 r 0)))); auto.
  - (* higher rank *) exfalso. unfold orientation_to_unit, ndim in H. rewrite Es in H.
    assert (Hr : length (removelast (n :: d :: x :: l)) = S (S (length l))).
    { rewrite removelast_firstn_len, firstn_length. cbn [length]. lia. }
    assert (Q : (3 <= length (removelast (n :: d :: x :: l) ++ [2%nat]))%nat) by (rewrite app_length, Hr; cbn; lia).
    assert (Q3 : (3 <= length (removelast (n :: d :: x :: l) ++ [3%nat]))%nat) by (rewrite app_length, Hr; cbn; lia).
    cbn [length Nat.eqb andb] in H.
    repeat match type of H with (if ?b then _ else _) = _ => destruct b; try discriminate end;
    injection H as <-; unfold of_rows in Hd; cbn [shape] in Hd; rewrite app_length in Hd;
    rewrite ?Hr in Hd; cbn [length] in Hd; lia.
Qed.

(** ** One side of one pair *)
Lemma dir_at_repeat x n i : (i < n)%nat -> dir_at (repeat x n) i = x.
Proof.
  intros H. destruct n as [|[|n]]; [lia|reflexivity|]. rewrite dir_at_nth by (rewrite repeat_length; lia).
  rewrite nth_indep with (d' := x) by (rewrite repeat_length; auto). apply nth_repeat.
Qed.
Lemma trows_ndim1 u : ndim u = 1%nat -> trows u = [nth 0 (trows u) []].
Proof.
  unfold ndim, trows. destruct (shape u) as [|a [|b l]]; cbn [length]; try lia. intros _. reflexivity.
Qed.
Lemma src_side_pick sp so dim S s sd gs : ori_wf so -> (s < S)%nat ->
  src_directions sp so dim S = Ok sd -> side_of sp sd = Ok gs ->
  exists sd' gs', src_directions sp (option_map (fun t => pick_ori dim t s) so) dim 1 = Ok sd' /\
    side_of sp sd' = Ok gs' /\ dirs_fit gs' 1 = true /\ src_gain gs' 0 = src_gain gs s.
Proof.
  intros Hw Hs H Hg. unfold src_directions, side_of in *. destruct (String.eqb sp "omni").
  { injection Hg as <-. exists None, None. auto. }
  destruct so as [o|]; [|discriminate]. cbn [option_map ori_wf] in *. bcase_in H.
  destruct ((ndim a <=? 2)%nat) eqn:Ed; [|discriminate]. apply Nat.leb_le in Ed. cbn [andb] in H.
  assert (G : fits (trows a) s /\ exists rows, sd = Some rows /\ dir_at rows s = dir_at (trows a) s).
  { destruct (Nat.eqb_spec (ndim a) 1).
    - destruct (negb _); [discriminate|]. injection H as <-. pose proof (trows_ndim1 a e) as E1. split.
      + left. rewrite E1. reflexivity.
      + eexists. split; [reflexivity|]. rewrite dir_at_repeat by auto. rewrite E1. reflexivity.
    - destruct (Nat.eqb_spec (length (trows a)) S); [|discriminate]. cbn [negb] in H. injection H as <-.
      split; [right; lia|]. eauto. }
  destruct G as [Hf (rows & -> & Er)]. destruct (pick_ori_unit dim o a s Hw E Ed Hf) as (u' & E1 & E2 & E3).
  bcase_in Hg. injection Hg as <-.
  rewrite E1. cbn [bind]. rewrite (proj2 (Nat.leb_le _ _) E2).
  exists (Some [dir_at (trows a) s]), (Some (a0, [dir_at (trows a) s])).
  split; [|split; [|split]].
  - destruct (Nat.eqb_spec (ndim u') 1); rewrite E3; reflexivity.
  - reflexivity.
  - reflexivity.
  - unfold src_gain. cbn [dir_at]. rewrite Er. reflexivity.
Qed.
Lemma mic_side_pick mp mo dim M m md gm : ori_wf mo -> (m < M)%nat ->
  mic_directions mp mo dim = Ok md -> side_of mp md = Ok gm -> dirs_fit gm M = true ->
  exists md' gm', mic_directions mp (option_map (fun t => pick_ori dim t m) mo) dim = Ok md' /\
    side_of mp md' = Ok gm' /\ dirs_fit gm' 1 = true /\ mic_gain gm' 0 = mic_gain gm m.
Proof.
  intros Hw Hs H Hg Hfit. unfold mic_directions, side_of in *. destruct (String.eqb mp "omni").
  { injection Hg as <-. exists None, None. auto. }
  destruct mo as [o|]; [|discriminate]. cbn [option_map ori_wf] in *. bcase_in H.
  destruct ((ndim a <=? 2)%nat) eqn:Ed; [|discriminate]. injection H as <-. apply Nat.leb_le in Ed.
  bcase_in Hg. injection Hg as <-. cbn [dirs_fit] in Hfit.
  assert (Hf : fits (trows a) m).
  { apply orb_true_iff in Hfit as [Hfit|Hfit].
    - apply orb_true_iff in Hfit as [Hfit|Hfit]; apply Nat.eqb_eq in Hfit; [right; lia|left; auto].
    - apply andb_true_iff in Hfit as [H1 H2]. apply Nat.eqb_eq in H1. apply Nat.leb_le in H2. right. lia. }
  destruct (pick_ori_unit dim o a m Hw E Ed Hf) as (u' & E1 & E2 & E3).
  rewrite E1. cbn [bind]. rewrite (proj2 (Nat.leb_le _ _) E2), E3.
  do 2 eexists. split; [reflexivity|]. cbn [bind]. split; [reflexivity|]. split; [reflexivity|].
  reflexivity.
Qed.

(** ** One pair *)
Lemma unsqueeze1_2d p n d : shape (unsqueeze1 p) = [n; d] ->
  last (shape p) 0%nat = d /\ data (unsqueeze1 p) = data p.
Proof.
  unfold unsqueeze1, ndim. destruct (shape p) as [|a [|b l]] eqn:E; cbn [length Nat.eqb shape data].
  - rewrite E. discriminate.
  - intros H. injection H as <- <-. auto.
  - rewrite E. intros H. injection H as <- <- ->. auto.
Qed.
Lemma pick_pos_rows p n d i : shape (unsqueeze1 p) = [n; d] -> (i < n)%nat -> (n * d <= length (data p))%nat ->
  unsqueeze1 (pick_pos p i) = pick_pos p i /\ shape (pick_pos p i) = [1%nat; d] /\
  trows (pick_pos p i) = [nth i (trows (unsqueeze1 p)) []].
Proof.
  intros H Hi Hl. destruct (unsqueeze1_2d _ _ _ H) as [El Ed].
  unfold pick_pos. rewrite El. split; [reflexivity|]. split; [reflexivity|].
  rewrite (trows_2d _ 1 d) by reflexivity. cbn [seq map data Nat.mul].
  rewrite (trows_2d _ n d H), nth_map_seq by auto. rewrite Ed. cbn [Nat.add]. f_equal.
  rewrite block_block by lia. f_equal. lia.
Qed.
Definition entity_wf (e : entity) : Prop := wf (entity_pos e) /\ entity_ori_wf e.
Lemma wf_unsqueeze1 p n d : wf p -> shape (unsqueeze1 p) = [n; d] -> (n * d <= length (data p))%nat.
Proof.
  intros Hw H. destruct (unsqueeze1_2d _ _ _ H) as [El Ed]. rewrite Hw. unfold unsqueeze1, ndim in H.
  destruct (shape p) as [|a [|b l]] eqn:E; cbn [length Nat.eqb shape] in H; [congruence| |].
  - injection H as <- <-. cbn [prodn fold_right]. lia.
  - rewrite E in H. injection H as -> -> ->. cbn [prodn fold_right]. lia.
Qed.
Lemma prepare_pick r srcs mics ori src mic so mo size dim s m :
  entity_wf srcs -> entity_wf mics -> ori_arg_wf ori ->
  prepare_static r srcs mics ori = Ok (src, mic, so, mo, size, dim) ->
  src = unsqueeze1 (entity_pos srcs) /\ mic = unsqueeze1 (entity_pos mics) /\ dim = numel (r_size r) /\
  ori_wf so /\ ori_wf mo /\
  prepare_static r (pick_entity dim srcs s) (pick_entity dim mics m) (pick_ori_arg dim ori s m) =
    Ok (unsqueeze1 (pick_pos (entity_pos srcs) s), unsqueeze1 (pick_pos (entity_pos mics) m),
        option_map (fun t => pick_ori dim t s) so, option_map (fun t => pick_ori dim t m) mo, size, dim).
Proof.
  intros [_ W1] [_ W2] W3 H. unfold prepare_static, prepare_entities in *.
  assert (E2 : forall e, ensure_dim (r_size r) = Ok e -> e = r_size r).
  { unfold ensure_dim. destruct (_ && _)%bool; congruence. }
  destruct ori as [|o|[|a [|b [|x l]]]].
  - destruct srcs, mics; cbn [bind] in H; bcase_in H; injection H as <- <- <- <- <- <-;
    specialize (E2 _ eq_refl); subst a; cbn in W1, W2 |- *; auto 10.
  - destruct srcs, mics; cbn [bind] in H; bcase_in H; injection H as <- <- <- <- <- <-;
    specialize (E2 _ eq_refl); subst a; cbn in W1, W2, W3 |- *; auto 10.
  - destruct srcs; discriminate.
  - destruct srcs; discriminate.
  - assert (ori_wf a /\ ori_wf b) as [W4 W5].
    { cbn in W3. inversion W3 as [|? ? A1 A2]. inversion A2. auto. }
    destruct srcs, mics; cbn [bind] in H; bcase_in H; injection H as <- <- <- <- <- <-;
    specialize (E2 _ eq_refl); subst a0; cbn in W1, W2 |- *; auto 10.
  - destruct srcs; discriminate.
Qed.

Lemma pair_is_single X dev r srcs mics mo nb ns tmax dir ori cfg T :
  r_fs r <> 0 -> filt_length X -> entity_wf srcs -> entity_wf mics -> ori_arg_wf ori ->
  simulate_rir X dev r srcs mics mo nb ns tmax None dir ori cfg = Ok T ->
  let dim := numel (r_size r) in
  exists S M n, xshape T = [S; M; n] /\ length (xdata T) = (S * M * n)%nat /\
    forall s m, (s < S)%nat -> (m < M)%nat ->
      simulate_rir X dev r (pick_entity dim srcs s) (pick_entity dim mics m) mo nb ns tmax None dir
        (pick_ori_arg dim ori s m) cfg =
      Ok (mkX [1%nat; 1%nat; n] (block ((s * M + m) * n) n (xdata T))).
Proof.
  intros Hfs HX Ws Wm Wo H. rewrite simulate_rir_closed in H by auto.
  bcase_in H. destruct a as [[[c N] tm] d]. bcase_in H. cbv zeta in *.
  bcase_in H. destruct a0 as [[[[[s0 m0] so] mo'] size] dim'].
  pose proof (fun s m => prepare_pick r srcs mics ori _ _ _ _ _ _ s m Ws Wm Wo E1) as P.
  destruct (P 0%nat 0%nat) as (-> & -> & -> & Wso & Wmo & _). set (dim := numel (r_size r)) in *.
  bcase_in H. assert (exists S M, shape (unsqueeze1 (entity_pos srcs)) = [S; dim] /\ shape (unsqueeze1 (entity_pos mics)) = [M; dim])
    as (S & M & Es & Em).
  { clear -E2. unfold validate_pos_shapes, ndim in E2.
    destruct (shape (unsqueeze1 (entity_pos srcs))) as [|x [|y [|z l]]]; try discriminate.
    destruct (Nat.eqb_spec y dim); [|subst; cbn in *; destruct (Nat.eqb_spec y dim); cbn in *; congruence].
    cbn [length nth Nat.eqb andb] in E2. rewrite e, Nat.eqb_refl in E2. cbn [negb] in E2.
    destruct (shape (unsqueeze1 (entity_pos mics))) as [|x' [|y' [|z' l']]]; try discriminate.
    destruct (Nat.eqb_spec y' dim); [|cbn in E2; destruct (Nat.eqb_spec y' dim); cbn in *; congruence].
    subst. eauto. }
  rewrite (length_trows_2d _ _ _ Es), (length_trows_2d _ _ _ Em) in H.
  bcase_in H. bcase_in H. bcase_in H. bcase_in H. destruct a4 as [sp mp]. bcase_in H. bcase_in H. bcase_in H.
  bcase_in H. injection H as <-. cbn [xshape xdata].
  unfold static_closed in E9. bcase_in E9. bcase_in E9.
  rewrite (length_trows_2d _ _ _ Es), (length_trows_2d _ _ _ Em) in E9.
  destruct (dirs_fit a8 S) eqn:F1; [|discriminate]. destruct (dirs_fit a9 M) eqn:F2; [|discriminate]. cbn [andb negb] in E9.
  destruct (Nat.eqb_spec (S * M) 0); [discriminate|]. injection E9 as <-.
  assert (L := length_rows2 (fun s m => pair_response dev c (r_fs r) (r_c r) a2 size a3 (src_gain a8 s) (mic_gain a9 m)
      (nth s (trows (unsqueeze1 (entity_pos srcs))) []) (nth m (trows (unsqueeze1 (entity_pos mics))) [])) S M (Z.to_nat a)).
  destruct (hpf_rows X _ _ _ _ _ _ HX L E10) as [L' R].
  exists S, M, (Z.to_nat a). split; auto. split; auto. intros s m Hs Hm.
  destruct (P s m) as (_ & _ & _ & _ & _ & Ep).
  rewrite simulate_rir_closed by auto. rewrite E. cbn [bind]. rewrite E0. cbn [bind]. cbv zeta. rewrite Ep. cbn [bind].
  destruct (pick_pos_rows (entity_pos srcs) S dim s Es Hs) as (-> & Es1 & Es2).
  { apply wf_unsqueeze1; [apply Ws|auto]. }
  destruct (pick_pos_rows (entity_pos mics) M dim m Em Hm) as (-> & Em1 & Em2).
  { apply wf_unsqueeze1; [apply Wm|auto]. }
  unfold validate_pos_shapes, ndim. rewrite Es1, Em1. cbn [length nth]. rewrite !Nat.eqb_refl. cbn [andb negb bind Nat.eqb].
  rewrite E3. cbn [bind]. rewrite E4. cbn [bind]. rewrite E5. cbn [bind]. rewrite E6. cbn [bind].
  destruct (src_side_pick sp so dim S s _ _ Wso Hs E8 E11) as (sd' & gs' & B1 & B2 & B3 & B4).
  destruct (mic_side_pick mp mo' dim M m _ _ Wmo Hm E7 E12 F2) as (md' & gm' & D1 & D2 & D3 & D4).
  rewrite D1. cbn [bind]. rewrite Es2, Em2. cbn [length]. rewrite B1. cbn [bind].
  unfold static_closed. rewrite B2. cbn [bind]. rewrite D2. cbn [bind length]. rewrite B3, D3. cbn [andb negb Nat.mul Nat.add Nat.eqb bind].
  cbn [seq flat_map nth]. rewrite !app_nil_r, B4, D4.
  specialize (R (s * M + m)%nat 1%nat ltac:(nia)). rewrite Nat.mul_1_l in R.
  assert (Eb : block ((s * M + m) * Z.to_nat a) (Z.to_nat a)
     (flat_map (fun s0 => flat_map (fun m0 => map (pair_response dev c (r_fs r) (r_c r) a2 size a3 (src_gain a8 s0) (mic_gain a9 m0)
       (nth s0 (trows (unsqueeze1 (entity_pos srcs))) []) (nth m0 (trows (unsqueeze1 (entity_pos mics))) [])) (seq 0 (Z.to_nat a)))
       (seq 0 M)) (seq 0 S)) =
     map (pair_response dev c (r_fs r) (r_c r) a2 size a3 (src_gain a8 s) (mic_gain a9 m)
       (nth s (trows (unsqueeze1 (entity_pos srcs))) []) (nth m (trows (unsqueeze1 (entity_pos mics))) [])) (seq 0 (Z.to_nat a))).
  { rewrite flat_map_pairs. rewrite block_flat_rows.
    - replace ((s * M + m) / M)%nat with s by (rewrite Nat.add_comm, Nat.div_add, Nat.div_small by lia; lia).
      replace ((s * M + m) mod M)%nat with m by (rewrite Nat.add_comm, Nat.mod_add, Nat.mod_small by lia; lia). reflexivity.
    - intros. rewrite map_length, seq_length. reflexivity.
    - nia. }
  rewrite Eb in R. rewrite R. reflexivity.
Qed.

(** ** Images beyond the estimated counts *)
Lemma perm_incl (l l' : list (list Z)) : NoDup l -> NoDup l' -> incl l l' ->
  exists extra, Permutation l' (l ++ extra) /\ (forall n, In n extra -> In n l' /\ ~ In n l).
Proof.
  intros H H' Hi. set (p := fun n => if in_dec (list_eq_dec Z.eq_dec) n l then true else false).
  exists (filter (fun n => negb (p n)) l'). split.
  - rewrite (perm_filter p l') at 1. apply Permutation_app_tail. apply NoDup_Permutation; auto using NoDup_filter.
    intros n. rewrite filter_In. unfold p. destruct (in_dec _ n l); split; intros G; auto; try contradiction; destruct G; auto; discriminate.
  - intros n G. apply filter_In in G as [G1 G2]. split; auto. unfold p in G2. destruct (in_dec _ n l); [discriminate|auto].
Qed.
Lemma response_complete L k fs c ws size images images' gs gm src mic tmax nb N j :
  0 < fs -> 0 < c -> wf size -> estimate_image_counts_from_tmax tmax size c = Ok nb ->
  Forall (fun l => 0 < l) (data size) -> inside src (data size) -> inside mic (data size) ->
  forall nb', Forall2 Z.le nb nb' ->
  image_source_indices N (length (data size)) (Some nb) = Ok images ->
  image_source_indices N (length (data size)) (Some nb') = Ok images' ->
  (Z.of_nat j < floorZ (tmax * fs)%R)%Z ->
  response L k fs c ws (data size) images' gs gm src mic j =
  response L k fs c ws (data size) images gs gm src mic j.
Proof.
  intros Hfs Hc Hw Hn Hp Hs Hm nb' Hle Hi Hi' Hj.
  pose proof (box_counts_nonneg _ _ _ _ Hc Hn Hp) as F.
  assert (F0 : Forall (fun n => (0 <= n)%Z) nb) by (eapply Forall_impl; [|exact F]; intros; cbv beta in *; lia).
  assert (F0' : Forall (fun n => (0 <= n)%Z) nb').
  { clear -F0 Hle. induction Hle; constructor; inversion F0; subst; auto. lia. }
  assert (L1 : length nb = length (data size)).
  { unfold image_source_indices in Hi. destruct (Nat.eqb_spec (length nb) (length (data size))); auto. discriminate. }
  assert (L2 : length nb' = length (data size)) by (rewrite <- L1; symmetry; apply Forall2_length in Hle; auto).
  destruct (indices_box N _ nb L1 F0) as (l & E & D & I). rewrite E in Hi. injection Hi as <-.
  destruct (indices_box N _ nb' L2 F0') as (l' & E' & D' & I'). rewrite E' in Hi'. injection Hi' as <-.
  destruct (perm_incl l l' D D') as (extra & P & X).
  { intros n Hin. apply I in Hin. apply I'. clear -Hin Hle. revert nb' Hle.
    induction Hin; intros nb' Hle; inversion Hle; subst; constructor; auto. lia. }
  rewrite (response_perm _ _ _ _ _ _ _ _ _ _ _ _ _ P), response_app.
  rewrite (response_causal L k fs c ws (data size) extra).
  - rewrite xadd_comm. apply xadd_0_l.
  - intros n Hin. apply X in Hin as [G1 G2]. apply I' in G1.
    assert (Hl : length n = length (data size)) by (apply Forall2_length in G1; congruence).
    assert (G3 : ~ Forall2 (fun x k => (Z.abs x <= k)%Z) n nb) by (rewrite <- I; auto).
    pose proof (coverage _ _ _ _ _ _ _ Hc Hw Hn Hp Hs Hm Hl G3) as Cov.
    rewrite image_position_of in Cov.
    assert (tmax * fs <= ray_length src mic (data size) n * fs / c).
    { apply Rmult_le_reg_r with c; auto. replace (ray_length src mic (data size) n * fs / c * c) with (ray_length src mic (data size) n * fs) by (field; lra).
      replace (tmax * fs * c) with (tmax * c * fs) by ring. apply Rmult_le_compat_r; [lra|].
      unfold ray_length. eapply Rle_trans; [exact Cov|apply Rmax_l]. }
    apply Z.lt_le_trans with (floorZ (tmax * fs)); auto. apply floorZ_mono; auto.
Qed.
Lemma rir_complete X dev r srcs mics mo nb nb' ns tmax dir ori c tm T T' :
  0 < r_fs r -> 0 < r_c r -> cfg_hpf_enable c = false -> wf (r_size r) ->
  Forall (fun l => 0 < l) (data (r_size r)) ->
  (forall s, (s < count srcs)%nat -> inside (position srcs s) (data (r_size r))) ->
  (forall m, (m < count mics)%nat -> inside (position mics m) (data (r_size r))) ->
  estimate_image_counts_from_tmax tm (r_size r) (r_c r) = Ok nb -> Forall2 Z.le nb nb' ->
  simulate_rir X dev r srcs mics mo (Some nb) ns tmax None dir ori (Some c) = Ok T ->
  simulate_rir X dev r srcs mics mo (Some nb') ns tmax None dir ori (Some c) = Ok T' ->
  exists S M n, xshape T = [S; M; n] /\ xshape T' = [S; M; n] /\
    forall s m j, (s < S)%nat -> (m < M)%nat -> (j < n)%nat -> (Z.of_nat j < floorZ (tm * r_fs r)%R)%Z ->
      xget T' [s; m; j] = xget T [s; m; j].
Proof.
  intros Hfs Hc Hh Hw Hp Is Im Hn Hle H H'. rewrite simulate_rir_closed in H, H' by lra.
  bcase_in H. destruct a as [[[c' N] tm'] d]. cbn [bind] in *.
  assert (c' = c). { apply resolve_config_cases in E as (_ & [E|[E _]] & _); congruence. } subst c'.
  bcase_in H. cbn [bind] in *. cbv zeta in *.
  bcase_in H. destruct a0 as [[[[[s0 m0] so] mo'] size] dim]. cbn [bind] in *.
  assert (G : s0 = unsqueeze1 (entity_pos srcs) /\ m0 = unsqueeze1 (entity_pos mics) /\ size = data (r_size r) /\ dim = length (data (r_size r))).
  { clear -E1 Hw. unfold prepare_static, prepare_entities, ensure_dim in E1.
    assert (En : numel (r_size r) = length (data (r_size r))) by (symmetry; exact Hw).
    destruct ori as [|o|[|x [|y [|z l]]]], srcs, mics; cbn [bind] in E1; try discriminate;
    (destruct (_ && _)%bool; [|discriminate]); cbn [bind] in E1; injection E1 as <- <- _ _ <- <-; auto. }
  destruct G as (-> & -> & -> & ->).
  bcase_in H. cbn [bind] in *.
  assert (Cs : length (trows (unsqueeze1 (entity_pos srcs))) = count srcs /\ length (trows (unsqueeze1 (entity_pos mics))) = count mics).
  { clear -E2. unfold validate_pos_shapes, ndim in E2. unfold count. split.
    - destruct (shape (unsqueeze1 (entity_pos srcs))) as [|x [|y [|z l]]] eqn:Es; try discriminate.
      rewrite (length_trows_2d _ _ _ Es). reflexivity.
    - destruct (negb _); [discriminate|].
      destruct (shape (unsqueeze1 (entity_pos mics))) as [|x [|y [|z l]]] eqn:Es; try discriminate.
      rewrite (length_trows_2d _ _ _ Es). reflexivity. }
  destruct Cs as [Cs Cm]. rewrite Cs, Cm in *.
  bcase_in H. cbn [bind] in *. bcase_in H. cbn [bind] in *. bcase_in H. bcase_in H'.
  bcase_in H. destruct a5 as [sp mp]. cbn [bind] in *. bcase_in H. cbn [bind] in *. bcase_in H. cbn [bind] in *.
  unfold static_closed in *. bcase_in H. bcase_in E10. bcase_in E10. cbn [bind] in *. bcase_in H'.
  rewrite Cs, Cm in *. destruct (negb _); [discriminate|]. destruct (_ =? 0)%nat; [discriminate|].
  injection E10 as <-. injection E13 as <-. unfold apply_rir_hpf in *. rewrite Hh in *. cbn [negb bind] in *.
  injection H as <-. injection H' as <-. exists (count srcs), (count mics), (Z.to_nat a). split; auto. split; auto.
  intros s m j Hs Hm Hj Hlt. rewrite !xget_rows2 by auto. unfold pair_response.
  eapply response_complete; eauto.
Qed.
