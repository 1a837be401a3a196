(** Proofs about the room, entity, scene and simulator models. *)
From Coq Require Import String List ZArith Reals Lia Lra Bool.
From Verif Require Import Prelude PreludeFacts SignalModel FloatModel FloatProofs DirModel ImageModel ImageSpec ImageProofs AcousticModel AccumModel
  IsmModel IsmSpec IsmProofs SimProofs SimLocal SimSteps StageSpec SimStages RoomModel RoomSpec.
Import ListNotations.
Local Open Scope R_scope.
Local Notation length := List.length.

Lemma all_finite l : forallb num_finite l = true <-> Forall finite l.
Proof.
  induction l as [|x l IH]; cbn; [split; auto|]. rewrite andb_true_iff, IH. split.
  - intros [H F]. constructor; auto. destruct x; try discriminate. eexists; reflexivity.
  - intros F. inversion F; subst. split; auto. destruct H1 as (r & ->). reflexivity.
Qed.
Lemma none_le0 l : Forall finite l -> existsb num_le0 l = false -> Forall positive l.
Proof.
  induction l as [|x l IH]; intros F H; [constructor|]. cbn in H. apply orb_false_iff in H as [H1 H2]. inversion F; subst.
  constructor; auto. destruct H3 as (r & ->). cbn in H1. exists r. split; auto. unfold Rleb in H1. destruct (Rle_dec r 0); [discriminate|lra].
Qed.
Lemma positive_le0 l : Forall positive l -> existsb num_le0 l = false.
Proof.
  induction 1 as [|x l (r & -> & P) F IH]; cbn; auto. rewrite IH, orb_false_r. unfold Rleb. destruct (Rle_dec r 0); auto. lra.
Qed.
Lemma positive_finite l : Forall positive l -> Forall finite l.
Proof. apply Forall_impl. intros x (r & -> & _). eexists; reflexivity. Qed.
Lemma in_unit l : Forall finite l -> (existsb num_lt0 l || existsb num_gt1 l = false <-> Forall unit_interval l).
Proof.
  intros F. rewrite orb_false_iff. induction F as [|x l (r & ->) F IH]; cbn; [split; auto|].
  rewrite !orb_false_iff. unfold Rltb. split.
  - intros [[A B] [C D]]. constructor; [|apply IH; auto]. exists r. split; auto. destruct (Rlt_dec r 0); [discriminate|]. destruct (Rlt_dec 1 r); [discriminate|]. lra.
  - intros G. inversion G as [|? ? (r' & E & P) G']; subst. injection E as <-. apply IH in G' as [G1 G2].
    destruct (Rlt_dec r 0); [lra|]. destruct (Rlt_dec 1 r); [lra|]. auto.
Qed.
Lemma unit_finite l : Forall unit_interval l -> Forall finite l.
Proof. apply Forall_impl. intros x (r & -> & _). eexists; reflexivity. Qed.
Lemma le0_spec x : num_le0 x = false <-> not_nonpositive x.
Proof.
  unfold not_nonpositive, positive. destruct x as [r| | |]; cbn; split; intros H; auto; try discriminate.
  - left. exists r. split; auto. unfold Rleb in H. destruct (Rle_dec r 0); [discriminate|lra].
  - destruct H as [(r' & E & P)|[H|H]]; try discriminate. injection E as <-. unfold Rleb. destruct (Rle_dec r 0); auto. lra.
  - destruct H as [(r' & E & P)|[H|H]]; discriminate.
Qed.

Lemma nensure_dim_inv t t' : nensure_dim t = Ok t' -> t' = t /\ exists d, (d = 2 \/ d = 3)%nat /\ nshape t = [d].
Proof.
  unfold nensure_dim, nndim, nnumel. destruct (nshape t) as [|d [|]] eqn:E; cbn [length Nat.eqb negb orb]; try discriminate.
  replace (prodn [d]) with d by (unfold prodn; cbn; lia).
  destruct ((d =? 2) || (d =? 3))%nat eqn:G; cbn; [|discriminate]. intros H; injection H as <-. split; auto. exists d. split; auto.
  apply orb_true_iff in G as [G|G]; apply Nat.eqb_eq in G; auto.
Qed.
Lemma nensure_dim_ok t d : (d = 2 \/ d = 3)%nat -> nshape t = [d] -> nensure_dim t = Ok t.
Proof. intros H E. unfold nensure_dim, nndim, nnumel. rewrite E. destruct H as [->| ->]; reflexivity. Qed.

Lemma mapM_convert_length d l xs : mapM (convert d) l = Ok xs -> length xs = length l.
Proof. apply mapM_length. Qed.
Lemma convert_int z : convert Int64 z = Ok (Fin 0) \/ (exists k, convert Int64 z = Ok (Fin (IZR k))) \/ exists e, convert Int64 z = Err e.
Proof. destruct z as [z|[r| | |]]; cbn; eauto. Qed.
Lemma as_tensor_wf junk v dt t : value_wf v -> as_tensor junk v dt = Ok t -> nwf t.
Proof.
  destruct v as [t0|sh l]; cbn.
  - intros [W1 W2] H. injection H as <-. destruct dt as [d|]; [|split; auto]. unfold cast, nwf, nnumel. cbn [nshape ndata ndtype]. split.
    + destruct (ndtype t0), d; rewrite ?map_length; auto.
    + intros ->. destruct (ndtype t0); [|auto]. apply Forall_map, Forall_forall. intros x _. destruct x; cbn; eauto.
  - intros W H. destruct (mapM _ l) as [xs|] eqn:E; [|discriminate]. cbn in H. injection H as <-. split.
    + unfold nnumel. cbn. rewrite (mapM_convert_length _ _ _ E). auto.
    + cbn. intros D. rewrite D in E. clear W D. revert xs E. induction l as [|p l IH]; cbn; intros xs E; [injection E as <-; constructor|].
      destruct (convert Int64 p) as [y|] eqn:C; [|discriminate]. cbn in E. destruct (mapM _ l) as [ys|]; [|discriminate]. cbn in E. injection E as <-.
      constructor; auto. destruct p as [z|[r| | |]]; cbn in C; try discriminate; injection C as <-; eauto.
Qed.
Lemma as_tensor_shape junk v dt t : as_tensor junk v dt = Ok t -> nshape t = dims v.
Proof.
  destruct v as [t0|sh l]; cbn.
  - intros H. injection H as <-. destruct dt; reflexivity.
  - intros H. destruct (mapM _ l); [|discriminate]. injection H as <-. reflexivity.
Qed.
Lemma as_tensor_dtype junk v d t : as_tensor junk v (Some d) = Ok t -> ndtype t = d.
Proof.
  destruct v as [t0|sh l]; cbn.
  - intros H. injection H as <-. reflexivity.
  - intros H. destruct (mapM _ l); [|discriminate]. injection H as <-. reflexivity.
Qed.
(** A float target keeps every number; so does no target. *)
Lemma as_tensor_float junk v t : as_tensor junk v (Some Float) = Ok t -> ndata t = numbers v.
Proof.
  destruct v as [t0|sh l]; cbn.
  - intros H. injection H as <-. cbn. destruct (ndtype t0); rewrite (map_ext _ (fun x => x)) by reflexivity; apply map_id.
  - intros H. destruct (mapM _ l) as [xs|] eqn:E; [|discriminate]. injection H as <-. cbn. revert xs E.
    induction l as [|p l IH]; cbn; intros xs E; [congruence|].
    destruct p as [z|[| | |]]; cbn [convert bind] in E; destruct (mapM (convert Float) l) as [ys|]; cbn [bind] in E; try discriminate E; injection E as <-; f_equal; auto.
Qed.
Lemma as_tensor_none junk v t : as_tensor junk v None = Ok t -> ndata t = numbers v.
Proof.
  destruct v as [t0|sh l]; cbn; [intros H; injection H as <-; reflexivity|].
  intros H. destruct (mapM _ l) as [xs|] eqn:E; [|discriminate]. injection H as <-. cbn.
  assert (G : forall l' xs', Forall (fun p => infer_dtype l = Int64 -> exists z, p = PyInt z) l' ->
    mapM (convert (infer_dtype l)) l' = Ok xs' -> xs' = map (fun p => match p with PyInt z => Fin (IZR z) | PyFloat x => x end) l').
  { clear E xs. induction l' as [|p l' IH]; cbn; intros xs F E; [congruence|]. inversion F; subst.
    destruct (mapM _ l') as [ys|]; [|destruct (convert _ p); discriminate].
    destruct (infer_dtype l) eqn:D.
    - destruct p as [z|[| | |]]; cbn in E; injection E as <-; f_equal; auto.
    - destruct (H1 eq_refl) as (z & ->). cbn in E. injection E as <-. f_equal; auto. }
  apply G; auto. apply Forall_forall. intros p Hp D. unfold infer_dtype in D. destruct l as [|q l]; [discriminate|].
  destruct (forallb _ (q :: l)) eqn:F; [|discriminate]. rewrite forallb_forall in F. apply F in Hp. destruct p; [eauto|discriminate].
Qed.
Lemma as_tensor_none_ok junk v : exists t, as_tensor junk v None = Ok t.
Proof.
  destruct v as [t0|sh l]; cbn; [eauto|].
  assert (G : forall l', Forall (fun p => infer_dtype l = Int64 -> exists z, p = PyInt z) l' -> exists xs, mapM (convert (infer_dtype l)) l' = Ok xs).
  { induction l' as [|p l' IH]; intros F; [exists []; reflexivity|]. inversion F; subst. destruct IH as (xs & E); auto. cbn.
    destruct (infer_dtype l) eqn:D.
    - destruct p as [|[| | |]]; cbn; rewrite E; cbn; eauto.
    - destruct (H1 eq_refl) as (z & ->). cbn. rewrite E. cbn. eauto. }
  destruct (G l) as (xs & ->); [|cbn; eauto]. apply Forall_forall. intros p Hp D. unfold infer_dtype in D. destruct l as [|q l]; [discriminate|].
  destruct (forallb _ (q :: l)) eqn:F; [|discriminate]. rewrite forallb_forall in F. apply F in Hp. destruct p; [eauto|discriminate].
Qed.

Lemma check_beta_inv junk size v b d : value_wf v -> (d = 2 \/ d = 3)%nat -> nshape size = [d] -> check_beta junk size v = Ok b ->
  nshape b = [(2 * d)%nat] /\ length (ndata b) = (2 * d)%nat /\ Forall unit_interval (ndata b) /\ ndtype b = ndtype size /\
  exists t, as_tensor junk v (Some (ndtype size)) = Ok t /\ ndata b = ndata t.
Proof.
  intros W D S H. unfold check_beta in H. destruct (as_tensor _ _ _) as [t|] eqn:E; [|discriminate]. cbn [bind] in H. cbv zeta in H.
  pose proof (as_tensor_wf _ _ _ _ W E) as [L _].
  destruct (negb _) eqn:N1 in H; [discriminate|]. destruct (negb _) eqn:N2 in H; [discriminate|].
  destruct (existsb _ _ || _) eqn:N3 in H; [discriminate|]. injection H as <-. cbn [ndata nshape ndtype] in *.
  apply negb_false_iff in N1, N2. apply Nat.eqb_eq in N1. apply all_finite in N2. apply in_unit in N3; auto.
  unfold nnumel at 1 in N1. cbn [nshape prodn fold_right] in N1. rewrite Nat.mul_1_r in N1. fold (nnumel t) in N1.
  assert (Q : nnumel t = (2 * d)%nat).
  { rewrite N1. unfold nnumel. rewrite S. destruct D as [->| ->]; reflexivity. }
  rewrite Q in *. repeat (split; [auto; fail|]). split; [eapply as_tensor_dtype; eauto|]. eauto.
Qed.
Lemma make_room_inv junk size fs c beta t60 r : nwf size -> opt_wf value_wf beta ->
  make_room junk size fs c beta t60 = Ok r ->
  room_inv not_nonpositive r /\ nr_size r = size /\ nr_fs r = fs /\ nr_c r = c /\ nr_t60 r = t60 /\
  (match beta with None => nr_beta r = None
   | Some v => exists b, nr_beta r = Some b /\ check_beta junk size v = Ok b end).
Proof.
  intros W WB H. unfold make_room in H. destruct (nensure_dim size) as [s|] eqn:E; [|discriminate]. cbn [bind] in H.
  apply nensure_dim_inv in E as (-> & d & D & S).
  destruct (negb _) eqn:N1 in H; [discriminate|]. destruct (existsb _ _) eqn:N2 in H; [discriminate|].
  destruct (num_le0 fs) eqn:N3; [discriminate|]. destruct (num_le0 c) eqn:N4; [discriminate|].
  destruct (match beta, t60 with Some _, Some _ => true | _, _ => false end) eqn:N5; [discriminate|].
  destruct (match t60 with Some t => num_le0 t | None => false end) eqn:N6; [discriminate|].
  apply negb_false_iff, all_finite in N1. apply none_le0 in N2; auto. apply le0_spec in N3, N4.
  destruct W as [L _]. unfold nnumel in L. rewrite S in L. unfold prodn in L. cbn in L. rewrite Nat.mul_1_r in L.
  assert (T : forall t, t60 = Some t -> not_nonpositive t) by (intros t ->; apply le0_spec; auto).
  destruct beta as [v|].
  - destruct (check_beta junk size v) as [b|] eqn:B; [|discriminate]. cbn [bind] in H. injection H as <-.
    destruct (check_beta_inv _ _ _ _ _ WB D S B) as (B1 & B2 & B3 & _).
    split; [|cbn; repeat split; eauto]. constructor; cbn; auto.
    + exists d. auto.
    + destruct t60; [discriminate|auto].
    + intros b' Eb. injection Eb as <-. rewrite L. auto.
  - cbn [bind] in H. injection H as <-. split; [|cbn; repeat split; eauto]. constructor; cbn; auto.
    + exists d. auto.
    + discriminate.
Qed.
Lemma shoebox_inv junk size fs c beta t60 dt r : value_wf size -> opt_wf value_wf beta ->
  shoebox junk size fs c beta t60 dt = Ok r ->
  exists s b, as_tensor junk size dt = Ok s /\ nwf s /\ opt_wf value_wf b /\
    (match beta with None => b = None | Some v => exists t, as_tensor junk v dt = Ok t /\ b = Some (VTensor t) end) /\
    make_room junk s fs c b t60 = Ok r.
Proof.
  intros W WB H. unfold shoebox in H. bcase_in H. bcase_in H. bcase_in H. apply nensure_dim_inv in E0 as (-> & _).
  exists a, a1. split; auto. pose proof (as_tensor_wf _ _ _ _ W E) as Wa. split; auto.
  destruct beta as [v|].
  - destruct (as_tensor junk v dt) as [t|] eqn:Et; [|discriminate]. cbn in E1. injection E1 as <-.
    split; [|split; eauto]. cbn. eapply as_tensor_wf; eauto.
  - injection E1 as <-. cbn. auto.
Qed.
Lemma reachable_inv junk r : reachable junk r -> room_inv not_nonpositive r /\ nwf (nr_size r) /\ opt_wf nwf (nr_beta r).
Proof.
  assert (G : forall size fs c beta t60 r, nwf size -> opt_wf value_wf beta -> make_room junk size fs c beta t60 = Ok r ->
    room_inv not_nonpositive r /\ nwf (nr_size r) /\ opt_wf nwf (nr_beta r)).
  { intros size fs c beta t60 r' W WB H. destruct (make_room_inv _ _ _ _ _ _ _ W WB H) as (I & S & _ & _ & _ & B).
    split; auto. split; [congruence|]. destruct beta as [v|]; [|rewrite B; cbn; auto].
    destruct B as (b & -> & C). cbn. unfold check_beta in C. destruct (as_tensor _ _ _) as [t|] eqn:E; [|discriminate].
    cbn [bind] in C. cbv zeta in C. destruct (negb _) in C; [discriminate|]. destruct (negb _) in C; [discriminate|].
    destruct (_ || _) in C; [discriminate|]. injection C as <-. pose proof (as_tensor_wf _ _ _ _ WB E) as [L F].
    split; cbn; auto. unfold nnumel at 1. cbn. rewrite Nat.mul_1_r. auto. }
  induction 1 as [size fs c beta t60 r W WB H|size fs c beta t60 dt r W WB H|r u r' _ (I & W & WB) Wu WBu H].
  - eauto.
  - destruct (shoebox_inv _ _ _ _ _ _ _ _ W WB H) as (s & b & _ & Ws & Wb & _ & M). eauto.
  - unfold room_replace in H. eapply G; [| |exact H].
    + destruct (u_size u); auto.
    + destruct (u_beta u) as [o|]; auto. cbn. destruct (nr_beta r); auto.
Qed.

(** ** Entities *)
Lemma make_entity_inv junk pos ori e : make_entity junk pos ori = Ok e ->
  exists n d, entity_inv e n d /\ ndata (ne_pos e) = numbers pos /\
    (dims pos = [n; d] \/ n = 1%nat /\ dims pos = [d]) /\
    match ori with
    | None => ne_ori e = None
    | Some v => exists o, ne_ori e = Some o /\ ndata o = numbers v /\ nshape o = dims v /\ Forall finite (ndata o) /\
        exists u, orientation_to_unit (plain o) d = Ok u /\ (shape u = [d] \/ shape u = [n; d])
    end.
Proof.
  intros H. unfold make_entity in H. bcase_in H. bcase_in H. injection H as <-. unfold normalize_positions in E.
  destruct (as_tensor junk pos None) as [p|] eqn:Ep; [|discriminate]. cbn [bind] in E. cbv zeta in E.
  pose proof (as_tensor_none _ _ _ Ep) as Dp. pose proof (as_tensor_shape _ _ _ _ Ep) as Sp.
  set (p' := if (nndim p =? 1)%nat then _ else p) in *.
  assert (Dp' : ndata p' = numbers pos) by (unfold p'; destruct (_ =? _)%nat; auto).
  assert (Ap : a = p' /\ nndim p' = 2%nat /\ (nth 1 (nshape p') 0 = 2 \/ nth 1 (nshape p') 0 = 3)%nat /\ Forall finite (ndata p')).
  { destruct (negb (nndim p' =? 2)%nat || _) eqn:G in E; [discriminate|]. destruct (negb _) eqn:F in E; [discriminate|]. injection E as <-.
    apply orb_false_iff in G as [G1 G2]. apply negb_false_iff in G1, G2. apply Nat.eqb_eq in G1. apply orb_true_iff in G2.
    apply negb_false_iff, all_finite in F. repeat split; auto. destruct G2 as [G|G]; apply Nat.eqb_eq in G; auto. }
  destruct Ap as (-> & N2 & Hd & Hf).
  assert (Sh : exists n d, nshape p' = [n; d] /\ (d = 2 \/ d = 3)%nat /\ (dims pos = [n; d] \/ n = 1%nat /\ dims pos = [d])).
  { unfold nndim in N2. destruct (nshape p') as [|n [|d [|]]] eqn:Q; try discriminate. exists n, d. split; auto. split; auto.
    unfold p' in Q. unfold nndim in Q. rewrite Sp in Q. destruct (dims pos) as [|x [|y [|]]] eqn:Z; cbn in Q; try rewrite Sp in Q; try discriminate.
    - injection Q as <- <-. auto.
    - injection Q as <- <-. auto. }
  destruct Sh as (n & d & Sh & D & Dm). rewrite Sh in E0. cbn [nth] in E0. exists n, d.
  split; [constructor; auto|]. split; auto. split; auto. unfold normalize_orientation_arg in E0. cbn [ne_ori].
  destruct ori as [v|]; [|congruence]. destruct (as_tensor junk v None) as [o|] eqn:Eo; [|discriminate]. cbn [bind] in E0.
  destruct (validate_orientation o n d) as [[]|] eqn:V; [|discriminate]. cbn [bind] in E0. injection E0 as <-.
  exists o. split; auto. split; [eapply as_tensor_none; eauto|]. split; [eapply as_tensor_shape; eauto|].
  unfold validate_orientation in V. destruct (negb _) eqn:F in V; [discriminate|]. apply negb_false_iff, all_finite in F. split; auto.
  clear -V D. unfold orientation_to_unit, ndim, numel, plain. cbn [shape data]. unfold nndim, nnumel in V.
  destruct D as [->| ->]; cbn [Nat.eqb] in *.
  - destruct (nshape o) as [|a [|b [|]]]; cbn [length Nat.eqb nth negb] in V; try discriminate.
    + cbn [length Nat.eqb]. eexists. split; [reflexivity|]. auto.
    + cbn [length Nat.eqb last removelast]. replace (prodn [a]) with a in * by (unfold prodn; cbn; lia).
      destruct (Nat.eqb_spec a 1) as [Qa|A1]; [subst a; eexists; split; [reflexivity|]; auto|].
      destruct (Nat.eqb_spec a 2) as [Qa|A2]; cbn [andb negb]; [subst a; eexists; split; [reflexivity|]; auto|].
      cbn [orb] in V. destruct (Nat.eqb_spec a n) as [Qa|]; [subst a|discriminate]. eexists; split; [reflexivity|]; auto.
    + cbn [length Nat.eqb last removelast andb].
      destruct (Nat.eqb_spec a n) as [->|]; [|discriminate]. cbn [negb orb] in V.
      destruct (Nat.eqb_spec b 1) as [Qb|B1]; [subst b; eexists; split; [reflexivity|]; auto|].
      destruct (Nat.eqb_spec b 2) as [Qb|B2]; [subst b; eexists; split; [reflexivity|]; auto|discriminate].
  - destruct (nshape o) as [|a [|b [|]]]; cbn [length Nat.eqb nth negb] in V; try discriminate.
    + cbn [length Nat.eqb last removelast]. replace (prodn [a]) with a in * by (unfold prodn; cbn; lia).
      destruct (Nat.eqb_spec a 2) as [Qa|A1]; [subst a; eexists; split; [reflexivity|]; auto|]. cbn [orb] in V.
      destruct (Nat.eqb_spec a 3) as [Qa|A2]; [subst a; eexists; split; [reflexivity|]; auto|discriminate].
    + cbn [length Nat.eqb last removelast andb].
      destruct (Nat.eqb_spec a n) as [->|]; [|discriminate]. cbn [negb orb] in V.
      destruct (Nat.eqb_spec b 2) as [Qb|B1]; [subst b; eexists; split; [reflexivity|]; auto|].
      destruct (Nat.eqb_spec b 3) as [Qb|B2]; [subst b; eexists; split; [reflexivity|]; auto|discriminate].
Qed.

(** ** Scenes *)
Lemma plain_room_ok r : room_inv positive r -> exists pr, plain_room r = Some pr /\
  r_size pr = plain (nr_size r) /\ 0 < r_fs pr /\ nr_fs r = Fin (r_fs pr) /\ 0 < r_c pr /\
  size_ok (r_size pr) /\
  exists beta, resolve_beta pr = Ok beta /\ length beta = (2 * numel (r_size pr))%nat.
Proof.
  intros I. destruct (ri_fs _ _ I) as (fs & Ef & Pf). destruct (ri_c _ _ I) as (c & Ec & Pc).
  destruct (ri_size _ _ I) as (d & D & Sh & L & P).
  assert (SO : size_ok (plain (nr_size r))).
  { exists d. cbn. rewrite map_length. repeat split; auto. clear -P. induction P as [|x l (v & -> & H) P IH]; cbn; constructor; auto. }
  assert (Nm : numel (plain (nr_size r)) = d) by (unfold numel, plain; cbn [shape]; rewrite Sh; unfold prodn; cbn; lia).
  unfold plain_room. rewrite Ef, Ec.
  destruct (nr_t60 r) as [t|] eqn:Et.
  - destruct (ri_t60 _ _ I t Et) as (v & -> & Pv). eexists. split; [reflexivity|]. cbn [r_size r_fs r_c].
    repeat (split; [auto; fail|]). unfold resolve_beta. cbn [r_beta r_t60 r_size].
    destruct (ri_excl _ _ I) as [B|B]; [|congruence]. rewrite B. cbn [option_map].
    rewrite beta_closed by auto. eexists. split; [reflexivity|]. rewrite repeat_length, Nm. cbn. rewrite map_length. lia.
  - eexists. split; [reflexivity|]. cbn [r_size r_fs r_c]. repeat (split; [auto; fail|]). unfold resolve_beta. cbn [r_beta r_t60 r_size].
    destruct (nr_beta r) as [b|] eqn:Eb; cbn [option_map].
    + destruct (ri_beta _ _ I b Eb) as (_ & Lb & _). eexists. split; [reflexivity|]. cbn [plain data]. rewrite map_length, Lb, L, Nm. reflexivity.
    + eexists. split; [reflexivity|]. rewrite repeat_length, Nm. destruct D as [->| ->]; reflexivity.
Qed.
Lemma wanted_validate fs ns tm N n : (0 <= N)%Z -> (0 < n)%nat ->
  match ns with Some k => k = Z.of_nat n | None => exists t, tm = Some t /\ Z.of_nat n = ceilZ (rnd64 (t * fs)) end ->
  validate_args fs ns tm N = Ok (Z.of_nat n).
Proof.
  intros HN Hn H. unfold validate_args. destruct ns as [k|].
  - subst k. cbn [bind]. destruct (Z.leb_spec (Z.of_nat n) 0); [lia|]. destruct (Z.ltb_spec N 0); [lia|]. reflexivity.
  - destruct H as (t & -> & <-). cbn [bind]. destruct (Z.leb_spec (Z.of_nat n) 0); [lia|]. destruct (Z.ltb_spec N 0); [lia|]. reflexivity.
Qed.
(** The high-pass stage succeeds for rows of [n] samples. *)
Definition hpf_runs (X : externals) (fs : R) (n : nat) (c : config) : Prop :=
  cfg_hpf_enable c = true -> 0 < 2 * cfg_hpf_fc c / fs < 1 /\
    exists s, x_design X (cfg_hpf_n c) (2 * cfg_hpf_fc c / fs) = Ok s /\ forall row, length row = n -> exists out, x_filt X s row = Ok out.
Lemma hpf_runs_ok X fs n c rows rir : hpf_runs X fs n c -> length rir = (rows * n)%nat ->
  exists out, apply_rir_hpf (x_design X) (x_filt X) rows n rir fs c = Ok out.
Proof.
  intros H L. unfold apply_rir_hpf. destruct (cfg_hpf_enable c) eqn:E; [|cbn; eauto]. destruct (H E) as ((W1 & W2) & s & Ds & Fs). cbn [negb].
  unfold design_hpf_sos. assert (G : (Rltb 0 (2 * cfg_hpf_fc c / fs) && Rltb (2 * cfg_hpf_fc c / fs) 1)%bool = true).
  { unfold Rltb. destruct (Rlt_dec _ _); [|lra]. destruct (Rlt_dec _ _); [reflexivity|lra]. }
  rewrite G. cbn [negb]. rewrite Ds. cbn [bind].
  assert (M : forall l, (forall i, In i l -> (i < rows)%nat) -> exists out, mapM (fun i => x_filt X s (block (i * n) n rir)) l = Ok out).
  { induction l as [|i l IH]; intros Hl; [cbn; eauto|]. cbn [mapM]. destruct (Fs (block (i * n) n rir)) as [o ->].
    - unfold block. rewrite firstn_length, skipn_length, L. assert (i < rows)%nat by (apply Hl; left; auto).
      assert ((i + 1) * n <= rows * n)%nat by (apply Nat.mul_le_mono_r; lia). lia.
    - destruct IH as [os ->]; [intros; apply Hl; right; auto|]. cbn. eauto. }
  destruct (M (seq 0 rows)) as [os ->]; [intros i Hi; apply in_seq in Hi; lia|]. cbn. eauto.
Qed.
Lemma simulate_omni_any X dev r srcs mics N nb ns tmax c dim beta images n :
  scene r srcs mics dim beta -> cfg_validate c = Ok tt -> (0 <= N)%Z ->
  validate_args (r_fs r) ns (first tmax (cfg_tmax c)) N = Ok (Z.of_nat n) ->
  image_source_indices N dim nb = Ok images -> hpf_runs X (r_fs r) n c ->
  exists T, simulate_rir X dev r srcs mics (Some N) nb ns tmax None (Some (DName "omni")) ONone (Some c) = Ok T /\
    xshape T = [count srcs; count mics; n].
Proof.
  intros H Hv HN Ha Hi Hh.
  rewrite simulate_rir_closed by (pose proof (sc_fs _ _ _ _ _ H); lra).
  unfold resolve_config. cbn [bind]. rewrite Hv. cbn [bind]. fold (first tmax (cfg_tmax c)). rewrite Ha. cbn [bind]. cbv zeta. rewrite Nat2Z.id.
  destruct (scene_prepare r srcs mics dim beta ONone H eq_refl) as (so & mo & Ep). rewrite Ep. cbn [bind].
  rewrite (scene_shapes _ _ _ _ _ H). cbn [bind]. rewrite (sc_beta _ _ _ _ _ H). cbn [bind].
  rewrite (scene_validate_beta _ _ _ _ _ H). cbn [bind]. rewrite Hi. cbn [bind].
  cbn [split_directivity bind]. unfold mic_directions, src_directions.
  change (String.eqb "omni" "omni") with true. cbn [bind].
  unfold static_closed, side_of. change (String.eqb "omni" "omni") with true. cbn [bind dirs_fit andb negb].
  rewrite (length_trows_2d _ _ _ (sc_src _ _ _ _ _ H)), (length_trows_2d _ _ _ (sc_mic _ _ _ _ _ H)).
  pose proof (sc_src0 _ _ _ _ _ H). pose proof (sc_mic0 _ _ _ _ _ H).
  destruct (Nat.eqb_spec (count srcs * count mics) 0); [nia|]. cbn [bind].
  match goal with |- context [apply_rir_hpf _ _ ?a _ ?b _ _] => destruct (hpf_runs_ok X _ _ _ a b Hh) as (out & ->) end.
  { rewrite (length_flat_rows _ _ (count mics * n)); [lia|]. intros s _. apply length_flat_rows. intros m _. rewrite map_length, seq_length. auto. }
  cbn [bind]. eexists. split; reflexivity.
Qed.
Definition nb_fits (nb : option (list Z)) (dim : nat) : Prop :=
  match nb with None => True | Some l => length l = dim /\ Forall (fun n => (0 <= n)%Z) l end.
Lemma nb_images N dim nb : (0 <= N)%Z -> nb_fits nb dim -> exists images, image_source_indices N dim nb = Ok images.
Proof.
  intros HN H. destruct nb as [l|].
  - destruct H as [L F]. destruct (indices_box N dim l L F) as (i & E & _). eauto.
  - destruct (indices_order N dim HN) as (i & E & _). eauto.
Qed.
Lemma make_simulator_inv s s' : make_simulator s = Ok s' -> s' = s /\ (0 <= s_order s)%Z.
Proof.
  unfold make_simulator. destruct (Z.ltb_spec (s_order s) 0); [discriminate|].
  destruct (match s_tmax s, s_nsample s with None, None => true | _, _ => false end); [discriminate|].
  destruct (opt_test _ _); [discriminate|]. destruct (opt_test _ _); [discriminate|]. intros E; injection E as <-. auto.
Qed.
Lemma validate_entities_inv r s m : validate_entities r s m = Ok tt ->
  nth 1 (nshape (ne_pos s)) 0%nat = nnumel (nr_size r) /\ nth 1 (nshape (ne_pos m)) 0%nat = nnumel (nr_size r).
Proof.
  unfold validate_entities. cbv zeta. destruct (Nat.eqb_spec (nth 1 (nshape (ne_pos s)) 0%nat) (nnumel (nr_size r))); [|discriminate]. cbn [negb].
  destruct (Nat.eqb_spec (nth 1 (nshape (ne_pos m)) 0%nat) (nnumel (nr_size r))); [|discriminate]. auto.
Qed.
Lemma make_static_inv r s m sc : make_static r s m = Ok sc -> sc = StaticScene r s m /\ validate_entities r s m = Ok tt.
Proof.
  unfold make_static. cbn [scene_validate]. destruct (validate_entities r s m) as [[]|]; [|discriminate]. cbn. intros E; injection E as <-. auto.
Qed.
Lemma plain_scene r pr src mic S M d1 d2 beta :
  validate_entities r src mic = Ok tt -> r_size pr = plain (nr_size r) -> 0 < r_fs pr -> size_ok (r_size pr) ->
  resolve_beta pr = Ok beta -> length beta = (2 * numel (r_size pr))%nat ->
  entity_inv src S d1 -> entity_inv mic M d2 -> (0 < S)%nat -> (0 < M)%nat ->
  scene pr (plain_entity src) (plain_entity mic) (numel (r_size pr)) beta /\
  count (plain_entity src) = S /\ count (plain_entity mic) = M.
Proof.
  intros V Es Pf SO Eb Lb I1 I2 HS HM. apply validate_entities_inv in V as [V1 V2].
  assert (Nm : nnumel (nr_size r) = numel (r_size pr)) by (rewrite Es; reflexivity). rewrite Nm in *.
  rewrite (ei_shape _ _ _ I1) in V1. rewrite (ei_shape _ _ _ I2) in V2. cbn [nth] in V1, V2. subst d1 d2.
  assert (C : count (plain_entity src) = S /\ count (plain_entity mic) = M).
  { unfold count, plain_entity, entity_pos, unsqueeze1, ndim, plain. cbn [shape]. rewrite (ei_shape _ _ _ I1), (ei_shape _ _ _ I2). split; reflexivity. }
  split; auto. destruct C as [C1 C2].
  destruct SO as (d & Sh & D & L & _).
  assert (Nd : numel (r_size pr) = d) by (unfold numel; rewrite Sh; unfold prodn; cbn; lia). rewrite Nd in *.
  constructor; rewrite ?C1, ?C2; auto.
  - unfold wf. rewrite Sh, L. unfold prodn. cbn. lia.
  - unfold plain_entity, entity_pos, unsqueeze1, ndim, plain. cbn [shape]. rewrite (ei_shape _ _ _ I1). reflexivity.
  - unfold plain_entity, entity_pos, unsqueeze1, ndim, plain. cbn [shape]. rewrite (ei_shape _ _ _ I2). reflexivity.
Qed.
(** The simulator's values do not contradict the configuration. *)
Definition agrees (s : simulator) (c : config) : Prop :=
  (forall n, cfg_max_order c = Some n -> n = s_order s) /\
  (forall t t', s_tmax s = Some t -> cfg_tmax c = Some t' -> t = t').
Lemma agrees_no_conflict s c : agrees s c <->
  conflict Z.eqb (Some (s_order s)) (cfg_max_order c) = false /\ conflict Reqb (s_tmax s) (cfg_tmax c) = false.
Proof.
  unfold agrees, conflict. split.
  - intros [H1 H2]. split.
    + destruct (cfg_max_order c) as [n|]; auto. rewrite (H1 n eq_refl), Z.eqb_refl. reflexivity.
    + destruct (s_tmax s) as [t|]; auto. destruct (cfg_tmax c) as [t'|]; auto. rewrite (H2 t t' eq_refl eq_refl). unfold Reqb.
      destruct (Req_EM_T t' t'); [reflexivity|contradiction].
  - intros [H1 H2]. split.
    + intros n E. rewrite E in H1. apply negb_false_iff, Z.eqb_eq in H1. auto.
    + intros t t' E E'. rewrite E, E' in H2. unfold Reqb in H2. destruct (Req_EM_T t t'); [auto|discriminate].
Qed.
Lemma static_scene_simulates X junk dev s r src mic sc c S M d1 d2 fs n :
  room_inv positive r -> entity_inv src S d1 -> entity_inv mic M d2 -> (0 < S)%nat -> (0 < M)%nat ->
  make_static r src mic = Ok sc -> make_simulator s = Ok s -> s_dir s = Some (DName "omni") ->
  nb_fits (s_nb s) (nnumel (nr_size r)) -> keep (s_dtype s) (ndtype (ne_pos src)) = Float ->
  cfg_validate c = Ok tt -> agrees s c -> nr_fs r = Fin fs -> (0 < n)%nat ->
  match s_nsample s with Some k => k = Z.of_nat n
  | None => exists t, first (s_tmax s) (cfg_tmax c) = Some t /\ Z.of_nat n = ceilZ (rnd64 (t * fs)) end ->
  hpf_runs X fs n c ->
  exists T, ism_simulate X junk dev s (New sc) (Some c) = Ok T /\ xshape T = [S; M; n].
Proof.
  intros IR IS IM HS HM Hsc Hs Hd Hnb Hdt Hv Hag Hfs Hn Hw Hh.
  apply make_static_inv in Hsc as [-> V]. apply make_simulator_inv in Hs as [_ HN].
  destruct (plain_room_ok r IR) as (pr & Ep & Es & Pf & Ef & Pc & SO & beta & Eb & Lb). rewrite Hfs in Ef. injection Ef as ->.
  destruct (plain_scene r pr src mic S M d1 d2 beta V Es Pf SO Eb Lb IS IM HS HM) as (Sc & C1 & C2).
  destruct (nb_images (s_order s) (numel (r_size pr)) (s_nb s) HN) as (images & Ei).
  { rewrite Es. exact Hnb. }
  apply agrees_no_conflict in Hag as [A1 A2].
  unfold ism_simulate. cbn [normalize_scene bind scene_validate]. rewrite V. cbn [bind]. rewrite A1, A2, Hdt, Ep, Hd.
  rewrite <- C1, <- C2. eapply simulate_omni_any; eauto. apply wanted_validate; auto.
Qed.
Lemma traj_shape t cnt dim steps : validate_traj (VTensor t) cnt dim = Ok steps ->
  shape (unsqueeze_traj (plain t)) = [steps; cnt; dim].
Proof.
  unfold validate_traj, nndim, unsqueeze_traj, plain. cbn [shape]. destruct (negb _); [discriminate|].
  destruct (nshape t) as [|a [|b [|e [|]]]]; cbn [length Nat.eqb nth]; try discriminate.
  - destruct (Nat.eqb_spec cnt 1) as [->|]; [|discriminate]. cbn [negb]. destruct (Nat.eqb_spec b dim) as [->|]; [|discriminate].
    cbn [negb]. intros E; injection E as <-. reflexivity.
  - destruct (Nat.eqb_spec b cnt) as [->|]; [|discriminate]. cbn [negb orb]. destruct (Nat.eqb_spec e dim) as [->|]; [|discriminate].
    cbn [negb]. intros E; injection E as <-. reflexivity.
Qed.
Lemma dynamic_scene_simulates X junk dev s r src mic st mt sc c fs n S M d1 d2 :
  room_inv positive r -> entity_inv src S d1 -> entity_inv mic M d2 -> (0 < S)%nat -> (0 < M)%nat ->
  make_dynamic junk r src mic (VTensor st) (VTensor mt) = Ok sc -> (0 < nth 0 (nshape st) 0)%nat ->
  make_simulator s = Ok s -> s_dir s = Some (DName "omni") ->
  nb_fits (s_nb s) (nnumel (nr_size r)) -> keep (s_dtype s) (ndtype st) = Float ->
  cfg_validate c = Ok tt -> agrees s c -> nr_fs r = Fin fs -> (0 < n)%nat ->
  match s_nsample s with Some k => k = Z.of_nat n
  | None => exists t, first (s_tmax s) (cfg_tmax c) = Some t /\ Z.of_nat n = ceilZ (rnd64 (t * fs)) end ->
  hpf_runs X fs n c -> filt_length X ->
  exists T, ism_simulate X junk dev s (New sc) (Some c) = Ok T /\ xshape T = [nth 0 (nshape st) 0%nat; S; M; n].
Proof.
  intros IR IS IM HS HM Hsc HT Hs Hd Hnb Hdt Hv Hag Hfs Hn Hw Hh HX.
  unfold make_dynamic in Hsc. cbn [as_tensor bind] in Hsc. cbv zeta in Hsc. bcase_in Hsc. destruct a. injection Hsc as <-. pose proof E as EV.
  cbn [scene_validate] in E. destruct (validate_entities r src mic) as [[]|] eqn:V; [|discriminate]. cbn [bind] in E.
  unfold validate_trajs in E. destruct (validate_traj (VTensor st) _ _) as [t1|] eqn:T1; [|discriminate]. cbn [bind] in E.
  destruct (validate_traj (VTensor mt) _ _) as [t2|] eqn:T2; [|discriminate]. cbn [bind] in E.
  destruct (Nat.eqb_spec t1 t2) as [->|]; [|discriminate].
  assert (Ht : nth 0 (nshape st) 0%nat = t2).
  { unfold validate_traj in T1. destruct (negb _) in T1; [discriminate|]. destruct (_ =? _)%nat in T1.
    - destruct (negb _) in T1; [discriminate|]. destruct (negb _) in T1; congruence.
    - destruct (_ =? _)%nat in T1; [|discriminate]. destruct (_ || _) in T1; congruence. }
  rewrite Ht in *.
  apply traj_shape in T1 as S1. apply traj_shape in T2 as S2.
  replace (ne_count src) with S in S1 by (unfold ne_count; rewrite (ei_shape _ _ _ IS); reflexivity).
  replace (ne_count mic) with M in S2 by (unfold ne_count; rewrite (ei_shape _ _ _ IM); reflexivity).
  apply make_simulator_inv in Hs as [_ HN].
  destruct (plain_room_ok r IR) as (pr & Ep & Es & Pf & Ef & Pc & SO & beta & Eb & Lb). rewrite Hfs in Ef. injection Ef as ->.
  assert (Nd : nnumel (nr_size r) = numel (r_size pr)) by (rewrite Es; reflexivity). rewrite Nd in *.
  destruct (nb_images (s_order s) (numel (r_size pr)) (s_nb s) HN Hnb) as (images & Ei).
  assert (G : exists T, simulate_dynamic_rir X dev pr (plain st) (plain mt) (Some (s_order s)) (s_nb s) (s_nsample s) (s_tmax s)
    (Some (DName "omni")) ONone (Some c) = Ok T).
  { apply (static_gives_dynamic X dev pr (plain st) (plain mt) _ _ _ _ _ _ _ t2 S M (numel (r_size pr))); auto; [lra|].
    intros t Hlt. destruct (step_shape _ t _ _ _ S1) as [Q1 _]. destruct (step_shape _ t _ _ _ S2) as [Q2 _].
    assert (Sc : scene pr (ETensor (step_tensor (plain st) t)) (ETensor (step_tensor (plain mt) t)) (numel (r_size pr)) beta).
    { destruct SO as (d & Sh & D & L & _).
      assert (Ne : numel (r_size pr) = d) by (unfold numel; rewrite Sh; unfold prodn; cbn; lia). rewrite Ne in *.
      constructor; unfold count; cbn [entity_pos]; rewrite ?Q1, ?Q2; auto. unfold wf. rewrite Sh, L. unfold prodn. cbn. lia. }
    destruct (simulate_omni_any X dev pr _ _ (s_order s) (s_nb s) (s_nsample s) (s_tmax s) c _ _ images n Sc Hv HN
      (wanted_validate _ _ _ _ _ HN Hn Hw) Ei Hh) as (T & ET & _). eauto. }
  destruct G as (T & ET). exists T.
  apply agrees_no_conflict in Hag as [A1 A2].
  assert (ES : ism_simulate X junk dev s (New (DynamicScene r src mic st mt)) (Some c) = Ok T).
  { unfold ism_simulate. cbn [normalize_scene bind]. rewrite EV. cbn [bind]. rewrite A1, A2, Hdt, Ep, Hd. exact ET. }
  split; auto.
  destruct (dynamic_is_static X dev pr (plain st) (plain mt) _ _ _ _ _ _ _ T ltac:(lra) HX ET) as (Tn & S' & M' & n' & _ & Sh & _ & _).
  pose proof ET as ET'. unfold simulate_dynamic_rir in ET'. unfold resolve_config in ET'. cbn [bind] in ET'. rewrite Hv in ET'. cbn [bind] in ET'.
  fold (first (s_tmax s) (cfg_tmax c)) in ET'. rewrite (wanted_validate _ _ _ _ _ HN Hn Hw) in ET'. cbn [bind] in ET'.
  unfold prepare_dynamic in ET'. cbn [split_orientation bind] in ET'. destruct (ensure_dim _); [|discriminate]. cbn [bind] in ET'.
  rewrite S1, S2 in ET'. cbn [nth] in ET'. rewrite Nat2Z.id in ET'.
  repeat (bcase_in ET'; try match goal with p : (_ * _)%type |- _ => destruct p end). injection ET' as <-. reflexivity.
Qed.

(** ** Which inputs make an entity *)
Lemma validate_orientation_iff o n d : d = 2%nat \/ d = 3%nat ->
  validate_orientation o n d = Ok tt /\ Forall finite (ndata o) /\ orientation_shape n d (nshape o) \/
  validate_orientation o n d = Err ValueError /\ ~ (Forall finite (ndata o) /\ orientation_shape n d (nshape o)).
Proof.
  intros D. unfold validate_orientation. destruct (forallb num_finite (ndata o)) eqn:F; cbn [negb].
  2:{ right. split; auto. intros [C _]. apply all_finite in C. congruence. }
  apply all_finite in F. unfold orientation_shape, nndim, nnumel. cbv zeta.
  destruct D as [->| ->]; cbn [Nat.eqb].
  - destruct (nshape o) as [|a [|b [|c l]]]; cbn [length Nat.eqb nth In].
    + left. tauto.
    + replace (prodn [a]) with a by (unfold prodn; cbn; lia).
      destruct (Nat.eqb_spec a 1) as [->|N1]; [left; tauto|]. destruct (Nat.eqb_spec a 2) as [->|N2]; [left; tauto|].
      destruct (Nat.eqb_spec a n) as [->|N3]; cbn [orb]; [left; tauto|].
      right. split; auto. intros [_ [[_ H]|[H _]]]; [|discriminate]. repeat destruct H as [H|H]; try discriminate; try (injection H; congruence); contradiction.
    + destruct (Nat.eqb_spec a n) as [->|N1]; cbn [negb orb].
      * destruct (Nat.eqb_spec b 1) as [->|B1]; [left; tauto|]. destruct (Nat.eqb_spec b 2) as [->|B2]; [left; tauto|].
        right. split; auto. intros [_ [[_ H]|[H _]]]; [|discriminate]. repeat destruct H as [H|H]; try discriminate; try (injection H; congruence); contradiction.
      * right. split; auto. intros [_ [[_ H]|[H _]]]; [|discriminate]. repeat destruct H as [H|H]; try discriminate; try (injection H; congruence); contradiction.
    + right. split; auto. intros [_ [[_ H]|[H _]]]; [|discriminate]. repeat destruct H as [H|H]; try discriminate; contradiction.
  - destruct (nshape o) as [|a [|b [|c l]]]; cbn [length Nat.eqb nth In].
    + right. split; auto. intros [_ [[H _]|[_ H]]]; [discriminate|]. repeat destruct H as [H|H]; try discriminate; contradiction.
    + replace (prodn [a]) with a by (unfold prodn; cbn; lia).
      destruct (Nat.eqb_spec a 2) as [->|N2]; [left; tauto|]. destruct (Nat.eqb_spec a 3) as [->|N3]; cbn [orb]; [left; tauto|].
      right. split; auto. intros [_ [[H _]|[_ H]]]; [discriminate|]. repeat destruct H as [H|H]; try discriminate; try (injection H; congruence); contradiction.
    + destruct (Nat.eqb_spec a n) as [->|N1]; cbn [negb orb].
      * destruct (Nat.eqb_spec b 2) as [->|B1]; [left; tauto|]. destruct (Nat.eqb_spec b 3) as [->|B2]; [left; tauto|].
        right. split; auto. intros [_ [[H _]|[_ H]]]; [discriminate|]. repeat destruct H as [H|H]; try discriminate; try (injection H; congruence); contradiction.
      * right. split; auto. intros [_ [[H _]|[_ H]]]; [discriminate|]. repeat destruct H as [H|H]; try discriminate; try (injection H; congruence); contradiction.
    + right. split; auto. intros [_ [[H _]|[_ H]]]; [discriminate|]. repeat destruct H as [H|H]; try discriminate; contradiction.
Qed.
Lemma normalize_positions_iff junk v :
  (exists p n d, normalize_positions junk v = Ok p /\ nshape p = [n; d] /\ (dims v = [n; d] \/ n = 1%nat /\ dims v = [d]) /\ (d = 2%nat \/ d = 3%nat) /\
     Forall finite (numbers v)) \/
  normalize_positions junk v = Err ValueError /\
  forall n d, (dims v = [n; d] \/ n = 1%nat /\ dims v = [d]) -> (d = 2%nat \/ d = 3%nat) -> ~ Forall finite (numbers v).
Proof.
  unfold normalize_positions. destruct (as_tensor_none_ok junk v) as (p & E). rewrite E. cbn [bind].
  pose proof (as_tensor_none _ _ _ E) as Dp. pose proof (as_tensor_shape _ _ _ _ E) as Sp. rewrite <- Sp, <- Dp. unfold nndim.
  destruct (forallb num_finite (ndata p)) eqn:F.
  - assert (F' := proj1 (all_finite _) F).
    destruct (nshape p) as [|a [|b [|c l]]] eqn:Q; cbn [length Nat.eqb nshape ndata nth negb orb].
    + rewrite ?Q. cbn. right. split; auto. intros n d [H|[_ H]]; discriminate.
    + rewrite F. cbn [negb]. destruct (Nat.eqb_spec a 2) as [->|N2]; [|destruct (Nat.eqb_spec a 3) as [->|N3]]; cbn [orb negb].
      * left. eexists _, 1%nat, 2%nat. split; [reflexivity|]. cbn [nshape]. auto 8.
      * left. eexists _, 1%nat, 3%nat. split; [reflexivity|]. cbn [nshape]. auto 8.
      * right. split; auto. intros n d [H|[_ H]] D; [discriminate|]. injection H as ->. lia.
    + rewrite ?Q. cbn [length Nat.eqb nth negb orb]. rewrite F. cbn [negb]. destruct (Nat.eqb_spec b 2) as [->|N2]; [|destruct (Nat.eqb_spec b 3) as [->|N3]]; cbn [orb negb].
      * left. exists p, a, 2%nat. auto 8.
      * left. exists p, a, 3%nat. auto 8.
      * right. split; auto. intros n d [H|[_ H]] D; [|discriminate]. injection H as -> ->. lia.
    + rewrite ?Q. cbn. right. split; auto. intros n d [H|[_ H]]; discriminate.
  - right. split.
    + destruct (length (nshape p) =? 1)%nat; cbn [nshape ndata]; rewrite F; cbn [negb]; destruct (_ || _); auto.
    + intros n d _ _ C. apply all_finite in C. congruence.
Qed.
Lemma make_entity_iff junk pos ori :
  (exists e, make_entity junk pos ori = Ok e) /\ entity_input pos ori \/ make_entity junk pos ori = Err ValueError /\ ~ entity_input pos ori.
Proof.
  unfold make_entity. destruct (normalize_positions_iff junk pos) as [(p & n & d & -> & S & Dm & D & F)|[-> N]]; cbn [bind].
  - rewrite S. cbn [nth]. unfold normalize_orientation_arg.
    assert (U : forall n' d', (dims pos = [n'; d'] \/ n' = 1%nat /\ dims pos = [d']) -> n' = n /\ d' = d).
    { intros n' d' [H|[-> H]]; destruct Dm as [G|[-> G]]; rewrite H in G; try discriminate; injection G; auto. }
    destruct ori as [v|].
    + destruct (as_tensor_none_ok junk v) as (o & E). rewrite E. cbn [bind]. pose proof (as_tensor_none _ _ _ E) as Do. pose proof (as_tensor_shape _ _ _ _ E) as So.
      destruct (validate_orientation_iff o n d D) as [(-> & Fo & Sh)|[-> No]]; cbn [bind].
      * left. split; [eauto|]. exists n, d. rewrite <- Do, <- So. auto.
      * right. split; auto. intros (n' & d' & Dm' & _ & _ & Fo & Sh). apply U in Dm' as [-> ->]. rewrite <- Do in Fo. rewrite <- So in Sh. tauto.
    + cbn [bind]. left. split; [eauto|]. exists n, d. auto.
  - right. split; auto. intros (n & d & Dm & D & F & _). exact (N n d Dm D F).
Qed.
