(** Properties of rooms, entities, scenes and the simulator object: C35 - C37, C39, C40. *)
From Coq Require Import String List ZArith Reals Lia Lra Bool.
From Verif Require Import Prelude PreludeFacts SignalModel FloatModel FloatProofs DirModel ImageModel ImageSpec ImageProofs AcousticModel AccumModel
  IsmModel IsmSpec IsmProofs SimProofs SimLocal SimSteps StageSpec SimStages IsmProps StageProps RoomModel RoomSpec RoomProofs.
Import ListNotations.
Local Open Scope R_scope.
Local Notation length := List.length.

(** ** C35 *)
(** The invariant that does hold for every room that can exist; "finite and positive" is
    weakened to "not <= 0" for fs, c and t60, which IEEE NaN and +inf satisfy. *)
Theorem C35_reachable_partial : forall junk r, reachable junk r -> room_inv not_nonpositive r.
Proof. intros junk r H. exact (proj1 (reachable_inv junk r H)). Qed.
(** With finite scalars the invariant is the full one. *)
Theorem C35_finite_partial : forall junk r, reachable junk r -> finite (nr_fs r) -> finite (nr_c r) ->
  (forall t, nr_t60 r = Some t -> finite t) -> room_inv positive r.
Proof.
  intros junk r H F1 F2 F3. destruct (C35_reachable_partial junk r H) as [I1 I2 I3 I4 I5 I6].
  assert (G : forall x, finite x -> not_nonpositive x -> positive x) by (intros x (v & ->) [P|[P|P]]; auto; discriminate).
  constructor; auto.
Qed.
(** Exactly which arguments are accepted (floating-point size). *)
Theorem C35_accepted_iff : forall junk size fs c beta t60, nwf size -> opt_wf value_wf beta -> ndtype size = Float ->
  ((exists r, make_room junk size fs c beta t60 = Ok r) <->
   exists d, (d = 2 \/ d = 3)%nat /\ nshape size = [d] /\ Forall positive (ndata size) /\
     not_nonpositive fs /\ not_nonpositive c /\ (beta = None \/ t60 = None) /\
     (forall t, t60 = Some t -> not_nonpositive t) /\
     (forall v, beta = Some v -> length (numbers v) = (2 * d)%nat /\ Forall unit_interval (numbers v))).
Proof.
  intros junk size fs c beta t60 W WB DF. split.
  - intros (r & H). destruct (make_room_inv _ _ _ _ _ _ _ W WB H) as (I & <- & <- & <- & <- & B).
    destruct (ri_size _ _ I) as (d & D & S & L & P). exists d. repeat (split; [auto; fail|]).
    split; [apply (ri_fs _ _ I)|]. split; [apply (ri_c _ _ I)|]. split.
    { destruct beta as [v|]; auto. destruct B as (b & Eb & _). destruct (ri_excl _ _ I) as [X|X]; auto. congruence. }
    split; [apply (ri_t60 _ _ I)|]. intros v ->. cbn in WB. destruct B as (b & Eb & C).
    destruct (check_beta_inv _ _ _ _ _ WB D S C) as (_ & Lb & Ub & _ & t & Et & Dt). rewrite DF in Et.
    rewrite <- (as_tensor_float _ _ _ Et), <- Dt. auto.
  - intros (d & D & S & P & Pf & Pc & Ex & Pt & Pb). unfold make_room. rewrite (nensure_dim_ok _ _ D S). cbn [bind].
    rewrite (proj2 (all_finite _) (positive_finite _ P)), (positive_le0 _ P). cbn [negb].
    rewrite (proj2 (le0_spec _) Pf), (proj2 (le0_spec _) Pc).
    replace (match beta, t60 with Some _, Some _ => true | _, _ => false end) with false by (destruct Ex as [->| ->]; try destruct beta; reflexivity).
    replace (match t60 with Some t => num_le0 t | None => false end) with false
      by (destruct t60; auto; symmetry; apply le0_spec; auto).
    destruct beta as [v|]; [|eexists; reflexivity]. destruct (Pb v eq_refl) as [Lv Uv]. cbn in WB.
    unfold check_beta. rewrite DF.
    assert (EA : exists t, as_tensor junk v (Some Float) = Ok t).
    { destruct v as [t|sh l]; cbn; [eauto|]. 
      rewrite (mapM_Ok_map (convert Float) (fun p => match p with PyInt z => Fin (IZR z) | PyFloat x => x end)); [cbn; eauto|].
      intros p _. destruct p as [z|[| | |]]; reflexivity. }
    destruct EA as (t & Et). rewrite Et. cbn [bind]. cbv zeta. pose proof (as_tensor_float _ _ _ Et) as Dt.
    pose proof (as_tensor_wf _ _ _ _ WB Et) as [Lt _].
    cbn [ndata nshape]. unfold nnumel at 1. cbn [nshape prodn fold_right]. rewrite Nat.mul_1_r. rewrite Dt in Lt.
    replace (nnumel t =? (if (nnumel size =? 2)%nat then 4 else 6))%nat with true.
    2:{ symmetry. apply Nat.eqb_eq. rewrite <- Lt, Lv. unfold nnumel. rewrite S. destruct D as [->| ->]; reflexivity. }
    cbn [negb]. rewrite Dt, (proj2 (all_finite _) (unit_finite _ Uv)). cbn [negb]. rewrite (proj2 (in_unit _ (unit_finite _ Uv)) Uv).
    cbn [bind]. eexists; reflexivity.
Qed.
Definition ft (l : list R) : ntensor := mkN [length l] Float (map Fin l).
Lemma ft_wf l : nwf (ft l).
Proof. split; [unfold nnumel, ft; cbn; rewrite map_length; lia|discriminate]. Qed.
(** The full invariant fails: NaN passes [fs <= 0], infinity passes [c <= 0]. *)
Theorem C35_finite_refuted : forall junk, exists r, reachable junk r /\ nr_fs r = NaN /\ nr_c r = PInf /\ nr_t60 r = Some NaN /\
  ~ room_inv positive r.
Proof.
  intros junk.
  assert (E : make_room junk (ft [6; 4; 3]) NaN PInf None (Some NaN) = Ok (mkNRoom (ft [6; 4; 3]) NaN PInf None (Some NaN))).
  { unfold make_room. cbn. unfold Rleb. repeat (destruct (Rle_dec _ _); [lra|]). reflexivity. }
  eexists. split; [eapply (built junk (ft [6; 4; 3]) NaN PInf None (Some NaN)); [apply ft_wf|exact I|exact E]|].
  cbn. repeat (split; [auto; fail|]). intros I'. destruct (ri_fs _ _ I') as (v & Ev & _). discriminate.
Qed.
Example C35_example : forall junk,
  (exists r, make_room junk (ft [6; 4]) (Fin 16000) (Fin 343) (Some (VTensor (ft [1; 0; /2; 1]))) None = Ok r /\ room_inv positive r) /\
  (forall beta t60, make_room junk (ft [6; 0]) (Fin 16000) (Fin 343) beta t60 = Err ValueError) /\
  (forall r', make_room junk (ft [6; 4]) (Fin 16000) (Fin 343) (Some (VTensor (ft [1; 0; /2; 2]))) None <> Ok r').
Proof.
  intros junk. split; [|split].
  - assert (H : exists r, make_room junk (ft [6; 4]) (Fin 16000) (Fin 343) (Some (VTensor (ft [1; 0; /2; 1]))) None = Ok r).
    { apply C35_accepted_iff; [apply ft_wf|exact (ft_wf _)|reflexivity|]. exists 2%nat. repeat split; auto.
      - repeat constructor; eexists; split; try reflexivity; lra.
      - left. eexists; split; [reflexivity|lra].
      - left. eexists; split; [reflexivity|lra].
      - discriminate.
      - injection H as <-. reflexivity.
      - injection H as <-. repeat constructor; eexists; split; try reflexivity; lra. }
    destruct H as (r & E). exists r. split; auto.
    destruct (make_room_inv _ _ _ _ _ _ _ (ft_wf _) (ft_wf [1; 0; /2; 1] : opt_wf value_wf (Some (VTensor (ft [1; 0; /2; 1])))) E) as (_ & _ & E1 & E2 & E3 & _).
    apply (C35_finite_partial junk); [eapply built; [| |exact E]; [apply ft_wf|exact (ft_wf _)]| | |].
    + rewrite E1. eexists; reflexivity.
    + rewrite E2. eexists; reflexivity.
    + rewrite E3. discriminate.
  - intros beta t60. unfold make_room. cbn. unfold Rleb. destruct (Rle_dec 6 0); [lra|]. destruct (Rle_dec 0 0); [reflexivity|lra].
  - intros r' H. assert (G : exists r, make_room junk (ft [6; 4]) (Fin 16000) (Fin 343) (Some (VTensor (ft [1; 0; /2; 2]))) None = Ok r) by eauto.
    apply C35_accepted_iff in G; [|apply ft_wf|exact (ft_wf _)|reflexivity]. destruct G as (d & _ & _ & _ & _ & _ & _ & _ & G).
    destruct (G _ eq_refl) as [_ G']. cbn in G'. inversion G' as [|? ? _ G1]; subst. inversion G1 as [|? ? _ G2]; subst.
    inversion G2 as [|? ? _ G3]; subst. inversion G3 as [|? ? G4 _]; subst. destruct G4 as (v & Ev & B). injection Ev as <-. lra.
Qed.

(** ** C36 *)
(** Holds when the size has a floating-point dtype; missing: integer sizes. *)
Theorem C36_float_partial : forall junk size fs c v t60 r, nwf size -> value_wf v -> ndtype size = Float ->
  make_room junk size fs c (Some v) t60 = Ok r ->
  exists b, nr_beta r = Some b /\ ndata b = numbers v /\ nshape b = [length (numbers v)].
Proof.
  intros junk size fs c v t60 r W WV DF H.
  destruct (make_room_inv _ _ _ _ _ _ _ W (WV : opt_wf value_wf (Some v)) H) as (I & <- & _ & _ & _ & b & Eb & C).
  destruct (ri_size _ _ I) as (d & D & S & L & _).
  destruct (check_beta_inv _ _ _ _ _ WV D S C) as (Sb & Lb & _ & _ & t & Et & Dt). rewrite DF in Et.
  exists b. rewrite <- (as_tensor_float _ _ _ Et), <- Dt, Lb. auto.
Qed.
(** Integer size: whatever was given, the stored coefficients are 0 or 1; floats given as a
    tensor are truncated (so 0.9 becomes 0 and 1.7 becomes an accepted 1). *)
Theorem C36_int_partial : forall junk size fs c v t60 r, nwf size -> value_wf v -> ndtype size = Int64 ->
  make_room junk size fs c (Some v) t60 = Ok r ->
  exists b, nr_beta r = Some b /\ Forall (fun x => x = Fin 0 \/ x = Fin 1) (ndata b) /\
    (forall l sh, v = VTensor (mkN sh Float (map Fin l)) -> ndata b = map (fun x => Fin (IZR (truncZ x))) l).
Proof.
  intros junk size fs c v t60 r W WV DF H.
  destruct (make_room_inv _ _ _ _ _ _ _ W (WV : opt_wf value_wf (Some v)) H) as (I & <- & _ & _ & _ & b & Eb & C).
  destruct (ri_size _ _ I) as (d & D & S & L & _).
  destruct (check_beta_inv _ _ _ _ _ WV D S C) as (Sb & Lb & U & _ & t & Et & Dt). rewrite DF in Et.
  exists b. split; auto. split.
  - destruct (as_tensor_wf _ _ _ _ WV Et) as [_ F]. specialize (F (as_tensor_dtype _ _ _ _ Et)). rewrite Dt in *.
    clear -F U. induction U as [|x l (u & -> & B) U IH]; [constructor|]. inversion F as [|? ? (z & Ez) F']; subst. constructor; auto.
    injection Ez as ->. destruct B as [B1 B2]. apply le_IZR in B1, B2.
    assert (Q : z = 0%Z \/ z = 1%Z) by lia. destruct Q as [->| ->]; auto.
  - intros l sh ->. cbn in Et. injection Et as <-. rewrite Dt. cbn. rewrite map_map. reflexivity.
Qed.
Definition it (l : list Z) : list pynum := map PyInt l.
Lemma trunc_small x : 0 <= x < 1 -> truncZ x = 0%Z.
Proof.
  intros H. unfold truncZ. destruct (Rle_dec 0 x); [|lra]. apply floorZ_unique. cbn. lra.
Qed.
(** A list of coefficients for a room of integer size cannot hold numbers that are not finite:
    the first one decides the exception. *)
Theorem C36_int_values_rejected_partial : forall junk size fs c sh l x r d,
  nwf size -> ndtype size = Int64 -> (d = 2 \/ d = 3)%nat -> nshape size = [d] -> Forall positive (ndata size) ->
  not_nonpositive fs -> not_nonpositive c ->
  Forall (fun p => match p with PyInt _ => True | PyFloat y => finite y end) l ->
  (x = NaN -> make_room junk size fs c (Some (VNest sh (l ++ PyFloat x :: r))) None = Err ValueError) /\
  (x = PInf \/ x = NInf -> make_room junk size fs c (Some (VNest sh (l ++ PyFloat x :: r))) None = Err OverflowError).
Proof.
  intros junk size fs c sh l x r d W DF D S P Pf Pc F.
  assert (M : forall e, convert Int64 (PyFloat x) = Err e ->
    make_room junk size fs c (Some (VNest sh (l ++ PyFloat x :: r))) None = Err e).
  { intros e E. unfold make_room. rewrite (nensure_dim_ok _ _ D S). cbn [bind].
    rewrite (proj2 (all_finite _) (positive_finite _ P)), (positive_le0 _ P). cbn [negb].
    rewrite (proj2 (le0_spec _) Pf), (proj2 (le0_spec _) Pc). unfold check_beta, as_tensor. rewrite DF.
    assert (Q : mapM (convert Int64) (l ++ PyFloat x :: r) = Err e); [|rewrite Q; reflexivity].
    induction F as [|p l Hp F IH]; cbn [app mapM]; [rewrite E; reflexivity|].
    destruct p as [z|[v| | |]]; cbn [convert]; try (destruct Hp as (w & Hw); discriminate); cbn [bind]; rewrite IH; reflexivity. }
  split; [intros ->; apply M; reflexivity|intros [->| ->]; apply M; reflexivity].
Qed.
Example C36_int_values_rejected_example : forall junk,
  make_room junk (mkN [2%nat] Int64 [Fin 5; Fin 4]) (Fin 16000) (Fin 343)
    (Some (VNest [4%nat] [PyInt 1; PyFloat (Fin (1/2)); PyFloat NaN; PyFloat PInf])) None = Err ValueError.
Proof.
  intros junk. eapply (C36_int_values_rejected_partial junk _ _ _ [4%nat] [PyInt 1; PyFloat (Fin (1/2))] NaN [PyFloat PInf] 2);
    try reflexivity; auto.
  - split; [reflexivity|]. intros _. repeat constructor; eexists; reflexivity.
  - repeat constructor; eexists; (split; [reflexivity|lra]).
  - left. eexists; split; [reflexivity|lra].
  - left. eexists; split; [reflexivity|lra].
  - repeat constructor. eexists; reflexivity.
Qed.
(** [Room.shoebox([6, 4, 3], fs=16000, beta=[0.9]*6)] stores an anechoic room. *)
Theorem C36_refuted : forall junk, exists r b,
  shoebox junk (VNest [3%nat] (it [6; 4; 3]%Z)) (Fin 16000) (Fin 343) (Some (VNest [6%nat] (repeat (PyFloat (Fin (9 / 10))) 6))) None None = Ok r /\
  nr_beta r = Some b /\ ndata b = repeat (Fin 0) 6.
Proof.
  intros junk. exists (mkNRoom (mkN [3%nat] Int64 [Fin 6; Fin 4; Fin 3]) (Fin 16000) (Fin 343) (Some (mkN [6%nat] Int64 (repeat (Fin 0) 6))) None),
    (mkN [6%nat] Int64 (repeat (Fin 0) 6)). split; [|split; reflexivity].
  unfold shoebox. cbn [as_tensor infer_dtype it map forallb andb mapM convert bind nensure_dim nndim nshape List.length].
  unfold nnumel, nshape, prodn, nensure_dim, nndim, nnumel. cbn [nshape List.length Nat.eqb negb orb prodn fold_right Nat.mul Nat.add bind infer_dtype repeat forallb andb mapM convert].
  unfold make_room, nensure_dim, nndim, nnumel. cbn [nshape List.length Nat.eqb negb orb prodn fold_right Nat.mul Nat.add bind ndata forallb num_finite andb existsb num_le0].
  unfold Rleb. repeat (match goal with |- context [Rle_dec ?a ?b] => destruct (Rle_dec a b); [lra|] end). cbn [orb].
  unfold check_beta. cbn [as_tensor cast ndtype nshape ndata bind map cast_num]. rewrite (trunc_small (9 / 10)) by lra.
  unfold nnumel. cbn [nshape prodn fold_right Nat.mul Nat.add Nat.eqb negb ndata forallb num_finite andb existsb num_lt0 num_gt1].
  unfold Rltb. repeat (match goal with |- context [Rlt_dec ?a ?b] => destruct (Rlt_dec a b); [lra|] end). reflexivity.
Qed.
(** The same loss on an existing float room: replacing the size by an integer tensor
    truncates the stored coefficients. *)
Theorem C36_replace_refuted : forall junk, exists r r' b b',
  reachable junk r /\ nr_beta r = Some b /\ ndata b = repeat (Fin (1 / 2)) 4 /\
  room_replace junk r (mkUpd (Some (mkN [2%nat] Int64 [Fin 5; Fin 4])) None None None None) = Ok r' /\
  nr_beta r' = Some b' /\ ndata b' = repeat (Fin 0) 4.
Proof.
  intros junk.
  assert (E : make_room junk (ft [6; 4]) (Fin 16000) (Fin 343) (Some (VTensor (ft (repeat (1 / 2) 4)))) None =
    Ok (mkNRoom (ft [6; 4]) (Fin 16000) (Fin 343) (Some (ft (repeat (1 / 2) 4))) None)).
  { unfold make_room, check_beta. cbn. unfold Rleb, Rltb.
    repeat (match goal with |- context [Rle_dec ?a ?b] => destruct (Rle_dec a b); [lra|] end). cbn [orb bind].
    repeat (match goal with |- context [Rlt_dec ?a ?b] => destruct (Rlt_dec a b); [lra|] end). reflexivity. }
  exists (mkNRoom (ft [6; 4]) (Fin 16000) (Fin 343) (Some (ft (repeat (1 / 2) 4))) None).
  exists (mkNRoom (mkN [2%nat] Int64 [Fin 5; Fin 4]) (Fin 16000) (Fin 343) (Some (mkN [4%nat] Int64 (repeat (Fin 0) 4))) None),
    (ft (repeat (1 / 2) 4)), (mkN [4%nat] Int64 (repeat (Fin 0) 4)).
  split; [eapply built; [| |exact E]; [apply ft_wf|exact (ft_wf _)]|].
  split; [reflexivity|]. split; [reflexivity|]. split; [|split; reflexivity].
  unfold room_replace. cbn [u_size u_fs u_c u_beta u_t60 keep nr_size nr_fs nr_c nr_beta nr_t60 option_map].
  unfold make_room, check_beta. cbn. rewrite (trunc_small (1 / 2)) by lra. unfold Rleb, Rltb.
  repeat (match goal with |- context [Rle_dec ?a ?b] => destruct (Rle_dec a b); [lra|] end). cbn [orb bind].
  repeat (match goal with |- context [Rlt_dec ?a ?b] => destruct (Rlt_dec a b); [lra|] end). reflexivity.
Qed.
Example C36_example : forall junk, exists r b,
  make_room junk (ft [6; 4]) (Fin 16000) (Fin 343) (Some (VNest [2%nat; 2%nat] [PyFloat (Fin (9/10)); PyInt 1; PyInt 0; PyFloat (Fin (1/4))])) None = Ok r /\
  nr_beta r = Some b /\ nshape b = [4%nat] /\ ndata b = [Fin (9/10); Fin 1; Fin 0; Fin (1/4)].
Proof.
  intros junk.
  set (v := VNest [2%nat; 2%nat] [PyFloat (Fin (9/10)); PyInt 1; PyInt 0; PyFloat (Fin (1/4))]).
  assert (H : exists r, make_room junk (ft [6; 4]) (Fin 16000) (Fin 343) (Some v) None = Ok r).
  { apply C35_accepted_iff; [apply ft_wf|reflexivity|reflexivity|]. exists 2%nat. repeat split; auto.
    - repeat constructor; eexists; split; try reflexivity; lra.
    - left. eexists; split; [reflexivity|lra].
    - left. eexists; split; [reflexivity|lra].
    - discriminate.
    - injection H as <-. reflexivity.
    - injection H as <-. repeat constructor; eexists; split; try reflexivity; lra. }
  destruct H as (r & E). destruct (C36_float_partial junk _ _ _ _ _ r (ft_wf _) (eq_refl : value_wf v) eq_refl E) as (b & Eb & Db & Sb).
  exists r, b. auto.
Qed.

(** ** C37 *)
(** The orientation kept by an entity of [n] positions in dimension [d], given as [v]. *)
Definition usable_orientation (v : option value) (e : nentity) (n d : nat) : Prop :=
  match v with
  | None => ne_ori e = None
  | Some v => exists o, ne_ori e = Some o /\ ndata o = numbers v /\ nshape o = dims v /\ Forall finite (ndata o) /\
      exists u, orientation_to_unit (plain o) d = Ok u /\ (shape u = [d] \/ shape u = [n; d])
  end.
Theorem C37_constructed : forall junk pos ori e, make_entity junk pos ori = Ok e ->
  exists n d, entity_inv e n d /\ ndata (ne_pos e) = numbers pos /\
    (dims pos = [n; d] \/ n = 1%nat /\ dims pos = [d]) /\ usable_orientation ori e n d.
Proof. intros junk pos ori e H. exact (make_entity_inv junk pos ori e H). Qed.
Theorem C37_from_positions : forall junk pos ori dt e, from_positions junk pos ori dt = Ok e ->
  exists n d p, entity_inv e n d /\ as_tensor junk pos dt = Ok p /\ ndata (ne_pos e) = ndata p /\
    (dims pos = [n; d] \/ n = 1%nat /\ dims pos = [d]) /\
    (dt <> Some Int64 -> ndata (ne_pos e) = numbers pos) /\
    match ori with None => ne_ori e = None
    | Some v => exists o, as_tensor junk v dt = Ok o /\ usable_orientation (Some (VTensor o)) e n d end.
Proof.
  intros junk pos ori dt e H. unfold from_positions in H. bcase_in H. bcase_in H.
  destruct (make_entity_inv _ _ _ _ H) as (n & d & I & Dt & Sh & U). exists n, d, a. cbn [numbers dims] in *.
  split; auto. split; auto. split; auto. split; [rewrite <- (as_tensor_shape _ _ _ _ E); auto|]. split.
  - intros Hd. rewrite Dt. destruct dt as [[|]|]; [eapply as_tensor_float; eauto|congruence|eapply as_tensor_none; eauto].
  - destruct ori as [v|].
    + bcase_in E0. injection E0 as <-. exists a1. split; auto.
    + injection E0 as <-. exact U.
Qed.
Theorem C37_replaced : forall junk e pos ori e', entity_replace junk e pos ori = Ok e' ->
  exists n d, entity_inv e' n d /\ ndata (ne_pos e') = numbers (keep pos (VTensor (ne_pos e))) /\
    usable_orientation (keep ori (option_map VTensor (ne_ori e))) e' n d.
Proof.
  intros junk e pos ori e' H. unfold entity_replace in H. destruct (make_entity_inv _ _ _ _ H) as (n & d & I & Dt & Sh & U).
  exists n, d. auto.
Qed.
(** The accepted inputs are exactly the finite positions with a known shape of orientation. *)
Theorem C37_accepted : forall junk pos ori,
  ((exists e, make_entity junk pos ori = Ok e) <-> entity_input pos ori) /\ (~ entity_input pos ori -> make_entity junk pos ori = Err ValueError).
Proof.
  intros junk pos ori. destruct (make_entity_iff junk pos ori) as [[H I]|[H I]]; rewrite ?H.
  - tauto.
  - split; [|auto]. split; [intros [e Q]; discriminate|tauto].
Qed.
(** Three sources in the plane with one angle each, and four angles for three sources. *)
Example C37_accepted_example junk :
  (exists e, make_entity junk (VNest [3%nat; 2%nat] (map PyInt [1; 1; 2; 1; 3; 1]%Z)) (Some (VNest [3%nat] (map PyInt [0; 1; 2]%Z))) = Ok e) /\
  make_entity junk (VNest [3%nat; 2%nat] (map PyInt [1; 1; 2; 1; 3; 1]%Z)) (Some (VNest [4%nat] (map PyInt [0; 1; 2; 3]%Z))) = Err ValueError.
Proof. split; [eexists; reflexivity|reflexivity]. Qed.
(** Replacing nothing gives the same entity back. *)
Theorem C37_replace_nothing : forall junk pos ori e, make_entity junk pos ori = Ok e -> entity_replace junk e None None = Ok e.
Proof.
  intros junk pos ori e H. unfold entity_replace. cbn [keep]. unfold make_entity in *. bcase_in H. bcase_in H. injection H as <-.
  cbn [ne_pos ne_ori].
  assert (N : normalize_positions junk (VTensor a) = Ok a).
  { unfold normalize_positions in *. bcase_in E. cbn [as_tensor bind] in *. cbv zeta in *.
    set (p := if (nndim a1 =? 1)%nat then _ else a1) in *.
    destruct (negb (nndim p =? 2)%nat || _) eqn:G in E; [discriminate|]. destruct (negb (forallb _ _)) eqn:F in E; [discriminate|]. injection E as <-.
    pose proof G as G'. apply orb_false_iff in G' as [G1 _]. apply negb_false_iff, Nat.eqb_eq in G1.
    replace (nndim p =? 1)%nat with false by (rewrite G1; reflexivity). rewrite G, F. reflexivity. }
  rewrite N. cbn [bind].
  destruct a0 as [o|]; cbn [option_map]; [|reflexivity]. unfold normalize_orientation_arg in *. destruct ori as [v|]; [|discriminate].
  bcase_in E0. bcase_in E0. injection E0 as <-. cbn [as_tensor bind]. destruct a1. rewrite E2. reflexivity.
Qed.
(** One source at (1, 2, 3) looking along (0, 0, 2). *)
Example C37_example : forall junk, exists e u,
  make_entity junk (VNest [3%nat] (it [1; 2; 3]%Z)) (Some (VTensor (ft [0; 0; 2]))) = Ok e /\
  nshape (ne_pos e) = [1%nat; 3%nat] /\ ndata (ne_pos e) = [Fin 1; Fin 2; Fin 3] /\
  orientation_to_unit (plain (ft [0; 0; 2])) 3 = Ok u /\ shape u = [3%nat] /\
  (forall e', make_entity junk (VNest [3%nat] (it [1; 2; 3]%Z)) (Some (VTensor (ft [0; 0; 2; 1]))) <> Ok e').
Proof.
  intros junk. assert (H : exists e, make_entity junk (VNest [3%nat] (it [1; 2; 3]%Z)) (Some (VTensor (ft [0; 0; 2]))) = Ok e) by (eexists; reflexivity).
  destruct H as (e & E). destruct (C37_constructed _ _ _ _ E) as (n & d & I & D & [S|[-> S]] & U); [discriminate|]. injection S as <-.
  destruct U as (o & _ & Eo & So & _ & u & Eu & Su). exists e, u. split; auto. split; [apply (ei_shape _ _ _ I)|]. split; [exact D|].
  split.
  { rewrite <- Eu. unfold plain. rewrite Eo, So. reflexivity. }
  split; [|intros e' H; cbn in H; discriminate]. destruct Su as [Su|Su]; auto.
  clear Su. unfold orientation_to_unit, plain in Eu. rewrite So in Eu. cbn in Eu. injection Eu as <-. reflexivity.
Qed.

(** ** C39 *)
(** Static scene, omnidirectional simulator, floating-point working dtype, finite room
    scalars: the documented shape.  Excluded (see the refutations): no sources or no
    microphones; a working dtype that is an integer type; a high-pass filter that cannot run
    on [n] samples. *)
Theorem C39_static_partial : forall X junk dev s r src mic sc c S M d1 d2 fs n,
  room_inv positive r -> entity_inv src S d1 -> entity_inv mic M d2 -> (0 < S)%nat -> (0 < M)%nat ->
  make_static r src mic = Ok sc -> make_simulator s = Ok s -> s_dir s = Some (DName "omni") ->
  nb_fits (s_nb s) (nnumel (nr_size r)) -> keep (s_dtype s) (ndtype (ne_pos src)) = Float ->
  cfg_validate c = Ok tt -> agrees s c -> nr_fs r = Fin fs -> (0 < n)%nat ->
  match s_nsample s with Some k => k = Z.of_nat n
  | None => exists t, first (s_tmax s) (cfg_tmax c) = Some t /\ Z.of_nat n = ceilZ (rnd64 (t * fs)) end ->
  hpf_runs X fs n c ->
  exists T, ism_simulate X junk dev s (New sc) (Some c) = Ok T /\ xshape T = [S; M; n].
Proof. intros X junk dev s r src mic sc c S M d1 d2 fs n. apply static_scene_simulates. Qed.
Theorem C39_dynamic_partial : forall X junk dev s r src mic st mt sc c fs n S M d1 d2,
  room_inv positive r -> entity_inv src S d1 -> entity_inv mic M d2 -> (0 < S)%nat -> (0 < M)%nat ->
  make_dynamic junk r src mic (VTensor st) (VTensor mt) = Ok sc -> (0 < nth 0 (nshape st) 0)%nat ->
  make_simulator s = Ok s -> s_dir s = Some (DName "omni") ->
  nb_fits (s_nb s) (nnumel (nr_size r)) -> keep (s_dtype s) (ndtype st) = Float ->
  cfg_validate c = Ok tt -> agrees s c -> nr_fs r = Fin fs -> (0 < n)%nat ->
  match s_nsample s with Some k => k = Z.of_nat n
  | None => exists t, first (s_tmax s) (cfg_tmax c) = Some t /\ Z.of_nat n = ceilZ (rnd64 (t * fs)) end ->
  hpf_runs X fs n c -> filt_length X ->
  exists T, ism_simulate X junk dev s (New sc) (Some c) = Ok T /\ xshape T = [nth 0 (nshape st) 0%nat; S; M; n].
Proof. intros X junk dev s r src mic st mt sc c fs n S M d1 d2. apply dynamic_scene_simulates. Qed.
(** [validate] of an existing scene succeeds. *)
Theorem C39_validate_stable : forall junk r s m st mt sc,
  make_static r s m = Ok sc \/ make_dynamic junk r s m st mt = Ok sc -> scene_validate sc = Ok tt.
Proof.
  intros junk r s m st mt sc [H|H].
  - unfold make_static in H. bcase_in H. destruct a. injection H as <-. exact E.
  - unfold make_dynamic in H. bcase_in H. bcase_in H. cbv zeta in H. bcase_in H. destruct a1. injection H as <-. exact E1.
Qed.
(** Converting an existing deprecated scene never fails and keeps all data; the simulator
    then does exactly what it does on the new scene. *)
Theorem C39_old_scene : forall junk r s m st mt o, make_old r s m st mt = Ok o ->
  (st = None /\ mt = None /\ to_static_scene o = Ok (StaticScene r s m) /\ to_dynamic_scene junk o = Err ValueError /\
     make_static r s m = Ok (StaticScene r s m) /\
     forall X dev i cfg, ism_simulate X junk dev i (Old o) cfg = ism_simulate X junk dev i (New (StaticScene r s m)) cfg) \/
  (exists t1 t2, st = Some (VTensor t1) /\ mt = Some (VTensor t2) /\
     to_dynamic_scene junk o = Ok (DynamicScene r s m t1 t2) /\ to_static_scene o = Err ValueError /\
     make_dynamic junk r s m (VTensor t1) (VTensor t2) = Ok (DynamicScene r s m t1 t2) /\
     forall X dev i cfg, ism_simulate X junk dev i (Old o) cfg = ism_simulate X junk dev i (New (DynamicScene r s m t1 t2)) cfg).
Proof.
  intros junk r s m st mt o H. unfold make_old in H. cbv zeta in H. bcase_in H. destruct a. injection H as <-.
  unfold old_validate in E. cbn [os_room os_src os_mic os_src_traj os_mic_traj] in E. bcase_in E. destruct a.
  destruct st as [v1|], mt as [v2|]; try discriminate.
  - right. unfold validate_trajs in E. destruct v1 as [t1|]; [|discriminate]. destruct v2 as [t2|]; [|bcase_in E; discriminate].
    exists t1, t2. split; auto. split; auto.
    assert (M : make_dynamic junk r s m (VTensor t1) (VTensor t2) = Ok (DynamicScene r s m t1 t2)).
    { unfold make_dynamic. cbn [as_tensor bind scene_validate]. rewrite E0. cbn [bind]. unfold validate_trajs. rewrite E. reflexivity. }
    split; [exact M|]. split; [reflexivity|]. split; [exact M|]. intros X dev i cfg. unfold ism_simulate, normalize_scene, old_is_dynamic, to_dynamic_scene.
    cbn [os_room os_src os_mic os_src_traj os_mic_traj]. rewrite M. reflexivity.
  - left. assert (M : make_static r s m = Ok (StaticScene r s m)) by (unfold make_static; cbn [scene_validate]; rewrite E0; reflexivity).
    split; auto. split; auto. split; [exact M|]. split; [reflexivity|]. split; [exact M|]. intros X dev i cfg.
    unfold ism_simulate, normalize_scene, old_is_dynamic, to_static_scene, old_is_dynamic.
    cbn [os_room os_src os_mic os_src_traj os_mic_traj]. rewrite M. reflexivity.
Qed.
(** A scene without sources is accepted, but no simulation of it succeeds. *)
Definition e_room : nroom := mkNRoom (ft [6; 4]) (Fin 16000) (Fin 343) None None.
Definition none_at : value := VTensor (mkN [0%nat; 2%nat] Float []).
Definition one_at (x y : R) : value := VTensor (mkN [1%nat; 2%nat] Float [Fin x; Fin y]).
Lemma e_room_built junk : make_room junk (ft [6; 4]) (Fin 16000) (Fin 343) None None = Ok e_room.
Proof.
  unfold make_room. cbn. unfold Rleb.
  repeat (match goal with |- context [Rle_dec ?a ?b] => destruct (Rle_dec a b); [lra|] end). reflexivity.
Qed.
Lemma no_rows r srcs mics mo nb ns tmax X dev dir ori cfg T : r_fs r <> 0 -> shape (unsqueeze1 (entity_pos srcs)) = [0%nat; 2%nat] ->
  simulate_rir X dev r srcs mics mo nb ns tmax None dir ori cfg <> Ok T.
Proof.
  intros Hf H0 H. rewrite simulate_rir_closed in H by auto. bcase_in H. destruct a as [[[c N] tm] d]. bcase_in H. cbv zeta in H.
  bcase_in H. destruct a0 as [[[[[sp mp] so] mo'] sz] dim].
  assert (ES : sp = unsqueeze1 (entity_pos srcs)).
  { unfold prepare_static in E1. bcase_in E1. destruct a0 as [p1 o1]. bcase_in E1. destruct a0 as [p2 o2]. bcase_in E1. injection E1 as <- <- <- <- <- <-.
    f_equal. unfold prepare_entities, entity_pos in *. destruct srcs as [p q|p]; destruct ori as [|t|[|x [|y [|]]]]; cbn in E2; try discriminate; injection E2 as <- <-; reflexivity. }
  subst sp. bcase_in H. bcase_in H. bcase_in H. bcase_in H. bcase_in H. repeat match goal with p : (string * string)%type |- _ => destruct p end.
  bcase_in H. cbv zeta in H. bcase_in H. bcase_in H.
  match goal with E : static_closed _ _ _ _ _ _ _ _ _ _ _ _ _ _ = _ |- _ => rename E into F end. unfold static_closed in F. bcase_in F. bcase_in F.
  destruct (negb _) in F; [discriminate|]. rewrite (length_trows_2d _ _ _ H0) in F. cbn [Nat.mul Nat.eqb] in F. discriminate.
Qed.
Theorem C39_empty_refuted : forall junk, exists r src mic sc,
  make_room junk (ft [6; 4]) (Fin 16000) (Fin 343) None None = Ok r /\ make_entity junk none_at None = Ok src /\
  make_entity junk (one_at 1 1) None = Ok mic /\ make_static r src mic = Ok sc /\
  forall X dev s cfg T, ism_simulate X junk dev s (New sc) cfg <> Ok T.
Proof.
  intros junk. exists e_room, (mkEnt (mkN [0%nat; 2%nat] Float []) None), (mkEnt (mkN [1%nat; 2%nat] Float [Fin 1; Fin 1]) None).
  eexists. split; [apply e_room_built|]. split; [reflexivity|]. split; [reflexivity|]. split; [reflexivity|].
  intros X dev s cfg T H. unfold ism_simulate in H. cbn [normalize_scene bind] in H. bcase_in H. bcase_in H.
  destruct (conflict _ _ _) in H; [discriminate|]. destruct (conflict _ _ _) in H; [discriminate|]. cbv zeta in H.
  destruct (keep _ _); [|discriminate]. unfold plain_room in H. cbn [e_room nr_fs nr_c nr_t60] in H.
  eapply no_rows; [| |exact H]; [cbn; lra|reflexivity].
Qed.
(** Integer positions (and no dtype in the simulator) are accepted but not simulated. *)
Theorem C39_integer_refuted : forall junk, exists r src mic sc,
  make_room junk (ft [6; 4]) (Fin 16000) (Fin 343) None None = Ok r /\
  make_entity junk (VNest [1%nat; 2%nat] (it [1; 2]%Z)) None = Ok src /\
  make_entity junk (one_at 1 1) None = Ok mic /\ make_static r src mic = Ok sc /\
  forall X dev s cfg T, s_dtype s = None -> ism_simulate X junk dev s (New sc) cfg <> Ok T.
Proof.
  intros junk. exists e_room, (mkEnt (mkN [1%nat; 2%nat] Int64 [Fin 1; Fin 2]) None), (mkEnt (mkN [1%nat; 2%nat] Float [Fin 1; Fin 1]) None).
  eexists. split; [apply e_room_built|]. split; [reflexivity|]. split; [reflexivity|]. split; [reflexivity|].
  intros X dev s cfg T D H. unfold ism_simulate in H. cbn [normalize_scene bind] in H. bcase_in H. bcase_in H.
  destruct (conflict _ _ _) in H; [discriminate|]. destruct (conflict _ _ _) in H; [discriminate|]. rewrite D in H. discriminate.
Qed.
Definition e_sim : simulator := mkSim 2 None (Some 30%Z) (Some (DName "omni")) None None.
Example C39_example : forall X junk, exists r src mic sc T,
  make_room junk (ft [6; 4]) (Fin 16000) (Fin 343) None None = Ok r /\
  make_entity junk (VTensor (mkN [2%nat; 2%nat] Float [Fin 1; Fin 2; Fin 3; Fin 3])) None = Ok src /\
  make_entity junk (one_at 1 1) None = Ok mic /\ make_static r src mic = Ok sc /\
  ism_simulate X junk Cpu e_sim (New sc) (Some ex_cfg) = Ok T /\ xshape T = [2%nat; 1%nat; 30%nat].
Proof.
  intros X junk.
  set (src := mkEnt (mkN [2%nat; 2%nat] Float [Fin 1; Fin 2; Fin 3; Fin 3]) None).
  set (mic := mkEnt (mkN [1%nat; 2%nat] Float [Fin 1; Fin 1]) None).
  assert (RI : room_inv positive e_room).
  { apply (C35_finite_partial junk); [eapply built; [| |apply e_room_built]; [apply ft_wf|exact I]| | |discriminate]; eexists; reflexivity. }
  destruct (C39_static_partial X junk Cpu e_sim e_room src mic (StaticScene e_room src mic) ex_cfg 2 1 2 2 16000 30) as (T & E & Sh); auto; try lia; try reflexivity.
  - constructor; auto. repeat constructor; eexists; reflexivity.
  - constructor; auto. repeat constructor; eexists; reflexivity.
  - apply ex_cfg_valid.
  - split; cbn; discriminate.
  - intros Q. discriminate Q.
  - exists e_room, src, mic, (StaticScene e_room src mic), T. split; [apply e_room_built|]. auto.
Qed.

(** ** C40 *)
Theorem C40_conflict_rejected : forall X junk dev s sc c,
  scene_validate sc = Ok tt -> ~ agrees s c -> ism_simulate X junk dev s (New sc) (Some c) = Err ValueError.
Proof.
  intros X junk dev s sc c V H. unfold ism_simulate. cbn [normalize_scene bind]. rewrite V. cbn [bind].
  destruct (conflict Z.eqb _ _) eqn:E1; auto. destruct (conflict Reqb _ _) eqn:E2; auto. destruct H. apply agrees_no_conflict. auto.
Qed.
(** The configuration with other values for the three fields that the simulator owns. *)
Definition set3 (c : config) (mo : option Z) (tmax : option R) (dir : option dirspec) : config :=
  mkConfig (cfg_fs c) mo tmax dir (cfg_device c) (cfg_seed c) (cfg_use_lut c)
    (cfg_mixed_precision c) (cfg_fdl c) (cfg_gran c) (cfg_img_chunk c) (cfg_acc_chunk c) (cfg_use_compile c)
    (cfg_hpf_enable c) (cfg_hpf_fc c) (cfg_hpf_n c).
(** What the configuration says about order, tmax and directivity never reaches the result. *)
Theorem C40_own_parameters : forall X junk dev s scene c mo tmax dir, make_simulator s = Ok s -> s_dir s <> None ->
  let c' := set3 c mo tmax dir in
  valid_config c -> valid_config c' -> agrees s c -> agrees s c' ->
  ism_simulate X junk dev s scene (Some c) = ism_simulate X junk dev s scene (Some c').
Proof.
  intros X junk dev s scene c mo tmax dir Hs Hd c' V V' A A'. apply agrees_no_conflict in A as [A1 A2]. apply agrees_no_conflict in A' as [B1 B2].
  apply C33_config_valid_iff in V, V'. destruct (s_dir s) as [d|] eqn:Ed; [|congruence].
  unfold ism_simulate. rewrite Ed. destruct (normalize_scene junk scene) as [sc|]; [|reflexivity]. cbn [bind].
  destruct (scene_validate sc); [|reflexivity]. cbn [bind]. rewrite A1, A2, B1, B2.
  assert (G : s_tmax s <> None \/ s_nsample s <> None).
  { unfold make_simulator in Hs. destruct (_ <? _)%Z; [discriminate|]. destruct (s_tmax s); [left; discriminate|]. destruct (s_nsample s); [right; discriminate|discriminate]. }
  assert (L : forall fs N, validate_args fs (s_nsample s) (match s_tmax s with Some t => Some t | None => cfg_tmax c end) N =
    validate_args fs (s_nsample s) (match s_tmax s with Some t => Some t | None => cfg_tmax c' end) N).
  { intros fs N. destruct (s_tmax s); auto. unfold validate_args. destruct (s_nsample s); auto. destruct G; congruence. }
  destruct sc as [r src mic|r src mic st mt]; (destruct (keep _ _); [|reflexivity]); (destruct (plain_room r) as [pr|]; [|reflexivity]).
  - unfold simulate_rir, resolve_config. cbn [bind]. rewrite V, V'. cbn [bind]. rewrite L. reflexivity.
  - unfold simulate_dynamic_rir, resolve_config. cbn [bind]. rewrite V, V'. cbn [bind]. rewrite L. reflexivity.
Qed.
(** Without a contradiction the static simulation is [simulate_rir] on the scene's data with
    the simulator's parameters; the stored orientations are those of the (explicit) call. *)
Theorem C40_static_orientation : forall X junk dev s r src mic c pr o1 o2,
  scene_validate (StaticScene r src mic) = Ok tt -> agrees s c -> keep (s_dtype s) (ndtype (ne_pos src)) = Float ->
  plain_room r = Some pr -> ne_ori src = o1 -> ne_ori mic = o2 ->
  ism_simulate X junk dev s (New (StaticScene r src mic)) (Some c) =
  simulate_rir X dev pr (ETensor (plain (ne_pos src))) (ETensor (plain (ne_pos mic))) (Some (s_order s)) (s_nb s) (s_nsample s)
    (s_tmax s) None (s_dir s) (OTuple [option_map plain o1; option_map plain o2]) (Some c).
Proof.
  intros X junk dev s r src mic c pr o1 o2 V A D P <- <-. apply agrees_no_conflict in A as [A1 A2].
  unfold ism_simulate. cbn [normalize_scene bind]. rewrite V. cbn [bind]. rewrite A1, A2, D, P. reflexivity.
Qed.
(** Length of the responses: the simulator's. *)
Theorem C40_length : forall X junk dev s r src mic c T fs, nr_fs r = Fin fs -> 0 < fs ->
  ism_simulate X junk dev s (New (StaticScene r src mic)) (Some c) = Ok T -> make_simulator s = Ok s ->
  exists n, nth 2 (xshape T) 0%nat = n /\
    match s_nsample s with Some k => k = Z.of_nat n | None => exists t, s_tmax s = Some t /\ Z.of_nat n = ceilZ (rnd64 (t * fs)) end.
Proof.
  intros X junk dev s r src mic c T fs Hf Hp H Hs. unfold ism_simulate in H. cbn [normalize_scene bind] in H. bcase_in H.
  destruct (conflict _ _ _) in H; [discriminate|]. destruct (conflict _ _ _) in H; [discriminate|]. cbv zeta in H.
  destruct (keep _ _); [|discriminate]. destruct (plain_room r) as [pr|] eqn:P; [|discriminate].
  assert (F : r_fs pr = fs).
  { unfold plain_room in P. rewrite Hf in P. destruct (nr_c r); try discriminate. destruct (nr_t60 r) as [[| | |]|]; try discriminate; injection P as <-; reflexivity. }
  destruct (C33_static_shape _ _ _ _ _ _ _ _ _ _ _ _ _ T ltac:(rewrite F; lra) H) as (n & Sh & _ & L & _). exists n. rewrite Sh. split; [reflexivity|].
  rewrite F in L. unfold wanted_length in L. destruct (s_nsample s) eqn:Es; [exact L|]. destruct L as (t & Et & En). exists t. split; auto.
  unfold first in Et. unfold make_simulator in Hs. destruct (_ <? _)%Z in Hs; [discriminate|]. destruct (s_tmax s); auto. rewrite Es in Hs. discriminate.
Qed.
(** The orientation stored in a dynamic scene is not used: a directional simulation of any
    dynamic scene fails, whatever orientation its entities carry. *)
Theorem C40_dynamic_orientation_refuted : forall X junk dev s r src mic st mt c p,
  s_dir s = Some (DName p) -> p <> "omni"%string ->
  forall T, ism_simulate X junk dev s (New (DynamicScene r src mic st mt)) (Some c) <> Ok T.
Proof.
  intros X junk dev s r src mic st mt c p Hd Hp T H. unfold ism_simulate in H. cbn [normalize_scene bind] in H. bcase_in H.
  destruct (conflict _ _ _) in H; [discriminate|]. destruct (conflict _ _ _) in H; [discriminate|]. cbv zeta in H.
  destruct (keep _ _); [|discriminate]. destruct (plain_room r) as [pr|] eqn:P; [|discriminate].
  unfold simulate_dynamic_rir in H. rewrite Hd in H. bcase_in H. destruct a0 as [[[c' N] tm] d].
  assert (d = DName p) as ->.
  { unfold resolve_config in E0. cbn [bind] in E0. bcase_in E0. congruence. }
  bcase_in H. bcase_in H. destruct a1 as [[[[[sp mp] so] mo'] sz] dim].
  assert (mo' = None).
  { unfold prepare_dynamic in E2. cbn [split_orientation bind] in E2. bcase_in E2. congruence. }
  subst mo'. bcase_in H. bcase_in H. bcase_in H. bcase_in H. cbv zeta in H. cbn [split_directivity bind] in H. unfold mic_directions in H.
  destruct (String.eqb_spec p "omni"); [contradiction|]. discriminate.
Qed.
(** The same simulator on a static scene does use it. *)
Definition c_sim : simulator := mkSim 0 None (Some 30%Z) (Some (DName "cardioid")) None None.
Definition c_ent (x y : R) : nentity := mkEnt (mkN [1%nat; 2%nat] Float [Fin x; Fin y]) (Some (ft [1; 0])).
Example C40_example : forall X junk,
  (exists T, ism_simulate X junk Cpu c_sim (New (StaticScene e_room (c_ent 1 1) (c_ent 2 1))) (Some ex_cfg) = Ok T) /\
  (forall T, ism_simulate X junk Cpu c_sim (New (DynamicScene e_room (c_ent 1 1) (c_ent 2 1)
     (mkN [1%nat; 1%nat; 2%nat] Float [Fin 1; Fin 1]) (mkN [1%nat; 1%nat; 2%nat] Float [Fin 2; Fin 1]))) (Some ex_cfg) <> Ok T) /\
  ism_simulate X junk Cpu e_sim (New (StaticScene e_room (c_ent 1 1) (c_ent 2 1))) (Some (set3 ex_cfg (Some 3%Z) None None)) = Err ValueError /\
  ism_simulate X junk Cpu e_sim (New (StaticScene e_room (c_ent 1 1) (c_ent 2 1))) (Some (set3 ex_cfg (Some 2%Z) (Some 7) (Some (DName "cardioid")))) =
  ism_simulate X junk Cpu e_sim (New (StaticScene e_room (c_ent 1 1) (c_ent 2 1))) (Some ex_cfg).
Proof.
  intros X junk. split; [|split; [|split]].
  - rewrite (C40_static_orientation X junk Cpu c_sim e_room (c_ent 1 1) (c_ent 2 1) ex_cfg
      (mkRoom (mkT [2%nat] [6; 4]) 16000 343 None None) (Some (ft [1; 0])) (Some (ft [1; 0]))); try reflexivity; [|split; cbn; discriminate].
    rewrite simulate_rir_closed by (cbn; lra). unfold resolve_config. cbn [bind]. rewrite ex_cfg_valid. cbn [bind c_sim s_order s_nb s_nsample s_tmax s_dir].
    change (validate_args _ _ _ _) with (@Ok Z 30%Z). cbn [bind]. cbv zeta.
    change (prepare_static _ _ _ _) with
      (@Ok _ (mkT [1%nat; 2%nat] [1; 1], mkT [1%nat; 2%nat] [2; 1], Some (mkT [2%nat] [1; 0]), Some (mkT [2%nat] [1; 0]), [6; 4], 2%nat)).
    cbn [bind]. change (validate_pos_shapes _ _ _) with (@Ok unit tt). cbn [bind].
    change (resolve_beta _) with (@Ok (list R) [1; 1; 1; 1]). cbn [bind]. change (validate_beta _ _) with (@Ok (list R) [1; 1; 1; 1]). cbn [bind].
    destruct (indices_order 0 2 ltac:(lia)) as (im & Ei & _). rewrite Ei. cbn [bind split_directivity].
    eexists. reflexivity.
  - apply (C40_dynamic_orientation_refuted X junk Cpu c_sim _ _ _ _ _ _ "cardioid"); [reflexivity|discriminate].
  - apply C40_conflict_rejected; [reflexivity|]. intros [A _]. specialize (A 3%Z eq_refl). discriminate.
  - symmetry. apply C40_own_parameters; [reflexivity|discriminate| | | |].
    + apply C33_config_valid_iff. apply ex_cfg_valid.
    + apply C33_config_valid_iff. unfold cfg_validate. cbn. unfold Rleb.
      repeat (match goal with |- context [Rle_dec ?a ?b] => destruct (Rle_dec a b); [lra|] end). reflexivity.
    + split; cbn; discriminate.
    + split; cbn; [congruence|discriminate].
Qed.
Print Assumptions C35_reachable_partial.
Print Assumptions C35_finite_partial.
Print Assumptions C35_accepted_iff.
Print Assumptions C35_finite_refuted.
Print Assumptions C36_float_partial.
Print Assumptions C36_int_partial.
Print Assumptions C36_refuted.
Print Assumptions C36_replace_refuted.
Print Assumptions C37_constructed.
Print Assumptions C37_from_positions.
Print Assumptions C37_replaced.
Print Assumptions C37_replace_nothing.
Print Assumptions C39_static_partial.
Print Assumptions C39_dynamic_partial.
Print Assumptions C39_validate_stable.
Print Assumptions C39_old_scene.
Print Assumptions C39_empty_refuted.
Print Assumptions C39_integer_refuted.
Print Assumptions C40_conflict_rejected.
Print Assumptions C40_own_parameters.
Print Assumptions C40_static_orientation.
Print Assumptions C40_length.
Print Assumptions C40_dynamic_orientation_refuted.
Print Assumptions C37_accepted.
Print Assumptions C36_int_values_rejected_partial.
