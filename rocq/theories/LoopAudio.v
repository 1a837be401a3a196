(** Lemmas about the audio files of a scene. *)
From Coq Require Import Ascii String List ZArith Reals Lia Lra Bool Permutation.
From Verif Require Import Prelude PreludeFacts SignalModel SignalSpec ConvProofs ConvMore SegProofs FloatModel DirModel IsmModel IsmSpec IsmProofs SimProofs SimLocal SimSteps RoomModel RoomProofs GeoModel DsModel DsSpec DsProofs
  GeoProofs GeoSampling BldModel BldSpec BldProofs BldAudio MetaModel LoopModel LoopSpec LoopNames LoopProofs.
From Verif Require ScnModel SignalProps BldProps StageProps.
Import ListNotations.
Local Notation length := List.length.
Local Open Scope R_scope.

(** ** Where a written file comes from *)
Definition scene_output (E : env) (u : setup) (dir : string) (d : scene_draws) (x : scene_data) (f : string) (p : payload) : Prop :=
  In (f, p) (sn_files x) \/
  (f = "metadata.json"%string /\ exists md, p = Json md /\ build_metadata (metadata_args u dir d x) = Ok md) \/
  (f = "source_info.json"%string /\ p = Json (source_info (sa_motion (su_scene u)) (sd_moving d) (sn_placed x) (sn_who x))).
Lemma write_origin E u dir d x t r dir' f p : write_scene E u dir d x = (t, r) -> In (Written dir' f p) t ->
  dir' = dir /\ scene_output E u dir d x f p.
Proof.
  unfold write_scene. intros H I.
  set (P := if o_images (su_opt u) then _ else _) in H. set (Q := if o_mp4 (su_opt u) then _ else _) in H.
  assert (HP : exists tp, P = (tp, Some (Ok tt)) /\ ~ In (Written dir' f p) tp).
  { unfold P. destruct (o_images _); eexists; (split; [reflexivity|]); cbn; [intros [K|[]]; discriminate|auto]. }
  assert (HQ : exists tq, Q = (tq, Some (Ok tt)) /\ ~ In (Written dir' f p) tq).
  { unfold Q. destruct (o_mp4 _); eexists; (split; [reflexivity|]); cbn; [intros [K|[]]; discriminate|auto]. }
  destruct HP as (tp & -> & Pp). destruct HQ as (tq & -> & Qp).
  destruct (save_all E dir (sn_files x)) as [t1 r1] eqn:S1. destruct (save_all_trace _ _ _ _ _ S1) as (k1 & -> & K1).
  assert (W : forall l, In (Written dir' f p) (map (fun p => Written dir (fst p) (snd p)) l) -> dir' = dir /\ In (f, p) l).
  { intros l Hl. apply in_map_iff in Hl as ([a c] & Eq & Hl). cbn in Eq. injection Eq as -> -> ->. auto. }
  assert (Fin : forall k l, In (f, p) (firstn k l) -> In (f, p) l).
  { intros k l Hl. rewrite <- (firstn_skipn k l). apply in_app_iff. auto. }
  destruct r1 as [[[]|e]|]; [|cbn [rbind] in H; injection H as <- <-|contradiction].
  2: { apply W in I as [-> I]. split; auto. left; eauto. }
  subst k1. rewrite firstn_all in H. cbn [rbind] in H.
  destruct (build_metadata _) as [md|e] eqn:Bm; cbn [rlift rbind] in H.
  - set (L := [_; _]) in H. destruct (save_all E dir L) as [t2 r2] eqn:S2. destruct (save_all_trace _ _ _ _ _ S2) as (k2 & -> & K2).
    cbn [app] in H. injection H as <- <-. rewrite !in_app_iff in I. destruct I as [I|[I|[I|I]]]; try contradiction; apply W in I as [Ed I]; (split; [exact Ed|]); [left; auto|].
    apply Fin in I. unfold L in I. destruct I as [I|[I|[]]]; injection I as <- <-; right; [left|right]; eauto.
  - injection H as <- <-. rewrite !in_app_iff in I. destruct I as [I|[I|[I|[]]]]; try contradiction; apply W in I as [Ed I]; (split; [exact Ed|]); left; auto.
Qed.

Lemma iter_swap {A} (f : A -> A) n x : Nat.iter n f (f x) = Nat.iter (S n) f x.
Proof. induction n as [|n IH]; [reflexivity|]. cbn [Nat.iter nat_rect] in *. unfold Nat.iter in *. cbn in *. rewrite IH. reflexivity. Qed.
Lemma scene_gen E u fuel idx g k t g' k' : build_scene E u fuel idx (g, k) = (t, Some (Ok (g', k'))) -> g' = snd (e_draw E (su_scene u) g).
Proof.
  unfold build_scene. destruct (e_draw E (su_scene u) g) as [d g1]. intros H. apply rbind_ok in H as (? & ? & ? & _ & H & _).
  apply rbind_ok in H as (? & ? & ? & _ & H & _). apply rbind_ok in H as (? & ? & ? & _ & H & _). injection H as _ <- _. reflexivity.
Qed.
Lemma scenes_places E u fuel n : sound E u -> forall idx st t r h, build_scenes E u fuel n idx st = (t, r) -> In h t ->
  exists i, (i < n)%nat /\ place h = scene_name (idx + i).
Proof.
  intros Snd idx st t r h H I. destruct (scenes_trace _ _ _ _ Snd _ _ _ _ H) as (done & k & D & P & _).
  rewrite Forall_forall in P. destruct (P h I) as (i & I1 & I2 & I3). exists (i - idx)%nat. split; [lia|]. rewrite I3. f_equal. lia.
Qed.
Lemma scenes_origin E u fuel n : sound E u -> forall idx g k t r i, build_scenes E u fuel n idx (g, k) = (t, r) -> (i < n)%nat ->
  (exists f p, In (Written (scene_name (idx + i)) f p) t) ->
  exists k0 k' x stems d, d = fst (e_draw E (su_scene u) (Nat.iter i (fun g => snd (e_draw E (su_scene u) g)) g)) /\
    computed E u fuel k0 d k' x stems /\
    forall f p, In (Written (scene_name (idx + i)) f p) t -> scene_output E u (scene_name (idx + i)) d x f p.
Proof.
  intros Snd. induction n as [|n IH]; intros idx g k t r i H Hi Hx; [lia|]. cbn [build_scenes] in H.
  destruct (build_scene E u fuel idx (g, k)) as [t1 r1] eqn:B.
  assert (P1 : forall h, In h t1 -> place h = scene_name idx).
  { destruct (scene_trace _ _ _ _ _ _ _ Snd B) as (P & _). rewrite Forall_forall in P. exact P. }
  assert (Cases : exists t2, t = (t1 ++ t2)%list /\ (forall h, In h t2 -> exists i, place h = scene_name (S idx + i)) /\
            (t2 = [] \/ exists g' k', r1 = Some (Ok (g', k')) /\ build_scenes E u fuel n (S idx) (g', k') = (t2, r))).
  { destruct r1 as [[[g' k']|e]|]; cbn [rbind] in H; [|exists []; rewrite app_nil_r; injection H as <- <-; split; [auto|split; [intros h []|auto]]..].
    destruct (build_scenes E u fuel n (S idx) (g', k')) as [t2 r2] eqn:B2. injection H as <- <-. exists t2. split; auto. split; eauto 10.
    intros h Hh. destruct (scenes_places _ _ _ _ Snd _ _ _ _ h B2 Hh) as (j & _ & Pj). eauto. }
  destruct Cases as (t2 & -> & P2 & C2). destruct i as [|i].
  - rewrite Nat.add_0_r in *.
    assert (Only : forall f p, In (Written (scene_name idx) f p) (t1 ++ t2) -> In (Written (scene_name idx) f p) t1).
    { intros f p I. apply in_app_iff in I as [I|I]; auto. apply P2 in I as [j Pj]. cbn [place] in Pj. apply scene_name_inj in Pj. lia. }
    destruct Hx as (f0 & p0 & I0). apply Only in I0. clear H C2 P2 IH.
    unfold build_scene in B. destruct (e_draw E (su_scene u) g) as [d g1] eqn:Ed. cbn [rlog rbind] in B.
    destruct (compute_scene E u fuel k d) as [tc rc] eqn:Ec. pose proof (compute_silent E u fuel k d) as Sl. unfold silent in Sl. rewrite Ec in Sl. cbn in Sl. subst tc.
    destruct rc as [[[k' x]|e]|]; cbn [rbind] in B.
    2, 3: injection B as <- <-; destruct I0 as [I0|[]]; discriminate.
    destruct (compute_ok _ _ _ _ _ _ _ _ Ec) as [_ [stems C]]. cbn [snd fst] in B.
    destruct (write_scene E u (scene_name idx) d x) as [tw rw] eqn:Wr.
    assert (Et : t1 = Directory (scene_name idx) :: tw) by (destruct rw as [[[]|e]|]; cbn [rbind rret app] in B; injection B as <- <-; rewrite ?app_nil_r; reflexivity).
    exists k, k', x, stems, d. split; [cbn; rewrite Ed; reflexivity|]. split; auto.
    intros f p I. apply Only in I. rewrite Et in I. destruct I as [I|I]; [discriminate|]. apply (write_origin _ _ _ _ _ _ _ _ _ _ Wr I).
  - assert (Only : forall f p, In (Written (scene_name (idx + S i)) f p) (t1 ++ t2) -> In (Written (scene_name (S idx + i)) f p) t2).
    { intros f p I. apply in_app_iff in I as [I|I]; [apply P1 in I; cbn [place] in I; apply scene_name_inj in I; lia|]. rewrite Nat.add_succ_r in I. exact I. }
    destruct C2 as [->|(g' & k' & -> & B2)]; [destruct Hx as (f & p & I); apply Only in I; destruct I|].
    pose proof (scene_gen _ _ _ _ _ _ _ _ _ B) as Eg.
    destruct (IH _ _ _ _ _ i B2 ltac:(lia)) as (k0 & k1 & x & stems & d & Ed & C & O); [destruct Hx as (f & p & I); eauto|].
    exists k0, k1, x, stems, d. split; [rewrite Ed, Eg, (iter_swap (fun g => snd (e_draw E (su_scene u) g)) i g); reflexivity|]. split; auto.
    intros f p I. apply Only in I. rewrite Nat.add_succ_r. exact (O f p I).
Qed.

(** ** The room *)
Lemma shoebox_room_inv p sr c t60 r : shoebox_room p sr c t60 = Ok r ->
  r = mkRoom (mkT [3%nat] [px p; py p; pz p]) (IZR sr) c None (Some t60) /\
  0 < IZR sr /\ 0 < c /\ 0 < t60 /\ 0 < px p /\ 0 < py p /\ 0 < pz p.
Proof.
  unfold shoebox_room, shoebox. cbn [as_tensor]. cbn [mapM map xyz convert bind]. unfold nensure_dim at 1, nndim, nnumel. cbn [nshape length Nat.eqb ndata prodn fold_right Nat.mul Nat.add negb orb bind].
  unfold make_room, nensure_dim, nndim, nnumel. cbn [nshape length Nat.eqb ndata prodn fold_right Nat.mul Nat.add negb orb bind].
  cbn [forallb num_finite andb negb existsb orb num_le0].
  destruct (Rleb (px p) 0) eqn:E1; [discriminate|]. destruct (Rleb (py p) 0) eqn:E2; [discriminate|]. destruct (Rleb (pz p) 0) eqn:E3; [discriminate|].
  cbn [orb]. destruct (Rleb (IZR sr) 0) eqn:E4; [discriminate|]. destruct (Rleb c 0) eqn:E5; [discriminate|]. destruct (Rleb t60 0) eqn:E6; [discriminate|].
  cbn [bind]. unfold plain_room. cbn [nr_fs nr_c nr_t60 nr_size nr_beta option_map]. intros H. apply Ok_inj in H. subst r.
  repeat match goal with H : Rleb _ _ = false |- _ => apply rleb_false in H end. split; [reflexivity|]. lra.
Qed.

(** ** Tracks *)
Lemma flat_xyz l : flat_map xyz l = concat (map (fun p => [px p; py p; pz p]) l).
Proof. rewrite flat_map_concat_map. reflexivity. Qed.
Lemma table_points l : table l = points l.
Proof. unfold table, points. rewrite flat_xyz. reflexivity. Qed.
Lemma length_flat_xyz l : length (flat_map xyz l) = (length l * 3)%nat.
Proof. induction l as [|p l IH]; cbn [flat_map length]; auto. rewrite app_length, IH. cbn. lia. Qed.
Lemma block_concat {A} (l : list (list A)) n t : (forall r, In r l -> length r = n) -> (t < length l)%nat ->
  block (t * n) n (concat l) = nth t l [].
Proof.
  revert t. induction l as [|r l IH]; intros t H L; [cbn in L; lia|].
  pose proof (H r (or_introl eq_refl)) as Hr. destruct t as [|t]; cbn [concat nth].
  - unfold block. cbn [Nat.mul skipn]. rewrite firstn_app, <- Hr, firstn_all, Nat.sub_diag. cbn. apply app_nil_r.
  - rewrite <- IH with (t := t); [|intros; apply H; right; auto|cbn in L; lia].
    unfold block. f_equal. rewrite skipn_app. rewrite skipn_all2 by lia. cbn [app]. f_equal. lia.
Qed.
Lemma step_track n l t : (forall r, In r l -> length r = n) -> (t < length l)%nat -> step_tensor (track n l) t = points (nth t l []).
Proof.
  intros H L. unfold step_tensor, track. cbn [shape data]. rewrite <- table_points. unfold table.
  rewrite flat_map_concat_map, block_concat with (n := (n * 3)%nat).
  - rewrite <- (map_nth (flat_map xyz)). cbn [flat_map]. rewrite (H (nth t l [])) by (apply nth_In; auto). reflexivity.
  - intros r Hr. apply in_map_iff in Hr as (q & <- & Hq). rewrite length_flat_xyz. rewrite (H q) by auto. reflexivity.
  - rewrite map_length. auto.
Qed.
Lemma track_shape n l : shape (unsqueeze_traj (track n l)) = [length l; n; 3%nat].
Proof. reflexivity. Qed.

(** ** Responses are numbers *)
Definition number (x : xr) : Prop := x <> None.
Lemma xsum_number l : Forall number l -> number (xsum l).
Proof. unfold number. induction 1 as [|x l Hx _ IH]; cbn; [discriminate|]. fold (xsum l). destruct x, (xsum l); cbn; congruence. Qed.
Lemma response_number L kern fs c walls size images src mic j : number (response L kern fs c walls size images unity unity src mic j).
Proof.
  apply xsum_number. apply Forall_forall. intros x Hx. apply in_map_iff in Hx as (n & <- & _). unfold amplitude, unity, number. cbn [xmul xscale option_map].
  unfold pulse. destruct (_ && _)%bool; cbn; discriminate.
Qed.
Lemma block_forall {A} (P : A -> Prop) o n l : Forall P l -> Forall P (block o n l).
Proof. intros H. unfold block. apply Forall_forall. rewrite Forall_forall in H. intros x Hx. apply H. rewrite <- (firstn_skipn o l). apply in_app_iff. right. rewrite <- (firstn_skipn n (skipn o l)). apply in_app_iff. auto. Qed.
Lemma hpf_numbers X rows n rir fs c out : keeps_numbers X -> Forall number rir ->
  apply_rir_hpf (x_design X) (x_filt X) rows n rir fs c = Ok out -> Forall number out.
Proof.
  intros K F. unfold apply_rir_hpf. destruct (negb _); [intros H; apply Ok_inj in H; subst; auto|]. intros H.
  apply bind_ok in H as (s & _ & H). apply bind_ok in H as (l & Hm & H). apply Ok_inj in H. subst out.
  revert l Hm. generalize (seq 0 rows) as L. induction L as [|i L IH]; intros l Hm; cbn [mapM] in Hm.
  - apply Ok_inj in Hm. subst. constructor.
  - apply bind_ok in Hm as (r & Hr & Hm). apply bind_ok in Hm as (rs & Hrs & Hm). apply Ok_inj in Hm. subst l. cbn [concat]. apply Forall_app. split; auto.
    eapply K; eauto. apply block_forall. auto.
Qed.
Lemma omni_numbers X dev r src mic N ns T : r_fs r <> 0 ->
  simulate_dynamic_rir X dev r src mic (Some N) None (Some ns) None None ONone None = Ok T -> (keeps_numbers X -> Forall number (xdata T)) /\ xshape T = [nth 0 (shape (unsqueeze_traj src)) 0%nat; nth 1 (shape (unsqueeze_traj src)) 0%nat; nth 1 (shape (unsqueeze_traj mic)) 0%nat; Z.to_nat ns] /\ (0 < ns)%Z.
Proof.
  intros Hfs H. rewrite simulate_dynamic_closed in H by auto.
  apply bind_ok in H as ([[[c N'] tm] d] & E & H).
  assert (Ed : d = DName "omni").
  { pose proof (resolve_config_cases _ _ _ _ _ _ _ _ E) as (_ & [Ec|[_ Ec]] & _); [discriminate|]. unfold resolve_config in E.
    apply bind_ok in E as (c0 & Ec0 & E). apply bind_ok in E as (? & _ & E). cbn [bind] in E. apply Ok_inj in E. injection E as -> _ _ <-. subst c. reflexivity. }
  subst d. apply bind_ok in H as (n & En & H). assert (n = ns) by (unfold validate_args in En; cbn [bind] in En; repeat match type of En with (if ?b then _ else _) = _ => destruct b; [discriminate|] end; congruence). subst n. cbv zeta in H.
  apply bind_ok in H as ([[[[[s0 m0] so] mo'] size] dim] & Ep & H). apply prepare_dynamic_inv in Ep as (-> & -> & _). apply bind_ok in H as (? & _ & H). apply bind_ok in H as (beta & _ & H). apply bind_ok in H as (beta' & _ & H).
  apply bind_ok in H as (nv & _ & H). cbn [split_directivity bind] in H. unfold mic_directions, src_directions in H. change (String.eqb "omni" "omni") with true in H. cbn [bind] in H.
  apply bind_ok in H as (rirs & Er & H). apply bind_ok in H as (out & Eo & H). apply Ok_inj in H. subst T. cbn [xdata xshape nth]. split; [|split; [reflexivity|apply validate_args_pos in En; lia]].
  intros K. eapply hpf_numbers; [exact K| |exact Eo]. clear Eo. unfold dynamic_closed, side_of in Er. change (String.eqb "omni" "omni") with true in Er. cbn [bind] in Er.
  repeat match type of Er with (if ?b then _ else _) = _ => destruct b; [discriminate|] end. apply Ok_inj in Er. subst rirs.
  apply Forall_forall. intros y Hx. apply in_flat_map in Hx as (t & _ & Hx). apply in_flat_map in Hx as (s & _ & Hx). apply in_flat_map in Hx as (m & _ & Hx).
  apply in_map_iff in Hx as (j & <- & _). unfold pair_response. apply response_number.
Qed.
Lemma all_numbers_ok T : Forall number (xdata T) ->
  all_numbers T = Some (mkT (xshape T) (map (fun x => match x with Some r => r | None => 0 end) (xdata T))).
Proof.
  intros H. unfold all_numbers. replace (forallb _ (xdata T)) with true; auto. symmetry. apply forallb_forall. intros x Hx.
  rewrite Forall_forall in H. specialize (H x Hx). unfold number in H. destruct x; congruence.
Qed.

(** ** One stem *)
Lemma of_source_wf h s T n M L : shape h = [T; n; M; L] -> wf h -> (s < n)%nat ->
  shape (of_source h s) = [T; 1%nat; M; L] /\ wf (of_source h s) /\
  forall k m, (k < T)%nat -> (m < M)%nat -> forall l, dyn_view (of_source h s) k 0 m l = dyn_view h k s m l.
Proof.
  intros Sh W Hs. assert (Wl : length (data h) = (T * n * (M * L))%nat) by (unfold wf in W; rewrite W, Sh; unfold prodn; cbn; lia).
  assert (Bl : forall t, (t < T)%nat -> length (block ((t * n + s) * (M * L)) (M * L) (data h)) = (M * L)%nat).
  { intros t Ht. apply length_block. rewrite Wl. replace ((t * n + s) * (M * L) + M * L)%nat with ((t * n + s + 1) * (M * L))%nat by lia.
    apply Nat.mul_le_mono_r. nia. }
  assert (So : shape (of_source h s) = [T; 1%nat; M; L]) by (unfold of_source; rewrite Sh; reflexivity).
  split; auto. split.
  - unfold wf. rewrite So. unfold of_source. rewrite Sh. cbn [data]. rewrite (length_flat_rows _ _ (M * L)); [unfold prodn; cbn; lia|]. intros; apply Bl; lia.
  - intros k m Hk Hm l. unfold dyn_view. rewrite So, Sh. unfold zext. destruct (Nat.ltb_spec l L); auto. unfold tget. rewrite So, Sh.
    unfold of_source. rewrite Sh. cbn [data ravel prodn fold_right].
    replace (k * (1 * (M * (L * 1))) + (0 * (M * (L * 1)) + (m * (L * 1) + (l * 1 + 0))))%nat with (k * (M * L) + (m * L + l))%nat by lia.
    assert (Li : (m * L + l < M * L)%nat) by nia. rewrite nth_flat_rows with (n := (M * L)%nat) by auto. rewrite nth_block by auto. f_equal. lia.
Qed.
Lemma stem_ok row h T L N : shape h = [T; 1%nat; 6%nat; L] -> wf h -> (0 < T)%nat -> (Z.of_nat T <= 2 ^ 51)%Z -> length row = N -> (0 < N)%nat -> (0 < L)%nat -> (6 < N + L - 1)%nat ->
  exists w o, partition_starts w N /\ length w = T /\ segment_starts Cpu N T None None = Ok w /\ stem_of 6 row h = Ok o /\
    shape o = [(N + L - 1)%nat; 6%nat] /\ length (data o) = ((N + L - 1) * 6)%nat /\
    forall j m, (j < N + L - 1)%nat -> (m < 6)%nat -> tget o [j; m] = heard N row w (fun k m => dyn_view h k 0 m) m j.
Proof.
  intros Sh W HT Ht Lr HN L0 HL.
  assert (V : sig_rows (mkT [1%nat; length row] row) = 1%nat /\ sig_len (mkT [1%nat; length row] row) = N /\ dyn_steps h = T /\ dyn_srcs h = 1%nat /\ dyn_mics h = 6%nat /\ rir_len h = L).
  { unfold sig_rows, sig_len, dyn_steps, dyn_srcs, dyn_mics, rir_len. rewrite Sh. cbn. auto 10. }
  destruct V as (V1 & V2 & V3 & V4 & V5 & V6).
  destruct (traj_default Cpu (mkT [1%nat; length row] row) h None) as (w & t & P & Lw & Es & Et & So & Wt & Ov).
  { unfold traj_ok, dyn_ranks_ok, sig_rank_ok, dyn_rank_ok, ndim. rewrite V1, V3, V6, Sh. cbn [length shape]. split; [split; [auto|split; [auto|discriminate]]|].
    split; [unfold wf, prodn; cbn; lia|]. split; [exact W|]. split; [exact L0|]. split; auto. }
  rewrite V2, V3 in *. rewrite V5, V6 in *. rewrite V4 in Ov. exists w.
  unfold out_shape in So. change (6 =? 1)%nat with false in So. cbv iota in So.
  assert (T1 : to_time_channel_audio t 6 = Ok (transpose2 t)).
  { unfold to_time_channel_audio, squeeze. rewrite So. cbn [filter]. destruct (Nat.eqb_spec (N + L - 1) 1); [lia|]. cbn [Nat.eqb negb shape].
    destruct (Nat.eqb_spec (N + L - 1) 6); [lia|]. unfold transpose2. cbn [shape]. rewrite So. unfold tget. cbn [data shape]. rewrite So. reflexivity. }
  exists (transpose2 t). split; auto. split; auto. split; auto. split; [unfold stem_of, convolver_convolve; cbn [cv_mode cv_timestamps cv_fs]; cbn [String.eqb Ascii.eqb Bool.eqb orb negb]; rewrite Et; exact T1|].
  assert (S2 : shape (transpose2 t) = [(N + L - 1)%nat; 6%nat]) by (unfold transpose2; rewrite So; reflexivity).
  split; auto. split.
  { unfold transpose2. rewrite So. cbn [data]. rewrite (length_flat_rows _ _ 6); auto. }
  intros j m Hj Hm. rewrite (transpose2_get t 6 (N + L - 1) m j); auto. specialize (Ov m j Hm Hj). unfold out_view in Ov. rewrite So in Ov. rewrite Ov.
  cbn [rsum]. rewrite Rplus_0_l. unfold heard, tv_conv. apply rsum_ext. intros tau Htau. f_equal.
  unfold sig_view. cbn [shape]. unfold zext. rewrite Lr. destruct (tau <? N)%nat; auto.
  unfold tget. cbn [shape data ravel prodn fold_right Nat.eqb]. f_equal. lia.
Qed.

(** ** The whole scene *)
Lemma constrained_length d moving n nm m c room margin r k l : constrained_positions d moving n nm m c room margin r k = Ok l -> length l = Z.to_nat n.
Proof.
  unfold constrained_positions. intros H. repeat (match type of H with (if ?b then _ else _) = _ => destruct b; [discriminate|] end).
  apply trials_ok in H as [j H]. apply mapM_length in H. rewrite seq_length in H. auto.
Qed.
Lemma computed_geometry E u fuel k d k' x stems : computed E u fuel k d k' x stems ->
  build_scene_geometry (su_scene u) d = Ok (mkGeo (sn_center x) (sn_mics x) (sn_placed x) (sn_traj x)) /\
  length (sn_placed x) = Z.to_nat (sa_n (su_scene u)) /\ length (sn_mics x) = 6%nat /\
  length (sn_traj x) = Nat.max 1 (Z.to_nat (sa_steps (su_scene u))) /\ forall row, In row (sn_traj x) -> length row = Z.to_nat (sa_n (su_scene u)).
Proof.
  intros C. pose proof (cm_center _ _ _ _ _ _ _ _ C) as C1. pose proof (cm_mics _ _ _ _ _ _ _ _ C) as C2. pose proof (cm_placed _ _ _ _ _ _ _ _ C) as C3.
  pose proof (cm_traj _ _ _ _ _ _ _ _ C) as C4. pose proof (constrained_length _ _ _ _ _ _ _ _ _ _ _ C3) as L. split; [|split; [auto|split; [|split]]].
  - unfold build_scene_geometry. unfold scene_center in C1. pose proof C2 as C2'. unfold place_mics in C2'. apply bind_ok in C2' as (base & -> & _). cbn [bind].
    rewrite C1. cbn [bind]. rewrite C2. cbn [bind]. rewrite C3. cbn [bind]. rewrite C4. reflexivity.
  - apply octa_mics in C2 as [_ ->]. reflexivity.
  - eapply trajectory_length; eauto.
  - intros row Hr. apply In_nth_error in Hr as [j Hj]. rewrite <- L. eapply trajectory_row; eauto.
Qed.
Lemma nth_repeat_lt {A} (a d : A) n k : (k < n)%nat -> nth k (repeat a n) d = a.
Proof. revert k. induction n; intros [|k] H; cbn; try lia; auto. apply IHn. lia. Qed.
Lemma nth_map_number l i : Forall number l -> (i < length l)%nat -> nth i l None = Some (nth i (map (fun x => match x with Some r => r | None => 0 end) l) 0).
Proof.
  intros F H. assert (K : number (nth i l None)) by (rewrite Forall_forall in F; apply F, nth_In; auto).
  pose proof (map_nth (fun x : xr => match x with Some r => r | None => 0 end) l None i) as Q.
  transitivity (Some (match nth i l None with Some r => r | None => 0 end)); [unfold number in K; destruct (nth i l None); congruence|].
  f_equal. symmetry. exact Q.
Qed.
Lemma last_started_lt w T tau : (0 < T)%nat -> (last_started w T tau < T)%nat.
Proof.
  induction T as [|T IH]; intros H; [lia|]. cbn [last_started]. destruct (_ <=? _)%Z; [lia|]. destruct T; [cbn; lia|]. specialize (IH ltac:(lia)). lia.
Qed.
Lemma fold_plus_acc l a : fold_right Rplus a l = fold_right Rplus 0 l + a.
Proof. induction l as [|x l IH]; cbn; [ring|]. rewrite IH. ring. Qed.
Lemma fold_seq_rsum f n : fold_right Rplus 0 (map f (seq 0 n)) = rsum n f.
Proof. induction n as [|n IH]; auto. rewrite seq_S, map_app, fold_right_app, fold_plus_acc, IH. cbn. ring. Qed.
Lemma scene_heard E u fuel k d k' x stems : sound E u -> filt_length (e_ext E) -> keeps_numbers (e_ext E) -> r_fs (su_room u) <> 0 ->
  (0 < sa_n (su_scene u))%Z -> (0 < sa_steps (su_scene u) <= 2 ^ 51)%Z -> (6 < su_target u + su_rir u - 1)%Z -> computed E u fuel k d k' x stems ->
  let n := Z.to_nat (sa_n (su_scene u)) in let N := Z.to_nat (su_target u) in let L := Z.to_nat (su_rir u) in
  exists w h g, partition_starts w N /\ length w = Z.to_nat (sa_steps (su_scene u)) /\
    segment_starts Cpu N (Z.to_nat (sa_steps (su_scene u))) None None = Ok w /\
    responses (e_ext E) (su_room u) (o_order (su_opt u)) (su_rir u) (sn_traj x) (sn_mics x) n L h /\
    0 < g <= 1 /\
    ((forall s j m, (s < n)%nat -> (j < N + L - 1)%nat -> (m < 6)%nat -> Rabs (g * heard N (nth s (sn_dry x) []) w (fun k m => zext L (h k s m)) m j) <= 99 / 100) /\
     forall g', 0 <= g' <= 1 -> (forall s j m, (s < n)%nat -> (j < N + L - 1)%nat -> (m < 6)%nat ->
       Rabs (g' * heard N (nth s (sn_dry x) []) w (fun k m => zext L (h k s m)) m j) <= 99 / 100) -> g' <= g) /\
    (forall s, (s < n)%nat -> exists f, In (source_name s, Audio f (su_rate u)) (sn_files x) /\ shape f = [(N + L - 1)%nat; 6%nat] /\
       forall j m, (j < N + L - 1)%nat -> (m < 6)%nat -> tget f [j; m] = g * heard N (nth s (sn_dry x) []) w (fun k m => zext L (h k s m)) m j) /\
    forall mix rate, In ("mixture.wav"%string, Audio mix rate) (sn_files x) -> rate = su_rate u /\ shape mix = [(N + L - 1)%nat; 6%nat] /\
       forall j m, (j < N + L - 1)%nat -> (m < 6)%nat -> tget mix [j; m] = rsum n (fun s => g * heard N (nth s (sn_dry x) []) w (fun k m => zext L (h k s m)) m j).
Proof.
  intros Snd HF HK Hfs Hn Hst HL C n N L. destruct (computed_counts _ _ _ _ _ _ _ _ Snd C) as (Lw & Ld & Ls). fold n in Lw, Ld, Ls.
  destruct (computed_geometry _ _ _ _ _ _ _ _ C) as (_ & Lp & Lm & Lt & Rows). fold n in Lp, Rows.
  set (T := Z.to_nat (sa_steps (su_scene u))) in *. assert (T0 : (0 < T)%nat) by (unfold T; lia). rewrite Nat.max_r in Lt by lia.
  assert (n0 : (0 < n)%nat) by (unfold n; lia).
  assert (N0 : (0 < N)%nat) by (destruct Snd as (_ & St & _); unfold N; lia).
  pose proof (cm_rirs _ _ _ _ _ _ _ _ C) as Cr. rewrite Lp, Lm in Cr. unfold repeat_mics in Cr. fold T in Cr.
  destruct (omni_numbers _ _ _ _ _ _ _ _ Hfs Cr) as (Nu & Sh & L0). specialize (Nu HK). rewrite !track_shape in Sh. cbn [nth] in Sh. rewrite Lt in Sh. fold L in Sh.
  destruct (dynamic_is_static _ _ _ _ _ _ _ _ _ _ _ _ _ Hfs HF Cr) as (Tn & S' & M' & n' & _ & Sh' & Ldat & Steps).
  rewrite Sh in Sh'. injection Sh' as <- <- <- <-.
  set (D := map (fun x => match x with Some r => r | None => 0 end) (xdata (sn_rirs x))).
  pose proof (all_numbers_ok _ Nu) as An. rewrite Sh in An. fold D in An. set (hh := mkT [T; n; 6%nat; L] D) in *.
  assert (Wh : wf hh) by (unfold wf, hh, D, prodn; cbn [data shape fold_right]; transitivity (length (xdata (sn_rirs x))); [apply map_length|rewrite Ldat; lia]).
  set (h := fun k s m l => nth (((k * n + s) * 6 + m) * L + l) D 0).
  pose proof (cm_stems _ _ _ _ _ _ _ _ C) as Cs. unfold stems_of in Cs. rewrite Lm, An in Cs.
  pose proof (cm_load _ _ _ _ _ _ _ _ C) as Cl. destruct Snd as (Fc & St & Sn). apply load_all_ok in Cl as [_ F2]; auto.
  assert (Ldry : forall s, (s < n)%nat -> length (nth s (sn_dry x) []) = N).
  { intros s Hs. rewrite <- Ld in Hs. clear - F2 Hs. revert s Hs.
    induction F2 as [|a b la lb Hab _ IH]; intros s Hs; cbn in Hs; [lia|]. destruct s; cbn [nth]; [apply Hab|]. apply IH. lia. }
  assert (St0 : exists w, partition_starts w N /\ length w = T /\ segment_starts Cpu N T None None = Ok w /\
    forall s, (s < n)%nat -> let o := nth s stems (mkT [] []) in shape o = [(N + L - 1)%nat; 6%nat] /\ length (data o) = ((N + L - 1) * 6)%nat /\
      forall j m, (j < N + L - 1)%nat -> (m < 6)%nat -> tget o [j; m] = heard N (nth s (sn_dry x) []) w (fun k m => zext L (h k s m)) m j).
  { destruct (default_partition Cpu N T T0 ltac:(cbn; unfold T; lia) None) as (w & Ew & Lw' & Pw). exists w. split; auto. split; auto. split; auto. intros s Hs o.
    destruct (of_source_wf hh s T n 6 L eq_refl Wh Hs) as (So & Wo & Vo).
    destruct (stem_ok (nth s (sn_dry x) []) (of_source hh s) T L N So Wo T0 ltac:(unfold T; lia) (Ldry s Hs) N0 ltac:(unfold L; lia) ltac:(unfold N, L; lia)) as (w' & o' & _ & _ & Ew' & Eo & So' & Lo & Vs).
    rewrite Ew in Ew'. apply Ok_inj in Ew'. subst w'.
    assert (o' = o). { pose proof (mapM_nth _ _ _ s 0%nat (mkT [] []) Cs) as K. rewrite seq_length, Ld in K. specialize (K Hs). rewrite seq_nth in K by (try rewrite Ld; auto). cbn [Nat.add] in K. rewrite Eo in K. apply Ok_inj in K. exact K. }
    subst o'. split; auto. split; auto. intros j m Hj Hm. rewrite Vs by auto. unfold heard, tv_conv. apply rsum_ext. intros tau Htau. f_equal.
    rewrite Vo by (auto; unfold active_step; rewrite Lw'; apply last_started_lt; auto). unfold dyn_view, hh. cbn [shape]. unfold zext, tget, h. cbn [shape data ravel prodn fold_right].
    destruct (_ <? L)%nat; auto. f_equal. lia. }
  destruct St0 as (w & Pw & Lw' & Ew & Sv). exists w, h.
  pose proof (cm_files _ _ _ _ _ _ _ _ C) as Cf. unfold audio_files in Cf. apply bind_ok in Cf as ([out mix] & Wf & Cf). apply Ok_inj in Cf.
  pose proof (written_length _ _ _ Wf) as Lo. rewrite map_length, Ls in Lo.
  apply BldProps.C62_partial in Wf as (g & Hg & Eo & _ & Bd & _ & Lmix & Sm & _ & Mx). exists g. split; auto. split; auto. split; auto. split; [|split; [auto|split; [split|split]]].
  - intros t Ht. rewrite Lt in Ht. eexists. split; [|split].
    + pose proof (Steps t Ht) as Q. rewrite !step_track in Q.
      * rewrite nth_repeat_lt in Q by auto. exact Q.
      * intros r Hr. apply repeat_spec in Hr. subst r. auto.
      * rewrite repeat_length. auto.
      * exact Rows.
      * rewrite Lt. auto.
    + cbn [xshape]. rewrite Lm. reflexivity.
    + intros s m l Hs Hm Hl. rewrite Lm in *. cbn [xdata]. rewrite nth_block by nia. rewrite nth_map_number; auto.
      * fold D. unfold h. f_equal. f_equal. nia.
      * rewrite Ldat. assert (Q1 : (s * 6 + m + 1 <= n * 6)%nat) by lia. assert (Q2 : ((s * 6 + m) * L + l < n * 6 * L)%nat).
        { apply Nat.mul_le_mono_r with (p := L) in Q1. rewrite Nat.mul_add_distr_r in Q1. lia. }
        assert (Q3 : ((t + 1) * (n * 6 * L) <= T * (n * 6 * L))%nat) by (apply Nat.mul_le_mono_r; lia). rewrite Nat.mul_add_distr_r in Q3. lia.
  - intros s j m Hs Hj Hm. destruct (Sv s Hs) as (S1 & S2 & S3). rewrite <- S3 by auto. rewrite Rmult_comm.
    apply (Bd (map (fun x => x * g) (data (nth s stems (mkT [] []))))).
    + rewrite Eo, map_map. apply (in_map (fun t => map (fun x => x * g) (data t))). apply nth_In. lia.
    + apply (in_map (fun x => x * g)). unfold tget. apply nth_In. rewrite S1, S2. cbn [ravel prodn fold_right]. nia.
  - intros g' Hg' B. apply Mx; auto. intros s y Is Iy. apply in_map_iff in Is as (o & <- & Io).
    apply In_nth with (d := mkT [] []) in Io as (q & Hq & <-). rewrite Ls in Hq. destruct (Sv q Hq) as (S1 & S2 & S3).
    apply In_nth with (d := 0) in Iy as (i & Hi & <-). rewrite S2 in Hi.
    assert (Hm : (i mod 6 < 6)%nat) by (apply Nat.mod_upper_bound; lia). assert (Hj : (i / 6 < N + L - 1)%nat) by (apply Nat.div_lt_upper_bound; lia).
    specialize (B q (i / 6)%nat (i mod 6)%nat Hq Hj Hm). rewrite <- S3 in B by auto. rewrite Rmult_comm. unfold tget in B. rewrite S1 in B. cbn [ravel prodn fold_right] in B.
    replace (i / 6 * (6 * 1) + (i mod 6 * 1 + 0))%nat with i in B; [exact B|]. pose proof (Nat.div_mod i 6 ltac:(lia)). lia.
  - intros s Hs. exists (mkT (shape (nth s stems (mkT [] []))) (nth s out [])). destruct (Sv s Hs) as (S1 & S2 & S3). split; [|split].
    + rewrite <- Cf. apply in_app_iff. left. apply in_map_iff. exists s. split; auto. apply in_seq. lia.
    + cbn [shape]. exact S1.
    + intros j m Hj Hm. rewrite <- S3 by auto. unfold tget. cbn [shape data]. rewrite S1. rewrite Eo, map_map.
      rewrite (nth_indep _ [] (map (fun x => x * g) (data (mkT [] [])))) by (rewrite map_length, Ls; auto).
      rewrite (map_nth (fun t => map (fun x => x * g) (data t))). rewrite (nth_indep _ 0 (0 * g)) by (rewrite map_length, S2; cbn [ravel prodn fold_right]; nia).
      rewrite (map_nth (fun x => x * g)). ring.
  - intros mx rate Hin. rewrite <- Cf in Hin. apply in_app_iff in Hin as [Hin|[Hin|[]]].
    { apply in_map_iff in Hin as (i & Hi & _). apply (f_equal fst) in Hi. cbn [fst] in Hi. exfalso. clear -Hi. unfold source_name in Hi. cbn [append] in Hi. discriminate. }
    injection Hin as <- <-. split; auto. destruct (Sv 0%nat n0) as (S1 & S2 & _).
    assert (Ehd : hd (mkT [] []) stems = nth 0 stems (mkT [] [])) by (destruct stems; reflexivity). rewrite Ehd. cbn [shape]. split; [exact S1|].
    intros j m Hj Hm. unfold tget. cbn [shape data]. rewrite S1. set (i := ravel [(N + L - 1)%nat; 6%nat] [j; m]).
    assert (Hi : (i < (N + L - 1) * 6)%nat) by (unfold i; cbn [ravel prodn fold_right]; nia).
    assert (Lx : length mix = ((N + L - 1) * 6)%nat).
    { rewrite <- (Lmix (nth 0 out [])) by (apply nth_In; rewrite Lo; auto). rewrite Eo, map_map.
      rewrite (nth_indep _ [] (map (fun x => x * g) (data (mkT [] [])))) by (rewrite map_length, Ls; auto). rewrite (map_nth (fun t => map (fun x => x * g) (data t))), map_length. exact S2. }
    rewrite Sm by (rewrite Lx; auto). unfold sum_at. rewrite Eo, !map_map.
    transitivity (fold_right Rplus 0 (map (fun s => g * heard N (nth s (sn_dry x) []) w (fun k m => zext L (h k s m)) m j) (seq 0 n))).
    + f_equal. apply nth_ext with (d := 0) (d' := 0).
      * rewrite !map_length, seq_length. auto.
      * intros s Hs. rewrite map_length, Ls in Hs. rewrite (nth_indep (map _ stems) 0 (nth i (map (fun x => x * g) (data (mkT [] []))) 0)) by (rewrite map_length, Ls; auto).
        rewrite (map_nth (fun t => nth i (map (fun x => x * g) (data t)) 0)). destruct (Sv s Hs) as (Q1 & Q2 & Q3).
        rewrite (nth_indep (map _ (seq 0 n)) 0 (g * heard N (nth 0 (sn_dry x) []) w (fun k m => zext L (h k 0%nat m)) m j)) by (rewrite map_length, seq_length; auto).
        rewrite (map_nth (fun s => g * heard N (nth s (sn_dry x) []) w (fun k m => zext L (h k s m)) m j)), seq_nth by auto. cbn [Nat.add]. rewrite <- Q3 by auto.
        rewrite (nth_indep _ 0 (0 * g)) by (rewrite map_length, Q2; auto). rewrite (map_nth (fun x => x * g)). unfold tget. rewrite Q1. fold i. ring.
    + apply fold_seq_rsum.
Qed.
