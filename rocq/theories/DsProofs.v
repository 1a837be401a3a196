(** Lemmas about the dataset helpers. *)
From Coq Require Import String List ZArith NArith Reals Lra Lia Bool Permutation.
From Verif Require Import Prelude PreludeFacts FloatModel RoomModel DsModel DsSpec.
Import ListNotations.
Local Notation length := List.length.

(** * Sources *)
Lemma load_loop_mono c g dur spk fuel : forall order idx total st r, load_loop c g dur spk fuel order idx total st = Some r ->
  forall k, load_loop c g dur spk (k + fuel) order idx total st = Some r.
Proof.
  induction fuel as [|f IH]; intros order idx total st r H k; [discriminate|]. rewrite Nat.add_succ_r. cbn in *.
  destruct (match g_fs st with None => true | Some f0 => (total <? target_samples dur f0)%Z end); cbn in *; auto.
  destruct (length order <=? idx).
  - destruct (nth_error (shuffle g (g_shuffles st) order) 0); auto. destruct (audio_of c spk s) as [[a rate]|]; auto. destruct (g_fs st); auto.
    destruct (rate =? z)%Z; cbn in *; auto.
  - destruct (nth_error order idx); auto. destruct (audio_of c spk s) as [[a rate]|]; auto. destruct (g_fs st); auto.
    destruct (rate =? z)%Z; cbn in *; auto.
Qed.

(** What has been collected after some rounds. *)
Definition collected c dur spk (all : list string) (order : list string) (idx : nat) (total : Z) (st : got) : Prop :=
  Permutation all order /\ idx <= length order /\
  (exists epochs, Forall (Permutation all) epochs /\ g_ids st = concat epochs ++ firstn idx order) /\
  total = Z.of_nat (length (concat (g_segs st))) /\
  match g_fs st with
  | None => g_segs st = [] /\ g_ids st = []
  | Some f => Forall2 (fun u a => audio_of c spk u = Ok (a, f)) (g_ids st) (g_segs st) /\
     (forall pre a, g_segs st = pre ++ [a] -> pre <> [] -> (Z.of_nat (length (concat pre)) < target_samples dur f)%Z)
  end.
Lemma firstn_S_nth {A} (l : list A) i x : nth_error l i = Some x -> firstn (S i) l = firstn i l ++ [x].
Proof. revert i. induction l as [|y l IH]; intros [|i] H; cbn in *; try discriminate; [congruence|]. f_equal. apply IH; auto. Qed.
Lemma load_loop_spec c g dur spk all fuel : fair g -> forall order idx total st st',
  collected c dur spk all order idx total st -> load_loop c g dur spk fuel order idx total st = Some (Ok st') ->
  exists f order' idx', g_fs st' = Some f /\ (g_fs st = None \/ g_fs st = Some f) /\
    collected c dur spk all order' idx' (Z.of_nat (length (concat (g_segs st')))) st' /\
    (target_samples dur f <= Z.of_nat (length (concat (g_segs st'))))%Z.
Proof.
  intros [Fsh _]. induction fuel as [|n IH]; intros order idx total st st' C H; [discriminate|]. cbn in H.
  destruct (match g_fs st with None => true | Some f0 => (total <? target_samples dur f0)%Z end) eqn:Ego; cbn in H.
  2:{ injection H as <-. destruct (g_fs st) as [f|] eqn:Ef; [|discriminate]. exists f, order, idx. split; auto. split; auto.
      apply Z.ltb_ge in Ego. destruct C as (C1 & C2 & C3 & C4 & C5). split; [|lia]. repeat split; auto. }
  destruct C as (C1 & C2 & (epochs & C3 & C3') & C4 & C5).
  assert (HC : exists order2 idx2 k2, (if length order <=? idx then (shuffle g (g_shuffles st) order, 0, S (g_shuffles st)) else (order, idx, g_shuffles st)) = (order2, idx2, k2)
     /\ Permutation all order2 /\ exists ep2, Forall (Permutation all) ep2 /\ g_ids st = concat ep2 ++ firstn idx2 order2).
  { destruct (length order <=? idx) eqn:El.
    - exists (shuffle g (g_shuffles st) order), 0, (S (g_shuffles st)). split; auto. split; [eapply perm_trans; [exact C1|apply Fsh]|].
      exists (epochs ++ [order]). split; [apply Forall_app; auto|]. rewrite concat_app. cbn. rewrite !app_nil_r.
      apply Nat.leb_le in El. rewrite C3', firstn_all2 by lia. auto.
    - exists order, idx, (g_shuffles st). split; auto. split; auto. exists epochs. auto. }
  destruct HC as (order2 & idx2 & k2 & Eo & P2 & ep2 & F2 & I2). rewrite Eo in H.
  destruct (nth_error order2 idx2) as [u|] eqn:Eu; [|discriminate].
  destruct (audio_of c spk u) as [[a rate]|] eqn:Ea; [|discriminate].
  assert (Lidx : S idx2 <= length order2) by (apply nth_error_Some; congruence).
  assert (I3 : g_ids st ++ [u] = concat ep2 ++ firstn (S idx2) order2) by (rewrite (firstn_S_nth _ _ _ Eu), I2, app_assoc; auto).
  assert (T3 : (total + Z.of_nat (length a))%Z = Z.of_nat (length (concat (g_segs st ++ [a])))).
  { rewrite concat_app, app_length. cbn. rewrite app_nil_r. lia. }
  assert (K : forall f, (g_fs st = None \/ g_fs st = Some f) -> rate = f ->
     load_loop c g dur spk n order2 (S idx2) (total + Z.of_nat (length a)) (mkGot k2 (Some f) (g_segs st ++ [a]) (g_ids st ++ [u])) = Some (Ok st') ->
     exists f order' idx', g_fs st' = Some f /\ (g_fs st = None \/ g_fs st = Some f) /\
       collected c dur spk all order' idx' (Z.of_nat (length (concat (g_segs st')))) st' /\
       (target_samples dur f <= Z.of_nat (length (concat (g_segs st'))))%Z).
  { intros f Hf -> HL. apply IH in HL.
    - destruct HL as (f' & o' & i' & A1 & A2 & A3). exists f', o', i'. cbn in A2. destruct A2 as [A2|A2]; [discriminate|]. injection A2 as ->. split; auto.
    - split; auto. split; auto. split; [exists ep2; split; auto|]. split; [exact T3|]. cbn.
      destruct Hf as [Hf|Hf]; rewrite Hf in C5, Ego.
      + destruct C5 as [-> ->]. cbn. split; [repeat constructor; auto|]. intros pre x E N. destruct pre as [|y pre]; [contradiction|]. destruct pre; discriminate.
      + destruct C5 as [C5 C6]. split; [apply Forall2_app; auto|]. intros pre x E N. apply app_inj_tail in E as [<- <-].
        apply Z.ltb_lt in Ego. lia. }
  destruct (g_fs st) as [f|] eqn:Ef.
  - destruct (rate =? f)%Z eqn:Er; cbn in H; [|discriminate]. apply Z.eqb_eq in Er. apply (K f); auto.
  - apply (K rate); auto.
Qed.
Lemma pyslice_firstn {A} (l : list A) t : (0 <= t)%Z -> pyslice 0 t l = firstn (Z.to_nat t) l.
Proof.
  intros H. unfold pyslice, slice_bound. cbn [Z.ltb Z.compare]. destruct (Z.ltb_spec t 0); [lia|].
  replace (Z.to_nat (Z.min 0 (Z.of_nat (length l)))) with 0 by lia. cbn. rewrite Nat.sub_0_r.
  destruct (Z.le_gt_cases t (Z.of_nat (length l))); [rewrite Z.min_l by lia; auto|].
  rewrite Z.min_r by lia. rewrite Nat2Z.id, firstn_all. symmetry. apply firstn_all2. lia.
Qed.
Lemma load_speaker_spec c g dur fuel k fs spk k' fs' row ids : fair g -> load_speaker c g dur fuel k fs spk = Some (Ok (k', fs', row, ids)) ->
  exists f, fs' = Some f /\ (fs = None \/ fs = Some f) /\
    ((0 <= target_samples dur f)%Z -> row_for c f (Z.to_nat (target_samples dur f)) spk ids row) /\
    (fs = Some f -> (0 < target_samples dur f)%Z).
Proof.
  intros G H. unfold load_speaker in H. destruct (utts c spk) as [l|e] eqn:Eu; [|discriminate]. destruct l as [|u0 l']; [discriminate|]. set (l := u0 :: l') in *.
  destruct (load_loop _ _ _ _ _ _ _ _ _) as [[st|e]|] eqn:EL; try discriminate.
  pose proof EL as EL0. apply (load_loop_spec c g dur spk l) in EL; auto.
  - destruct EL as (f & o' & i' & A1 & A2 & (B1 & B2 & (ep & B3 & B4) & _ & B5) & A3). rewrite A1 in *.
    destruct (cut (g_segs st) (target_samples dur f)) as [s|e] eqn:Ec; [|discriminate].
    assert (E : (g_shuffles st, Some f, s, g_ids st) = (k', fs', row, ids)) by congruence. injection E as <- <- <- <-.
    exists f. split; auto. split; auto. destruct B5 as [B5 B6].
    unfold cut in Ec. destruct (g_segs st) as [|s0 ss] eqn:Es; [discriminate|]. rewrite <- Es in *. split.
    + intros T0. assert (Er : s = pyslice 0 (target_samples dur f) (concat (g_segs st))) by congruence. rewrite pyslice_firstn in Er by auto.
      split; [rewrite Er, firstn_length; lia|]. exists l, (g_segs st). split; auto. split; [|split; [auto|split; [auto|]]].
      * exists (ep ++ [o']), (skipn i' o'). split; [apply Forall_app; auto|]. rewrite concat_app, B4. cbn. rewrite app_nil_r, <- app_assoc, firstn_skipn. auto.
      * intros pre a E N. specialize (B6 pre a E N). lia.
    + intros ->. destruct (Z.lt_ge_cases 0 (target_samples dur f)) as [|Hge]; auto. exfalso.
      destruct fuel as [|n]; [discriminate|]. cbn in EL0. destruct (Z.ltb_spec 0 (target_samples dur f)); [lia|]. cbn in EL0. injection EL0 as <-. discriminate.
  - split; [apply (proj1 G)|]. split; [lia|]. cbn. split; [exists []; auto|]. split; auto. destruct fs; auto. split; auto. intros [|] ? E; discriminate.
Qed.
Lemma load_speakers_spec c g dur fuel : fair g -> forall l k fs fs' rows info, load_speakers c g dur fuel k fs l = Some (Ok (fs', rows, info)) ->
  map fst info = l /\ length rows = length l /\
  match l with
  | [] => fs' = fs
  | _ => exists f, fs' = Some f /\ (fs = None \/ fs = Some f) /\
     ((0 <= target_samples dur f)%Z -> forall i row spk ids, nth_error rows i = Some row -> nth_error info i = Some (spk, ids) ->
        row_for c f (Z.to_nat (target_samples dur f)) spk ids row) /\
     (fs = Some f \/ 2 <= length l -> (0 < target_samples dur f)%Z)
  end.
Proof.
  intros G. induction l as [|spk l IH]; intros k fs fs' rows info H; cbn in H; [injection H as <- <- <-; auto|].
  destruct (load_speaker c g dur fuel k fs spk) as [[[[[k1 fs1] s] ids]|e]|] eqn:E1; try discriminate.
  destruct (load_speakers c g dur fuel k1 fs1 l) as [[[[fs2 rows2] info2]|e]|] eqn:E2; try discriminate.
  injection H as <- <- <-. destruct (load_speaker_spec _ _ _ _ _ _ _ _ _ _ _ G E1) as (f & -> & B1 & B2 & B3).
  destruct (IH _ _ _ _ _ E2) as (C1 & C2 & C3). cbn. split; [congruence|]. split; [congruence|].
  assert (F2 : fs2 = Some f). { destruct l; [congruence|]. destruct C3 as (f' & -> & [D|D] & _); congruence. }
  subst fs2. exists f. split; auto. split; auto. split.
  - intros T [|i] row spk' ids' R1 R2; cbn in R1, R2.
    + injection R1 as <-. injection R2 as <- <-. auto.
    + destruct l as [|x l]; [destruct rows2; [destruct i; discriminate|discriminate]|].
      destruct C3 as (f' & Ef & _ & C3 & _). injection Ef as <-. eapply C3; eauto.
  - intros [Hf|Hl]; auto. destruct l as [|x l]; [cbn in Hl; lia|]. destruct C3 as (f' & Ef & _ & _ & C4). injection Ef as <-. apply C4. auto.
Qed.
Lemma choose_ok c n g l : choose_speakers c n g = Ok l -> (0 <= n <= Z.of_nat (length (speakers c)))%Z /\ l = sample g (speakers c) (Z.to_nat n).
Proof.
  unfold choose_speakers. destruct (speakers c); [discriminate|]. destruct (Z.ltb_spec (Z.of_nat (length (s :: l0))) n); [discriminate|].
  destruct (Z.ltb_spec n 0); [discriminate|]. intros Hx. injection Hx as <-. split; auto.
Qed.
Lemma stack_ok rows r : stack_rows rows = Ok r -> r = rows /\ rows <> [].
Proof. unfold stack_rows. destruct rows; [discriminate|]. destruct (forallb _ _); [|discriminate]. intros H. injection H as <-. split; [auto|discriminate]. Qed.

(** ** Termination *)
Definition halts c g dur spk order idx total st : Prop := exists fuel r, load_loop c g dur spk fuel order idx total st = Some r.
Lemma halts_step c g dur spk order idx total st u : 
  nth_error order idx = Some u ->
  (forall a f, audio_of c spk u = Ok (a, f) -> (g_fs st = None \/ g_fs st = Some f) ->
     halts c g dur spk order (S idx) (total + Z.of_nat (length a)) (mkGot (g_shuffles st) (Some f) (g_segs st ++ [a]) (g_ids st ++ [u]))) ->
  halts c g dur spk order idx total st.
Proof.
  intros Eu H. destruct (audio_of c spk u) as [[a rate]|e] eqn:Ea.
  2:{ exists 1. cbn. destruct (match g_fs st with None => true | Some f => (total <? target_samples dur f)%Z end); cbn; [|eauto].
      assert (L : length order <=? idx = false) by (apply Nat.leb_gt, nth_error_Some; congruence). rewrite L, Eu, Ea. eauto. }
  destruct (match g_fs st with None => true | Some f => (total <? target_samples dur f)%Z end) eqn:Eg.
  2:{ exists 1. cbn. rewrite Eg. cbn. eauto. }
  assert (L : length order <=? idx = false) by (apply Nat.leb_gt, nth_error_Some; congruence).
  destruct (g_fs st) as [f|] eqn:Ef.
  - destruct (Z.eqb_spec rate f) as [->|N].
    + destruct (H a f eq_refl (or_intror eq_refl)) as (fuel & r & HL). exists (S fuel), r. cbn. rewrite Ef, Eg. cbn. rewrite L, Eu, Ea, Z.eqb_refl. cbn. auto.
    + exists 1. cbn. rewrite Ef, Eg. cbn. rewrite L, Eu, Ea. apply Z.eqb_neq in N. rewrite N. cbn. eauto.
  - destruct (H a rate eq_refl (or_introl eq_refl)) as (fuel & r & HL). exists (S fuel), r. cbn. rewrite Ef. cbn. rewrite L, Eu, Ea. auto.
Qed.
Lemma halts_wrap c g dur spk order total st : order <> [] ->
  halts c g dur spk (shuffle g (g_shuffles st) order) 0 total (mkGot (S (g_shuffles st)) (g_fs st) (g_segs st) (g_ids st)) ->
  (length (shuffle g (g_shuffles st) order) = length order) ->
  halts c g dur spk order (length order) total st.
Proof.
  intros N (fuel & r & H) L. destruct fuel as [|n]; [discriminate|].
  destruct (match g_fs st with None => true | Some f => (total <? target_samples dur f)%Z end) eqn:Eg; cbn in H; rewrite Eg in H; cbn in H.
  - exists (S n), r. cbn. rewrite Eg, Nat.leb_refl. cbn.
    rewrite L in H. assert (E : length order <=? 0 = false) by (apply Nat.leb_gt; destruct order; [contradiction|cbn; lia]). rewrite E in H. auto.
  - exists 1, (Ok st). cbn. rewrite Eg. auto.
Qed.
(** An utterance that makes progress: it has samples, or loading it raises. *)
Definition productive c spk u : Prop := forall a f, audio_of c spk u = Ok (a, f) -> a <> [].
Lemma halts_some c g dur spk all f u0 : fair g -> In u0 all -> productive c spk u0 ->
  forall D order idx total st, Permutation all order -> idx <= length order -> g_fs st = Some f ->
    (target_samples dur f <= total + Z.of_nat D)%Z -> halts c g dur spk order idx total st.
Proof.
  intros [G _] I0 P0. induction D as [|D IHD]; intros order idx total st P L Hf Ht.
  - exists 1. cbn. rewrite Hf. destruct (Z.ltb_spec total (target_samples dur f)); [lia|]. cbn. eauto.
  - (* the rest of an epoch that still contains u0 *)
    assert (A : forall m order idx total st, m = length order - idx -> Permutation all order -> idx <= length order -> g_fs st = Some f ->
       (target_samples dur f <= total + Z.of_nat (S D))%Z -> In u0 (skipn idx order) -> halts c g dur spk order idx total st).
    { clear order idx total st P L Hf Ht. induction m as [|m IHm]; intros order idx total st Em P L Hf Ht Hu.
      - rewrite skipn_all2 in Hu by lia. destruct Hu.
      - destruct (nth_error order idx) as [u|] eqn:Eu; [|apply nth_error_None in Eu; lia].
        apply halts_step with (u := u); auto. intros a f' Ea [Hf'|Hf']; [congruence|]. assert (f' = f) by congruence. subst f'.
        destruct a as [|x a].
        + apply IHm; auto; [lia|lia|cbn [length]; lia|].
          assert (Es : skipn idx order = u :: skipn (S idx) order).
          { clear -Eu. revert idx Eu. induction order as [|y order IH]; intros [|i] E; cbn in *; try discriminate; [congruence|]. apply IH. auto. }
          rewrite Es in Hu. destruct Hu as [->|Hu]; auto. destruct (P0 _ _ Ea). auto.
        + apply IHD; auto; [|cbn [length]; lia]. apply nth_error_Some. congruence. }
    remember (length order - idx) as m eqn:Em. revert order idx total st P L Hf Ht Em. induction m as [|m IHm]; intros order idx total st P L Hf Ht Em.
    + assert (idx = length order) by lia. subst idx.
      assert (Ls : length (shuffle g (g_shuffles st) order) = length order) by (symmetry; apply Permutation_length, G).
      assert (P' : Permutation all (shuffle g (g_shuffles st) order)) by (eapply perm_trans; [exact P|apply G]).
      apply halts_wrap; auto.
      * intros ->. apply Permutation_sym, Permutation_nil in P. subst all. destruct I0.
      * eapply A; [reflexivity|auto|lia|auto|auto|]. cbn. eapply Permutation_in; eauto.
    + destruct (nth_error order idx) as [u|] eqn:Eu; [|apply nth_error_None in Eu; lia].
      apply halts_step with (u := u); auto. intros a f' Ea [Hf'|Hf']; [congruence|]. assert (f' = f) by congruence. subst f'.
      apply IHm; auto; lia.
Qed.
Lemma halts_speaker c g dur spk all : fair g -> (exists u, In u all /\ productive c spk u) ->
  forall k fs, halts c g dur spk (shuffle g k all) 0 0 (mkGot (S k) fs [] []).
Proof.
  intros G (u0 & I0 & P0) k fs. pose proof (proj1 G k all) as P.
  assert (A : forall f order idx total st, Permutation all order -> idx <= length order -> g_fs st = Some f -> halts c g dur spk order idx total st).
  { intros f order idx total st P1 L Hf. eapply (halts_some c g dur spk all f u0 G I0 P0 (Z.to_nat (target_samples dur f - total))); eauto. lia. }
  destruct fs as [f|]; [apply (A f); auto; lia|].
  destruct (nth_error (shuffle g k all) 0) as [u|] eqn:Eu.
  - apply halts_step with (u := u); auto. intros a f Ea _. apply (A f); auto. apply nth_error_Some. congruence.
  - apply nth_error_None in Eu. destruct (shuffle g k all); [|cbn in Eu; lia]. apply Permutation_sym, Permutation_nil in P. subst. destruct I0.
Qed.
Lemma load_speaker_mono c g dur fuel k fs spk r : load_speaker c g dur fuel k fs spk = Some r -> forall j, load_speaker c g dur (j + fuel) k fs spk = Some r.
Proof.
  intros H j. unfold load_speaker in *. destruct (utts c spk) as [[|u l]|]; auto.
  destruct (load_loop c g dur spk fuel _ 0 0 _) as [r'|] eqn:E; [|discriminate]. rewrite (load_loop_mono _ _ _ _ _ _ _ _ _ _ E j). auto.
Qed.
Lemma load_speakers_mono c g dur fuel l : forall k fs r, load_speakers c g dur fuel k fs l = Some r -> forall j, load_speakers c g dur (j + fuel) k fs l = Some r.
Proof.
  induction l as [|spk l IH]; intros k fs r H j; cbn in *; auto.
  destruct (load_speaker c g dur fuel k fs spk) as [r1|] eqn:E; [|discriminate]. rewrite (load_speaker_mono _ _ _ _ _ _ _ _ E j).
  destruct r1 as [[[[k1 fs1] s] ids]|]; auto. destruct (load_speakers c g dur fuel k1 fs1 l) as [r2|] eqn:E2; [|discriminate]. rewrite (IH _ _ _ E2 j). auto.
Qed.
Lemma load_speakers_halts c g dur l : fair g ->
  (forall spk all, In spk l -> utts c spk = Ok all -> all <> [] -> exists u, In u all /\ productive c spk u) ->
  forall k fs, exists fuel r, load_speakers c g dur fuel k fs l = Some r.
Proof.
  intros G. induction l as [|spk l IH]; intros H k fs; [exists 0; cbn; eauto|].
  assert (S1 : exists fuel r, load_speaker c g dur fuel k fs spk = Some r).
  { unfold load_speaker. destruct (utts c spk) as [[|u0 all']|] eqn:Eu; [exists 0; eauto| |exists 0; eauto].
    destruct (halts_speaker c g dur spk (u0 :: all') G (H spk _ (or_introl eq_refl) Eu ltac:(discriminate)) k fs) as (fuel & r & E). exists fuel. rewrite E.
    destruct r as [st|]; [|eauto]. destruct (g_fs st); [|eauto]. destruct (cut _ _); eauto. }
  destruct S1 as (f1 & r1 & E1). destruct r1 as [[[[k1 fs1] s] ids]|e].
  - destruct (IH (fun x a Hx => H x a (or_intror Hx)) k1 fs1) as (f2 & r2 & E2). exists (f1 + f2). cbn.
    rewrite (Nat.add_comm f1 f2), (load_speaker_mono _ _ _ _ _ _ _ _ E1 f2). rewrite (Nat.add_comm f2 f1), (load_speakers_mono _ _ _ _ _ _ _ _ E2 f1).
    destruct r2 as [[[? ?] ?]|]; eauto.
  - exists f1. cbn. rewrite E1. eauto.
Qed.
(** ** Divergence *)
Lemma diverges c g dur spk all f : fair g -> all <> [] -> (forall u, In u all -> audio_of c spk u = Ok ([], f)) -> (0 < target_samples dur f)%Z ->
  forall fuel order idx st, Permutation all order -> idx <= length order -> (g_fs st = None \/ g_fs st = Some f) ->
    load_loop c g dur spk fuel order idx 0 st = None.
Proof.
  intros [G _] N Ha T. induction fuel as [|n IH]; intros order idx st P L Hf; auto. cbn.
  replace (match g_fs st with None => true | Some f0 => (0 <? target_samples dur f0)%Z end) with true
    by (destruct Hf as [-> | ->]; auto; symmetry; apply Z.ltb_lt; auto). cbn.
  assert (K : forall order2 idx2 k2, Permutation all order2 -> idx2 < length order2 ->
    match nth_error order2 idx2 with
    | Some u => match audio_of c spk u with
                | Ok (a, rate) => match g_fs st with
                    | Some f0 => if negb (rate =? f0)%Z then Some (Err ValueError)
                       else load_loop c g dur spk n order2 (S idx2) (Z.of_nat (length a)) (mkGot k2 (Some f0) (g_segs st ++ [a]) (g_ids st ++ [u]))
                    | None => load_loop c g dur spk n order2 (S idx2) (Z.of_nat (length a)) (mkGot k2 (Some rate) (g_segs st ++ [a]) (g_ids st ++ [u]))
                    end
                | Err e => Some (Err e) end
    | None => Some (Err IndexError) end = None).
  { intros order2 idx2 k2 P2 L2. destruct (nth_error order2 idx2) as [u|] eqn:Eu; [|apply nth_error_None in Eu; lia].
    rewrite Ha by (eapply Permutation_in; [apply Permutation_sym; exact P2|eapply nth_error_In; eauto]). cbn.
    destruct Hf as [-> | ->]; [|rewrite Z.eqb_refl; cbn]; apply IH; auto. }
  destruct (length order <=? idx) eqn:El.
  - apply K; [eapply perm_trans; [exact P|apply G]|]. rewrite <- (Permutation_length (G _ _)).
    rewrite <- (Permutation_length P). destruct all; [contradiction|cbn; lia].
  - apply K; auto. apply Nat.leb_gt in El. auto.
Qed.

Lemma target_whole dur f n : whole_samples dur f n -> target_samples dur f = Z.of_nat n.
Proof.
  intros H. unfold whole_samples in H. unfold target_samples. rewrite truncZ_nonneg by (pose proof (pos_INR n); lra).
  apply floorZ_unique. rewrite <- INR_IZR_INZ. exact H.
Qed.
Lemma target_pos dur f : (0 < target_samples dur f)%Z <-> (1 <= rnd64 (dur * IZR f))%R.
Proof.
  unfold target_samples. set (x := rnd64 _). split; intros H.
  - apply Rnot_lt_le. intros L. unfold truncZ in H. destruct (Rle_dec 0 x) as [P|P].
    + rewrite (floorZ_unique x 0) in H by lra. lia.
    + unfold ceilZ in H. assert (0 <= floorZ (- x))%Z by (apply floorZ_ge; lra). lia.
  - rewrite truncZ_nonneg by lra. assert (1 <= floorZ x)%Z by (apply floorZ_ge; lra). lia.
Qed.

(** * Collation *)
Lemma store_id d x : match d with Float => True | Int64 => exists z, x = IZR z end -> store d x = x.
Proof.
  destruct d; cbn; auto. intros [z ->]. f_equal. unfold truncZ, ceilZ, floorZ.
  destruct (Rle_dec 0 (IZR z)).
  - rewrite <- (up_tech (IZR z) z); [lia|lra|]. rewrite plus_IZR. lra.
  - rewrite <- opp_IZR, <- (up_tech (IZR (- z)) (- z)); [lia|lra|]. rewrite plus_IZR. lra.
Qed.
Lemma fold_max_ge l x : In x l -> x <= fold_right Nat.max 0 l.
Proof. induction l as [|y l IH]; cbn; [tauto|]. intros [->|H]; [lia|]. specialize (IH H). lia. Qed.
Lemma fold_max_in l : l <> [] -> In (fold_right Nat.max 0 l) l.
Proof.
  induction l as [|y l IH]; [contradiction|]. intros _. cbn. destruct l as [|z l]; [left; cbn; lia|].
  destruct (Nat.max_spec y (fold_right Nat.max 0 (z :: l))) as [[_ ->]|[_ ->]]; [right; apply IH; discriminate|left; auto].
Qed.

(** * Strings *)
Lemma is_space_white c : is_space c = true <-> In c white.
Proof.
  unfold is_space. rewrite !orb_true_iff, !andb_true_iff, !N.leb_le, !N.eqb_eq. unfold white. cbn [In]. split.
  - intros H. repeat match type of H with _ \/ _ => destruct H as [H|H] end; lia.
  - intros H. repeat match type of H with _ \/ _ => destruct H as [H|H] end; subst; try lia; try contradiction.
Qed.
Lemma white_true c : In c white -> is_space c = true. Proof. apply is_space_white. Qed.
Lemma white_false c : ~ In c white -> is_space c = false.
Proof. intros H. destruct (is_space c) eqn:E; auto. apply is_space_white in E. contradiction. Qed.
Lemma lstrip_blank ws s : (forall c, In c ws -> is_space c = true) -> lstrip (ws ++ s) = lstrip s.
Proof. induction ws as [|c ws IH]; intros H; cbn; auto. rewrite (H c) by (left; auto). apply IH. intros x Hx. apply H. right; auto. Qed.
Lemma lstrip_head c s : is_space c = false -> lstrip (c :: s) = c :: s.
Proof. intros H. cbn. rewrite H. auto. Qed.
Lemma lstrip_trim s : (forall c s', s = c :: s' -> is_space c = false) -> lstrip s = s.
Proof. intros H. destruct s as [|c s]; auto. apply lstrip_head. eapply H; eauto. Qed.
Lemma strip_blank ws : (forall c, In c ws -> is_space c = true) -> strip ws = [].
Proof. intros H. unfold strip. rewrite <- (app_nil_r ws), lstrip_blank by auto. reflexivity. Qed.
Lemma strip_around a s b : (forall c, In c a -> is_space c = true) -> (forall c, In c b -> is_space c = true) -> trimmed s -> strip (a ++ s ++ b) = s.
Proof.
  intros Ha Hb T. unfold strip. rewrite lstrip_blank by auto. destruct s as [|c s].
  - cbn [app]. rewrite <- (app_nil_r b), lstrip_blank by auto. reflexivity.
  - cbn [app]. rewrite lstrip_head by (apply white_false; eapply T; left; eauto).
    change (c :: s ++ b) with ((c :: s) ++ b). rewrite rev_app_distr, lstrip_blank by (intros x Hx; apply Hb, in_rev; auto).
    rewrite lstrip_trim; [apply rev_involutive|]. intros x s' E. apply white_false. eapply T. right. rewrite <- (rev_involutive (c :: s)), E. reflexivity.
Qed.
Lemma partition_app c a b : ~ In c a -> partition c (a ++ c :: b) = (a, true, b).
Proof.
  induction a as [|x a IH]; intros N; cbn; [rewrite N.eqb_refl; auto|]. destruct (N.eqb_spec x c) as [->|Ne]; [destruct N; left; auto|].
  rewrite IH; auto. intros H. apply N. right; auto.
Qed.
Lemma partition_none c a : ~ In c a -> partition c a = (a, false, []).
Proof.
  induction a as [|x a IH]; intros N; cbn; auto. destruct (N.eqb_spec x c) as [->|Ne]; [destruct N; left; auto|].
  rewrite IH; auto. intros H. apply N. right; auto.
Qed.
Lemma before_last_app c a b : ~ In c b -> before_last c (a ++ c :: b) = a.
Proof.
  intros N. unfold before_last. rewrite rev_app_distr. cbn [rev]. rewrite <- app_assoc. cbn [app].
  rewrite partition_app by (intros H; apply N, in_rev; auto). apply rev_involutive.
Qed.
Lemma first_word_word w s : (forall c, In c w -> is_space c = false) -> first_word (w ++ 32%N :: s) = w.
Proof. induction w as [|c w IH]; intros H; cbn; auto. rewrite (H c) by (left; auto). f_equal. apply IH. intros x Hx. apply H. right; auto. Qed.
Lemma first_word_all w : (forall c, In c w -> is_space c = false) -> first_word w = w.
Proof. induction w as [|c w IH]; intros H; cbn; auto. rewrite (H c) by (left; auto). f_equal. apply IH. intros x Hx. apply H. right; auto. Qed.
Lemma filter_id {A} (f : A -> bool) l : (forall x, In x l -> f x = true) -> filter f l = l.
Proof. induction l as [|x l IH]; intros H; cbn; auto. rewrite (H x) by (left; auto). f_equal. apply IH. intros y Hy. apply H. right; auto. Qed.
Lemma word_trimmed w : (forall c, In c w -> ~ In c white) -> trimmed w.
Proof. intros H c s [-> | ->]; apply H; [left; auto|apply in_or_app; right; left; auto]. Qed.

Lemma parse_cmu_line id text : is_word id -> ~ In 34%N id -> ~ In 40%N id -> parse_cmu (cmu_line id text) = Ok (id, text).
Proof.
  intros [N W] Q P. unfold parse_cmu, cmu_line, quote, paren. 
  replace ([40; 32]%N ++ id ++ [32; 34]%N ++ text ++ [34; 32; 41]%N) with (([40; 32]%N ++ id ++ [32]%N) ++ 34%N :: (text ++ [34; 32; 41]%N)) by (rewrite <- !app_assoc; reflexivity).
  rewrite partition_app.
  2:{ intros H. cbn in H. destruct H as [H|[H|H]]; try discriminate. apply in_app_or in H as [H|[H|[]]]; [auto|discriminate]. }
  rewrite !filter_app. cbn [filter N.eqb Pos.eqb negb app].
  rewrite (filter_id _ id) by (intros x Hx; apply negb_true_iff, N.eqb_neq; intros ->; auto).
  change (32%N :: id ++ [32%N]) with ([32%N] ++ id ++ [32%N]).
  rewrite strip_around; [|intros c [<- |[]]; reflexivity|intros c [<- |[]]; reflexivity|apply word_trimmed; auto].
  destruct id as [|c id]; [contradiction|]. rewrite first_word_all by (intros; apply white_false; auto).
  rewrite before_last_app; auto. cbn. intros [H|[H|[]]]; discriminate.
Qed.
Lemma cmu_line_trimmed id text : trimmed (cmu_line id text).
Proof.
  intros c s [E|E]; unfold cmu_line in E.
  - cbn in E. injection E as <- _. cbn. intuition discriminate.
  - assert (L : last ([40; 32]%N ++ id ++ [32; 34]%N ++ text ++ [34; 32; 41]%N) 0%N = c) by (rewrite E; apply last_last).
    rewrite !app_assoc in L. change [34; 32; 41]%N with ([34; 32]%N ++ [41%N]) in L. rewrite app_assoc, last_last in L. subst c. cbn. intuition discriminate.
Qed.
Lemma parse_libri_line id text : is_word id -> trimmed text -> parse_libri (libri_line id text) = (id, text).
Proof.
  intros [N W] T. unfold parse_libri, libri_line. cbn [app]. rewrite partition_app; [|intros H; apply (W _ H); cbn; tauto].
  f_equal. rewrite <- (app_nil_r text) at 1. apply (strip_around [] text []); auto; intros c [].
Qed.

(** Lines of a file. *)
Lemma lines_aux_step s : forall cur rest e, no_newline s -> (e = Mac -> hd 0%N rest <> 10%N) ->
  lines_aux (s ++ newline e ++ rest) cur = (rev cur ++ s) :: lines_aux rest [].
Proof.
  induction s as [|c s IH]; intros cur rest e N M; cbn [app].
  - rewrite app_nil_r. destruct e; try reflexivity. cbn [newline app lines_aux]. destruct rest as [|x rest]; [reflexivity|].
    specialize (M eq_refl). cbn [hd] in M. destruct x as [|p]; [reflexivity|]. do 4 (destruct p as [p|p|]; try reflexivity); exfalso; auto.
  - assert (Nc : c <> 10%N /\ c <> 13%N) by (apply N; left; auto). destruct Nc as [N1 N2].
    assert (E : lines_aux (c :: s ++ newline e ++ rest) cur = lines_aux (s ++ newline e ++ rest) (c :: cur)).
    { cbn [lines_aux]. destruct c as [|p]; auto. do 4 (destruct p; auto); exfalso; auto. }
    rewrite E, IH; auto. + cbn [rev]. rewrite <- app_assoc. reflexivity. + intros x Hx; apply N; right; auto.
Qed.
(** A carriage return directly followed by a line feed (an empty row) is one line end. *)
Lemma lines_aux_mac s : forall cur rest, no_newline s -> lines_aux (s ++ [13; 10]%N ++ rest) cur = (rev cur ++ s) :: lines_aux rest [].
Proof. intros cur rest N. apply (lines_aux_step s cur rest Dos N). discriminate. Qed.
Lemma lines_aux_last s : forall cur, no_newline s -> lines_aux s cur = match rev cur ++ s with [] => [] | l => [l] end.
Proof.
  induction s as [|c s IH]; intros cur N.
  - cbn. rewrite app_nil_r. destruct cur as [|x cur]; auto. destruct (rev (x :: cur)) eqn:E; auto.
    apply (f_equal (@length _)) in E. rewrite rev_length in E. discriminate.
  - assert (Nc : c <> 10%N /\ c <> 13%N) by (apply N; left; auto). destruct Nc as [N1 N2].
    assert (E : lines_aux (c :: s) cur = lines_aux s (c :: cur)).
    { cbn [lines_aux]. destruct c as [|p]; auto. do 4 (destruct p; auto); exfalso; auto. }
    rewrite E, IH by (intros x Hx; apply N; right; auto). cbn [rev]. rewrite <- app_assoc. reflexivity.
Qed.
Definition nonempty (l : ustr) : bool := match l with [] => false | _ => true end.
Lemma stripped_lines render l last : (forall r, In r (rows_of l last) -> no_newline (render r)) ->
  filter nonempty (map strip (file_lines (file_of render l last))) = filter nonempty (map (fun r => strip (render r)) (rows_of l last)).
Proof.
  unfold file_lines, file_of, rows_of. induction l as [|[r b] l IH]; intros H; cbn [flat_map map app fst snd].
  - destruct last as [r|]; [|reflexivity]. rewrite lines_aux_last by (apply H; left; auto). cbn [rev app map filter].
    destruct (render r); reflexivity.
  - specialize (IH (fun x Hx => H x (or_intror Hx))). rewrite <- !app_assoc.
    match type of IH with filter _ (map _ (lines_aux ?r _)) = _ => set (rest := r) in * end.
    assert (Nr : no_newline (render r)) by (apply H; left; auto).
    destruct b; try (rewrite lines_aux_step by (auto; discriminate); cbn [rev app map filter]; rewrite IH; reflexivity).
    destruct rest as [|x rest'] eqn:ER; [|destruct (N.eq_dec x 10) as [->|Nx]].
    + rewrite lines_aux_step by (auto; cbn; discriminate). cbn [rev app map filter]. rewrite IH. reflexivity.
    + change (render r ++ newline Mac ++ 10%N :: rest') with (render r ++ [13; 10]%N ++ rest').
      rewrite lines_aux_mac by auto. cbn [rev app map filter]. rewrite <- IH. cbn [lines_aux rev map filter strip lstrip nonempty]. reflexivity.
    + rewrite lines_aux_step by (auto; cbn; auto). cbn [rev app map filter]. rewrite IH. reflexivity.
Qed.
Lemma cmu_no_newline id text : is_word id -> no_newline text -> no_newline (cmu_line id text).
Proof.
  intros [_ W] T c H. unfold cmu_line in H. repeat (apply in_app_or in H as [H|H]).
  - destruct H as [<- |[<- |[]]]; split; discriminate.
  - specialize (W c H). split; intros ->; apply W; cbn; tauto.
  - destruct H as [<- |[<- |[]]]; split; discriminate.
  - auto.
  - destruct H as [<- |[<- |[<- |[]]]]; split; discriminate.
Qed.
Lemma libri_no_newline id text : is_word id -> no_newline text -> no_newline (libri_line id text).
Proof.
  intros [_ W] T c H. unfold libri_line in H. repeat (apply in_app_or in H as [H|H]).
  - specialize (W c H). split; intros ->; apply W; cbn; tauto.
  - destruct H as [<- |[]]; split; discriminate.
  - auto.
Qed.
Lemma no_newline_app a b : no_newline a -> no_newline b -> no_newline (a ++ b).
Proof. intros Ha Hb c H. apply in_app_or in H as [H|H]; auto. Qed.
Lemma sentences_cmu_rows l last : (forall r, In r (rows_of l last) -> cmu_wf r) ->
  sentences_cmu (file_of cmu_row l last) = Ok (entries (rows_of l last)).
Proof.
  intros H. unfold sentences_cmu. change (fun l0 : list N => match l0 with [] => false | _ :: _ => true end) with nonempty.
  rewrite stripped_lines.
  - revert H. generalize (rows_of l last). clear. induction l as [|r l IH]; intros H; [reflexivity|].
    cbn [map filter entries flat_map]. pose proof (H r (or_introl eq_refl)) as W. specialize (IH (fun x Hx => H x (or_intror Hx))).
    destruct r as [ws|b id text a]; cbn [cmu_row cmu_wf] in *.
    + rewrite strip_blank by (intros; apply white_true; apply W; auto). cbn. exact IH.
    + destruct W as ((_ & Wb) & (_ & Wa) & Wt & Wi & Q & P). rewrite strip_around; try (intros; apply white_true; auto); [|apply cmu_line_trimmed].
      cbn [nonempty cmu_line app]. cbn [mapM]. change (40%N :: 32%N :: id ++ 32%N :: 34%N :: text ++ [34%N; 32%N; 41%N]) with (cmu_line id text).
      rewrite parse_cmu_line by auto. unfold entries in IH. rewrite IH. reflexivity.
  - intros r Hr. specialize (H r Hr). destruct r as [ws|b id text a]; cbn [cmu_row cmu_wf libri_row libri_wf] in *; [apply H|].
    destruct H as ((Wb & _) & (Wa & _) & Wt & Wi & _). apply no_newline_app; auto. apply no_newline_app; auto. apply cmu_no_newline; auto.
Qed.
Lemma lstrip_last s c : is_space c = false -> lstrip (s ++ [c]) <> [] /\ exists s', lstrip (s ++ [c]) = s' ++ [c].
Proof.
  intros H. induction s as [|x s IH]; cbn.
  - rewrite H. split; [discriminate|]. exists []. auto.
  - destruct (is_space x); auto. split; [discriminate|]. exists (x :: s). auto.
Qed.
(** A transcript line is stripped before it is split: with empty text the separator goes too. *)
Lemma libri_stripped b id text a : blank b -> blank a -> is_word id -> trimmed text ->
  strip (b ++ libri_line id text ++ a) = match text with [] => id | _ => libri_line id text end.
Proof.
  intros [_ Wb] [_ Wa] [N W] T. destruct text as [|c text].
  - unfold libri_line. replace (b ++ (id ++ [32%N] ++ []) ++ a) with (b ++ id ++ ([32%N] ++ a)) by (cbn; rewrite <- !app_assoc; reflexivity).
    apply strip_around; [intros; apply white_true; auto| |apply word_trimmed; auto]. intros x [<- |Hx]; [reflexivity|apply white_true; auto].
  - apply strip_around; try (intros; apply white_true; auto). intros x s [E|E].
    + destruct id as [|y id]; [contradiction|]. cbn in E. injection E as <- _. apply W. left; auto.
    + unfold libri_line in E. destruct (exists_last (l := c :: text) ltac:(discriminate)) as (t' & z & Et). rewrite Et in *.
      rewrite !app_assoc in E. apply app_inj_tail in E as [_ <-]. eapply T. right. reflexivity.
Qed.
Lemma parse_libri_bare id : is_word id -> parse_libri id = (id, []).
Proof. intros [_ W]. unfold parse_libri. rewrite partition_none; [reflexivity|]. intros H. apply (W _ H). cbn. tauto. Qed.
Lemma available_libri_rows flac l last : (forall r, In r (rows_of l last) -> libri_wf r) ->
  available_libri flac (file_of libri_row l last) = filter (fun s => flac (fst s)) (entries (rows_of l last)).
Proof.
  intros H. unfold available_libri. change (fun l0 : list N => match l0 with [] => false | _ :: _ => true end) with nonempty.
  rewrite stripped_lines.
  - f_equal. revert H. generalize (rows_of l last). clear. induction l as [|r l IH]; intros H; [reflexivity|].
    cbn [map filter entries flat_map]. pose proof (H r (or_introl eq_refl)) as W. specialize (IH (fun x Hx => H x (or_intror Hx))).
    destruct r as [ws|b id text a]; cbn [libri_row libri_wf] in *.
    + rewrite strip_blank by (intros; apply white_true; apply W; auto). cbn. exact IH.
    + destruct W as (Wb & Wa & Wt & Wi & Tt). rewrite libri_stripped by auto. unfold entries in IH.
      assert (E : nonempty (match text with [] => id | _ => libri_line id text end) = true).
      { destruct Wi as [N _]. destruct id; [contradiction|]. destruct text; reflexivity. }
      rewrite E. cbn [map]. rewrite IH. cbn [app]. f_equal. destruct text as [|c text]; [apply parse_libri_bare; auto|apply parse_libri_line; auto].
  - intros r Hr. specialize (H r Hr). destruct r as [ws|b id text a]; cbn [cmu_row cmu_wf libri_row libri_wf] in *; [apply H|].
    destruct H as ((Wb & _) & (Wa & _) & Wt & Wi & _). apply no_newline_app; auto. apply no_newline_app; auto. apply libri_no_newline; auto.
Qed.

(** * Indexing *)
Lemma set_at_eq {A} o (v : A) f : set_at o v f o = v.
Proof. unfold set_at. rewrite Nat.eqb_refl. auto. Qed.
Lemma set_at_neq {A} o (v : A) f x : x <> o -> set_at o v f x = f x.
Proof. unfold set_at. intros H. destruct (Nat.eqb_spec x o); congruence. Qed.
Lemma py_index_spec {A} (l : list A) i x : py_index l i = Ok x ->
  exists j, nth_error l j = Some x /\ (i = Z.of_nat j \/ i = (Z.of_nat j - Z.of_nat (length l))%Z).
Proof.
  unfold py_index. destruct (Z.ltb_spec i 0).
  - destruct (Z.ltb_spec (i + Z.of_nat (length l)) 0); [discriminate|]. destruct (nth_error l _) eqn:E; [|discriminate]. intros H1. injection H1 as ->.
    eexists. split; [exact E|]. right. rewrite Z2Nat.id by lia. lia.
  - destruct (Z.ltb_spec i 0); [lia|]. destruct (nth_error l _) eqn:E; [|discriminate]. intros H1. injection H1 as ->.
    eexists. split; [exact E|]. left. rewrite Z2Nat.id by lia. lia.
Qed.
Lemma get_sentences_keep st d o st' r o' l : get_sentences st d o = (st', r) -> cached st o' = Some l -> cached st' o' = Some l.
Proof.
  unfold get_sentences. destruct (cached st o) eqn:E; [intros H; injection H as <- <-; auto|].
  destruct (d_sentences d); intros H; injection H as <- <-; cbn; auto. intros H. unfold set_at. destruct (Nat.eqb_spec o' o); [congruence|auto].
Qed.
Lemma get_sentences_ok st d o st' l : get_sentences st d o = (st', Ok l) -> cached st' o = Some l.
Proof.
  unfold get_sentences. destruct (cached st o) eqn:E; [intros H; injection H as <- <-; auto|].
  destruct (d_sentences d); intros H; [|discriminate H]. injection H as <- <-. cbn. rewrite set_at_eq. auto.
Qed.
Lemma perform_keep st d c st' a o l : perform st d c = (st', a) -> cached st o = Some l -> cached st' o = Some l.
Proof.
  unfold perform. destruct c as [o'|o' i|o'].
  - destruct (get_sentences st d o') as [s [r|e]] eqn:E; intros H; injection H as <- <-; eapply get_sentences_keep; eauto.
  - destruct (get_sentences st d o') as [s [r|e]] eqn:E; [|intros H; injection H as <- <-; eapply get_sentences_keep; eauto].
    destruct (py_index r i) as [[id t]|]; [destruct (d_audio d id) as [[x y]|]|]; intros H; injection H as <- <-; eapply get_sentences_keep; eauto.
  - intros H; injection H as <- <-; auto.
Qed.
Lemma perform_all_keep h : forall st st' l o x, perform_all st h = (st', l) -> cached st o = Some x -> cached st' o = Some x.
Proof.
  induction h as [|[d c] h IH]; intros st st' l o x H Hc; cbn in H; [injection H as <- <-; auto|].
  destruct (perform st d c) as [s1 a] eqn:E1. destruct (perform_all s1 h) as [s2 l2] eqn:E2. injection H as <- <-.
  eapply IH; eauto. eapply perform_keep; eauto.
Qed.
Lemma perform_agrees st d c st' a (L : nat -> list (string * option string)) : perform st d c = (st', a) ->
  (forall o l, cached st' o = Some l -> L o = l) -> agrees L c a.
Proof.
  unfold perform. destruct c as [o|o i|o]; intros H HL.
  - destruct (get_sentences st d o) as [s [r|e]] eqn:E; injection H as <- <-; cbn; auto. rewrite (HL o r); auto. eapply get_sentences_ok; eauto.
  - destruct (get_sentences st d o) as [s [r|e]] eqn:E; [|injection H as <- <-; cbn; auto].
    destruct (py_index r i) as [[id t]|] eqn:Ep; [destruct (d_audio d id) as [[x y]|]|]; injection H as <- <-; cbn; auto.
    rewrite (HL o r); [apply py_index_spec; auto|]. eapply get_sentences_ok; eauto.
  - injection H as <- <-. cbn. auto.
Qed.
