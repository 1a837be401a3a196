(** Lemmas about the calls of the random generator. *)
From Coq Require Import Ascii String List ZArith Reals Lia Bool Permutation.
From Verif Require Import Prelude PreludeFacts SignalModel DsModel DsSpec DsProofs BldModel BldProofs BldAudio LoopModel LoopSpec LoopNames LoopProofs LoopAudio CallSpec.
Import ListNotations.
Local Notation length := List.length.

Lemma rounds_S shuf k l m : rounds shuf k l (S m) = rounds shuf k l m ++ order_after shuf k l (S m).
Proof. unfold rounds. rewrite seq_S, map_app, concat_app. cbn [map concat]. rewrite app_nil_r. reflexivity. Qed.
Lemma order_length shuf k l m : (forall k l, Permutation l (shuf k l)) -> length (order_after shuf k l m) = length l.
Proof. intros P. induction m as [|m IH]; cbn [order_after]; auto. rewrite <- IH. symmetry. apply Permutation_length, P. Qed.
Lemma rounds_length shuf k l m : (forall k l, Permutation l (shuf k l)) -> length (rounds shuf k l m) = (m * length l)%nat.
Proof. intros P. induction m as [|m IH]; [reflexivity|]. rewrite rounds_S, app_length, IH, order_length by auto. lia. Qed.

(** State of the loop after [S m] shuffles. *)
Definition at_round (g : rng) (k : nat) (l order : list string) (idx : nat) (st : got) (m : nat) : Prop :=
  order = order_after (shuffle g) k l (S m) /\ g_shuffles st = (k + S m)%nat /\ (idx <= length l)%nat /\
  g_ids st = rounds (shuffle g) k l m ++ firstn idx order.
Lemma loop_rounds c g target spk k l fuel : (forall k l, Permutation l (shuffle g k l)) -> forall order idx total st st' m,
  at_round g k l order idx st m -> (0 < idx)%nat \/ (total < target)%Z ->
  fixed_loop c g target spk fuel order idx total st = Some (Ok st') ->
  exists order' idx' m', at_round g k l order' idx' st' m' /\ (0 < idx')%nat.
Proof.
  intros P. induction fuel as [|fuel IH]; intros order idx total st st' m (A1 & A2 & A3 & A4) Hs H; [discriminate|]. cbn [fixed_loop] in H.
  destruct (Z.ltb_spec total target) as [Lt|Ge]; cbn [negb] in H.
  2: { injection H as <-. exists order, idx, m. split; [repeat split; auto|]. destruct Hs; [auto|lia]. }
  assert (Lo : length order = length l) by (rewrite A1; apply order_length; auto).
  assert (W : exists order2 idx2 k2 m2, (if length order <=? idx then (shuffle g (g_shuffles st) order, 0, S (g_shuffles st)) else (order, idx, g_shuffles st))%nat = (order2, idx2, k2) /\
    order2 = order_after (shuffle g) k l (S m2) /\ k2 = (k + S m2)%nat /\ length order2 = length l /\ g_ids st = rounds (shuffle g) k l m2 ++ firstn idx2 order2).
  { destruct (length order <=? idx)%nat eqn:Q.
    - apply Nat.leb_le in Q. do 3 eexists. exists (S m). split; [reflexivity|]. rewrite A2. split; [rewrite A1; reflexivity|]. split; [lia|].
      split; [rewrite <- Lo; symmetry; apply Permutation_length, P|]. cbn [firstn]. rewrite app_nil_r, rounds_S, A4, firstn_all2 by auto. rewrite <- A1. reflexivity.
    - exists order, idx, (g_shuffles st), m. auto. }
  destruct W as (order2 & idx2 & k2 & m2 & Ew & B1 & B2 & B3 & B4). rewrite Ew in H.
  destruct (nth_error order2 idx2) as [u|] eqn:Eu; [|discriminate]. destruct (audio_of c spk u) as [[a rate]|]; [|discriminate].
  apply IH with (m := m2) in H; auto; [|left; lia].
  assert (idx2 < length order2)%nat by (apply nth_error_Some; congruence).
  split; [exact B1|]. split; [exact B2|]. split; [lia|]. cbn [g_ids]. rewrite B4, (firstn_S_nth _ _ _ Eu), app_assoc. reflexivity.
Qed.
Lemma load_played c g target fuel k spk k' row ids : (forall k l, Permutation l (shuffle g k l)) -> (0 < target)%Z ->
  load_fixed_length_signal c g target fuel k spk = Some (Ok (k', row, ids)) ->
  exists l m, utts c spk = Ok l /\ k' = (k + m)%nat /\ played (shuffle g) k m l ids.
Proof.
  intros P T H. unfold load_fixed_length_signal in H. destruct (utts c spk) as [l|] eqn:Eu; [|discriminate]. destruct l as [|u0 l']; [discriminate|].
  set (l := u0 :: l') in *. destruct (fixed_loop _ _ _ _ _ _ _ _ _) as [[st|e]|] eqn:EL; try discriminate.
  destruct (cut (g_segs st) target); [|discriminate].
  apply loop_rounds with (k := k) (l := l) (m := 0%nat) in EL; auto.
  - destruct EL as (order & idx & m & (A1 & A2 & A3 & A4) & Hi). assert (E : (g_shuffles st, g_ids st) = (k', ids)) by congruence. injection E as E1 E2.
    exists l, (S m). split; auto. split; [congruence|]. subst ids. split.
    + rewrite A4, app_length, rounds_length, firstn_length, A1, order_length by auto. cbn [Nat.mul]. lia.
    + exists (skipn idx order). rewrite A4, <- app_assoc, firstn_skipn, rounds_S, <- A1. reflexivity.
  - split; [cbn [order_after]; rewrite Nat.add_0_r; reflexivity|]. split; [cbn; lia|]. split; [lia|reflexivity].
Qed.
Lemma load_all_chain E c target fuel l : fair_calls E -> (0 < target)%Z -> forall k k' rows who t,
  load_all E c target fuel k l = (t, Some (Ok (k', rows, who))) -> map fst who = l /\ chain (e_shuffle E) c k who k'.
Proof.
  intros F T. induction l as [|spk l IH]; intros k k' rows who t H; cbn [load_all] in H.
  - injection H as _ <- _ <-. split; [reflexivity|constructor].
  - destruct (load_fixed_length_signal _ _ _ _ _ _) as [[[[k1 row] ids]|e]|] eqn:L; try discriminate.
    apply rbind_ok in H as (t1 & [[k2 rows'] who'] & t2 & H1 & H2 & _). injection H2 as _ <- _ <-.
    apply IH in H1 as [A B]. split; [cbn; congruence|]. apply load_played in L as (u & m & U & -> & Pl); auto; [|apply (F 0%nat)].
    econstructor; eauto.
Qed.
(** Every scene starts with the call after the last one of the scene before it. *)
Lemma scenes_calls E u fuel n : sound E u -> forall idx g k t r, build_scenes E u fuel n idx (g, k) = (t, r) ->
  exists first, first 0%nat = k /\ forall i, (i < n)%nat -> (exists f p, In (Written (scene_name (idx + i)) f p) t) ->
  exists x stems d, computed E u fuel (first i) d (first (S i)) x stems /\
    forall f p, In (Written (scene_name (idx + i)) f p) t -> scene_output E u (scene_name (idx + i)) d x f p.
Proof.
  intros Snd. induction n as [|n IH]; intros idx g k t r H; [exists (fun _ => k); split; [auto|lia]|]. cbn [build_scenes] in H.
  destruct (build_scene E u fuel idx (g, k)) as [t1 r1] eqn:B.
  assert (P1 : forall h, In h t1 -> place h = scene_name idx).
  { destruct (scene_trace _ _ _ _ _ _ _ Snd B) as (P & _). rewrite Forall_forall in P. exact P. }
  assert (Here : exists k1, (forall g' k', r1 = Some (Ok (g', k')) -> k1 = k') /\
    ((exists f p, In (Written (scene_name idx) f p) t1) -> exists x stems d, computed E u fuel k d k1 x stems /\
      forall f p, In (Written (scene_name idx) f p) t1 -> scene_output E u (scene_name idx) d x f p)).
  { clear H. unfold build_scene in B. destruct (e_draw E (su_scene u) g) as [d g1] eqn:Ed. cbn [rlog rbind] in B.
    destruct (compute_scene E u fuel k d) as [tc rc] eqn:Ec. pose proof (compute_silent E u fuel k d) as Sl. unfold silent in Sl. rewrite Ec in Sl. cbn in Sl. subst tc.
    destruct rc as [[[k' x]|e]|]; cbn [rbind] in B.
    2, 3: exists 0%nat; injection B as <- <-; split; [intros; discriminate|intros (f & p & [I|[]]); discriminate].
    destruct (compute_ok _ _ _ _ _ _ _ _ Ec) as [_ [stems C]]. cbn [snd fst] in B.
    destruct (write_scene E u (scene_name idx) d x) as [tw rw] eqn:Wr. exists k'.
    assert (Et : t1 = Directory (scene_name idx) :: tw) by (destruct rw as [[[]|e]|]; cbn [rbind rret app] in B; injection B as <- <-; rewrite ?app_nil_r; reflexivity).
    split.
    - intros g2 k2 ->. destruct rw as [[[]|e]|]; cbn [rbind rret app] in B; congruence.
    - intros _. exists x, stems, d. split; auto. intros f p I. rewrite Et in I. destruct I as [I|I]; [discriminate|]. apply (write_origin _ _ _ _ _ _ _ _ _ _ Wr I). }
  destruct Here as (k1 & K1 & Here).
  assert (Cases : exists t2 first, t = (t1 ++ t2)%list /\ first 0%nat = k1 /\ (forall h, In h t2 -> exists i, place h = scene_name (S idx + i)) /\
    forall i, (i < n)%nat -> (exists f p, In (Written (scene_name (S idx + i)) f p) t2) -> exists x stems d, computed E u fuel (first i) d (first (S i)) x stems /\
      forall f p, In (Written (scene_name (S idx + i)) f p) t2 -> scene_output E u (scene_name (S idx + i)) d x f p).
  { destruct r1 as [[[g' k']|e]|]; cbn [rbind] in H; [|exists [], (fun _ => k1); rewrite app_nil_r; injection H as <- <-; split; [auto|split; [auto|split; [intros h []|intros i _ (f & p & [])]]]..].
    destruct (build_scenes E u fuel n (S idx) (g', k')) as [t2 r2] eqn:B2. injection H as <- <-. destruct (IH _ _ _ _ _ B2) as (first & F0 & F1).
    exists t2, first. split; auto. split; [rewrite F0; symmetry; eapply K1; reflexivity|]. split; auto.
    intros h Hh. destruct (scenes_places _ _ _ _ Snd _ _ _ _ h B2 Hh) as (j & _ & Pj). eauto. }
  destruct Cases as (t2 & first & -> & F0 & P2 & Rest). exists (fun i => match i with O => k | S i => first i end). split; auto.
  intros [|i] Hi Hx.
  - rewrite Nat.add_0_r, F0 in *.
    assert (Only : forall f p, In (Written (scene_name idx) f p) (t1 ++ t2) -> In (Written (scene_name idx) f p) t1).
    { intros f p I. apply in_app_iff in I as [I|I]; auto. apply P2 in I as [j Pj]. cbn [place] in Pj. apply scene_name_inj in Pj. lia. }
    destruct Here as (x & stems & d & C & O); [destruct Hx as (f & p & I); eauto|]. exists x, stems, d. split; auto.
  - rewrite Nat.add_succ_r in *. change (S (idx + i)) with (S idx + i)%nat in *.
    assert (Only : forall f p, In (Written (scene_name (S idx + i)) f p) (t1 ++ t2) -> In (Written (scene_name (S idx + i)) f p) t2).
    { intros f p I. apply in_app_iff in I as [I|I]; auto. apply P1 in I. cbn [place] in I. apply scene_name_inj in I. lia. }
    destruct (Rest i ltac:(lia)) as (x & stems & d & C & O); [destruct Hx as (f & p & I); eauto|]. exists x, stems, d. split; auto.
Qed.
