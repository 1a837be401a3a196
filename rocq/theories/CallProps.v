(** C82: the speakers and utterances of every scene are those of consecutive calls of the random
    generator. *)
From Coq Require Import Ascii String List ZArith Reals Lia Bool Permutation.
From Verif Require Import Prelude PreludeFacts SignalModel RoomModel DsModel DsSpec BldModel MetaModel LoopModel LoopSpec LoopNames LoopProofs LoopAudio CallSpec CallProofs.
From Verif Require MetaSpec LoopSceneProps.
Import ListNotations.
Local Notation length := List.length.

(** There are numbers of calls, 0 for the first scene, such that scene [i] starts with the calls after
    those of all scenes before it: one call chooses the speakers, then each speaker in turn takes
    one call for every round through their utterances. *)
Theorem C82_calls : forall E b o fuel w w' t r, fair_calls E -> build_dataset E b o fuel w = (w', (t, r)) ->
  exists first, first 0%nat = 0%nat /\ forall i p, In (Written (scene_name i) "source_info.json" p) t ->
    exists info who, p = Json info /\
      map fst who = e_sample E (first i) (ba_speakers b) (Z.to_nat (sa_n (ba_scene b))) /\
      chain (e_shuffle E) (e_corpus E w') (S (first i)) who (first (S i)) /\
      MetaSpec.item info [length who] = None /\
      forall q s ids, nth_error who q = Some (s, ids) -> exists e, MetaSpec.item info [q] = Some e /\
        MetaSpec.field e ["speaker"%string] = Some (PStr s) /\ MetaSpec.field e ["utterance_ids"%string] = Some (PList (map PStr ids)).
Proof.
  intros E b o fuel w w' t r F H. unfold build_dataset in H.
  assert (Nil : forall e : exn, (t, r) = ([], Some (Err e)) -> t = []) by (intros e K; injection K as -> ->; auto).
  assert (Done : t = [] -> exists first, first 0%nat = 0%nat /\ forall i p, In (Written (scene_name i) "source_info.json" p) t ->
    exists info who, p = Json info /\ map fst who = e_sample E (first i) (ba_speakers b) (Z.to_nat (sa_n (ba_scene b))) /\
      chain (e_shuffle E) (e_corpus E w') (S (first i)) who (first (S i)) /\ MetaSpec.item info [length who] = None /\
      forall q s ids, nth_error who q = Some (s, ids) -> exists e, MetaSpec.item info [q] = Some e /\
        MetaSpec.field e ["speaker"%string] = Some (PStr s) /\ MetaSpec.field e ["utterance_ids"%string] = Some (PList (map PStr ids))).
  { intros ->. exists (fun _ => 0%nat). split; auto. intros i p []. }
  destruct (early_checks b) as [[[room center] margin]|e] eqn:Ea; [|apply Done; injection H as _ <- <-; eapply Nil; reflexivity].
  destruct (prepare b w) as [w1|e]; [|apply Done; injection H as _ <- <-; eapply Nil; reflexivity].
  destruct (make_setup E b o w1 room center margin) as [u|e] eqn:Es; [|apply Done; injection H as _ <- <-; eapply Nil; reflexivity]. clear Nil Done.
  pose proof (setup_sound _ _ _ _ _ _ _ _ Ea Es F) as Snd. apply setup_inv in Es as (S1 & S2 & S3 & S4 & S5 & S6 & S7 & S8 & S9 & S10 & S11).
  destruct (build_scenes E u fuel (Z.to_nat (ba_scenes b)) 0 (e_gen0 E, 0%nat)) as [t1 r1] eqn:B.
  assert (Et : t = t1 /\ w' = w1) by (destruct r1 as [[s|e]|]; cbn [rbind rret] in H; rewrite ?app_nil_r in H; injection H as <- <- <-; auto).
  destruct Et as [-> ->]. clear H. destruct (scenes_calls _ _ _ _ Snd _ _ _ _ _ B) as (first & F0 & F1). exists first. split; auto.
  intros i p I. assert (Hi : (i < Z.to_nat (ba_scenes b))%nat).
  { destruct (scenes_places _ _ _ _ Snd _ _ _ _ _ B I) as (j & J & Pj). cbn [place] in Pj. apply scene_name_inj in Pj. lia. }
  destruct (F1 i Hi ltac:(eauto)) as (x & stems & d & C & Out). cbn [Nat.add] in Out.
  destruct Snd as (_ & T & _). destruct (load_all_chain _ _ _ _ _ F T _ _ _ _ _ (cm_load _ _ _ _ _ _ _ _ C)) as [M Ch].
  assert (P : p = Json (source_info (sa_motion (su_scene u)) (sd_moving d) (sn_placed x) (sn_who x))).
  { apply Out in I. destruct I as [I|[I|I]]; [|destruct I as [I _]; discriminate|apply I].
    pose proof (cm_files _ _ _ _ _ _ _ _ C) as Cf. apply audio_names in Cf. apply (in_map fst) in I. cbn [fst] in I. rewrite Cf in I.
    apply in_app_iff in I as [I|[I|[]]]; [|discriminate]. apply in_map_iff in I as (n & I & _). destruct (LoopSceneProps.source_not_json n _ I) as (_ & X & _). congruence. }
  exists (source_info (sa_motion (su_scene u)) (sd_moving d) (sn_placed x) (sn_who x)), (sn_who x). split; auto.
  split; [rewrite M, S8, S7; reflexivity|]. split; [rewrite <- S11; exact Ch|]. unfold source_info. cbn [MetaSpec.item]. split.
  - rewrite (proj2 (nth_error_None _ _)); auto. rewrite map_length, seq_length. lia.
  - intros q s ids Q. assert (Lq : (q < length (sn_who x))%nat) by (apply nth_error_Some; congruence).
    rewrite nth_error_map, (nth_error_nth' _ 0%nat) by (rewrite seq_length; auto). cbn [option_map]. rewrite seq_nth by auto. cbn [Nat.add].
    eexists. split; [reflexivity|]. rewrite (nth_error_nth _ _ _ Q). split; reflexivity.
Qed.
(** Two speakers with three utterances; the shuffles reverse the list, except that call 4 swaps the
    first two. The first speaker takes calls 3 and 4, the second one call 5 only. *)
Example C82_calls_example : let shuf := fun k l => if Nat.eqb k 4 then match l with a :: b :: r => b :: a :: r | _ => l end else rev l in
  let c := mkCorpus [] (fun s => Ok [s ++ "0"; s ++ "1"; s ++ "2"]%string) (fun _ _ => Err ValueError) in
  chain shuf c 3 [("a", ["a2"; "a1"; "a0"; "a1"; "a2"]); ("b", ["b2"])]%string 6 /\
  ~ chain shuf c 3 [("a", ["a2"; "a1"; "a0"; "a1"; "a2"]); ("b", ["b0"])]%string 6.
Proof.
  cbv zeta. split.
  - apply (chain_cons _ _ 3 2 ["a0"; "a1"; "a2"]%string); [reflexivity|split; [cbn; lia|exists ["a0"%string]; reflexivity]|].
    apply (chain_cons _ _ 5 1 ["b0"; "b1"; "b2"]%string); [reflexivity|split; [cbn; lia|exists ["b1"; "b0"]%string; reflexivity]|]. constructor.
  - intros H. inversion H as [|k m l s i rest k' U [Pl _] Ch]; subst. injection U as <-. cbn [length Nat.mul app String.append] in Pl. assert (m = 2)%nat by lia. subst m.
    inversion Ch as [|k m l s i rest k' U [Pl2 [rest' R]] Ch2]; subst. injection U as <-. cbn [length] in Pl2. assert (m = 1)%nat by lia. subst m.
    cbn in R. discriminate.
Qed.
Print Assumptions C82_calls.
