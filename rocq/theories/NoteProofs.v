(** Lemmas about the notes on the layouts. *)
From Coq Require Import Ascii String List ZArith Reals Bool Lia Lra.
From Flocq Require Import Core.
From Verif Require Import Prelude PreludeFacts SignalModel FloatModel BldModel LoopModel LoopSpec LoopNames CliModel CliSpec CliTriple NoteModel NoteSpec.
From Verif Require EdsProofs.
Import ListNotations.
Local Notation length := List.length.
Local Open Scope R_scope.

(** ** Numbers *)
Lemma nearest_even x : 0 <= x -> let n := Z.to_nat (ZnearestE x) in
  Rabs (x - INR n) <= / 2 /\ (Rabs (x - INR n) = / 2 -> Nat.even n = true).
Proof.
  intros H n. assert (P : (0 <= ZnearestE x)%Z).
  { pose proof (Znearest_ge_floor (fun z => negb (Z.even z)) x). assert (0 <= Zfloor x)%Z; [|lia]. apply Zfloor_lub. exact H. }
  assert (N : INR n = IZR (ZnearestE x)) by (unfold n; rewrite INR_IZR_INZ, Z2Nat.id by auto; reflexivity).
  rewrite N. split; [apply Znearest_half|]. intros T.
  assert (E : Z.even (ZnearestE x) = true).
  { unfold Znearest in *. pose proof (Zfloor_lb x) as F. destruct (Rcompare_spec (x - IZR (Zfloor x)) (/ 2)) as [C|C|C].
    - rewrite Rabs_right in T by lra. lra.
    - destruct (Z.even (Zfloor x)) eqn:Ev; cbn [negb]; auto. rewrite Zceil_floor_neq by lra. rewrite Z.even_add, Ev. reflexivity.
    - rewrite Zceil_floor_neq in T by lra. rewrite plus_IZR in T. pose proof (Zfloor_ub x).
      rewrite Rabs_left in T by lra. lra. }
  unfold n. rewrite <- E. clear - P. destruct (Z_of_nat_complete _ P) as (k & ->). rewrite Nat2Z.id. 
  induction k as [k IH] using lt_wf_ind. destruct k as [|[|k]]; auto. cbn [Nat.even]. rewrite IH by lia.
  rewrite !Nat2Z.inj_succ. rewrite !Z.even_succ, Z.odd_succ. reflexivity.
Qed.
Lemma fixed2_nonneg x : 0 <= x -> fixed2 x = (dec (hundredths x / 100) ++ "." ++ padded 2 (hundredths x mod 100))%string.
Proof. intros H. unfold fixed2, Rltb. destruct (Rlt_dec x 0); [lra|reflexivity]. Qed.
Lemma dec_writes n : writes 1 n (dec n).
Proof.
  pose proof (padded_writes 1 n ltac:(lia)) as P. unfold padded in P. pose proof (dec_nonempty n) as D. rewrite length_chars in D.
  replace (1 - String.length (dec n))%nat with 0%nat in P by lia. exact P.
Qed.
Lemma hundredths_two n : two_decimals n (dec (n / 100) ++ "." ++ padded 2 (n mod 100)).
Proof. exists (dec (n / 100)), (padded 2 (n mod 100)). split; auto. split; [apply dec_writes|apply padded_writes; lia]. Qed.
Lemma fixed2_shows x : 0 <= x -> shows (fixed2 x) x.
Proof.
  intros H. rewrite fixed2_nonneg by auto. exists (hundredths x). split; [apply hundredths_two|].
  unfold hundredths. rewrite (Rabs_right x) by lra. destruct (nearest_even (x * 100) ltac:(lra)) as (A & B). set (n := Z.to_nat _) in *.
  assert (E : Rabs (x - INR n / 100) = Rabs (x * 100 - INR n) / 100).
  { replace (x - INR n / 100) with ((x * 100 - INR n) / 100) by field. unfold Rdiv. rewrite Rabs_mult. rewrite (Rabs_right (/ 100)) by lra. reflexivity. }
  rewrite E. split; [lra|]. intros T. apply B. lra.
Qed.
(** ** Reading *)
Lemma cut_at c a b r r' : ~ In c (chars a) -> ~ In c (chars b) -> (a ++ String c r = b ++ String c r')%string -> a = b /\ r = r'.
Proof.
  revert b. induction a as [|x a IH]; intros [|y b] A B E; cbn in *.
  - injection E as E. auto.
  - injection E as E _. exfalso. apply B. auto.
  - injection E as E _. exfalso. apply A. auto.
  - injection E as -> E. destruct (IH b) as (-> & ->); auto.
Qed.
Lemma digit_not c s : Forall digit (chars s) -> (nat_of_ascii c < 48 \/ 57 < nat_of_ascii c)%nat -> ~ In c (chars s).
Proof. intros F N I. rewrite Forall_forall in F. specialize (F c I). unfold digit in F. lia. Qed.
Lemma two_inj n n' s : two_decimals n s -> two_decimals n' s -> n = n'.
Proof.
  intros (a & b & -> & A & B) (a' & b' & E & A' & B').
  assert (K : forall w k t, writes w k t -> ~ In "."%char (chars t)).
  { intros w k t (F & _). apply digit_not; [exact F|cbn; lia]. }
  cbn [append] in E. destruct (cut_at _ _ _ _ _ (K _ _ _ A) (K _ _ _ A') E) as (<- & <-). apply (writes_inj _ _ _ _ A) in A'. apply (writes_inj _ _ _ _ B) in B'.
  rewrite (Nat.div_mod n 100), (Nat.div_mod n' 100) by lia. lia.
Qed.
Lemma shows_near s x y : shows s x -> shows s y -> Rabs (x - y) <= / 100.
Proof.
  intros (n & A & B & _) (n' & A' & B' & _). rewrite (two_inj _ _ _ A' A) in B'.
  apply Rabs_le. apply Rabs_le_inv in B, B'. lra.
Qed.
Lemma two_fun n s s' : two_decimals n s -> two_decimals n s' -> s = s'.
Proof.
  intros (a & b & -> & A & B) (a' & b' & -> & A' & B'). rewrite (EdsProofs.writes_fun 1 _ _ _ ltac:(lia) A A'), (EdsProofs.writes_fun 2 _ _ _ ltac:(lia) B B'). reflexivity.
Qed.
Lemma shows_fun s s' x : shows s x -> shows s' x -> s = s'.
Proof.
  intros (n & A & B & C) (n' & A' & B' & C'). assert (n = n') as <-; [|eapply two_fun; eauto].
  assert (G : forall n n', (n < n')%nat -> Rabs (x - INR n / 100) <= / 200 -> Rabs (x - INR n' / 100) <= / 200 ->
    (Rabs (x - INR n / 100) = / 200 -> Nat.even n = true) -> (Rabs (x - INR n' / 100) = / 200 -> Nat.even n' = true) -> False).
  { clear. intros n n' L B B' C C'. apply le_INR in L as L'. rewrite S_INR in L'. apply Rabs_le_inv in B as B1, B' as B1'.
    assert (INR n' = INR n + 1) by lra. assert (E : n' = S n) by (apply INR_eq; rewrite S_INR; auto). subst n'.
    assert (H1 : Nat.even n = true) by (apply C; rewrite Rabs_right; lra).
    assert (H2 : Nat.even (S n) = true) by (apply C'; rewrite Rabs_left; lra).
    rewrite Nat.even_succ, <- Nat.negb_even, H1 in H2. discriminate. }
  destruct (Nat.lt_trichotomy n n') as [L|[L|L]]; auto; exfalso; eapply G; eauto.
Qed.
Lemma item_no_comma p s : item p s -> ~ In ","%char (chars s).
Proof.
  intros (i & v & -> & (F & _) & (n & (a & b & -> & (A & _) & (B & _)) & _)).
  rewrite !chars_app. intros I. apply in_app_or in I as [I|I]; [cbn in I; intuition discriminate|].
  apply in_app_or in I as [I|I]; [revert I; apply digit_not; [assumption|cbn; lia]|].
  apply in_app_or in I as [I|I]; [cbn in I; intuition discriminate|].
  apply in_app_or in I as [I|I]; [|cbn in I; intuition discriminate].
  apply in_app_or in I as [I|I]; [revert I; apply digit_not; [assumption|cbn; lia]|].
  apply in_app_or in I as [I|I]; [cbn in I; intuition discriminate|revert I; apply digit_not; [assumption|cbn; lia]].
Qed.
Lemma item_read p q s : item p s -> item q s -> fst p = fst q /\ Rabs (snd p - snd q) <= / 100.
Proof.
  intros (i & v & -> & A & B) (i' & v' & E & A' & B'). cbn [append] in E. injection E as E.
  assert (K : forall w k t, writes w k t -> ~ In "="%char (chars t)).
  { intros w k t (F & _). apply digit_not; [exact F|cbn; lia]. }
  destruct (cut_at _ _ _ _ _ (K _ _ _ A) (K _ _ _ A') E) as (<- & E'). apply append_cancel_r in E' as <-. split; [eapply writes_inj; eauto|eapply shows_near; eauto].
Qed.
Lemma item_head p s : item p s -> exists t, s = String "S" t.
Proof. intros (i & v & -> & _). cbn [append]. eauto. Qed.
Lemma concat_cons p q l : String.concat ", " (p :: q :: l) = (p ++ String "," (String " " (String.concat ", " (q :: l))))%string.
Proof. reflexivity. Qed.
Lemma concat_inj l : forall l', Forall (fun p => ~ In ","%char (chars p)) l -> Forall (fun p => ~ In ","%char (chars p)) l' -> l <> [] -> l' <> [] ->
  String.concat ", " l = String.concat ", " l' -> l = l'.
Proof.
  assert (K : forall p q r, ~ In ","%char (chars p) -> p <> (q ++ String "," r)%string).
  { intros p q r N E. apply N. rewrite E, chars_app. apply in_or_app. right. left. reflexivity. }
  induction l as [|p l IH]; intros l' F F' N N' E; [contradiction|]. destruct l' as [|p' l']; [contradiction|].
  inversion_clear F as [|? ? P Q]. inversion_clear F' as [|? ? P' Q'].
  destruct l as [|q l], l' as [|q' l'].
  - cbn in E. subst. reflexivity.
  - rewrite concat_cons in E. cbn in E. exfalso. eapply K; [exact P|exact E].
  - rewrite concat_cons in E. cbn in E. exfalso. eapply K; [exact P'|symmetry; exact E].
  - rewrite !concat_cons in E. apply cut_at in E as (-> & E); auto. injection E as E. f_equal. apply IH; auto; discriminate.
Qed.
Lemma lists_read l l' s : lists l s -> lists l' s ->
  Forall2 (fun p q => fst p = fst q /\ Rabs (snd p - snd q) <= / 100) l l'.
Proof.
  assert (Z : forall l parts, l <> [] -> Forall2 item l parts -> String.concat ", " parts <> "none"%string).
  { intros k parts N F E. inversion F as [|p s' k' parts' I F' E1 E2]; [subst; contradiction|]. subst parts.
    apply item_head in I as (t & ->). destruct parts'; cbn in E; discriminate. }
  intros [(-> & ->)|(N & parts & F & E)] [(-> & E')|(N' & parts' & F' & E')].
  - constructor.
  - exfalso. eapply Z; eauto.
  - exfalso. subst s. eapply Z; eauto.
  - assert (G : forall l parts, Forall2 item l parts -> Forall (fun p => ~ In ","%char (chars p)) parts).
    { clear. induction 1; constructor; auto. eapply item_no_comma; eauto. }
    assert (parts = parts') as <-.
    { apply concat_inj; eauto; try congruence; intros ->; [inversion F|inversion F']; subst; contradiction. }
    clear - F F'. revert l' F'. induction F as [|p s l parts I F IH]; intros l' F'; inversion F' as [|q ? l2 ? J F2]; subst; constructor; eauto.
    eapply item_read; eauto.
Qed.
(** ** Items *)
Fixpoint moving_list (i : nat) (l : list R) : list (nat * R) :=
  match l with [] => [] | v :: l => if Rltb 0 v then (i, v) :: moving_list (S i) l else moving_list (S i) l end.
Lemma items_list l : forall i, Forall2 item (moving_list i l) (speed_items i l).
Proof.
  induction l as [|v l IH]; intros i; cbn; [constructor|]. unfold Rltb. destruct (Rlt_dec 0 v) as [P|P]; [|apply IH]. constructor; [|apply IH].
  exists (dec i), (fixed2 v). split; [reflexivity|]. split; [apply dec_writes|apply fixed2_shows; cbn; lra].
Qed.
Lemma in_moving l : forall k i x, In (i, x) (moving_list k l) <-> (k <= i)%nat /\ nth_error l (i - k) = Some x /\ 0 < x.
Proof.
  induction l as [|v l IH]; intros k i x; cbn [moving_list].
  - split; [intros []|]. intros (_ & E & _). destruct (i - k)%nat; discriminate.
  - assert (S1 : In (i, x) (moving_list (S k) l) <-> (k < i)%nat /\ nth_error (v :: l) (i - k) = Some x /\ 0 < x).
    { rewrite IH. split.
      - intros (A & B). split; [lia|]. replace (i - k)%nat with (S (i - S k)) by lia. exact B.
      - intros (A & B). split; [lia|]. replace (i - k)%nat with (S (i - S k)) in B by lia. exact B. }
    unfold Rltb. destruct (Rlt_dec 0 v) as [P|P].
    + cbn [In]. rewrite S1. split.
      * intros [E|(A & B)]; [|split; [lia|auto]]. injection E as <- <-. rewrite Nat.sub_diag. auto.
      * intros (A & B & C). destruct (Nat.eq_dec k i) as [<-|N]; [|right; split; [lia|auto]]. left. rewrite Nat.sub_diag in B. injection B as <-. reflexivity.
    + rewrite S1. split; intros (A & B & C); [split; [lia|auto]|]. destruct (Nat.eq_dec k i) as [<-|N]; [|split; [lia|auto]].
      rewrite Nat.sub_diag in B. injection B as <-. contradiction.
Qed.
Lemma moving_sorted l : forall k a b p q, (a < b)%nat -> nth_error (moving_list k l) a = Some p -> nth_error (moving_list k l) b = Some q -> (fst p < fst q)%nat.
Proof.
  induction l as [|v l IH]; intros k a b p q L A B; cbn [moving_list] in *; [destruct a; discriminate|]. unfold Rltb in *. destruct (Rlt_dec 0 v) as [P|P].
  - destruct b as [|b]; [lia|]. cbn in B. destruct a as [|a].
    + cbn in A. injection A as <-. apply nth_error_In in B. destruct q as [i x]. apply in_moving in B. cbn. lia.
    + cbn in A. eapply IH; [|exact A|exact B]. lia.
  - eapply IH; eauto.
Qed.
Lemma moving_positives v : positives v (moving_list 0 v).
Proof.
  split; [|apply moving_sorted]. intros i x. rewrite in_moving, Nat.sub_0_r. split; [intros (_ & A); exact A|intros A; split; [lia|auto]].
Qed.
Lemma speed_text_lists v : lists (moving_list 0 v) (speed_text v).
Proof.
  unfold speed_text. pose proof (items_list v 0) as F. destruct (moving_list 0 v) as [|p l]; inversion F as [|? s ? parts]; subst.
  - left. auto.
  - right. split; [discriminate|]. exists (s :: parts). auto.
Qed.
