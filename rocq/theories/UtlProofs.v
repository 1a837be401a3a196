(** Lemmas about devices and logging. *)
From Coq Require Import Ascii String List ZArith Lia Bool.
From Verif Require Import Prelude DirModel DirSpec DirProofs UtlModel UtlSpec.
Import ListNotations.
Local Notation length := List.length.

(** ** Devices *)
Lemma lower_app a b : lower (a ++ b) = (lower a ++ lower b)%string.
Proof. induction a; cbn; auto. rewrite IHa. auto. Qed.
Lemma lowercase_names : lowercase "auto" /\ lowercase "cpu" /\ lowercase "mps" /\ lowercase "cuda".
Proof. cbn. unfold lower_char. cbn. lia. Qed.
Lemma prefix_cons x p s : String.prefix (String x p) (lower s) = true ->
  exists a s', s = String a s' /\ x = lower_ascii a /\ String.prefix p (lower s') = true.
Proof.
  destruct s as [|a s']; [discriminate|]. change (lower (String a s')) with (String (lower_ascii a) (lower s')).
  intros H. exists a, s'. cbn [String.prefix] in H. destruct (ascii_dec x (lower_ascii a)); [auto|discriminate].
Qed.
Lemma prefix_cuda s : String.prefix "cuda" (lower s) = true <-> asks_cuda s.
Proof.
  destruct lowercase_names as (_ & _ & _ & L). split.
  - intros H. apply prefix_cons in H. destruct H as (a & s1 & -> & Ha & H). apply prefix_cons in H. destruct H as (b & s2 & -> & Hb & H).
    apply prefix_cons in H. destruct H as (c & s3 & -> & Hc & H). apply prefix_cons in H. destruct H as (d & s4 & -> & Hd & H).
    exists (String a (String b (String c (String d "")))), s4. split; auto.
    apply lower_spells; auto. cbn. congruence.
  - intros (a & b & -> & S). apply lower_spells in S; auto. rewrite lower_app, S. cbn. destruct (lower b); auto.
Qed.
Lemma eqb_lower s n : lowercase n -> String.eqb (lower s) n = true <-> spells s n.
Proof. intros L. rewrite String.eqb_eq. apply lower_spells. auto. Qed.
Lemma cut_colon_app s : forall k i, cut_colon s = (k, i) -> exists r, s = (k ++ r)%string.
Proof.
  induction s as [|c s IH]; cbn; intros k i E; [injection E as <- <-; exists ""%string; auto|].
  destruct (Ascii.eqb c ":"); [injection E as <- <-; eexists; reflexivity|].
  destruct (cut_colon s) as [a b]. injection E as <- <-. destruct (IH a b eq_refl) as (r & ->). exists r. auto.
Qed.
Lemma torch_device_cuda s d : torch_device s = Ok d -> asks_cuda s -> kind d = "cuda"%string.
Proof.
  unfold torch_device. destruct (cut_colon s) as [k i] eqn:E. apply cut_colon_app in E. destruct E as (r & ->).
  destruct (str_in k known_types) eqn:K; [|discriminate]. intros Hd Hc.
  assert (Kd : kind d = k).
  { destruct i as [t|]; [destruct (parse_index t); [|discriminate]|]; injection Hd as <-; auto. }
  rewrite Kd. clear Hd Kd. apply prefix_cuda in Hc. rewrite lower_app in Hc.
  unfold str_in in K. apply existsb_exists in K. destruct K as (x & Hx & Ex). apply String.eqb_eq in Ex. subst x.
  cbn in Hx. decompose [or] Hx; try contradiction; subst k; try reflexivity; cbn in Hc; discriminate Hc.
Qed.
Lemma torch_device_err s e : torch_device s = Err e -> e = RuntimeError.
Proof.
  unfold torch_device. destruct (cut_colon s) as [k [t|]]; destruct (str_in k known_types); try destruct (parse_index t); congruence.
Qed.
Lemma ascii_digit d : d <= 9 -> nat_of_ascii (ascii_of_nat (48 + d)) = 48 + d.
Proof. intros H. apply nat_ascii_embedding. lia. Qed.
Lemma numeral_written ds : forall acc, Forall (fun d => d <= 9) ds ->
  numeral acc (written ds) = Some (fold_left (fun acc d => 10 * acc + d) ds acc).
Proof.
  induction ds as [|d ds IH]; intros acc H; [reflexivity|]. apply Forall_cons_iff in H as [Hd H]. cbn [written numeral]. rewrite ascii_digit by auto.
  destruct (Nat.leb_spec 48 (48 + d)); [|lia]. destruct (Nat.leb_spec (48 + d) 57); [|lia]. cbn [andb].
  replace (48 + d - 48) with d by lia. rewrite IH by auto. reflexivity.
Qed.
Lemma numeral_inv s : forall acc n, numeral acc s = Some n -> exists ds, Forall (fun d => d <= 9) ds /\ s = written ds.
Proof.
  induction s as [|c s IH]; intros acc n H; [exists []; auto|]. cbn [numeral] in H.
  destruct (Nat.leb_spec 48 (nat_of_ascii c)); [|discriminate]. destruct (Nat.leb_spec (nat_of_ascii c) 57); [|discriminate]. cbn [andb] in H.
  destruct (IH _ _ H) as (ds & F & ->). exists (nat_of_ascii c - 48 :: ds). split; [constructor; auto; lia|]. cbn [written].
  f_equal. rewrite <- (ascii_nat_embedding c) at 1. f_equal. lia.
Qed.
Lemma parse_index_iff s n : parse_index s = Some n <-> exists ds, s = written ds /\ numeral_of ds n.
Proof.
  assert (Z : forall c s', parse_index (String c s') = if Ascii.eqb c "0" then match s' with EmptyString => Some 0 | _ => None end else numeral 0 (String c s')).
  { intros c s'. destruct (Ascii.eqb_spec c "0") as [->|N]; [destruct s'; reflexivity|].
    destruct c as [[] [] [] [] [] [] [] []]; try reflexivity. contradiction N. reflexivity. }
  split.
  - destruct s as [|c s']; [discriminate|]. rewrite Z. destruct (Ascii.eqb_spec c "0") as [->|N].
    + destruct s'; [|discriminate]. intros H. injection H as <-. exists [0]. split; [reflexivity|]. split; [repeat constructor|]. split; [exists 0, []; auto|reflexivity].
    + intros H. destruct (numeral_inv _ _ _ H) as (ds & F & E). exists ds. split; auto. split; auto. rewrite E, numeral_written in H by auto.
      split; [|congruence]. destruct ds as [|d ds]; [discriminate|]. exists d, ds. split; auto. intros ->. injection E as E _. contradiction.
  - intros (ds & -> & F & (d & ds' & -> & H0) & ->). cbn [written]. rewrite Z. destruct (Nat.eq_dec d 0) as [->|N].
    + rewrite H0 by auto. reflexivity.
    + destruct (Ascii.eqb_spec (ascii_of_nat (48 + d)) "0") as [E|_].
      * exfalso. apply (f_equal nat_of_ascii) in E. rewrite ascii_digit in E by (apply Forall_cons_iff in F; tauto). change (nat_of_ascii "0") with 48 in E. lia.
      * apply (numeral_written (d :: ds') 0). auto.
Qed.
Lemma usable_dec m b : {usable m b} + {~ usable m b}.
Proof.
  unfold usable. destruct (string_dec b "cpu"); [left; auto|]. destruct (m b) eqn:E.
  - destruct (string_dec b "cuda"); [left; auto|]. destruct (string_dec b "mps"); [left; auto|]. right. tauto.
  - right. intros [?|[_ ?]]; congruence.
Qed.
Lemma auto_first m prefer : first_choice m prefer (auto_device m prefer).
Proof.
  induction prefer as [|b rest IH]; [right; cbn; auto|].
  assert (U : usable m b -> auto_device m (b :: rest) = mkDev b None).
  { intros [->|[[->| ->] E]]; cbn; auto; rewrite E; auto. }
  assert (N : ~ usable m b -> auto_device m (b :: rest) = auto_device m rest).
  { intros N. cbn. destruct (String.eqb b "cuda") eqn:E1; [apply String.eqb_eq in E1; subst; destruct (m "cuda"%string) eqn:E; [destruct N; right; auto|auto]|].
    destruct (String.eqb b "mps") eqn:E2; [apply String.eqb_eq in E2; subst; destruct (m "mps"%string) eqn:E; [destruct N; right; auto|auto]|].
    destruct (String.eqb b "cpu") eqn:E3; [apply String.eqb_eq in E3; subst; destruct N; left; auto|auto]. }
  destruct (usable_dec m b) as [Y|Y].
  - left. exists [], b, rest. rewrite U by auto. auto.
  - rewrite N by auto. destruct IH as [(l1 & x & l2 & -> & F & Ux & E)|[F E]].
    + left. exists (b :: l1), x, l2. auto.
    + right. auto.
Qed.
Lemma first_choice_unique m prefer d d' : first_choice m prefer d -> first_choice m prefer d' -> d = d'.
Proof.
  assert (G : forall l d, first_choice m l d -> d = auto_device m l).
  { induction l as [|b l IH]; intros x [(l1 & y & l2 & E & F & U & ->)|[F ->]].
    - destruct l1; discriminate.
    - auto.
    - destruct l1 as [|z l1].
      + injection E as <- <-. destruct U as [->|[[->| ->] U]]; cbn; auto; rewrite U; auto.
      + injection E as <- ->. inversion F as [|? ? N F']; subst.
        assert (Q : auto_device m (b :: l1 ++ y :: l2) = auto_device m (l1 ++ y :: l2)).
        { cbn. destruct (String.eqb b "cuda") eqn:E1; [apply String.eqb_eq in E1; subst; destruct (m "cuda"%string) eqn:E; [destruct N; right; auto|auto]|].
          destruct (String.eqb b "mps") eqn:E2; [apply String.eqb_eq in E2; subst; destruct (m "mps"%string) eqn:E; [destruct N; right; auto|auto]|].
          destruct (String.eqb b "cpu") eqn:E3; [apply String.eqb_eq in E3; subst; destruct N; left; auto|auto]. }
        rewrite Q. apply IH. left. exists l1, y, l2. auto.
    - inversion F as [|? ? N F']; subst. cbn.
      destruct (String.eqb b "cuda") eqn:E1; [apply String.eqb_eq in E1; subst; destruct (m "cuda"%string) eqn:E; [destruct N; right; auto|]|].
      + cbn. rewrite (IH cpu); auto. right; auto.
      + destruct (String.eqb b "mps") eqn:E2; [apply String.eqb_eq in E2; subst; destruct (m "mps"%string) eqn:E; [destruct N; right; auto|]|].
        * cbn. rewrite (IH cpu); auto. right; auto.
        * cbn. destruct (String.eqb b "cpu"); auto. rewrite (IH cpu); auto. right; auto. }
  intros A B. rewrite (G _ _ A), (G _ _ B). auto.
Qed.
Lemma first_tensor_leading {D} (values : list (option (tdev * D))) : leading values (first_tensor values).
Proof.
  unfold first_tensor. assert (K : forall (l : list (option (tdev * D))) t, fold_left (fun acc v => match acc with Some _ => acc | None => v end) l (Some t) = Some t).
  { induction l; cbn; auto. }
  induction values as [|v values IH]; [left; auto|]. cbn. destruct v as [t|].
  - rewrite K. right. exists [], values. repeat split; auto. discriminate.
  - destruct IH as [[E F]|(l1 & l2 & N & E & F)].
    + left. split; auto.
    + right. exists (None :: l1), l2. repeat split; auto. cbn. f_equal. exact E.
Qed.

(** ** Logging *)
Lemma upper_reads c d : lower_char d -> upper_ascii c = upper_ascii d <-> reads c d.
Proof.
  unfold lower_char, upper_ascii, reads. intros Hd.
  pose proof (nat_ascii_bounded c) as Bc. pose proof (nat_ascii_bounded d) as Bd.
  assert (A : forall a b, nat_of_ascii a = nat_of_ascii b -> a = b).
  { intros a b E. rewrite <- (ascii_nat_embedding a), <- (ascii_nat_embedding b), E. auto. }
  assert (N : forall k, k < 256 -> nat_of_ascii (ascii_of_nat k) = k) by (intros; apply nat_ascii_embedding; auto).
  destruct ((97 <=? nat_of_ascii c) && (nat_of_ascii c <=? 122)) eqn:C; destruct ((97 <=? nat_of_ascii d) && (nat_of_ascii d <=? 122)) eqn:D;
    (apply andb_true_iff in C || apply andb_false_iff in C); (apply andb_true_iff in D || apply andb_false_iff in D);
    rewrite ?Nat.leb_le, ?Nat.leb_gt in C; rewrite ?Nat.leb_le, ?Nat.leb_gt in D.
  - split.
    + intros E. left. apply A. apply (f_equal nat_of_ascii) in E. rewrite !N in E by lia. lia.
    + intros [->|[H1 H2]]; auto. lia.
  - split.
    + intros E. apply (f_equal nat_of_ascii) in E. rewrite N in E by lia. lia.
    + intros [E|[H1 H2]]; [subst; lia|lia].
  - split.
    + intros E. apply (f_equal nat_of_ascii) in E. rewrite N in E by lia. lia.
    + intros [E|[H1 H2]]; [subst; lia|]. apply A. rewrite N by lia. lia.
  - split; [intros ->; auto|]. intros [->|[H1 H2]]; auto. lia.
Qed.
Lemma upper_spells name : lowercase name -> forall s, upper s = upper name <-> spells s name.
Proof.
  induction name as [|d n IH]; intros L [|c s]; cbn; try (split; [discriminate|intros []]); [tauto|].
  destruct L as [L1 L2]. rewrite <- (IH L2 s), <- (upper_reads c d L1). split.
  - intros E. injection E. auto.
  - intros [-> ->]. auto.
Qed.
Lemma levels_lower : Forall lowercase (map fst standard_levels).
Proof. cbn. repeat constructor; unfold lower_char; cbn; lia. Qed.
Lemma level_tables : level_names = map (fun p => (upper (fst p), snd p)) standard_levels.
Proof. reflexivity. Qed.
Lemma resolve_level_means a z : resolve_level a = Ok z <-> means a z.
Proof.
  split.
  - destruct a as [y|s|]; cbn -[level_names find]; intros H; [injection H as ->; constructor| |discriminate].
    destruct (find (fun p => String.eqb (fst p) (upper s)) level_names) as [[n y]|] eqn:E; [|discriminate]. cbn in H. injection H as ->.
    apply find_some in E. destruct E as [E1 E2]. rewrite level_tables, in_map_iff in E1. destruct E1 as ([m w] & E1 & E3).
    cbn in E1, E2. injection E1 as <- ->. apply String.eqb_eq in E2.
    apply M_str with m; auto. apply upper_spells; auto. pose proof levels_lower as L. rewrite Forall_forall in L. apply L.
    apply in_map_iff. exists (m, z). auto.
  - intros H. destruct H as [z|s n z Hi Hs]; auto. cbn -[level_names].
    assert (U : upper s = upper n).
    { apply upper_spells; auto. pose proof levels_lower as L. rewrite Forall_forall in L. apply L. apply in_map_iff. exists (n, z). auto. }
    rewrite U. cbn in Hi. decompose [or] Hi; try contradiction; match goal with H : (_, _) = (_, _) |- _ => injection H as <- <- end; reflexivity.
Qed.
Lemma path_eqb_spec a b : path_eqb a b = true <-> a = b.
Proof. unfold path_eqb. destruct (list_eq_dec string_dec a b); split; congruence. Qed.
Lemma set_lg_same p x st : set_lg p x st p = x.
Proof. unfold set_lg. rewrite (proj2 (path_eqb_spec p p) eq_refl). auto. Qed.
Lemma set_lg_other p q x st : q <> p -> set_lg p x st q = st q.
Proof. intros H. unfold set_lg. destruct (path_eqb q p) eqn:E; auto. apply path_eqb_spec in E. contradiction. Qed.

Definition after (st : lg) (l : list (Z * bool)) : lg :=
  match l with
  | [] => st
  | first :: _ => let final := last l first in
      mkL (fst final) (match handlers st with [] => [mkH true (fst first)] | h => h end) (snd final)
  end.
Lemma last_cons {A} (x : A) l d d' : last (x :: l) d = last (x :: l) d'.
Proof. revert x. induction l as [|y l IH]; intros x; auto. cbn in *. apply IH. Qed.
Lemma lrun_after p h l : asks p h l -> forall st, lrun h st p = after (st p) l.
Proof.
  induction 1 as [|n h l H IH|c h l Hp H IH|c h l Hp Hm H IH|c h l z Hp Hm H IH]; intros st; cbn [lrun fold_left]; auto;
    change (fold_left lact ?h ?s) with (lrun h s) in *; rewrite IH; cbn [lact].
  - auto.
  - unfold setup_logging. destruct (resolve_level (s_level c)); auto. cbn [fst]. rewrite set_lg_other; auto.
  - unfold setup_logging. destruct (resolve_level (s_level c)) as [z|] eqn:E; auto. apply resolve_level_means in E. destruct (Hm z E).
  - apply resolve_level_means in Hm. unfold setup_logging. rewrite Hm. cbn [fst]. subst p. rewrite set_lg_same.
    destruct l as [|[z' b'] l]; [reflexivity|]. unfold after. cbn [handlers fst snd].
    assert (L : last ((z, s_propagate c) :: (z', b') :: l) (z, s_propagate c) = last ((z', b') :: l) (z', b')).
    { change (last ((z', b') :: l) (z, s_propagate c) = last ((z', b') :: l) (z', b')). apply last_cons. }
    rewrite L. destruct (handlers (st (path_of (s_name c)))); auto.
Qed.
Lemma asks_total p h : exists l, asks p h l.
Proof.
  induction h as [|[c|n] h [l IH]]; [exists []; constructor| |exists l; constructor; auto].
  destruct (list_eq_dec string_dec (path_of (s_name c)) p) as [E|E]; [|exists l; apply A_other; auto].
  destruct (resolve_level (s_level c)) as [z|e] eqn:R.
  - eexists. eapply A_ok; eauto. apply resolve_level_means. eauto.
  - exists l. apply A_bad; auto. intros z M. apply resolve_level_means in M. congruence.
Qed.
Lemma chain_below p : forall ext, exists c', chain (rev (p ++ ext)) = c' ++ chain (rev p) /\
  forall q, In q c' -> exists e1 e2, e1 <> [] /\ ext = e1 ++ e2 /\ q = p ++ e1.
Proof.
  intros ext. induction ext as [|x ext IH] using rev_ind.
  - exists []. rewrite app_nil_r. cbn. split; auto. contradiction.
  - destruct IH as (c' & E & H). exists ((p ++ ext ++ [x]) :: c'). split.
    + rewrite app_assoc, rev_app_distr. cbn [rev app chain]. rewrite E. cbn [app]. f_equal. rewrite rev_involutive. rewrite <- app_assoc. auto.
    + intros q [<-|Hq].
      * exists (ext ++ [x]), []. rewrite app_nil_r. repeat split; auto. destruct ext; discriminate.
      * destruct (H q Hq) as (e1 & e2 & N & -> & ->). exists e1, (e2 ++ [x]). rewrite app_assoc. auto.
Qed.
Lemma emitted_below st p ext l : (forall e1 e2, e1 <> [] -> ext = e1 ++ e2 -> untouched (st (p ++ e1))) ->
  emitted st (p ++ ext) l = emitted st p l.
Proof.
  intros H. destruct (chain_below p ext) as (c' & E & Q). unfold emitted. rewrite E.
  assert (U : forall q, In q c' -> untouched (st q)) by (intros q Hq; destruct (Q q Hq) as (e1 & e2 & N & A & ->); eauto).
  assert (G : effective st (c' ++ chain (rev p)) = effective st (chain (rev p)) /\ reached st (c' ++ chain (rev p)) = reached st (chain (rev p))).
  { clear E Q H. induction c' as [|q c' IH]; auto. destruct IH as [I1 I2]; [intros; apply U; right; auto|].
    destruct (U q (or_introl eq_refl)) as (A & B & C). cbn [app effective reached]. rewrite A, B, C, I1, I2. auto. }
  destruct G as [-> ->]. auto.
Qed.
Lemma emitted_one st p l h : p <> [] -> level (st p) <> 0%Z -> handlers (st p) = [h] -> propagate (st p) = false ->
  emitted st p l = if (level (st p) <=? l)%Z && (hlevel h <=? l)%Z then [h] else [].
Proof.
  intros Np Hl Hh Hp. unfold emitted.
  assert (C : exists c, chain (rev p) = p :: c).
  { destruct p as [|x p'] using rev_ind; [congruence|]. rewrite rev_app_distr. cbn. rewrite rev_involutive. eauto. }
  destruct C as (c & ->). cbn [effective reached]. rewrite (proj2 (Z.eqb_neq _ _) Hl), Hh, Hp. cbn [app].
  destruct (Z.ltb_spec l (level (st p))); destruct (Z.leb_spec (level (st p)) l); try lia; auto.
Qed.
Lemma split_app a b : split_dots (a ++ String "." b) = split_dots a ++ split_dots b.
Proof.
  induction a as [|c a IH]; [reflexivity|]. cbn [append split_dots]. destruct (Ascii.eqb c "."); [rewrite IH; auto|].
  rewrite IH. destruct (split_dots a) eqn:E; [|reflexivity].
  exfalso. clear IH. destruct a as [|x a]; cbn in E; [discriminate|]. destruct (Ascii.eqb x "."); [discriminate|]. destruct (split_dots a); discriminate.
Qed.
