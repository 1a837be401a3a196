(** Proofs for C86: triples of numbers, and [main]. *)
From Coq Require Import Ascii String List ZArith Reals Bool Lia Lra.
From Verif Require Import Prelude FloatModel RoomModel BldModel LoopModel CliModel CliSpec CliProofs.
Import ListNotations.
Local Notation length := List.length.
Local Open Scope string_scope.
Local Open Scope list_scope.

Lemma split_not_nil : forall s, split_comma s <> [].
Proof. induction s as [|c s IH]; cbn; [discriminate|]. destruct (Ascii.eqb c ","); [discriminate|]. destruct (split_comma s); discriminate. Qed.
Lemma concat_cons : forall a l, l <> [] -> String.concat "," (a :: l) = (a ++ "," ++ String.concat "," l)%string.
Proof. intros a [|b l] N; [congruence|]. reflexivity. Qed.
Lemma split_spec : forall s, s = String.concat "," (split_comma s) /\ Forall (fun p => ~ has "," p) (split_comma s).
Proof.
  induction s as [|c s [IH1 IH2]]; [split; [reflexivity|constructor; [intros []|constructor]]|].
  cbn [split_comma]. destruct (Ascii.eqb_spec c ",") as [->|N].
  - split; [|constructor; [intros []|exact IH2]]. rewrite concat_cons by apply split_not_nil. rewrite <- IH1. reflexivity.
  - destruct (split_comma s) as [|h t] eqn:E; [destruct (split_not_nil s E)|]. split.
    + rewrite IH1 at 1. destruct t; reflexivity.
    + inversion IH2 as [|h' t' Hh Ht]. constructor; [|assumption]. rewrite has_cons. intros [Q|Q]; [exact (N Q)|exact (Hh Q)].
Qed.
Lemma split_part : forall p s, ~ has "," p -> split_comma p = [p] /\ split_comma (p ++ "," ++ s) = p :: split_comma s.
Proof.
  induction p as [|c p IH]; intros s H; [split; reflexivity|]. rewrite has_cons in H. destruct (IH s) as [H1 H2]; [tauto|].
  cbn [split_comma append]. destruct (Ascii.eqb_spec c ",") as [->|N]; [tauto|]. rewrite H1. cbn in H2. rewrite H2. auto.
Qed.
Lemma split_concat : forall parts, parts <> [] -> Forall (fun p => ~ has "," p) parts -> split_comma (String.concat "," parts) = parts.
Proof.
  induction parts as [|a l IH]; intros N F; [congruence|]. inversion F; subst. destruct l as [|b l].
  - cbn. apply (split_part a ""). assumption.
  - rewrite concat_cons by discriminate. rewrite (proj2 (split_part a _ H1)). f_equal. apply IH; [discriminate|assumption].
Qed.
(** The model's test for white characters. *)
Lemma is_space_white : forall c, is_space c = true <-> white c.
Proof.
  intros c. unfold is_space, white. rewrite orb_true_iff, !andb_true_iff, !Nat.leb_le. cbn [In]. lia.
Qed.
Definition space (s : string) : Prop := forall c, has c s -> is_space c = true.
Definition cuts (s t : string) : Prop :=
  exists l r, s = (l ++ t ++ r)%string /\ space l /\ space r /\
    (forall c u, t = String c u -> is_space c = false) /\ (forall u c, t = (u ++ String c "")%string -> is_space c = false).
Lemma cuts_trims : forall s t, cuts s t <-> trims s t.
Proof.
  assert (F : forall c, is_space c = false <-> ~ white c).
  { intros c. rewrite <- is_space_white. destruct (is_space c); split; auto; try discriminate. intros H. destruct H. reflexivity. }
  assert (B : forall s, space s <-> blank s).
  { intros s. split; intros H c Hc; apply is_space_white, H, Hc. }
  intros s t. split; intros (l & r & E & H1 & H2 & H3 & H4); exists l, r; (split; [exact E|]); repeat split;
    try (apply B; assumption); intros; apply F; eauto.
Qed.
Lemma lstrip_spec : forall s, exists l, s = (l ++ lstrip s)%string /\ space l /\ (forall c u, lstrip s = String c u -> is_space c = false).
Proof.
  induction s as [|c s [l [H1 [H2 H3]]]]; cbn [lstrip].
  - exists "". repeat split; [intros x []|discriminate].
  - destruct (is_space c) eqn:E.
    + exists (String c l). cbn. rewrite <- H1. repeat split; [|exact H3]. intros x. rewrite has_cons. intros [<-|Hx]; auto.
    + exists "". repeat split; [intros x []|]. intros d u Q. injection Q as <- _. exact E.
Qed.
Lemma rstrip_spec : forall s, exists r, s = (rstrip s ++ r)%string /\ space r /\ (forall u c, rstrip s = (u ++ String c "")%string -> is_space c = false).
Proof.
  induction s as [|c s [r [H1 [H2 H3]]]]; cbn [rstrip].
  - exists "". repeat split; [intros x []|]. intros u c H. destruct u; discriminate.
  - destruct (rstrip s) as [|d t] eqn:E.
    + destruct (is_space c) eqn:Ec.
      * exists (String c r). cbn in H1. subst r. repeat split; [|intros u x H; destruct u; discriminate].
        intros x. rewrite has_cons. intros [<-|Hx]; [exact Ec|]. apply H2. exact Hx.
      * exists r. cbn in H1. subst r. repeat split; [exact H2|]. intros [|y u] x H; cbn in H.
        -- injection H as <-. exact Ec.
        -- injection H as _ H. destruct u; discriminate.
    + exists r. repeat split; [rewrite H1 at 1; reflexivity|exact H2|]. intros [|y u] x H; cbn in H; [discriminate|].
      injection H as _ H. exact (H3 u x H).
Qed.
Lemma rstrip_first : forall s c u, rstrip s = String c u -> exists v, s = String c v.
Proof. intros s c u H. destruct (rstrip_spec s) as [r [E _]]. rewrite H in E. exists (u ++ r)%string. exact E. Qed.
Lemma strip_cuts : forall s, cuts s (strip s).
Proof.
  intros s. unfold strip. destruct (lstrip_spec s) as [l [E1 [B1 F1]]]. destruct (rstrip_spec (lstrip s)) as [r [E2 [B2 F2]]].
  exists l, r. repeat split; auto.
  - rewrite <- E2. exact E1.
  - intros c u H. destruct (rstrip_first _ _ _ H) as [v Q]. exact (F1 c v Q).
Qed.
Lemma lstrip_blank : forall l s, space l -> lstrip (l ++ s) = lstrip s.
Proof.
  induction l as [|c l IH]; intros s B; [reflexivity|]. cbn. rewrite (B c) by (rewrite has_cons; auto). apply IH.
  intros x Hx. apply B. rewrite has_cons. auto.
Qed.
Lemma rstrip_blank : forall r, space r -> rstrip r = "".
Proof.
  induction r as [|c r IH]; intros B; [reflexivity|]. cbn. rewrite IH by (intros x Hx; apply B; rewrite has_cons; auto).
  rewrite (B c) by (rewrite has_cons; auto). reflexivity.
Qed.
Lemma rstrip_keep : forall t r, space r -> (forall u c, t = (u ++ String c "")%string -> is_space c = false) -> rstrip (t ++ r) = t.
Proof.
  induction t as [|c t IH]; intros r B F; [apply rstrip_blank; exact B|]. cbn. rewrite IH; [|exact B|].
  - destruct t; [|reflexivity]. rewrite (F "" c eq_refl). reflexivity.
  - intros u x E. apply (F (String c u) x). cbn. congruence.
Qed.
Lemma cuts_strip : forall s t, cuts s t -> t = strip s.
Proof.
  intros s t [l [r [-> [B1 [B2 [F1 F2]]]]]]. unfold strip. rewrite lstrip_blank by exact B1.
  destruct t as [|c t].
  - cbn [append]. destruct (lstrip_spec r) as [l' [E [_ F]]]. destruct (lstrip r) as [|d u] eqn:Q; [reflexivity|].
    exfalso. pose proof (F d u eq_refl) as S. rewrite (B2 d) in S; [discriminate|]. rewrite E, has_app. right. left. reflexivity.
  - cbn [append lstrip]. rewrite (F1 c t eq_refl). change (String c (t ++ r)) with (String c t ++ r)%string.
    rewrite rstrip_keep; auto.
Qed.
Lemma strip_trims : forall s, trims s (strip s).
Proof. intros s. apply cuts_trims, strip_cuts. Qed.
Lemma trims_strip : forall s t, trims s t -> t = strip s.
Proof. intros s t H. apply cuts_strip, cuts_trims, H. Qed.
Lemma triplet_spec : forall X s x y z, parse_triplet X s = Ok (x, y, z) <-> triplet X s x y z.
Proof.
  intros X s x y z. unfold parse_triplet, triplet.
  assert (FE : forall l, filter (fun t => if string_dec t "" then false else true) l = filter (fun p => negb (String.eqb p EmptyString)) l).
  { intros l. apply filter_ext. intros a. destruct (string_dec a "") as [->|N]; [reflexivity|]. rewrite (proj2 (String.eqb_neq _ _) N). reflexivity. }
  split.
  - intros H. exists (split_comma s). eexists. destruct (split_spec s) as [E F]. split; [exact E|]. split; [apply split_not_nil|]. split; [exact F|].
    split. { exists (map strip (split_comma s)). split; [|symmetry; symmetry; rewrite FE; reflexivity]. clear. induction (split_comma s); constructor; [apply strip_trims|assumption]. }
    destruct (filter _ (map strip (split_comma s))) as [|a [|b [|c [|]]]]; try discriminate. exists a, b, c. split; [reflexivity|].
    destruct (read_float X a) as [x'|] eqn:Ex; [|discriminate]. destruct (read_float X b) as [y'|] eqn:Ey; [|discriminate].
    destruct (read_float X c) as [z'|] eqn:Ez; [|discriminate]. injection H as <- <- <-.
    repeat split; apply read_float_spec; assumption.
  - intros [parts [full [-> [N [F [[all [F2 Ef]] [a [b [c [E [Ra [Rb Rc]]]]]]]]]]]]. rewrite split_concat by assumption.
    assert (all = map strip parts) as ->. { clear -F2. induction F2; [reflexivity|]. cbn. f_equal; [apply trims_strip; assumption|assumption]. }
    rewrite FE in Ef. rewrite <- Ef, E. apply read_float_spec in Ra, Rb, Rc. rewrite Ra, Rb, Rc. reflexivity.
Qed.
Lemma triplet_else : forall X s e, parse_triplet X s = Err e -> e = ValueError.
Proof.
  intros X s e. unfold parse_triplet. destruct (filter _ _) as [|a [|b [|c [|]]]]; try congruence.
  destruct (read_float X a), (read_float X b), (read_float X c); congruence.
Qed.

(** ** The parser *)
Lemma say_facts : forall l st, p_extras (fold_left say l st) = p_extras st /\
  (forall s, In s (p_seen (fold_left say l st)) <-> In s (p_seen st) \/ exists p, In p l /\ o_name (i_opt (fst p)) = s).
Proof.
  induction l as [|p l IH]; intros st; cbn [fold_left].
  - split; [reflexivity|]. intros s. split; [auto|]. intros [H|[p [[] _]]]. exact H.
  - destruct (IH (say st p)) as [H1 H2]. split; [rewrite H1; reflexivity|]. intros s. rewrite H2. cbn. split.
    + intros [[H|H]|[q [Hq E]]]; [right; exists p; auto|left; exact H|right; exists q; auto].
    + intros [H|[q [[<-|Hq] E]]]; [left; right; exact H|left; left; exact E|right; exists q; auto].
Qed.
Definition final (D : namespace) (l : list (item * val)) : namespace := p_ns (fold_left say l (mkP D [] [])).
Lemma meant_in : forall X T l p, Forall (fun p => meant X T (fst p) (snd p)) l -> In p l -> In (i_opt (fst p)) T.
Proof. intros X T l p F I. rewrite Forall_forall in F. apply (F p I). Qed.
Lemma parse_said : forall X T D argv l, table_ok T -> said X T argv l -> parse X T D argv = Parsed (final D l).
Proof.
  intros X T D argv l K [-> [F R]]. unfold parse, parse_known. rewrite (no_ambiguous X T l K F).
  rewrite (consume_items X T l) by (auto; rewrite pattern_length; lia). cbn [pbind].
  destruct (say_facts l (mkP D [] [])) as [E1 E2]. 
  replace (forallb _ T) with true.
  - cbn [pbind fst snd]. rewrite E1. reflexivity.
  - symmetry. apply forallb_forall. intros o I. destruct (o_required o) eqn:Q; [|reflexivity]. cbn [negb orb].
    apply existsb_exists. exists (o_name o). split; [|apply String.eqb_refl]. apply E2. right.
    destruct (R o I Q) as [p [Ip Ep]]. exists p. split; [exact Ip|]. rewrite Ep. reflexivity.
Qed.
Lemma parse_inv : forall X T D argv ns, table_ok T -> parse X T D argv = Parsed ns -> exists l, said X T argv l /\ ns = final D l.
Proof.
  intros X T D argv ns K H. unfold parse, parse_known in H.
  destruct (existsb _ (pattern T argv)); [discriminate|].
  destruct (consume X _ (pattern T argv) _) as [st|] eqn:C; [|discriminate]. cbn [pbind] in H.
  destruct (forallb _ T) eqn:R; [|discriminate]. cbn [pbind fst snd] in H. destruct (p_extras st) eqn:E; [|discriminate]. injection H as <-.
  destruct (consume_inv X T _ argv _ st K C E) as [l [Ea [F ->]]]. exists l. split; [|reflexivity]. split; [exact Ea|]. split; [exact F|].
  intros o I Q. rewrite forallb_forall in R. specialize (R o I). rewrite Q in R. cbn [negb orb] in R.
  apply existsb_exists in R. destruct R as [s [Is Es]]. apply String.eqb_eq in Es. subst s.
  apply (proj2 (say_facts l (mkP D [] []))) in Is. destruct Is as [[]|[p [Ip Ep]]]. exists p. split; [exact Ip|].
  eapply same_name; [apply K|eapply meant_in; eauto|exact I|exact Ep].
Qed.
Lemma final_lookup : forall T D names d, (forall o, In o T -> (In (o_name o) names <-> o_dest o = d)) ->
  forall l, (forall p, In p l -> In (i_opt (fst p)) T) ->
  lookup (final D l) d = match last_said l names with Some v => Some v | None => lookup D d end.
Proof.
  intros T D names d H l HT. unfold final.
  assert (G : forall l st, (forall p, In p l -> In (i_opt (fst p)) T) ->
     lookup (p_ns (fold_left say l st)) d = match last_said l names with Some v => Some v | None => lookup (p_ns st) d end).
  { clear l HT. induction l as [|[it v] l IH]; intros st HT; [reflexivity|]. cbn [fold_left]. rewrite IH by (intros; apply HT; right; assumption).
    cbn [last_said]. destruct (last_said l names); [reflexivity|]. unfold say. cbn [fst snd p_ns].
    specialize (H (i_opt it) (HT (it, v) (or_introl eq_refl))). unfold lookup. cbn [find fst snd].
    destruct (in_dec string_dec (o_name (i_opt it)) names) as [I|N].
    - apply H in I. rewrite I, String.eqb_refl. reflexivity.
    - destruct (String.eqb_spec (o_dest (i_opt it)) d) as [E|_]; [exfalso; apply N, H, E|reflexivity]. }
  apply (G l (mkP D [] []) HT).
Qed.
(** exit codes *)
Lemma short_help_code : forall r, short_help r = 0%Z \/ short_help r = 2%Z.
Proof.
  induction r as [|c r IH]; cbn; [auto|]. destruct (Ascii.eqb c "-"); [auto|]. destruct (Ascii.eqb c "h"); [|auto].
  destruct r as [|d r]; [auto|]. destruct (Ascii.eqb d "="); [auto|]. exact IH.
Qed.
Lemma arguments_dashes : forall l, exists vs, arguments (map (fun a : string => (a, Some CArg)) l) = (vs, []).
Proof. induction l as [|a l [vs IH]]; cbn; [eauto|]. rewrite IH. eauto. Qed.
Lemma take_exit : forall X o l st c, take X o l st = Exit c -> c = 2%Z \/ (c = 0%Z /\ o_kind o = KHelp).
Proof.
  intros X o l st c H. unfold take in H. destruct (o_kind o).
  - destruct l as [|s [|]]; [injection H as <-; auto| |injection H as <-; auto]. destruct (checked X o s); [discriminate|injection H as <-; auto].
  - destruct (checked_all X o l); [discriminate|injection H as <-; auto].
  - discriminate.
  - injection H as <-. auto.
Qed.
Lemma consume_exit : forall X T n argv st c, table_ok T -> (length argv <= n)%nat ->
  (consume X n (pattern T argv) st = Exit c \/ consume X n (map (fun a => (a, Some CArg)) argv) st = Exit c) ->
  c = 2%Z \/ (c = 0%Z /\ exists s, In s argv /\ asks_help T s).
Proof.
  intros X T. induction n as [|n IH]; intros argv st c K L H.
  - destruct argv as [|s argv]; [|cbn in L; lia]. destruct H; discriminate.
  - destruct argv as [|s argv]; [destruct H; discriminate|]. cbn [length] in L.
    assert (I2 : forall a st', (length a <= n)%nat -> (forall x, In x a -> In x (s :: argv)) ->
       consume X n (pattern T a) st' = Exit c \/ consume X n (map (fun a => (a, Some CArg)) a) st' = Exit c ->
       c = 2%Z \/ (c = 0%Z /\ exists s0, In s0 (s :: argv) /\ asks_help T s0)).
    { intros a st' La Sub Q. destruct (IH a st' c K La Q) as [E|[E [x [Ix Hx]]]]; [auto|]. right. split; [exact E|]. exists x. auto. }
    destruct H as [H|H].
    2:{ cbn [map consume] in H. eapply I2 with (a := argv); [lia|intros; right; assumption|right; exact H]. }
    cbn [pattern] in H. destruct (String.eqb_spec s "--") as [->|N].
    { cbn [consume] in H. eapply I2 with (a := argv); [lia|intros; right; assumption|right; exact H]. }
    assert (Keep : forall l, pbind (take X l [] st) (fun _ => Parsed tt) = Parsed tt -> True) by auto. clear Keep.
    cbn [consume] in H. destruct (classify T s) as [|o [e|] b| |] eqn:C;
      try (eapply I2 with (a := argv); [lia|intros; right; assumption|left; exact H]).
    + destruct (o_kind o) eqn:Hk.
      * destruct (take X o [e] st) eqn:T1; cbn [pbind] in H; [eapply I2 with (a := argv); [lia|intros; right; assumption|left; exact H]|].
        injection H as <-. apply take_exit in T1. destruct T1 as [T1|[_ T1]]; [auto|congruence].
      * destruct (take X o [e] st) eqn:T1; cbn [pbind] in H; [eapply I2 with (a := argv); [lia|intros; right; assumption|left; exact H]|].
        injection H as <-. apply take_exit in T1. destruct T1 as [T1|[_ T1]]; [auto|congruence].
      * injection H as <-. auto.
      * injection H as <-. destruct b; [|auto]. destruct (short_help_code e) as [Q|Q]; rewrite Q; [|auto]. right. split; [reflexivity|].
        exists s. split; [left; reflexivity|]. destruct (classify_opt T s o _ _ K C) as [[? _]|[_ [_ [_ S]]]]; [discriminate|left; exact S].
    + destruct (classify_opt T s o _ _ K C) as [[-> [p [Rf <-]]]|[_ [Ne _]]]; [|congruence].
      destruct (o_kind o) eqn:Hk.
      * destruct argv as [|a argv]; [injection H as <-; auto|]. cbn [pattern] in H. destruct (String.eqb_spec a "--") as [->|Na]; [injection H as <-; auto|].
        destruct (classify T a); try (injection H as <-; auto; fail).
        destruct (take X o [a] st) eqn:T1; cbn [pbind] in H.
        -- eapply I2 with (a := argv); [cbn in L; lia|intros; right; right; assumption|left; exact H].
        -- injection H as <-. apply take_exit in T1. destruct T1 as [T1|[_ T1]]; [auto|congruence].
      * destruct (arguments (pattern T argv)) as [vs r] eqn:A. destruct (arguments_pattern T argv vs r K A) as [l' [-> [Fv ->]]].
        destruct vs as [|a vs]; [injection H as <-; auto|]. destruct (take X o (a :: vs) st) eqn:T1; cbn [pbind] in H.
        -- eapply I2 with (a := l'); [rewrite app_length in L; cbn in L; lia|intros; right; apply in_or_app; right; assumption|left; exact H].
        -- injection H as <-. apply take_exit in T1. destruct T1 as [T1|[_ T1]]; [auto|congruence].
      * destruct (take X o [] st) eqn:T1; cbn [pbind] in H; [eapply I2 with (a := argv); [lia|intros; right; assumption|left; exact H]|].
        injection H as <-. apply take_exit in T1. destruct T1 as [T1|[_ T1]]; [auto|congruence].
      * unfold take in H. rewrite Hk in H. cbn in H. injection H as <-. right. split; [reflexivity|]. exists s. split; [left; reflexivity|].
        right. exists o. auto.
Qed.
Lemma parse_exit : forall X T D argv c, table_ok T -> parse X T D argv = Exit c ->
  c = 2%Z \/ (c = 0%Z /\ exists s, In s argv /\ asks_help T s).
Proof.
  intros X T D argv c K H. unfold parse, parse_known in H.
  destruct (existsb _ (pattern T argv)); [injection H as <-; auto|].
  destruct (consume X _ (pattern T argv) _) as [st|c'] eqn:C; cbn [pbind] in H.
  - destruct (forallb _ T); cbn [pbind fst snd] in H; [|injection H as <-; auto]. destruct (p_extras st); [discriminate|injection H as <-; auto].
  - injection H as <-. eapply consume_exit with (argv := argv); [exact K| |left; exact C]. rewrite pattern_length. lia.
Qed.
