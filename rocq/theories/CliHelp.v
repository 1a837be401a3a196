(** Proofs for C86: asking for help. *)
From Coq Require Import Ascii String List ZArith Reals Bool Lia Lra.
From Verif Require Import Prelude FloatModel RoomModel BldModel LoopModel CliModel CliSpec CliProofs CliTriple.
Import ListNotations.
Local Notation length := List.length.
Local Open Scope string_scope.
Local Open Scope list_scope.

Lemma consume_before : forall X T l rest st n, table_ok T -> Forall (fun p => meant X T (fst p) (snd p)) l -> fresh T rest ->
  (length (flat_map (fun p => words (fst p)) l ++ rest) <= n)%nat ->
  consume X n (pattern T (flat_map (fun p => words (fst p)) l ++ rest)) st = consume X (length rest) (pattern T rest) (fold_left say l st).
Proof.
  intros X T. induction l as [|[it v] l IH]; intros rest st n K F Fr L.
  - cbn [flat_map app fold_left] in *. apply consume_fuel; rewrite pattern_length; lia.
  - inversion F as [|? ? H1 H2]; subst. cbn [fst snd] in *. cbn [flat_map fst] in *. rewrite <- app_assoc in *. rewrite (consume_item X T it v); auto.
    + cbn [fold_left]. apply IH; auto.
    + destruct l as [|[it' v'] l]; [exact Fr|]. inversion H2 as [|? ? H3 H4]; subst. cbn [flat_map fst snd] in *. destruct H3 as [Rf M].
      unfold fresh, words. destruct (i_joined it') eqn:J; cbn [app].
      * rewrite pattern_cons by (eapply joined_not_dashes; eauto). unfold seen_as. erewrite classify_joined by eauto. exact I.
      * rewrite pattern_cons by (eapply word_not_dashes; eauto). unfold seen_as. erewrite classify_word by eauto. exact I.
Qed.
Lemma ambiguous_before : forall X T l rest, table_ok T -> Forall (fun p => meant X T (fst p) (snd p)) l ->
  existsb (fun p => match snd p with Some CAmbiguous => true | _ => false end) (pattern T (flat_map (fun p => words (fst p)) l ++ rest)) =
  existsb (fun p => match snd p with Some CAmbiguous => true | _ => false end) (pattern T rest).
Proof.
  intros X T. induction l as [|[it v] l IH]; intros rest K F; [reflexivity|].
  inversion F as [|? ? H1 H2]; subst. cbn [fst snd] in *. cbn [flat_map fst]. rewrite <- app_assoc. destruct H1 as [Rf M]. unfold words. destruct (i_joined it) eqn:J; cbn [app].
  - rewrite pattern_cons by (eapply joined_not_dashes; eauto). unfold seen_as. erewrite classify_joined by eauto. cbn. apply IH; auto.
  - rewrite pattern_cons by (eapply word_not_dashes; eauto). unfold seen_as. erewrite classify_word by eauto. cbn [existsb snd orb].
    assert (V : Forall (as_value T) (i_vals it)).
    { destruct (o_kind (i_opt it)).
      - destruct M as [s [-> [A _]]]. constructor; auto.
      - destruct M as [_ [A _]]. exact A.
      - destruct M as [_ [-> _]]. constructor.
      - destruct M. }
    rewrite pattern_values by auto. rewrite existsb_app. rewrite IH by auto. replace (existsb _ (map _ (i_vals it))) with false; [reflexivity|].
    symmetry. clear. induction (i_vals it); auto.
Qed.
Lemma classify_vague : forall T s, table_ok T -> s <> "--" -> (classify T s = CAmbiguous <-> vague T s).
Proof.
  intros T s K Nd. destruct s as [|d r].
  { split; [discriminate|]. intros [_ [_ [p [o1 [o2 [[E|[e E]] [_ [[q Hs] _]]]]]]]]; subst p; discriminate. }
  cbn [classify]. destruct (Ascii.eqb_spec d "-") as [->|N]; cbn [negb].
  2:{ split; [discriminate|]. intros [_ [_ [p [o1 [o2 [E [_ [[q Hs] _]]]]]]]]. exfalso. apply N. rewrite Hs in E. destruct E as [E|[e E]]; injection E; auto. }
  set (s := String "-" r) in *. destruct (named T s) as [o'|] eqn:Nm.
  { split; [discriminate|]. intros [_ [H _]]. apply named_some in Nm. destruct Nm as [I E]. destruct (H o' I E). }
  assert (Hn := proj1 (named_none T s) Nm).
  destruct r as [|c r'].
  { split; [discriminate|]. intros [_ [_ [p [o1 [o2 [[E|[e E]] [_ [[q Hs] _]]]]]]]]; rewrite Hs in E; unfold s in E; cbn in E; discriminate. }
  pose proof (partition_spec s) as PS. destruct (partition_eq s) as [p e] eqn:EP. destruct PS as [PS2 PS1].
  assert (Hp : forall p', (s = p' \/ exists e', s = (p' ++ "=" ++ e')%string) -> ~ has "=" p' -> p' = p).
  { intros p' [E|[e' E]] H; rewrite E in EP; [rewrite partition_none in EP by exact H|rewrite partition_some in EP by exact H]; congruence. }
  assert (Alt : (match e, named T p with Some v, Some o => COpt o (Some v) false | _, _ =>
      if Ascii.eqb c "-" then match filter (fun o => String.prefix p (o_name o)) T with [] => classify_rest s | [o] => COpt o e false | _ => CAmbiguous end
      else match filter (fun o => String.eqb (o_name o) (String "-" (String c EmptyString))) T with [] => classify_rest s | o :: _ => COpt o (Some r') true end end = CAmbiguous)
      <-> vague T s).
  { assert (Hfilter : c = "-"%char -> (match filter (fun o => String.prefix p (o_name o)) T with [] => classify_rest s | [o] => COpt o e false | _ => CAmbiguous end = CAmbiguous) <->
        exists o1 o2, In o1 T /\ In o2 T /\ o1 <> o2 /\ starts p (o_name o1) /\ starts p (o_name o2)).
    { intros _. assert (NDf : NoDup (filter (fun o => String.prefix p (o_name o)) T)).
      { apply NoDup_filter. destruct K as [ND _]. apply NoDup_map_inv in ND. exact ND. }
      assert (Hin : forall o, In o (filter (fun o => String.prefix p (o_name o)) T) <-> In o T /\ starts p (o_name o)).
      { intros o. rewrite filter_In, prefix_starts. reflexivity. }
      destruct (filter _ T) as [|a [|b fl]].
      - split; [intros H; destruct (rest_not_amb _ H)|]. intros [o1 [o2 [I1 [_ [_ [S1 _]]]]]]. destruct (proj2 (Hin o1) (conj I1 S1)).
      - split; [discriminate|]. intros [o1 [o2 [I1 [I2 [D [S1 S2]]]]]]. destruct (proj2 (Hin o1) (conj I1 S1)) as [<-|[]]. destruct (proj2 (Hin o2) (conj I2 S2)) as [<-|[]]. congruence.
      - split; [intros _|reflexivity]. exists a, b. destruct (proj1 (Hin a) (or_introl eq_refl)) as [Ia Sa]. destruct (proj1 (Hin b) (or_intror (or_introl eq_refl))) as [Ib Sb].
        repeat split; auto. intros ->. inversion NDf as [|? ? Hx _]; subst. apply Hx. left. reflexivity. }
    assert (Sp : starts "--" p -> c = "-"%char).
    { intros [q Hq]. destruct e as [v|].
      - unfold s in PS1. rewrite Hq in PS1. cbn in PS1. injection PS1. auto.
      - unfold s in PS1. rewrite Hq in PS1. cbn in PS1. injection PS1. auto. }
    assert (Sp' : c = "-"%char -> ~ has "=" p -> p <> "-" -> starts "--" p).
    { intros -> _ Np. destruct e as [v|]; unfold s in PS1.
      - destruct p as [|x [|y q]]; cbn in PS1; try discriminate. injection PS1 as <- <- _. exists q. reflexivity.
      - subst p. exists r'. reflexivity. }
    destruct e as [v|].
    - destruct (named T p) as [o|] eqn:Np.
      + split; [discriminate|]. intros [_ [_ [p' [o1 [o2 [E [He [_ [Hq _]]]]]]]]]. rewrite (Hp p' E He) in Hq. apply named_some in Np. destruct Np as [I Eo]. destruct (Hq o I Eo).
      + pose proof (proj1 (named_none T p) Np) as Hnp. destruct (Ascii.eqb_spec c "-") as [->|Nc].
        * rewrite (Hfilter eq_refl). split.
          -- intros [o1 [o2 [I1 [I2 [D [S1 S2]]]]]]. split; [exact Nd|]. split; [exact Hn|]. exists p, o1, o2. split; [right; exists v; exact PS1|]. split; [exact PS2|].
             split; [|repeat split; auto]. apply Sp'; auto. intros ->. unfold s in PS1. cbn in PS1. discriminate.
          -- intros [_ [_ [p' [o1 [o2 [E [He [_ [_ [I1 [I2 [D [S1 S2]]]]]]]]]]]]]. rewrite (Hp p' E He) in *. exists o1, o2. auto.
        * split; [intros H; destruct (filter (fun o => String.eqb (o_name o) (String "-" (String c EmptyString))) T) as [|a fl]; [destruct (rest_not_amb _ H)|discriminate]|].
          intros [_ [_ [p' [o1 [o2 [E [He [S0 _]]]]]]]]. rewrite (Hp p' E He) in S0. destruct (Nc (Sp S0)).
    - destruct (Ascii.eqb_spec c "-") as [->|Nc].
      + rewrite (Hfilter eq_refl). subst p. split.
        * intros [o1 [o2 [I1 [I2 [D [S1 S2]]]]]]. split; [exact Nd|]. split; [exact Hn|]. exists s, o1, o2. split; [left; reflexivity|]. split; [exact PS2|].
          split; [exists r'; reflexivity|]. repeat split; auto.
        * intros [_ [_ [p' [o1 [o2 [E [He [_ [_ [I1 [I2 [D [S1 S2]]]]]]]]]]]]]. rewrite (Hp p' E He) in *. exists o1, o2. auto.
      + split; [intros H; destruct (filter (fun o => String.eqb (o_name o) (String "-" (String c EmptyString))) T) as [|a fl]; [destruct (rest_not_amb _ H)|discriminate]|].
        intros [_ [_ [p' [o1 [o2 [E [He [S0 _]]]]]]]]. rewrite (Hp p' E He) in S0. destruct (Nc (Sp S0)). }
  exact Alt.
Qed.
Lemma ambiguous_spec : forall T l, table_ok T -> (forall s, In s l -> ~ vague T s) ->
  existsb (fun p => match snd p with Some CAmbiguous => true | _ => false end) (pattern T l) = false.
Proof.
  intros T l K. induction l as [|s l IH]; intros H; [reflexivity|]. cbn [pattern]. destruct (String.eqb_spec s "--") as [->|N].
  - cbn. clear. induction l; auto.
  - cbn [existsb snd]. rewrite IH by (intros q I; apply H; right; exact I). destruct (classify T s) eqn:C; try reflexivity.
    apply classify_vague in C; auto. destruct (H s); auto. left. reflexivity.
Qed.
Lemma short_help_letters : forall k t, (forall c u, t = String c u -> c <> "-"%char /\ c <> "h"%char /\ c <> "="%char) ->
  short_help (string_of_list_ascii (repeat "h"%char k) ++ t) = 0%Z.
Proof.
  induction k as [|k IH]; intros t H.
  - cbn [repeat string_of_list_ascii append]. destruct t as [|c u]; [reflexivity|]. destruct (H c u eq_refl) as [N1 [N2 _]]. cbn [short_help].
    rewrite (proj2 (Ascii.eqb_neq _ _) N1), (proj2 (Ascii.eqb_neq _ _) N2). reflexivity.
  - change (repeat "h"%char (S k)) with ("h"%char :: repeat "h"%char k). cbn [string_of_list_ascii append]. specialize (IH t H).
    set (q := (string_of_list_ascii (repeat "h"%char k) ++ t)%string) in *. change (short_help (String "h" q)) with (match q with String d _ => if Ascii.eqb d "=" then 2%Z else short_help q | EmptyString => 0%Z end).
    destruct q as [|d q'] eqn:Eq; [reflexivity|]. destruct (Ascii.eqb_spec d "=") as [->|_]; [|exact IH]. exfalso. unfold q in Eq. destruct k as [|k].
    + cbn in Eq. destruct (H _ _ Eq) as [_ [_ N]]. apply N. reflexivity.
    + cbn in Eq. discriminate.
Qed.
(** A word that asks for help ends everything with code 0. *)
Lemma help_consumed : forall X T w post st n, table_ok T -> help_word T w -> consume X (S n) (pattern T (w :: post)) st = Exit 0.
Proof.
  intros X T w post st n K [[o [Rf Hk]]|[k [t [Ew Ht]]]].
  - rewrite pattern_cons by (eapply word_not_dashes; eauto). unfold seen_as. rewrite (classify_word T w o K Rf). cbn [consume]. rewrite Hk. unfold take. rewrite Hk. reflexivity.
  - assert (Nw : w <> "--") by (rewrite Ew; cbn; discriminate). rewrite (pattern_cons T w post Nw). unfold seen_as.
    destruct (named T w) as [o|] eqn:Nm.
    + pose proof (named_some _ _ _ Nm) as [Io Eo].
      assert (Hk : o_kind o = KHelp).
      { destruct (proj2 (proj2 (proj1 (proj2 K) o Io))) as [[c [r E]]|[_ E]]; [|exact E]. exfalso. rewrite Eo, Ew in E. cbn in E. discriminate. }
      rewrite (classify_word T w o K); [|split; [exact Io|left; symmetry; exact Eo]]. cbn [consume]. rewrite Hk. unfold take. rewrite Hk. reflexivity.
    + assert (Cl : exists o, classify T w = COpt o (Some (string_of_list_ascii (repeat "h"%char k) ++ t)%string) true /\ o_kind o = KHelp).
      { rewrite Ew in Nm |- *. cbn [repeat string_of_list_ascii append] in Nm |- *. set (r' := (string_of_list_ascii (repeat "h"%char k) ++ t)%string) in *.
        unfold classify. rewrite Nm. cbn [Ascii.eqb Bool.eqb negb]. change (Ascii.eqb "-" "-") with true. change (Ascii.eqb "h" "-") with false. cbn [negb].
        pose proof (partition_spec (String "-" (String "h" r'))) as PS. destruct (partition_eq (String "-" (String "h" r'))) as [p e] eqn:EP. destruct PS as [PS2 PS1].
        assert (Np : e <> None -> named T p = None).
        { intros He. destruct e as [v|]; [|congruence]. apply named_none. intros o Io Eo.
          destruct (proj2 (proj2 (proj1 (proj2 K) o Io))) as [[c [r E]]|[E _]].
          - rewrite Eo in E. rewrite E in PS1. cbn in PS1. discriminate.
          - rewrite Eo in E. rewrite E in PS1. cbn in PS1. injection PS1 as PS1. unfold r' in PS1. destruct k as [|k].
            + cbn in PS1. destruct (Ht _ _ PS1) as [_ [_ N]]. apply N. reflexivity.
            + cbn in PS1. discriminate. }
        assert (Fo : exists o fl, filter (fun o => String.eqb (o_name o) (String "-" (String "h" EmptyString))) T = o :: fl /\ o_kind o = KHelp).
        { destruct (filter _ T) as [|o fl] eqn:Ef.
          - exfalso. apply (proj1 (short_options T "h" K ltac:(discriminate))) in Ef. congruence.
          - exists o, fl. split; [reflexivity|]. assert (I : In o (o :: fl)) by (left; reflexivity). rewrite <- Ef in I. apply filter_In in I. destruct I as [Io Eo]. apply String.eqb_eq in Eo.
            destruct (proj2 (proj2 (proj1 (proj2 K) o Io))) as [[c [r E]]|[_ E]]; [|exact E]. rewrite Eo in E. discriminate. }
        destruct Fo as [o [fl [Ef Hk]]]. exists o. split; [|exact Hk]. destruct e as [v|]; [rewrite Np by discriminate|]; rewrite Ef; reflexivity. }
      destruct Cl as [o [Ec Hk]]. rewrite Ec. cbn [consume]. rewrite Hk. rewrite short_help_letters by exact Ht. reflexivity.
Qed.
Lemma help_fresh : forall T w post, table_ok T -> help_word T w -> fresh T (w :: post) /\ ~ vague T w.
Proof.
  intros T w post K H. pose proof (help_consumed (mkTexts (fun _ => None) (fun _ => None)) T w post (mkP [] [] []) 0 K H) as C.
  assert (Nw : w <> "--").
  { destruct H as [[o [Rf _]]|[k [t [-> _]]]]; [eapply word_not_dashes; eauto|cbn; discriminate]. }
  rewrite pattern_cons in C by exact Nw. unfold seen_as in C. cbn [consume] in C. unfold fresh. rewrite pattern_cons by exact Nw. unfold seen_as.
  assert (G : classify T w <> CArg /\ classify T w <> CAmbiguous).
  { split; intros E; rewrite E in C.
    - destruct (pattern T post); discriminate.
    - destruct (pattern T post); discriminate. }
  destruct G as [G1 G2]. split; [destruct (classify T w); tauto|]. intros V. apply classify_vague in V; auto.
Qed.
