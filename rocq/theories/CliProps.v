(** C86: the command line of the dataset builder. *)
From Coq Require Import Ascii String List ZArith Reals Bool Lia Lra.
From Verif Require Import Prelude FloatModel RoomModel BldModel LoopModel CliModel CliSpec CliProofs CliTriple CliHelp CliMain.
From Verif Require FloatProofs.
Import ListNotations.
Local Notation length := List.length.
Local Open Scope string_scope.
Local Open Scope list_scope.

(** A command line is accepted if and only if it can be split into things said. *)
Theorem C86_accepts : forall X T D argv, table_ok T ->
  (exists ns, parse X T D argv = Parsed ns) <-> exists l, said X T argv l.
Proof.
  intros X T D argv K. split.
  - intros [ns H]. destruct (parse_inv X T D argv ns K H) as [l [S _]]. eauto.
  - intros [l S]. eexists. eapply parse_said; eauto.
Qed.
(** However it is split, every attribute has the value said last with one of the options of that
    attribute, or else its default. *)
Theorem C86_values : forall X T D argv l, table_ok T -> said X T argv l ->
  exists ns, parse X T D argv = Parsed ns /\
    forall d names, (forall o, In o T -> (In (o_name o) names <-> o_dest o = d)) ->
      lookup ns d = match last_said l names with Some v => Some v | None => lookup D d end.
Proof.
  intros X T D argv l K S. exists (final D l). split; [apply parse_said; assumption|].
  intros d names H. eapply final_lookup; [exact H|]. eapply said_in; eauto.
Qed.
(** Other command lines end the program: with code 0 only if help is asked for, else with code 2. *)
Theorem C86_exits : forall X T D argv, table_ok T -> (forall l, ~ said X T argv l) ->
  exists c, parse X T D argv = Exit c /\ (c = 2%Z \/ (c = 0%Z /\ exists s, In s argv /\ asks_help T s)).
Proof.
  intros X T D argv K H. destruct (parse X T D argv) as [ns|c] eqn:E.
  - destruct (parse_inv X T D argv ns K E) as [l [S _]]. destruct (H l S).
  - exists c. split; [reflexivity|]. eapply parse_exit; eauto.
Qed.
(** A word that asks for help after things said properly ends the program with code 0, whatever
    follows, unless a vague word does: that one ends it with code 2 before anything else. *)
Theorem C86_help : forall X T D l w post, table_ok T -> Forall (fun p => meant X T (fst p) (snd p)) l -> help_word T w -> (forall s, In s post -> ~ vague T s) ->
  parse X T D (flat_map (fun p => words (fst p)) l ++ w :: post) = Exit 0.
Proof.
  intros X T D l w post K F H V. destruct (help_fresh T w post K H) as [Fr Nv]. unfold parse, parse_known. rewrite (ambiguous_before X T l (w :: post) K F).
  rewrite ambiguous_spec; [|exact K|intros s [<-|I]; auto]. rewrite (consume_before X T l (w :: post)) by (auto; rewrite pattern_length; lia).
  change (length (w :: post)) with (S (length post)). rewrite (help_consumed X T w post _ _ K H). reflexivity.
Qed.
Theorem C86_vague : forall X T D pre s post, table_ok T -> vague T s -> ~ In "--" pre -> parse X T D (pre ++ s :: post) = Exit 2.
Proof.
  intros X T D pre s post K V N. unfold parse, parse_known.
  replace (existsb _ (pattern T (pre ++ s :: post))) with true; [reflexivity|]. symmetry. apply existsb_exists. exists (s, Some CAmbiguous). split; [|reflexivity].
  assert (Hs : s <> "--") by (destruct V; assumption).
  induction pre as [|q pre IH]; cbn [app].
  - rewrite pattern_cons by exact Hs. left. unfold seen_as. rewrite (proj2 (classify_vague T s K Hs) V). reflexivity.
  - rewrite pattern_cons by (intros ->; apply N; left; reflexivity). right. apply IH. intros I. apply N. right. exact I.
Qed.
(** The table of the builder is one of these: the documented options, [--cmu-root] required. *)
Theorem C86_table : table_ok builder_options /\
  (forall o, In o builder_options -> o_required o = true <-> o_name o = "--cmu-root") /\
  forall n, (exists o, In o builder_options /\ o_name o = n) <-> exists f, In (n, f) documented /\
    forall o, In o builder_options -> o_name o = n -> has_form o f.
Proof.
  split; [apply builder_table|]. split.
  { intros o I. unfold builder_options in I. cbn in I. repeat destruct I as [<-|I]; try (cbn; split; congruence). destruct I. }
  intros n. split.
  - intros [o [I <-]].
    assert (G : exists f, In (o_name o, f) documented /\ has_form o f).
    { unfold builder_options in I. cbn in I. unfold documented. repeat destruct I as [<-|I];
      try (eexists; split; [cbn [one flag o_name In]; repeat (first [left; reflexivity|right])|repeat split; fail]). destruct I. }
    destruct G as [f [I1 I2]]. exists f. split; [exact I1|]. intros o' J E.
    rewrite (same_name builder_options o' o ltac:(apply builder_table) J I E). exact I2.
  - intros [f [I _]]. cbn in I.
    assert (G : existsb (fun o => String.eqb (o_name o) n) builder_options = true).
    { repeat destruct I as [E|I]; try (injection E as <- _; reflexivity). destruct I. }
    apply existsb_exists in G. destruct G as [o [J E]]. apply String.eqb_eq in E. eauto.
Qed.

(** ** [main] *)
(** The builder is called with what is said on the command line and the documented defaults. *)
Theorem C86_main : forall sh fuel argv w l b o level seed download, said (sh_texts sh) builder_options argv l ->
  last_or l ["--log-level"] (VText "INFO") = VText level -> ~ bad_level level ->
  last_or l ["--seed"] (VInt 42) = VInt seed -> last_or l ["--download-cmu"; "--no-download-cmu"] (VBool false) = VBool download ->
  as_said (sh_texts sh) (sh_path sh) l b o ->
  main sh fuel argv w = Built (build_dataset (sh_env sh (ba_cmu b) seed download) b o fuel w).
Proof.
  intros sh fuel argv w l b o level seed download S Hl Nb Hs Hd A. unfold main, parse_builder.
  rewrite (parse_said _ _ builder_defaults _ _ builder_table S).
  destruct (main_call_as_said _ argv l S (sh_path sh) level b o seed download Hl (proj2 (level_spec level) Nb) Hs Hd A) as [c [E1 [E2 [E3 [E4 E5]]]]].
  rewrite E1, E2, E3, E4, E5. reflexivity.
Qed.
(** The three ends of the program: refused words, an exception before the builder exactly for the
    two bad log levels and texts that are no triples, and otherwise the builder. *)
Lemma level_text : forall X argv l, said X builder_options argv l -> exists t, last_or l ["--log-level"] (VText "INFO") = VText t.
Proof. intros X argv l S. exact (or_text X _ argv l S ["--log-level"] "INFO" eq_refl). Qed.
Lemma triple_text : forall X argv l n d, said X builder_options argv l -> In (n, d) triple_options -> exists t, last_or l [n] (VText d) = VText t.
Proof.
  intros X argv l n d S I. cbn in I. destruct I as [E|[E|[E|[]]]]; injection E as <- <-; (eapply or_text; [exact S|reflexivity]).
Qed.
Lemma no_triplet : forall X t, (forall x y z, ~ triplet X t x y z) <-> parse_triplet X t = Err ValueError.
Proof.
  intros X t. split.
  - intros H. destruct (parse_triplet X t) as [[[x y] z]|e] eqn:E; [destruct (H x y z); apply triplet_spec; exact E|].
    rewrite (triplet_else X t e E). reflexivity.
  - intros H x y z Q. apply triplet_spec in Q. congruence.
Qed.
Lemma fails_call : forall X argv l e, said X builder_options argv l -> (main_call X (final builder_defaults l) = Err e <-> fails X l e).
Proof.
  intros X argv l e S.
  destruct (level_text X argv l S) as [level Hl].
  destruct (triple_text X argv l "--room-size" "8.0,6.0,3.0" S ltac:(cbn; auto)) as [room Hr].
  destruct (triple_text X argv l "--mic-center" "4.0,3.0,1.5" S ltac:(cbn; auto)) as [center Hc].
  destruct (triple_text X argv l "--source-margin" "0.5,0.5,0.3" S ltac:(cbn; auto)) as [margin Hm].
  pose proof (main_call_said X argv l S level room center margin Hl Hr Hc Hm) as M.
  destruct (configure_logging level) as [z|e0] eqn:El.
  - assert (Nb : ~ bad_level level) by (apply level_spec; eauto).
    assert (P : fails X l e <-> e = ValueError /\ (parse_triplet X room = Err ValueError \/ parse_triplet X center = Err ValueError \/ parse_triplet X margin = Err ValueError)).
    { split.
      - intros [lv [E [[E' _]|[[E' _]|[_ [-> [n [d [t [I [Et H]]]]]]]]]]].
        + exfalso. apply Nb. left. congruence.
        + exfalso. apply Nb. right. congruence.
        + split; [reflexivity|]. apply no_triplet in H. cbn in I. destruct I as [Q|[Q|[Q|[]]]]; injection Q as <- <-; rewrite Et in *.
          * left. injection Hr as <-. exact H.
          * right; left. injection Hc as <-. exact H.
          * right; right. injection Hm as <-. exact H.
      - intros [-> H]. exists level. split; [exact Hl|]. right; right. split; [exact Nb|]. split; [reflexivity|].
        destruct H as [H|[H|H]]; pose proof (proj2 (no_triplet _ _) H) as H'.
        + exists "--room-size", "8.0,6.0,3.0", room. repeat split; auto. cbn. auto.
        + exists "--mic-center", "4.0,3.0,1.5", center. repeat split; auto. cbn. auto.
        + exists "--source-margin", "0.5,0.5,0.3", margin. repeat split; auto. cbn. auto. }
    rewrite P. clear P.
    destruct (parse_triplet X room) as [a1|e1] eqn:E1; [destruct (parse_triplet X center) as [a2|e2] eqn:E2; [destruct (parse_triplet X margin) as [a3|e3] eqn:E3|]|].
    + destruct M as [c M]. rewrite M. split; [discriminate|]. intros [_ [H|[H|H]]]; discriminate.
    + rewrite M, (triplet_else _ _ _ E3). split; [intros [= <-]; auto|intros [-> _]; reflexivity].
    + rewrite M, (triplet_else _ _ _ E2). split; [intros [= <-]; auto|intros [-> _]; reflexivity].
    + rewrite M, (triplet_else _ _ _ E1). split; [intros [= <-]; auto|intros [-> _]; reflexivity].
  - rewrite M. assert (Bd : bad_level level). { apply level_error in El. destruct El as [[? _]|[? _]]; [left|right]; assumption. }
    split.
    + intros [= <-]. exists level. split; [exact Hl|]. destruct (level_error _ _ El); auto.
    + intros [lv [E [[E' ->]|[[E' ->]|[N _]]]]]; assert (lv = level) as -> by congruence.
      * rewrite (proj1 (level_bad level) E') in El. congruence.
      * rewrite (proj2 (level_bad level) E') in El. congruence.
      * destruct (N Bd).
Qed.
Theorem C86_raises : forall sh fuel argv w e,
  main sh fuel argv w = Raised e <-> exists l, said (sh_texts sh) builder_options argv l /\ fails (sh_texts sh) l e.
Proof.
  intros sh fuel argv w e. unfold main, parse_builder. split.
  - destruct (parse (sh_texts sh) builder_options builder_defaults argv) as [ns|c] eqn:P; [|discriminate].
    destruct (parse_inv _ _ _ _ _ builder_table P) as [l [S ->]]. intros H. exists l. split; [exact S|].
    apply (fails_call _ argv l e S). destruct (main_call _ _); [discriminate|]. injection H as <-. reflexivity.
  - intros [l [S F]]. rewrite (parse_said _ _ builder_defaults _ _ builder_table S). apply (fails_call _ argv l e S) in F. rewrite F. reflexivity.
Qed.
(** The builder is called exactly for the command lines that are accepted and do not fail; if all
    numbers are finite, there are the arguments of C86_main. *)
Theorem C86_runs : forall sh fuel argv w,
  ((exists r, main sh fuel argv w = Built r) <-> exists l, said (sh_texts sh) builder_options argv l /\ forall e, ~ fails (sh_texts sh) l e) /\
  (forall l, said (sh_texts sh) builder_options argv l -> (forall e, ~ fails (sh_texts sh) l e) -> all_finite (sh_texts sh) l ->
     exists b o, as_said (sh_texts sh) (sh_path sh) l b o).
Proof.
  intros sh fuel argv w. split; [split|].
  - unfold main, parse_builder. intros [r H].
    destruct (parse (sh_texts sh) builder_options builder_defaults argv) as [ns|c] eqn:P; [|discriminate].
    destruct (parse_inv _ _ _ _ _ builder_table P) as [l [S ->]]. exists l. split; [exact S|]. intros e F.
    apply (fails_call _ argv l e S) in F. rewrite F in H. discriminate.
  - intros [l [S F]]. unfold main, parse_builder. rewrite (parse_said _ _ builder_defaults _ _ builder_table S).
    destruct (main_call _ _) as [c|e] eqn:M; [eauto|]. apply (fails_call _ argv l e S) in M. destruct (F e M).
  - intros l S F [Fi Ft].
    assert (FF : forall n a k, typed_by (is_one TFloat) builder_options [n] = true -> exists r, last_or l [n] (double a k) = VFloat (Fin r)).
    { intros n a k Ht. unfold last_or. destruct (last_said l [n]) as [v|] eqn:E; [|unfold double; eauto].
      destruct (last_said_in _ _ _ E) as [it [I J]]. destruct (or_float (sh_texts sh) _ argv l S [n] (double a k) Ht) as [Q|[x Q]]; unfold last_or in Q; rewrite E in Q.
      - unfold double in Q. eauto.
      - destruct (Fi it v x I Q) as [r ->]. eauto. }
    assert (TT : forall n d, In (n, d) triple_options -> exists t x y z, last_or l [n] (VText d) = VText t /\ triplet (sh_texts sh) t (Fin x) (Fin y) (Fin z)).
    { intros n d I. destruct (triple_text _ argv l n d S I) as [t Et]. destruct (parse_triplet (sh_texts sh) t) as [[[x y] z]|e] eqn:E.
      - apply triplet_spec in E. destruct (Ft n d t x y z I Et E) as [a [b [c [-> [-> ->]]]]]. eauto 6.
      - exfalso. destruct (level_text _ argv l S) as [level Hl]. destruct (configure_logging level) as [lv|e'] eqn:El.
        + apply (F ValueError). exists level. split; [exact Hl|]. right; right. split; [apply level_spec; eauto|]. split; [reflexivity|].
          exists n, d, t. repeat split; auto. apply no_triplet. rewrite E. f_equal. eapply triplet_else; eauto.
        + apply (F e'). exists level. split; [exact Hl|]. destruct (level_error _ _ El); auto. }
    destruct (TT "--room-size" "8.0,6.0,3.0" ltac:(cbn; auto)) as [t1 [x1 [y1 [z1 [T1 U1]]]]].
    destruct (TT "--mic-center" "4.0,3.0,1.5" ltac:(cbn; auto)) as [t2 [x2 [y2 [z2 [T2 U2]]]]].
    destruct (TT "--source-margin" "0.5,0.5,0.3" ltac:(cbn; auto)) as [t3 [x3 [y3 [z3 [T3 U3]]]]].
    destruct (v_cmu _ argv l S) as [cmu [Hc _]].
    assert (exists root, last_or l ["--dataset-root"] (VPath "outputs/cmu_arctic_torchrir_dynamic_dataset") = VPath root) as [root Hroot].
    { destruct (or_path _ _ argv l S ["--dataset-root"] (VPath "outputs/cmu_arctic_torchrir_dynamic_dataset") eq_refl) as [->|[z ->]]; eauto. }
    destruct (or_texts _ _ argv l S ["--speakers"] fixed_speakers eq_refl) as [sp Hsp].
    destruct (or_int _ _ argv l S ["--n-scenes"] 10%Z eq_refl) as [i1 I1].
    destruct (or_int _ _ argv l S ["--n-sources"] 3%Z eq_refl) as [i2 I2].
    destruct (or_int _ _ argv l S ["--n-moving-sources"] 1%Z eq_refl) as [i3 I3].
    destruct (or_int _ _ argv l S ["--trajectory-steps"] 1024%Z eq_refl) as [i4 I4].
    destruct (or_int _ _ argv l S ["--rir-samples"] 4096%Z eq_refl) as [i5 I5].
    destruct (or_int _ _ argv l S ["--max-order"] 6%Z eq_refl) as [i6 I6].
    destruct (FF "--duration-sec" 20%Z 0%nat eq_refl) as [f1 F1]. destruct (FF "--octa-edge-m" 1%Z 0%nat eq_refl) as [f2 F2].
    destruct (FF "--rt60" 3%Z 1%nat eq_refl) as [f3 F3]. destruct (FF "--sound-speed" 343%Z 0%nat eq_refl) as [f4 F4].
    destruct (or_bool _ _ argv l S ["--overwrite-dataset"] false eq_refl) as [b1 B1].
    destruct (or_bool _ _ argv l S ["--randomize-mic-center"; "--no-randomize-mic-center"] true eq_refl) as [b2 B2].
    destruct (or_bool _ _ argv l S ["--save-layout-mp4"; "--no-save-layout-mp4"] true eq_refl) as [b3 B3].
    destruct (or_bool _ _ argv l S ["--save-layout-mp4-3d"; "--no-save-layout-mp4-3d"] true eq_refl) as [b4 B4].
    destruct (or_bool _ _ argv l S ["--layout-video-no-audio"] false eq_refl) as [b5 B5].
    destruct (or_bool _ _ argv l S ["--save-layout-images"; "--no-save-layout-images"] true eq_refl) as [b6 B6].
    destruct (or_bool _ _ argv l S ["--save-layout-images-3d"; "--no-save-layout-images-3d"] true eq_refl) as [b7 B7].
    destruct (or_bool _ _ argv l S ["--no-annotate-source-indices"] false eq_refl) as [b8 B8].
    assert (exists fps : option R, last_or l ["--layout-video-fps"] VNone = match fps with Some r => VFloat (Fin r) | None => VNone end) as [fps Hf].
    { unfold last_or. destruct (last_said l ["--layout-video-fps"]) as [v|] eqn:E; [|exists None; reflexivity].
      destruct (last_said_in _ _ _ E) as [it [I J]]. destruct (or_float (sh_texts sh) _ argv l S ["--layout-video-fps"] VNone eq_refl) as [Q|[x Q]]; unfold last_or in Q; rewrite E in Q.
      - exists None. exact Q.
      - destruct (Fi it v x I Q) as [r ->]. exists (Some r). exact Q. }
    exists (mkBA (sh_path sh root) (sh_path sh cmu) sp i1
              (mkSA i2 i3 (P3 x1 y1 z1) (P3 x2 y2 z2) f2 (P3 x3 y3 z3) i4
                 (mkMotion (rnd64 (35 / 100)) (rnd64 (65 / 100)) (rnd64 (3 / 10)) (rnd64 (8 / 10)) f1) b2)
              [x1; y1; z1] [x2; y2; z2] [x3; y3; z3] i5 b1),
           (mkOpt f3 f4 i6 b3 b4 fps (negb b5) b6 b7 (negb b8)).
    unfold as_said. cbn. rewrite !negb_involutive. repeat split; eauto 8.
Qed.

(** ** Signs *)
Lemma name_not_value : forall T o, table_ok T -> In o T -> ~ as_value T (o_name o).
Proof.
  intros T o K I V. apply (classify_value T _ K) in V. unfold classify in V.
  pose proof (classify_word T (o_name o) o K ltac:(split; [exact I|left; reflexivity])) as W. unfold classify in W. congruence.
Qed.
Lemma value_after : forall X T l pre o v post, table_ok T -> Forall (fun p => meant X T (fst p) (snd p)) l -> In o T -> o_kind o = KOne ->
  flat_map (fun p => words (fst p)) l = pre ++ o_name o :: v :: post -> as_value T v.
Proof.
  intros X T. induction l as [|[it x] l IH]; intros pre o v post K F I Ho E; [destruct pre; discriminate|].
  cbn [flat_map fst] in E. apply Forall_cons_iff in F. destruct F as [M F]. cbn [fst snd] in M. destruct M as [Rf M]. unfold words in E. destruct (i_joined it) eqn:J.
  - destruct pre as [|a pre]; cbn [app] in E.
    + injection E as E _. exfalso. destruct K as [_ [Kn _]]. destruct (Kn o I) as [N _]. apply N. rewrite <- E, !has_app. cbn. auto.
    + injection E as _ E. eapply IH; eauto.
  - assert (Vs : Forall (as_value T) (i_vals it)).
    { destruct (o_kind (i_opt it)).
      - destruct M as [s [-> [Q _]]]. constructor; [auto|constructor].
      - apply M.
      - destruct M as [_ [-> _]]. constructor.
      - destruct M. }
    destruct pre as [|a pre]; cbn [app] in E; injection E as E1 E2.
    + assert (Eo : i_opt it = o). { symmetry. eapply refers_named with (p := i_word it); [exact K|exact Rf|]. rewrite E1. apply named_in; [apply K|exact I]. }
      rewrite Eo, Ho in M. destruct M as [s [Es _]]. rewrite Es in E2, Vs. injection E2 as <- _. inversion Vs; assumption.
    + assert (G : forall vals pre, Forall (as_value T) vals -> vals ++ flat_map (fun p => words (fst p)) l = pre ++ o_name o :: v :: post ->
                  exists pre', flat_map (fun p => words (fst p)) l = pre' ++ o_name o :: v :: post).
      { clear -K I. induction vals as [|y vals IHv]; intros pre Vs E; [eauto|]. inversion Vs as [|? ? Hy Hv]; subst. destruct pre as [|z pre]; injection E as -> E.
        - destruct (name_not_value T o K I Hy).
        - eapply IHv; eauto. }
      destruct (G _ _ Vs E2) as [pre' E3]. eapply IH; eauto.
Qed.
Lemma comma_not_number : forall v, has "," v -> ~ minus_number v.
Proof.
  assert (D : forall ds, decimal ds -> ~ has "," (digits_text ds)).
  { induction ds as [|d ds IH]; intros Hd; [intros []|]. inversion Hd; subst. unfold digits_text. cbn [map string_of_list_ascii]. rewrite has_cons.
    intros [E|E]; [|apply IH; assumption]. destruct (digit_char d H1) as [Q _]. rewrite E in Q. discriminate. }
  intros v H [[ds [Hd [_ ->]]]|[a [b [Ha [Hb [_ ->]]]]]]; rewrite !has_app in H.
  - destruct H as [[H|[]]|H]; [discriminate|]. exact (D ds Hd H).
  - destruct H as [[H|[]]|[H|[[H|[]]|H]]]; try discriminate; [exact (D a Ha H)|exact (D b Hb H)].
Qed.
(** In an accepted command line the word behind the name of an option with a value can stand alone
    as a value. *)
Theorem C86_next : forall X T D argv ns pre o v post, table_ok T -> parse X T D argv = Parsed ns ->
  In o T -> o_kind o = KOne -> argv = pre ++ o_name o :: v :: post -> as_value T v.
Proof.
  intros X T D argv ns pre o v post K P I Ho E. destruct (parse_inv X T D argv ns K P) as [l [[E' [F _]] _]].
  eapply value_after with (l := l); [exact K|exact F|exact I|exact Ho|]. rewrite <- E'. exact E.
Qed.
(** So a triple with a sign in front is never accepted as a word of its own. *)
Theorem C86_signed : forall sh fuel w pre n d r post, In (n, d) triple_options -> has "," r -> ~ has " " r ->
  exists c, main sh fuel (pre ++ n :: ("-" ++ r)%string :: post) w = Quit c.
Proof.
  intros sh fuel w pre n d r post I Hc Hb. unfold main, parse_builder.
  destruct (parse _ _ _ _) as [ns|c] eqn:P; [|eauto]. exfalso.
  assert (exists o, In o builder_options /\ o_kind o = KOne /\ o_name o = n) as [o [Io [Ko <-]]].
  { cbn in I. destruct I as [E|[E|[E|[]]]]; injection E as <- _.
    - exists (one "--room-size" "room_size" TText). split; [|auto]. cbn. tauto.
    - exists (one "--mic-center" "mic_center" TText). split; [|auto]. cbn. tauto.
    - exists (one "--source-margin" "source_margin" TText). split; [|auto]. cbn. tauto. }
  pose proof (C86_next _ _ _ _ _ pre o _ post builder_table P Io Ko eq_refl) as [V|[V|[V|[V _]]]].
  - apply V. exists r. reflexivity.
  - injection V as V. rewrite V in Hc. destruct Hc.
  - revert V. apply comma_not_number. rewrite has_app. auto.
  - apply has_app in V. destruct V as [[V|[]]|V]; [discriminate|auto].
Qed.

(** ** Defaults *)
Lemma dec_text : forall X a k s, read_float X s = Some (Fin (rnd64 (IZR a / 10 ^ k))) -> float_text X s (Fin (rnd64 (IZR a / 10 ^ k))).
Proof. intros. apply read_float_spec. assumption. Qed.
Lemma whole : forall a k z, (a = z * 10 ^ Z.of_nat k)%Z -> (Z.abs z <= 2 ^ 53)%Z -> rnd64 (IZR a / 10 ^ k) = IZR z.
Proof.
  intros a k z -> H. rewrite mult_IZR, <- pow_IZR. replace (IZR z * IZR 10 ^ k / 10 ^ k)%R with (IZR z); [apply FloatProofs.rnd64_IZR, H|].
  field. apply pow_nonzero. lra.
Qed.
(** With nothing but the corpus directory: the call of the builder with its signature's defaults. *)
Theorem C86_defaults : forall sh fuel d w, as_value builder_options d ->
  main sh fuel ["--cmu-root"; d] w =
  Built (build_dataset (sh_env sh (sh_path sh d) 42 false)
           (signature_args (sh_path sh d) (sh_path sh "outputs/cmu_arctic_torchrir_dynamic_dataset")) signature_options fuel w).
Proof.
  intros sh fuel d w V.
  set (o := mkO "--cmu-root" "cmu_root" KOne TPath None true).
  assert (S : said (sh_texts sh) builder_options ["--cmu-root"; d] [(mkItem o "--cmu-root" false [d], VPath d)]).
  { split; [reflexivity|]. split.
    - constructor; [|constructor]. cbn [fst snd]. split; [split; [right; right; left; reflexivity|left; reflexivity]|]. cbn.
      exists d. repeat split; auto.
    - intros o' I R. exists (mkItem o "--cmu-root" false [d], VPath d). split; [left; reflexivity|]. cbn [fst i_opt].
      eapply same_name; [apply builder_table|right; right; left; reflexivity|exact I|]. cbn. symmetry. apply (proj1 (proj2 C86_table)); assumption. }
  erewrite C86_main with (b := signature_args (sh_path sh d) (sh_path sh "outputs/cmu_arctic_torchrir_dynamic_dataset")) (o := signature_options);
    [reflexivity|exact S|reflexivity|intros [H|H]; discriminate|reflexivity|reflexivity|].
  assert (Tr : forall s a b c, parse_triplet (sh_texts sh) s = Ok (Fin a, Fin b, Fin c) -> triplet (sh_texts sh) s (Fin a) (Fin b) (Fin c)) by (intros; apply triplet_spec; assumption).
  unfold as_said. cbn [last_or last_said i_opt o o_name].
  assert (W : forall z, (Z.abs z <= 2 ^ 53)%Z -> double z 0 = VFloat (Fin (IZR z))).
  { intros z Hz. unfold double. f_equal. f_equal. apply whole; [cbn; lia|exact Hz]. }
  repeat split; try reflexivity.
  - exists d. split; reflexivity.
  - eexists. split; reflexivity.
  - apply (W 20%Z). lia.
  - eexists _, 8%R, 6%R, 3%R. split; [reflexivity|]. split; [|split; reflexivity].
    apply Tr. rewrite <- (whole 80 1 8), <- (whole 60 1 6), <- (whole 30 1 3) by (cbn; lia). reflexivity.
  - exists "4.0,3.0,1.5", 4%R, 3%R, (rnd64 (15 / 10)). split; [reflexivity|]. split; [|split; reflexivity].
    apply Tr. replace (15 / 10)%R with (IZR 15 / 10 ^ 1)%R by lra. rewrite <- (whole 40 1 4), <- (whole 30 1 3) by (cbn; lia). reflexivity.
  - exists "0.5,0.5,0.3", (rnd64 (5 / 10)), (rnd64 (5 / 10)), (rnd64 (3 / 10)). split; [reflexivity|]. split; [|split; reflexivity].
    apply Tr. replace (5 / 10)%R with (IZR 5 / 10 ^ 1)%R by lra. replace (3 / 10)%R with (IZR 3 / 10 ^ 1)%R by lra. reflexivity.
  - apply (W 1%Z). lia.
  - unfold double, signature_options. cbn [o_t60]. replace (IZR 3 / 10 ^ 1)%R with (3 / 10)%R by lra. reflexivity.
  - apply (W 343%Z). lia.
Qed.

(** ** Examples *)
(** Abbreviations, joined values, negative numbers, repeated options; the beginning of two names. *)
Example C86_example : forall X, exists ns,
  parse_builder X ["--cmu-root=a b"; "--n-sc"; "4"; "--mic-center=-1,2,3"; "--seed"; "-7"; "--speakers"; "awb"; "slt";
                   "--no-save-layout-mp4"; "--n-scenes"; "5"; "--save-layout-mp4"] = Parsed ns /\
  lookup ns "cmu_root" = Some (VPath "a b") /\ lookup ns "n_scenes" = Some (VInt 5) /\ lookup ns "mic_center" = Some (VText "-1,2,3") /\
  lookup ns "seed" = Some (VInt (-7)) /\ lookup ns "speakers" = Some (VList [VText "awb"; VText "slt"]) /\
  lookup ns "save_layout_mp4" = Some (VBool true) /\ lookup ns "save_layout_mp4_3d" = Some (VBool true).
Proof. intros X. eexists. split; [lazy -[lit]; reflexivity|]. repeat split; lazy -[lit]; reflexivity. Qed.
Example C86_example_exits : forall X,
  parse_builder X ["--cmu-root"; "d"; "--save-layout"] = Exit 2 /\
  parse_builder X ["--cmu-root"; "d"; "--mic-center"; "-1,2,3"] = Exit 2 /\
  parse_builder X ["--n-scenes"; "5"] = Exit 2 /\
  parse_builder X ["--cmu-root"; "d"; "--n-scenes"; "5"; "6"] = Exit 2 /\
  parse_builder X ["-h"; "--cmu-root"] = Exit 0 /\ parse_builder X ["--save-layout"; "-h"] = Exit 2.
Proof. intros X. repeat split; lazy -[lit]; reflexivity. Qed.
(** Help in a group of letters; after a vague word it is not reached. *)
Example C86_example_help : forall X,
  parse_builder X ["--n-scenes"; "4"; "-hhv=1"; "--bogus"] = Exit 0 /\ parse_builder X ["--help"; "x"] = Exit 0 /\ parse_builder X ["--he"] = Exit 0 /\
  parse_builder X ["-hh=1"] = Exit 2 /\ parse_builder X ["-h"; "--n"] = Exit 2 /\ parse_builder X ["-h"; "--"; "--n"] = Exit 0.
Proof. intros X. repeat split; lazy -[lit]; reflexivity. Qed.
(** An empty part of a triple is skipped; two numbers are too few. *)
Example C86_example_triples : forall X, triplet X " 8 ,,6,3," (Fin 8) (Fin 6) (Fin 3) /\ forall x y z, ~ triplet X "8,,6" x y z.
Proof.
  intros X. split.
  - apply triplet_spec. rewrite <- (whole 8 0 8), <- (whole 6 0 6), <- (whole 3 0 3) by (cbn; lia). reflexivity.
  - intros x y z H. apply triplet_spec in H. discriminate.
Qed.
(** A log level that stops the program, and an unknown one that does not. *)
Example C86_example_main : forall sh fuel w,
  main sh fuel ["--cmu-root"; "corpus"; "--log-level"; "basic_format"] w = Raised ValueError /\
  exists r, main sh fuel ["--cmu-root"; "corpus"; "--log-level"; "loud"] w = Built r.
Proof.
  intros sh fuel w. set (o := mkO "--cmu-root" "cmu_root" KOne TPath None true). set (o2 := one "--log-level" "log_level" TText).
  assert (V : forall s, ~ starts "-" s -> as_value builder_options s) by (intros s H; left; exact H).
  assert (S : forall t, ~ starts "-" t -> said (sh_texts sh) builder_options ["--cmu-root"; "corpus"; "--log-level"; t]
      [(mkItem o "--cmu-root" false ["corpus"], VPath "corpus"); (mkItem o2 "--log-level" false [t], VText t)]).
  { intros t Ht. split; [reflexivity|]. split.
    - constructor; [|constructor; [|constructor]]; cbn [fst snd]; (split; [split; [cbn; tauto|left; reflexivity]|]); cbn; eexists; repeat split; auto.
      intros _. apply V. intros [r Q]. discriminate.
    - intros o' I R. eexists. split; [left; reflexivity|]. cbn [fst i_opt].
      eapply same_name; [apply builder_table|right; right; left; reflexivity|exact I|]. cbn. symmetry. apply (proj1 (proj2 C86_table)); assumption. }
  split.
  - apply C86_raises. eexists. split; [apply S; intros [r Q]; discriminate|]. exists "basic_format". split; [reflexivity|]. left. split; reflexivity.
  - apply (C86_runs sh fuel _ w). eexists. split; [apply S; intros [r Q]; discriminate|].
    intros e [level [E H]]. cbn in E. injection E as <-. destruct H as [[H _]|[[H _]|[_ [_ [n [d [t [I [Et H]]]]]]]]]; try discriminate.
    cbn in I. destruct I as [Q|[Q|[Q|[]]]]; injection Q as <- <-; cbn in Et; injection Et as <-.
    + apply (proj1 (no_triplet _ _)) in H. discriminate.
    + apply (proj1 (no_triplet _ _)) in H. discriminate.
    + apply (proj1 (no_triplet _ _)) in H. discriminate.
Qed.
Print Assumptions C86_accepts.
Print Assumptions C86_values.
Print Assumptions C86_exits.
Print Assumptions C86_help.
Print Assumptions C86_vague.
Print Assumptions C86_table.
Print Assumptions C86_main.
Print Assumptions C86_raises.
Print Assumptions C86_runs.
Print Assumptions C86_next.
Print Assumptions C86_signed.
Print Assumptions C86_defaults.
