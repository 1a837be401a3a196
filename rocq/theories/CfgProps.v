(** C87: the configuration of the example program. *)
From Coq Require Import Ascii String List ZArith Reals Bool Lia Lra.
From Verif Require Import Prelude FloatModel RoomModel CliModel CliSpec CliProofs CliTriple CliMain CfgModel CfgSpec CfgProofs.
From Verif Require DirSpec IoSpec UtlModel UtlSpec.
Import ListNotations.
Local Notation length := List.length.
Local Open Scope string_scope.
Local Open Scope list_scope.

Lemma table_forms : forall o, In o example_options -> exists f, In (o_name o, f) documented_options /\ has_example_form o f.
Proof.
  intros o I. unfold example_options, help_options, output_options in I. cbn [app] in I. unfold documented_options. repeat destruct I as [<-|I];
    try (eexists; split; [cbn [one flag o_name In modes]; repeat (first [left; reflexivity|right])|repeat split; fail]). destruct I.
Qed.
Lemma documented_fun : forall n f f', In (n, f) documented_options -> In (n, f') documented_options -> f = f'.
Proof.
  assert (N : NoDup (map fst documented_options)) by (apply nodupb_spec; vm_compute; reflexivity). revert N. generalize documented_options. intros sp N d n n' I J.
  induction sp as [|[k m] sp IH]; [destruct I|]. cbn [map fst] in N. inversion N as [|? ? N1 N2]; subst.
  destruct I as [I|I], J as [J|J].
  - congruence.
  - exfalso. injection I as -> ->. apply N1. apply in_map_iff. exists (d, n'). auto.
  - exfalso. injection J as -> ->. apply N1. apply in_map_iff. exists (d, n). auto.
  - auto.
Qed.
(** The options are the documented ones, none is required. *)
Theorem C87_table : table_ok example_options /\ (forall o, In o example_options -> o_required o = false) /\
  (forall n f, In (n, f) documented_options -> exists o, In o example_options /\ o_name o = n /\ has_example_form o f) /\
  (forall o, In o example_options -> exists f, In (o_name o, f) documented_options /\ has_example_form o f).
Proof.
  split; [exact example_table|]. split; [|split].
  - intros o I. assert (F : forallb (fun o => negb (o_required o)) example_options = true) by (vm_compute; reflexivity).
    rewrite forallb_forall in F. apply negb_true_iff, F, I.
  - intros n f I. assert (G : exists o, In o example_options /\ o_name o = n).
    { assert (E : existsb (fun o => String.eqb (o_name o) n) example_options = true).
      { unfold documented_options in I. cbn [In] in I. repeat destruct I as [E|I]; try (injection E as <- _; reflexivity). destruct I. }
      apply existsb_exists in E. destruct E as [o [J E]]. apply String.eqb_eq in E. eauto. }
    destruct G as [o [J E]]. exists o. split; [exact J|]. split; [exact E|]. destruct (table_forms o J) as [f' [I' H]]. rewrite E in I'.
    rewrite (documented_fun n f f' I I'). exact H.
  - exact table_forms.
Qed.
(** The value of an attribute is the last one said, else that of the configuration, else the
    documented one; with them the program goes on as [goes] says. *)
Theorem C87_starts : forall h argv l c, said (h_texts h) example_options argv l -> configured_by h l c -> readable (h_texts h) l c ->
  exists a, all_in_force (h_texts h) l c a /\ goes h a (start_main h argv).
Proof.
  intros h argv l c S C R. destruct (start_said h argv l c S C) as [H _]. destruct (H R) as [ns [E A]]. exists (attribute ns). split; [exact A|].
  rewrite E. apply goes_start. eapply room_not_text; eauto.
Qed.
(** The configuration and the attributes are determined. *)
Lemma number_fun : forall X v x y, number X v x -> number X v y -> x = y.
Proof. intros X v x y H1 H2. apply to_float_spec in H1, H2. congruence. Qed.
Lemma default_fun : forall X d v x y, default_is X d v x -> default_is X d v y -> x = y.
Proof.
  intros X d v x y H1 H2. destruct v; cbn in H1, H2; try congruence.
  destruct H1 as [[N1 ->]|[o [So H1]]], H2 as [[N2 ->]|[o' [So' H2]]]; [reflexivity|destruct (N1 o' So')|destruct (N2 o So)|].
  destruct So as [Io Ed], So' as [Io' Ed']. rewrite (same_type o o' Io Io') in H1 by congruence. apply convert_spec in H1, H2. congruence.
Qed.
Lemma spoken_fun : forall d n n', In (d, n) spoken -> In (d, n') spoken -> n = n'.
Proof.
  assert (N : NoDup (map fst spoken)) by (apply nodupb_spec; vm_compute; reflexivity). revert N. generalize spoken. intros sp N d n n' I J.
  induction sp as [|[k m] sp IH]; [destruct I|]. cbn [map fst] in N. inversion N as [|? ? N1 N2]; subst.
  destruct I as [I|I], J as [J|J].
  - congruence.
  - exfalso. injection I as -> ->. apply N1. apply in_map_iff. exists (d, n'). auto.
  - exfalso. injection J as -> ->. apply N1. apply in_map_iff. exists (d, n). auto.
  - auto.
Qed.
Theorem C87_determined : forall h l c c', configured_by h l c -> configured_by h l c' -> c = c' /\
  forall a a', all_in_force (h_texts h) l c a -> all_in_force (h_texts h) l c' a' -> forall d, In d (map fst spoken) -> a d = a' d.
Proof.
  intros h l c c' C C'. assert (E : c = c').
  { unfold configured_by in C, C'. destruct (last_said l _) as [v|]; [|congruence]. destruct C as [p [c0 [-> [F [N _]]]]], C' as [p' [c0' [E [F' [N' _]]]]]. injection E as <-.
    apply load_spec in F, F'. apply normalize_spec in N, N'. congruence. }
  split; [exact E|]. subst c'. intros a a' A A' d I. destruct (A d I) as [n [J F]], (A' d I) as [n' [J' F']]. rewrite (spoken_fun d n' n J' J) in F'.
  destruct (last_said l n); [congruence|]. destruct (entry c d); [eapply default_fun; eauto|]. destruct (entry documented_defaults d); congruence.
Qed.
(** The other ways to end: an unreadable configuration raises, a text in it that an option cannot
    read ends the program with code 2, and a line that says nothing meaningful ends it with code 2
    (0 for help) or with the error of the configuration.  Nothing has been written in these
    cases. *)
Theorem C87_ends : forall h argv,
  (forall l, said (h_texts h) example_options argv l -> (forall c, ~ configured_by h l c) -> exists e, start_main h argv = SRaised e None) /\
  (forall l c, said (h_texts h) example_options argv l -> configured_by h l c -> ~ readable (h_texts h) l c -> start_main h argv = SQuit 2) /\
  ((forall l, ~ said (h_texts h) example_options argv l) ->
     (exists e, start_main h argv = SRaised e None) \/ start_main h argv = SQuit 2 \/
     (start_main h argv = SQuit 0 /\ exists s, In s argv /\ asks_help example_options s)).
Proof.
  intros h argv. split; [|split].
  - intros l. apply start_unconfigured.
  - intros l c S C R. apply (start_said h argv l c S C). exact R.
  - apply start_unsaid.
Qed.
(** The error of the configuration. *)
Theorem C87_errors : forall h argv l p, said (h_texts h) example_options argv l -> last_said l ["--config-in"] = Some (VPath p) ->
  let file := fun r => (yaml_name (h_name h p) /\ h_yaml h p = r) \/ (~ yaml_name (h_name h p) /\ h_json h p = r) in
  (forall e, file (Err e) -> start_main h argv = SRaised e None) /\
  (forall v, file (Ok (DOther v)) -> ~ (yaml_name (h_name h p) /\ nothing v) -> start_main h argv = SRaised ValueError None) /\
  (forall c, file (Ok (DMap c)) -> (forall v, ~ In ("room", VList v) c) -> In "self" (map fst c) -> start_main h argv = SRaised TypeError None).
Proof.
  intros h argv l p S E file. destruct (first_pass (h_texts h) argv l S) as [r [Er Ep]]. unfold start_main. rewrite Ep.
  unfold configured. rewrite (config_in_said _ argv l r S Er). unfold last_or. rewrite E. unfold load_config, file. pose proof (yaml_spec h p) as Y.
  split; [|split].
  - intros e [[H ->]|[H ->]].
    + apply Y in H. rewrite H. reflexivity.
    + destruct (is_yaml h p); [destruct H; apply Y; reflexivity|reflexivity].
  - intros v [[H ->]|[H ->]] N.
    + pose proof H as H'. apply Y in H. rewrite H. cbn [bind]. destruct (falsy v) eqn:F; [|reflexivity]. apply falsy_spec in F. tauto.
    + destruct (is_yaml h p); [destruct H; apply Y; reflexivity|reflexivity].
  - intros c Hf Nr Is.
    assert (Ec : (do d <- (if is_yaml h p then do d <- h_yaml h p; Ok (match d with DOther v => if falsy v then DMap [] else d | _ => d end) else h_json h p);
                  match d with DMap c => Ok c | DOther _ => Err ValueError end) = Ok c).
    { destruct Hf as [[H ->]|[H ->]]; [apply Y in H; rewrite H; reflexivity|]. destruct (is_yaml h p); [destruct H; apply Y; reflexivity|reflexivity]. }
    rewrite Ec. cbn [bind].
    assert (En : exists c', normalize_config (h_texts h) c = Ok c' /\ map fst c' = map fst c).
    { clear - Nr. induction c as [|[k v] c IH]; [exists []; auto|]. destruct IH as [c' [E1 E2]]; [intros v' I; apply (Nr v'); right; exact I|].
      unfold normalize_config in *. cbn [mapM fst snd].
      assert (Hv : exists v', normalize_value (h_texts h) k v = Ok v').
      { unfold normalize_value. destruct v; eauto; [destruct (existsb _ _); eauto|]. destruct (String.eqb_spec k "room") as [->|N]; [|eauto]. exfalso. apply (Nr l). left. reflexivity. }
      destruct Hv as [v' ->]. cbn [bind]. rewrite E1. cbn [bind]. eexists. split; [reflexivity|]. cbn. congruence. }
    destruct En as [c' [-> Ek]]. cbn [bind]. unfold set_defaults. destruct (existsb _ c') eqn:Es; [reflexivity|]. apply self_spec in Es. rewrite Ek in Es. contradiction.
Qed.
(** A scenario runs only on an accepted line with a readable configuration, with the attributes
    in force; what is written is the configuration of these attributes. *)
Theorem C87_runs : forall h argv m ns w, start_main h argv = SRun m ns w -> exists l c,
  said (h_texts h) example_options argv l /\ configured_by h l c /\ readable (h_texts h) l c /\ all_in_force (h_texts h) l c (attribute ns) /\
  In m modes /\ attribute ns "mode" = VText m /\ writes h (attribute ns) (Ok w).
Proof.
  intros h argv m ns w H.
  assert (Ex : exists l, said (h_texts h) example_options argv l).
  { unfold start_main in H. destruct (parse_known_defaults _ _ example_defaults argv) as [[pre ex]|]; [|discriminate]. destruct (configured h pre) as [D|]; [|discriminate].
    destruct (parse_defaults (h_texts h) example_options D argv) as [q|] eqn:P; [|discriminate]. unfold parse_defaults, parse_known_defaults in P.
    destruct (parse_known (h_texts h) example_options [] argv) as [[n0 ex0]|] eqn:K; [|discriminate]. cbn [pbind fst snd] in P.
    destruct (convert_defaults _ _ D n0); [|discriminate]. cbn [pbind fst snd] in P. destruct ex0; [|discriminate].
    assert (P' : parse (h_texts h) example_options [] argv = Parsed n0) by (unfold parse; rewrite K; reflexivity).
    destruct (parse_inv _ _ _ _ _ example_table P') as [l [S _]]. eauto. }
  destruct Ex as [l S].
  assert (Ec : exists c, configured_by h l c).
  { destruct (first_pass (h_texts h) argv l S) as [r [Er Ep]]. unfold start_main in H. rewrite Ep in H.
    destruct (configured h _) as [D|] eqn:E; [|discriminate]. apply (configured_spec h argv l r _ S Er) in E. destruct E as [c [C _]]. eauto. }
  destruct Ec as [c C]. exists l, c. destruct (start_said h argv l c S C) as [G1 G2].
  assert (R : readable (h_texts h) l c).
  { destruct (convert_defaults (h_texts h) example_options (c ++ example_defaults) (final [] l)) as [r|k] eqn:E; [apply (readable_spec _ argv l c S); eauto|].
    exfalso. assert (Nr : ~ readable (h_texts h) l c) by (intros Q; apply (readable_spec _ argv l c S) in Q; destruct Q as [r Q]; congruence). rewrite (G2 Nr) in H. discriminate. }
  destruct (G1 R) as [ns' [Es A]]. rewrite Es in H. pose proof (goes_start h ns' (room_not_text _ argv l c _ S A)) as G. rewrite H in G.
  assert (ns' = ns) as ->.
  { unfold start_with in H. destruct (do _ <- _; _); [|discriminate]. destruct (attribute ns' "mode"); try discriminate. destruct (existsb _ _); [|discriminate]. congruence. }
  inversion G as [| | | |z w' m' ns' Hl Hs Hw Hm Hn Hx]; subst. exact (conj S (conj C (conj R (conj A (conj Hm (conj Hn Hw)))))).
Qed.
(** A configuration that was written and is read again gives the same attributes, the two
    directories as their texts. *)
Theorem C87_roundtrip : forall h h' argv m ns p c p' q1 q2, start_main h argv = SRun m ns (Some (p, c)) ->
  attribute ns "dataset_dir" = VPath q1 -> attribute ns "out_dir" = VPath q2 -> ~ starts "-" p' ->
  file_holds h' p' c -> h_seed h' (attribute ns "seed") (attribute ns "deterministic") = Ok tt ->
  exists ns', start_main h' ["--config-in"; p'] = SRun m ns' None /\ forall d, In d saved -> attribute ns' d = kept h d (attribute ns d).
Proof.
  intros h h' argv m ns p c p' q1 q2 H E1 E2 Np F Hs. destruct (C87_runs h argv m ns (Some (p, c)) H) as [l [c0 [S [C [R [A [Im [Em W]]]]]]]].
  assert (Sv : saves h (attribute ns) c) by (inversion W; subst; auto).
  destruct (roundtrip h h' argv l c0 (attribute ns) c p' q1 q2 S C A Sv E1 E2 F Np) as [ns' [Es [_ [K Ko]]]]. exists ns'. split; [|exact K].
  rewrite Es. unfold start_with.
  assert (Kd : forall d, In d saved -> ~ In d ["dataset_dir"; "out_dir"] -> attribute ns' d = attribute ns d).
  { intros d I N. rewrite (K d I). unfold kept. destruct (in_dec string_dec d _); [contradiction|reflexivity]. }
  rewrite !Kd by (cbn; intuition discriminate). unfold write_config. rewrite Ko.
  assert (L : exists z, UtlModel.resolve_level (level_of (attribute ns "log_level")) = Ok z).
  { assert (E3 : exists ns0, start_with h ns0 = SRun m ns (Some (p, c))).
    { unfold start_main in H. destruct (parse_known_defaults _ _ example_defaults argv) as [[pre ex]|]; [|discriminate]. destruct (configured h pre) as [D|]; [|discriminate].
      destruct (parse_defaults (h_texts h) example_options D argv) as [q|]; [|discriminate]. eauto. }
    destruct E3 as [ns0 E3]. unfold start_with in E3. destruct (UtlModel.resolve_level (level_of (attribute ns0 "log_level"))) as [z|] eqn:Ez; [|discriminate]. cbn [bind] in E3.
    destruct (do _ <- h_seed h _ _; _); [|discriminate]. destruct (attribute ns0 "mode"); try discriminate. destruct (existsb _ _); [|discriminate]. injection E3 as _ <- _. eauto. }
  destruct L as [z ->]. cbn [bind]. rewrite Hs. cbn [bind]. rewrite Em. apply modes_spec in Im. rewrite Im. reflexivity.
Qed.
(** What a configuration switches on stays on, whatever is said: these options have no opposite. *)
Theorem C87_sticky : forall h argv l c a d, said (h_texts h) example_options argv l -> all_in_force (h_texts h) l c a ->
  In d ["plot"; "show"; "gif"; "deterministic"] -> entry c d = Some (VBool true) -> a d = VBool true.
Proof.
  intros h argv l c a d S A I E. assert (Ip : In d (map fst spoken)) by (cbn in *; tauto). destruct (A d Ip) as [n [J F]]. rewrite E in F.
  destruct (last_said l n) as [v|] eqn:El; [|exact F]. subst v. destruct (last_said_in _ _ _ El) as [it [K N]].
  pose proof (said_meant _ _ argv l S it _ K) as [[IT _] M]. apply (spoken_dest d n (or_introl J) _ IT) in N.
  assert (Q : forallb (fun o => negb (existsb (String.eqb (o_dest o)) ["plot"; "show"; "gif"; "deterministic"]) || match o_kind o with KFlag true => true | _ => false end) example_options = true) by (vm_compute; reflexivity).
  rewrite forallb_forall in Q. specialize (Q _ IT). rewrite N in Q.
  replace (existsb (String.eqb d) ["plot"; "show"; "gif"; "deterministic"]) with true in Q by (symmetry; apply existsb_exists; exists d; split; [exact I|apply String.eqb_refl]).
  cbn [negb orb] in Q. destruct (o_kind (i_opt it)) as [| |[|]|]; try discriminate. destruct M as [_ [_ M]]. exact M.
Qed.
(** The download can be switched off. *)
Theorem C87_download : forall h argv l c a pre it post, said (h_texts h) example_options argv l -> all_in_force (h_texts h) l c a ->
  l = pre ++ (it, VBool false) :: post -> o_name (i_opt it) = "--no-download" ->
  (forall p, In p post -> o_name (i_opt (fst p)) <> "--download") -> a "download" = VBool false.
Proof.
  intros h argv l c a pre it post S A E Hn Hp. destruct (A "download") as [n [J F]]; [cbn; tauto|].
  assert (n = ["--download"; "--no-download"]) as -> by (eapply spoken_fun; [exact J|cbn; tauto]).
  assert (El : last_said l ["--download"; "--no-download"] = Some (VBool false)).
  { assert (Ep : last_said post ["--download"; "--no-download"] = None \/ last_said post ["--download"; "--no-download"] = Some (VBool false)).
    { destruct (last_said post _) as [v|] eqn:Ev; [|auto]. right. destruct (last_said_in _ _ _ Ev) as [it' [K N]].
      assert (K' : In (it', v) l) by (rewrite E; apply in_or_app; right; right; exact K).
      pose proof (said_meant _ _ argv l S it' _ K') as [[IT _] M]. destruct N as [N|[N|[]]]; [destruct (Hp _ K); auto|].
      assert (Q : forallb (fun o => negb (String.eqb (o_name o) "--no-download") || match o_kind o with KFlag false => true | _ => false end) example_options = true) by (vm_compute; reflexivity).
      rewrite forallb_forall in Q. specialize (Q _ IT). rewrite <- N in Q. cbn [String.eqb Ascii.eqb Bool.eqb negb orb] in Q. rewrite (String.eqb_refl "--no-download") in Q || idtac. cbn [negb orb] in Q.
      destruct (o_kind (i_opt it')) as [| |[|]|]; try discriminate. destruct M as [_ [_ ->]]. reflexivity. }
    rewrite E. clear - Ep Hn. induction pre as [|[i v] pre IH].
    - cbn [app last_said]. destruct Ep as [->| ->]; [|reflexivity]. rewrite Hn. reflexivity.
    - cbn [app last_said]. rewrite IH. reflexivity. }
  rewrite El in F. exact F.
Qed.
(** A mode of the configuration is not checked by the parser: the error comes after the
    configuration has been written. *)
Theorem C87_mode_unchecked : forall h argv l c v, said (h_texts h) example_options argv l -> configured_by h l c -> readable (h_texts h) l c ->
  last_said l ["--mode"] = None -> entry c "mode" = Some v -> (forall m, In m modes -> v <> VText m) ->
  exists a, all_in_force (h_texts h) l c a /\
    ((exists e, start_main h argv = SRaised e None) \/ (exists w, start_main h argv = SRaised ValueError w /\ writes h a (Ok w))).
Proof.
  intros h argv l c v S C R Em Ev Nv. destruct (C87_starts h argv l c S C R) as [a [A G]]. exists a. split; [exact A|].
  assert (Ea : a "mode" = v).
  { destruct (A "mode") as [n [J F]]; [cbn; tauto|]. assert (n = ["--mode"]) as -> by (eapply spoken_fun; [exact J|cbn; tauto]). rewrite Em, Ev in F.
    destruct v; try exact F. 
    eapply (text_stays _ "mode" s _ (mkO "--mode" "mode" KOne TText (Some ["static"; "dynamic_src"; "dynamic_mic"]) false)); [|reflexivity|exact F].
    split; [right; right; left; reflexivity|reflexivity]. }
  inversion G; subst; eauto. exfalso. eapply Nv; [eassumption|]. congruence.
Qed.
(** [add_output_args]: the options there are, and their values. *)
Theorem C87_output : forall X dir pd ip is_ ig argv l, let T := help_options ++ output_options pd ip is_ ig in
  table_ok T /\
  (forall n, (exists o, In o T /\ o_name o = n) <->
     n = "-h" \/ n = "--help" \/ n = "--out-dir" \/ (n = "--plot" /\ ip = true) \/ (n = "--no-plot" /\ ip = true /\ pd = true) \/
     (n = "--show" /\ is_ = true) \/ (n = "--gif" /\ ig = true) \/ (n = "--gif-fps" /\ ig = true)) /\
  (forall o, In o T -> exists f, In (o_name o, f) (("--no-plot", Plain (Switch false)) :: documented_options) /\ has_example_form o f) /\
  (said X T argv l -> exists ns, parse X T (output_defaults dir pd ip is_ ig) argv = Parsed ns /\
     attribute ns "out_dir" = last_or l ["--out-dir"] (VPath dir) /\
     (ip = true -> attribute ns "plot" = last_or l ["--plot"; "--no-plot"] (VBool pd)) /\
     (is_ = true -> attribute ns "show" = last_or l ["--show"] (VBool false)) /\
     (ig = true -> attribute ns "gif" = last_or l ["--gif"] (VBool false) /\ attribute ns "gif_fps" = last_or l ["--gif-fps"] (VInt (-1)))).
Proof.
  intros X dir pd ip is_ ig argv l T. assert (Tk : table_ok T).
  { split; [apply nodupb_spec; destruct pd, ip, is_, ig; vm_compute; reflexivity|]. split.
    { intros o I. apply name_okb_spec. assert (F : forallb name_okb T = true) by (destruct pd, ip, is_, ig; vm_compute; reflexivity).
      rewrite forallb_forall in F. apply F, I. }
    split; [exists (mkO "-h" "help" KHelp TText None false); split; [left; reflexivity|reflexivity]|].
    exists (mkO "--help" "help" KHelp TText None false), (one "--out-dir" "out_dir" TPath).
    split; [right; left; reflexivity|]. split; [right; right; left; reflexivity|]. repeat split; [exists "help"; reflexivity|exists "out-dir"; reflexivity|discriminate]. }
  split; [exact Tk|]. split.
  - intros n. split.
    + intros [o [I <-]]. unfold T, help_options, output_options in I. destruct pd, ip, is_, ig; cbn [app In] in I;
        repeat (destruct I as [<-|I]; [cbn [o_name one flag]; tauto|]); destruct I.
    + assert (W : forall n', existsb (fun o => String.eqb (o_name o) n') T = true -> exists o, In o T /\ o_name o = n').
      { intros n' H. apply existsb_exists in H. destruct H as [o [I E]]. apply String.eqb_eq in E. eauto. }
      intros H. apply W. unfold T.
      destruct H as [->|[->|[->|[[-> ->]|[[-> [-> ->]]|[[-> ->]|[[-> ->]|[-> ->]]]]]]]]; try destruct pd; try destruct ip; try destruct is_; try destruct ig; vm_compute; reflexivity.
  - split.
    { intros o I. unfold T, help_options, output_options in I. unfold documented_options. destruct pd, ip, is_, ig; cbn [app] in I; repeat (destruct I as [<-|I];
        [eexists; split; [cbn [one flag o_name In modes]; repeat (first [left; reflexivity|right])|repeat split; fail]|]); destruct I. }
    intros S. exists (final (output_defaults dir pd ip is_ ig) l). split; [apply parse_said; auto|]. unfold attribute.
    split; [|split; [|split]].
    + rewrite (final_or X T _ argv l ["--out-dir"] "out_dir" (VPath dir) S); [reflexivity| |reflexivity]. unfold T. destruct pd, ip, is_, ig; vm_compute; reflexivity.
    + intros ->. rewrite (final_or X T _ argv l ["--plot"; "--no-plot"] "plot" (VBool pd) S); [reflexivity| |reflexivity]. unfold T. destruct pd, is_, ig; vm_compute; reflexivity.
    + intros ->. rewrite (final_or X T _ argv l ["--show"] "show" (VBool false) S); [reflexivity| |]; unfold T; destruct pd, ip, ig; vm_compute; reflexivity.
    + intros ->. split.
      * rewrite (final_or X T _ argv l ["--gif"] "gif" (VBool false) S); [reflexivity| |]; unfold T; destruct pd, ip, is_; vm_compute; reflexivity.
      * rewrite (final_or X T _ argv l ["--gif-fps"] "gif_fps" (VInt (-1)) S); [reflexivity| |]; unfold T; destruct pd, ip, is_; vm_compute; reflexivity.
Qed.

(** ** Examples *)
(** A host with two files. *)
Definition small_config : config :=
  [("mode", VText "dynamic_src"); ("num_sources", VText "3"); ("plot", VBool true); ("out_dir", VText "o"); ("room", VList [VFloat (Fin 5); VFloat (Fin 4); VFloat (Fin 3)]);
   ("num_source", VInt 9)].
Definition small_host (X : texts) (c : config) : host :=
  mkHost X (fun p => if String.eqb p "c.json" then Ok (DMap c) else Err FileNotFoundError) (fun _ => Ok (DOther VNone))
    (fun p => p) (fun p => p) (fun _ => "?") (fun _ _ => Ok tt) (fun _ _ => Ok tt).
(** What is said wins over the configuration, this over the defaults; the misspelt key is ignored. *)
Example C87_example : forall X, exists ns, start_main (small_host X small_config) ["--config-in"; "c.json"; "--steps=4"; "--mode"; "static"; "--no-download"] = SRun "static" ns None /\
  attribute ns "steps" = VInt 4 /\ attribute ns "num_sources" = VInt 3 /\ attribute ns "plot" = VBool true /\ attribute ns "out_dir" = VPath "o" /\
  attribute ns "room" = VList [VFloat (Fin 5); VFloat (Fin 4); VFloat (Fin 3)] /\ attribute ns "order" = VInt 8 /\ attribute ns "download" = VBool false.
Proof. intros X. eexists. split; [lazy -[rnd64 IZR Rdiv pow]; reflexivity|]. repeat split; lazy -[rnd64 IZR Rdiv pow]; reflexivity. Qed.
(** An empty YAML file is an empty configuration; an empty JSON file is an error of the reader; a
    number that is none ends the program. *)
Example C87_example_ends : forall X,
  (exists ns, start_main (small_host X []) ["--config-in"; "c.YML"] = SRun "static" ns None) /\
  start_main (small_host X []) ["--config-in"; "d.json"] = SRaised FileNotFoundError None /\
  start_main (mkHost (mkTexts (fun _ => None) (fun _ => None)) (fun _ => Ok (DMap [("seed", VText "first")])) (fun _ => Ok (DOther VNone)) (fun p => p) (fun p => p) (fun _ => "?") (fun _ _ => Ok tt) (fun _ _ => Ok tt))
    ["--config-in"; "c.json"] = SQuit 2 /\
  start_main (small_host X []) ["--config-in"; "d.json"; "--bogus"] = SRaised FileNotFoundError None.
Proof. intros X. split; [eexists; lazy -[rnd64 IZR Rdiv pow]; reflexivity|]. repeat split; lazy -[rnd64 IZR Rdiv pow]; reflexivity. Qed.
(** A mode that is none: the error comes after the writing. *)
Example C87_example_mode : forall X, exists c,
  start_main (small_host X [("mode", VText "dynamic"); ("config_out", VText "o.json")]) ["--config-in"; "c.json"] = SRaised ValueError (Some ("o.json", c)) /\
  entry c "mode" = Some (VText "dynamic").
Proof. intros X. eexists. split; lazy -[rnd64 IZR Rdiv pow]; reflexivity. Qed.
(** What was written is read again. *)
Example C87_example_roundtrip : forall X, exists ns c ns',
  start_main (small_host X small_config) ["--config-in"; "c.json"; "--config-out"; "o.json"; "--seed"; "-7"] = SRun "dynamic_src" ns (Some ("o.json", c)) /\
  start_main (small_host X c) ["--config-in"; "c.json"] = SRun "dynamic_src" ns' None /\ attribute ns' "seed" = VInt (-7) /\ attribute ns' "num_sources" = VInt 3.
Proof. intros X. eexists _, _, _. split; [lazy -[rnd64 IZR Rdiv pow]; reflexivity|]. split; [lazy -[rnd64 IZR Rdiv pow]; reflexivity|]. split; reflexivity. Qed.
(** [null] for a directory comes back as a text. *)
Example C87_example_null : forall X, exists ns c ns',
  start_main (small_host X [("dataset_dir", VNone)]) ["--config-in"; "c.json"; "--config-out"; "o.json"] = SRun "static" ns (Some ("o.json", c)) /\
  attribute ns "dataset_dir" = VNone /\
  start_main (small_host X c) ["--config-in"; "c.json"] = SRun "static" ns' None /\ attribute ns' "dataset_dir" = VPath "?".
Proof. intros X. eexists _, _, _. split; [lazy -[rnd64 IZR Rdiv pow]; reflexivity|]. split; [reflexivity|]. split; [lazy -[rnd64 IZR Rdiv pow]; reflexivity|]. reflexivity. Qed.
(** The saved configuration of any attributes: a text for the room is taken apart into its letters. *)
Theorem C87_room_text : forall h ns s, attribute ns "room" = VText s ->
  exists c l, serialize_args h ns = Ok c /\ map fst c = saved /\ entry c "room" = Some (VList l) /\ length l = String.length s /\
    forall i ch, String.get i s = Some ch -> nth_error l i = Some (VText (String ch "")).
Proof.
  intros h ns s E. unfold serialize_args. rewrite E. cbn [list_of bind]. eexists _, (characters s). split; [reflexivity|]. split; [reflexivity|]. split; [reflexivity|].
  unfold characters. clear E. split.
  - rewrite map_length. induction s; cbn; congruence.
  - induction s as [|a s IH]; intros i ch H; [destruct i; discriminate|]. destruct i as [|i]; cbn in H |- *; [congruence|]. apply IH. exact H.
Qed.
Example C87_room_text_example : forall h, exists c, serialize_args h [("room", VText "6,4")] = Ok c /\ entry c "room" = Some (VList [VText "6"; VText ","; VText "4"]).
Proof. intros h. eexists. split; reflexivity. Qed.
Print Assumptions C87_table.
Print Assumptions C87_starts.
Print Assumptions C87_determined.
Print Assumptions C87_ends.
Print Assumptions C87_errors.
Print Assumptions C87_runs.
Print Assumptions C87_roundtrip.
Print Assumptions C87_sticky.
Print Assumptions C87_download.
Print Assumptions C87_mode_unchecked.
Print Assumptions C87_output.
Print Assumptions C87_room_text.
