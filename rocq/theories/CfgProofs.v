(** Proofs for C87. *)
From Coq Require Import Ascii String List ZArith Reals Bool Lia Lra.
From Verif Require Import Prelude FloatModel RoomModel CliModel CliSpec CliProofs CliTriple CliMain CfgModel CfgSpec.
From Verif Require DirSpec DirModel DirProofs IoSpec IoModel IoProofs UtlModel UtlSpec UtlProofs.
Import ListNotations.
Local Notation length := List.length.
Local Open Scope string_scope.
Local Open Scope list_scope.

Lemma example_table : table_ok example_options.
Proof.
  split; [apply nodupb_spec; vm_compute; reflexivity|]. split.
  { intros o I. apply name_okb_spec. assert (F : forallb name_okb example_options = true) by (vm_compute; reflexivity).
    rewrite forallb_forall in F. apply F, I. }
  split; [exists (mkO "-h" "help" KHelp TText None false); split; [left; reflexivity|reflexivity]|].
  exists (mkO "--help" "help" KHelp TText None false), (one "--dataset-dir" "dataset_dir" TPath).
  split; [right; left; reflexivity|]. split; [right; right; right; left; reflexivity|]. repeat split; [exists "help"; reflexivity|exists "dataset-dir"; reflexivity|discriminate].
Qed.
Lemma yaml_spec : forall h p, is_yaml h p = true <-> yaml_name (h_name h p).
Proof.
  intros h p. unfold is_yaml, yaml_name. set (n := h_name h p).
  destruct (IoProofs.suffix_cases n) as [E|(e & E & Hx)]; rewrite E.
  - split; [discriminate|]. intros (e & Hx & _). apply IoProofs.suffix_extension in Hx. congruence.
  - replace (DirModel.lower (String "." e)) with (String "." (DirModel.lower e)) by reflexivity.
    cbn [existsb]. rewrite orb_false_r, orb_true_iff. split.
    + intros [H|H]; apply String.eqb_eq in H; injection H as E2; exists e; (split; [exact Hx|]); [left|right]; (apply DirProofs.lower_spells; [repeat constructor; unfold DirProofs.lower_char; cbn; lia|exact E2]).
    + intros (e' & Hx' & H). assert (e' = e) as -> by (eapply IoProofs.extension_fun; eauto).
      destruct H as [H|H]; (apply DirProofs.lower_spells in H; [rewrite H; auto|repeat constructor; unfold DirProofs.lower_char; cbn; lia]).
Qed.
Lemma falsy_spec : forall v, falsy v = true <-> nothing v.
Proof.
  intros v. unfold nothing. destruct v as [|z|x|s|s|b|l]; cbn.
  - tauto.
  - rewrite Z.eqb_eq. split; [intros ->; tauto|]. intros [H|[H|[H|[H|[H|H]]]]]; congruence.
  - destruct x as [r| | |]; try (split; [discriminate|intros [H|[H|[H|[H|[H|H]]]]]; congruence]).
    unfold Reqb. destruct (Req_EM_T r 0) as [->|N]; split; auto; try discriminate. intros [H|[H|[H|[H|[H|H]]]]]; congruence.
  - rewrite String.eqb_eq. split; [intros ->; tauto|]. intros [H|[H|[H|[H|[H|H]]]]]; congruence.
  - split; [discriminate|]. intros [H|[H|[H|[H|[H|H]]]]]; congruence.
  - destruct b; cbn; split; auto; try discriminate. intros [H|[H|[H|[H|[H|H]]]]]; congruence.
  - destruct l; split; auto; try discriminate; try tauto. intros [H|[H|[H|[H|[H|H]]]]]; congruence.
Qed.
Lemma load_spec : forall h p c, load_config h p = Ok c <-> file_holds h p c.
Proof.
  intros h p c. unfold load_config, file_holds. pose proof (yaml_spec h p) as Y. destruct (is_yaml h p).
  - assert (yaml_name (h_name h p)) as Y' by (apply Y; reflexivity). split.
    + intros H. left. split; [exact Y'|]. destruct (h_yaml h p) as [[c'|v]|e]; cbn [bind] in H; [injection H as ->; auto| |discriminate].
      destruct (falsy v) eqn:F; [|discriminate]. injection H as <-. right. exists v. split; [reflexivity|]. split; [apply falsy_spec; exact F|reflexivity].
    + intros [[_ [->|[v [-> [N ->]]]]]|[N _]]; [reflexivity| |tauto]. cbn [bind]. rewrite (proj2 (falsy_spec v) N). reflexivity.
  - assert (~ yaml_name (h_name h p)) as Y' by (intros Q; apply Y in Q; discriminate). split.
    + intros H. right. split; [exact Y'|]. destruct (h_json h p) as [[c'|v]|e]; cbn [bind] in H; [injection H as ->; auto|discriminate|discriminate].
    + intros [[Q _]|[_ ->]]; [tauto|reflexivity].
Qed.
Lemma to_float_spec : forall X v x, to_float X v = Ok x <-> number X v x.
Proof.
  intros X v x. destruct v as [|z|y|s|s|b|l]; cbn; try (split; [discriminate|intros H; inversion H]).
  - unfold Rltb. destruct (Rlt_dec _ _) as [L|L]; split.
    + intros [= <-]. constructor. exact L.
    + intros H. inversion H. reflexivity.
    + discriminate.
    + intros H. inversion H. contradiction.
  - split; [intros [= <-]; constructor|intros H; inversion H; reflexivity].
  - destruct (read_float X s) as [y|] eqn:E; split.
    + intros [= <-]. constructor. apply read_float_spec. exact E.
    + intros H. inversion H as [| | | |? ? Hf]; subst. apply read_float_spec in Hf. congruence.
    + discriminate.
    + intros H. inversion H as [| | | |? ? Hf]; subst. apply read_float_spec in Hf. congruence.
  - destruct b; split; try (intros [= <-]; constructor); intros H; inversion H; reflexivity.
Qed.
Lemma mapM_spec {A B} (f : A -> result B) (P : A -> B -> Prop) : (forall a b, f a = Ok b <-> P a b) -> forall l m, mapM f l = Ok m <-> Forall2 P l m.
Proof.
  intros H. induction l as [|a l IH]; intros m; cbn [mapM].
  - split; [intros [= <-]; constructor|intros F; inversion F; reflexivity].
  - split.
    + destruct (f a) as [b|] eqn:E; cbn [bind]; [|discriminate]. destruct (mapM f l) as [r|] eqn:E2; cbn [bind]; [|discriminate].
      intros [= <-]. constructor; [apply H, E|apply IH; reflexivity].
    + intros F. inversion F as [|? b ? r Hab Hr]; subst. apply H in Hab. apply IH in Hr. rewrite Hab, Hr. reflexivity.
Qed.
Lemma normalize_value_spec : forall X k v v', normalize_value X k v = Ok v' <-> cleans X k v v'.
Proof.
  intros X k v v'. unfold normalize_value.
  assert (Same : forall w, ((k = "dataset_dir" \/ k = "out_dir") -> forall s, w <> VText s) -> (k = "room" -> forall l, w <> VList l) -> Ok w = Ok v' <-> cleans X k w v').
  { intros w H1 H2. split; [intros [= <-]; apply clean_same; auto|]. intros C. inversion C; subst; [destruct (H1 H s); reflexivity|destruct (H2 eq_refl l); reflexivity|reflexivity]. }
  destruct v; try (apply Same; congruence).
  - cbn [existsb]. destruct (String.eqb_spec k "dataset_dir") as [->|N1]; [|destruct (String.eqb_spec k "out_dir") as [->|N2]]; cbn [orb].
    + split; [intros [= <-]; apply clean_path; auto|]. intros C. inversion C as [? H|? ? H|? H1 H2]; subst; [reflexivity|]. destruct (H1 (or_introl eq_refl) s); reflexivity.
    + split; [intros [= <-]; apply clean_path; auto|]. intros C. inversion C as [? H|? ? H|? H1 H2]; subst; [reflexivity|]. destruct (H1 (or_intror eq_refl) s); reflexivity.
    + apply Same; [tauto|congruence].
  - destruct (String.eqb_spec k "room") as [->|N].
    + split.
      * destruct (mapM (to_float X) l) as [r|] eqn:E; cbn [bind]; [|discriminate]. intros [= <-]. apply clean_room; [reflexivity|].
        eapply mapM_spec; [|exact E]. apply to_float_spec.
      * intros C. inversion C as [? H|? xs ? F|? H1 H2]; subst.
        -- rewrite (proj2 (mapM_spec (to_float X) (number X) (to_float_spec X) l xs) F). reflexivity.
        -- destruct (H2 eq_refl l); reflexivity.
    + apply Same; [congruence|tauto].
Qed.
Lemma normalize_spec : forall X c c', normalize_config X c = Ok c' <-> Forall2 (fun a b => fst b = fst a /\ cleans X (fst a) (snd a) (snd b)) c c'.
Proof.
  intros X c c'. apply mapM_spec. intros [k v] [k' v']. cbn [fst snd]. destruct (normalize_value X k v) as [w|e] eqn:E; cbn [bind].
  - apply normalize_value_spec in E. split; [intros [= <- <-]; auto|]. intros [-> C]. apply normalize_value_spec in C, E. congruence.
  - split; [discriminate|]. intros [-> C]. apply normalize_value_spec in C. congruence.
Qed.
Lemma cleaned_keys : forall X c c', Forall2 (fun a b : string * val => fst b = fst a /\ cleans X (fst a) (snd a) (snd b)) c c' -> map fst c' = map fst c.
Proof. intros X c c' F. induction F as [|a b c c' [H _] F IH]; [reflexivity|]. cbn. congruence. Qed.
Lemma self_spec : forall c, existsb (fun p : string * val => String.eqb (fst p) "self") c = false <-> ~ In "self" (map fst c).
Proof.
  intros c. split.
  - intros H I. apply in_map_iff in I. destruct I as [p [E J]]. assert (existsb (fun p : string * val => String.eqb (fst p) "self") c = true); [|congruence].
    apply existsb_exists. exists p. split; [exact J|]. rewrite E. reflexivity.
  - intros H. destruct (existsb _ c) eqn:E; [|reflexivity]. apply existsb_exists in E. destruct E as [p [J E]]. apply String.eqb_eq in E.
    destruct H. rewrite <- E. apply in_map. exact J.
Qed.

(** ** Parsing with defaults *)
Lemma lookup_app : forall a b d, lookup (a ++ b) d = match lookup a d with Some v => Some v | None => lookup b d end.
Proof.
  induction a as [|[k v] a IH]; intros b d; [reflexivity|]. unfold lookup in *. cbn [app find fst]. destruct (String.eqb k d); [reflexivity|]. apply IH.
Qed.
Lemma entry_lookup : forall c d, entry c d = lookup c d.
Proof.
  induction c as [|[k v] c IH]; intros d; [reflexivity|]. cbn [entry]. unfold lookup in *. cbn [find fst]. destruct (string_dec k d) as [->|N].
  - rewrite String.eqb_refl. reflexivity.
  - rewrite (proj2 (String.eqb_neq _ _) N). apply IH.
Qed.
Lemma parse_known_said : forall X T D argv l, table_ok T -> said X T argv l -> parse_known X T D argv = Parsed (final D l, []).
Proof.
  intros X T D argv l K S. pose proof (parse_said X T D argv l K S) as P. unfold parse in P.
  destruct (parse_known X T D argv) as [[ns ex]|]; [|discriminate]. cbn [pbind fst snd] in P. destruct ex; [|discriminate]. congruence.
Qed.
Section C.
Variables (X : texts) (D told : namespace).
Definition wanted (T : list opt) (d : string) (s : string) : Prop := lookup told d = None /\ lookup D d = Some (VText s).
Lemma convert_defaults_ok : forall T r, convert_defaults X T D told = Parsed r ->
  forall d, match lookup r d with
            | Some v => exists o s, In o T /\ o_dest o = d /\ lookup told d = None /\ lookup D d = Some (VText s) /\ convert X (o_type o) s = Some v
            | None => forall o s, In o T -> o_dest o = d -> lookup told d = None -> lookup D d <> Some (VText s)
            end.
Proof.
  induction T as [|o T IH]; intros r H d; cbn [convert_defaults] in H.
  - injection H as <-. cbn. intros o s [].
  - destruct (convert_defaults X T D told) as [r'|] eqn:E; [|discriminate]. cbn [pbind] in H. specialize (IH r' eq_refl d).
    assert (Skip : (forall s, o_dest o = d -> lookup told d = None -> lookup D d <> Some (VText s)) -> r = r' ->
      match lookup r d with
            | Some v => exists o0 s, In o0 (o :: T) /\ o_dest o0 = d /\ lookup told d = None /\ lookup D d = Some (VText s) /\ convert X (o_type o0) s = Some v
            | None => forall o0 s, In o0 (o :: T) -> o_dest o0 = d -> lookup told d = None -> lookup D d <> Some (VText s)
            end).
    { intros Q ->. destruct (lookup r' d) as [v|].
      - destruct IH as [o' [s [I R]]]. exists o', s. split; [right; exact I|exact R].
      - intros o' s [<-|I]; [apply Q|apply IH; exact I]. }
    destruct (lookup told (o_dest o)) as [t|] eqn:Et.
    { injection H as H. apply Skip; [|auto]. intros s <- Q. congruence. }
    destruct (lookup D (o_dest o)) as [[| | |s| | |]|] eqn:Ed; try (injection H as H; apply Skip; [|auto]; intros s' <- _; congruence).
    destruct (convert X (o_type o) s) as [v|] eqn:Ec; [|discriminate]. injection H as <-. unfold lookup. cbn [find fst snd].
    destruct (String.eqb_spec (o_dest o) d) as [<-|N].
    + exists o, s. repeat split; auto. left. reflexivity.
    + fold (lookup r' d). destruct (lookup r' d) as [w|].
      * destruct IH as [o' [s' [I R]]]. exists o', s'. split; [right; exact I|exact R].
      * intros o' s' [<-|I] Q; [congruence|exact (IH o' s' I Q)].
Qed.
Lemma convert_defaults_exit : forall T c, convert_defaults X T D told = Exit c -> c = 2%Z /\
  exists o s, In o T /\ lookup told (o_dest o) = None /\ lookup D (o_dest o) = Some (VText s) /\ convert X (o_type o) s = None.
Proof.
  induction T as [|o T IH]; intros c H; cbn [convert_defaults] in H; [discriminate|].
  destruct (convert_defaults X T D told) as [r'|c'] eqn:E; cbn [pbind] in H.
  - destruct (lookup told (o_dest o)) eqn:Et; [discriminate|]. destruct (lookup D (o_dest o)) as [[| | |s| | |]|] eqn:Ed; try discriminate.
    destruct (convert X (o_type o) s) eqn:Ec; [discriminate|]. injection H as <-. split; [reflexivity|]. exists o, s. repeat split; auto. left. reflexivity.
  - injection H as <-. destruct (IH c' eq_refl) as [-> [o' [s [I R]]]]. split; [reflexivity|]. exists o', s. split; [right; exact I|exact R].
Qed.
Lemma convert_defaults_some : forall T, (forall o s, In o T -> lookup told (o_dest o) = None -> lookup D (o_dest o) = Some (VText s) -> convert X (o_type o) s <> None) ->
  exists r, convert_defaults X T D told = Parsed r.
Proof.
  intros T H. destruct (convert_defaults X T D told) as [r|c] eqn:E; [eauto|]. exfalso. destruct (convert_defaults_exit T c E) as [_ [o [s [I [A [B C]]]]]].
  exact (H o s I A B C).
Qed.
End C.
(** The options of an attribute have one type. *)
Lemma same_type : forall o o', In o example_options -> In o' example_options -> o_dest o = o_dest o' -> o_type o = o_type o'.
Proof.
  assert (F : forallb (fun o => forallb (fun o' => negb (String.eqb (o_dest o) (o_dest o')) || match o_type o, o_type o' with TText, TText | TPath, TPath | TInt, TInt | TFloat, TFloat => true | _, _ => false end) example_options) example_options = true) by (vm_compute; reflexivity).
  intros o o' I J E. rewrite forallb_forall in F. specialize (F o I). rewrite forallb_forall in F. specialize (F o' J). rewrite E, String.eqb_refl in F. cbn [negb orb] in F.
  destruct (o_type o), (o_type o'); congruence || reflexivity.
Qed.
Lemma convert_spec : forall X t s v, convert X t s = Some v <-> match t with
                                     | TText => v = VText s
                                     | TPath => v = VPath s
                                     | TInt => exists z, int_text X s z /\ v = VInt z
                                     | TFloat => exists x, float_text X s x /\ v = VFloat x
                                     end.
Proof.
  intros X [| | |] s v; cbn.
  - split; [intros [= <-]; reflexivity|intros ->; reflexivity].
  - split; [intros [= <-]; reflexivity|intros ->; reflexivity].
  - destruct (read_int X s) as [z|] eqn:E; split.
    + intros [= <-]. exists z. split; [apply read_int_spec; exact E|reflexivity].
    + intros [z' [H ->]]. apply read_int_spec in H. congruence.
    + discriminate.
    + intros [z' [H ->]]. apply read_int_spec in H. congruence.
  - destruct (read_float X s) as [z|] eqn:E; split.
    + intros [= <-]. exists z. split; [apply read_float_spec; exact E|reflexivity].
    + intros [z' [H ->]]. apply read_float_spec in H. congruence.
    + discriminate.
    + intros [z' [H ->]]. apply read_float_spec in H. congruence.
Qed.
(** An attribute after parsing: said, or the default as it is read. *)
Lemma parsed_attribute : forall X D argv l r, said X example_options argv l -> convert_defaults X example_options D (final [] l) = Parsed r ->
  forall d names, (forall o, In o example_options -> (In (o_name o) names <-> o_dest o = d)) ->
  match last_said l names with
  | Some v => lookup (final [] l ++ r ++ D) d = Some v
  | None => match lookup D d with
            | Some v => exists v', lookup (final [] l ++ r ++ D) d = Some v' /\ default_is X d v v'
            | None => lookup (final [] l ++ r ++ D) d = None
            end
  end.
Proof.
  intros X D argv l r S C d names N. pose proof (final_lookup example_options [] names d N l (said_in X _ argv l S)) as F.
  rewrite !lookup_app, F. pose proof (convert_defaults_ok X D (final [] l) example_options r C d) as Q. rewrite F in Q.
  destruct (last_said l names) as [v|]; [reflexivity|]. cbn [lookup find] in Q. cbn [lookup find].
  destruct (lookup r d) as [v|] eqn:Er.
  - destruct Q as [o [s [I [Ed [_ [E1 E2]]]]]]. rewrite E1. exists v. split; [reflexivity|]. right. exists o. split; [split; auto|].
    apply convert_spec in E2. exact E2.
  - destruct (lookup D d) as [v|] eqn:ED; [|reflexivity]. exists v. split; [reflexivity|]. destruct v; try reflexivity.
    left. split; [|reflexivity]. intros o [I Ed]. apply (Q o s I Ed eq_refl). reflexivity.
Qed.
Lemma parse_defaults_said : forall X D argv l, said X example_options argv l ->
  parse_defaults X example_options D argv = match convert_defaults X example_options D (final [] l) with Parsed r => Parsed (final [] l ++ r ++ D) | Exit c => Exit c end.
Proof.
  intros X D argv l S. unfold parse_defaults, parse_known_defaults. rewrite (parse_known_said X _ [] argv l example_table S). cbn [pbind fst snd].
  destruct (convert_defaults _ _ _ _); reflexivity.
Qed.

(** ** The start of the program *)
Ltac lk := rewrite entry_lookup.
Lemma spoken_dest : forall d names, In (d, names) spoken \/ (d, names) = ("config_in", ["--config-in"]) ->
  forall o, In o example_options -> (In (o_name o) names <-> o_dest o = d).
Proof.
  assert (F : forallb (fun p => dest_okb example_options (snd p) (fst p)) (("config_in", ["--config-in"]) :: spoken) = true) by (vm_compute; reflexivity).
  intros d names H. rewrite forallb_forall in F. assert (I : In (d, names) (("config_in", ["--config-in"]) :: spoken)).
  { destruct H as [H|H]; [right; exact H|left; congruence]. }
  apply dest_okb_spec. exact (F _ I).
Qed.
Lemma dest_spoken : forall o, In o example_options -> o_kind o = KHelp \/ exists names, In (o_dest o, names) spoken \/ (o_dest o, names) = ("config_in", ["--config-in"]).
Proof.
  intros o I. unfold example_options, help_options, output_options in I. cbn [app] in I.
  repeat (destruct I as [<-|I]; [first [left; reflexivity|right; eexists; cbn -[In]; first [right; reflexivity|left; cbn; tauto]]|]). destruct I.
Qed.
Lemma help_unsaid : forall X argv l d, said X example_options argv l -> d = "help" -> lookup (final [] l) d = None.
Proof.
  intros X argv l d S ->. rewrite (final_lookup example_options [] ["-h"; "--help"] "help") with (l := l).
  - destruct (last_said l _) as [v|] eqn:E; [|reflexivity]. destruct (last_said_in _ _ _ E) as [it [I J]].
    pose proof (said_meant X _ argv l S it v I) as [[IT _] M]. exfalso.
    assert (K : forallb (fun o => negb (existsb (String.eqb (o_name o)) ["-h"; "--help"]) || match o_kind o with KHelp => true | _ => false end) example_options = true) by (vm_compute; reflexivity).
    pose proof (typed_in (fun o => match o_kind o with KHelp => true | _ => false end) example_options ["-h"; "--help"] (i_opt it) K IT J) as Q. cbn beta in Q.
    destruct (o_kind (i_opt it)); try discriminate. exact M.
  - apply dest_okb_spec. vm_compute. reflexivity.
  - eapply said_in; eauto.
Qed.
Lemma default_texts : forall o s, In o example_options -> lookup example_defaults (o_dest o) = Some (VText s) -> o_type o = TText.
Proof.
  assert (F : forallb (fun o => match lookup example_defaults (o_dest o) with Some (VText _) => match o_type o with TText => true | _ => false end | _ => true end) example_options = true) by (vm_compute; reflexivity).
  intros o s I E. rewrite forallb_forall in F. specialize (F o I). rewrite E in F. destruct (o_type o); congruence || reflexivity.
Qed.
Lemma first_pass : forall X argv l, said X example_options argv l -> exists r,
  convert_defaults X example_options example_defaults (final [] l) = Parsed r /\
  parse_known_defaults X example_options example_defaults argv = Parsed (final [] l ++ r ++ example_defaults, []).
Proof.
  intros X argv l S. destruct (convert_defaults_some X example_defaults (final [] l) example_options) as [r E].
  - intros o s I _ E. rewrite (default_texts o s I E). discriminate.
  - exists r. split; [exact E|]. unfold parse_known_defaults. rewrite (parse_known_said X _ [] argv l example_table S). cbn [pbind fst snd]. rewrite E. reflexivity.
Qed.
Lemma config_in_said : forall X argv l r, said X example_options argv l -> convert_defaults X example_options example_defaults (final [] l) = Parsed r ->
  attribute (final [] l ++ r ++ example_defaults) "config_in" = last_or l ["--config-in"] VNone.
Proof.
  intros X argv l r S C. pose proof (parsed_attribute X example_defaults argv l r S C "config_in" ["--config-in"] (spoken_dest _ _ (or_intror eq_refl))) as P.
  unfold attribute, last_or. destruct (last_said l _) as [v|].
  - rewrite P. reflexivity.
  - replace (lookup example_defaults "config_in") with (Some VNone) in P by reflexivity. destruct P as [v' [-> D]]. cbn in D. exact D.
Qed.
Lemma config_in_path : forall X argv l v, said X example_options argv l -> last_said l ["--config-in"] = Some v -> exists p, v = VPath p.
Proof.
  intros X argv l v S E. destruct (or_path X example_options argv l S ["--config-in"] VNone) as [H|[p H]]; [vm_compute; reflexivity| |].
  - unfold last_or in H. rewrite E in H. subst v. destruct (last_said_in _ _ _ E) as [it [I J]].
    pose proof (said_meant X _ argv l S it VNone I) as [[IT _] M]. exfalso.
    assert (K : typed_by (is_one TPath) example_options ["--config-in"] = true) by (vm_compute; reflexivity).
    pose proof (typed_in _ _ _ _ K IT J) as Q. unfold is_one in Q. destruct (o_kind (i_opt it)); try discriminate.
    destruct M as [s [_ [_ M]]]. unfold reads in M. destruct (o_type (i_opt it)); try discriminate. destruct M as [M _]. discriminate.
  - unfold last_or in H. rewrite E in H. eauto.
Qed.
Lemma configured_spec : forall h argv l r D, said (h_texts h) example_options argv l ->
  convert_defaults (h_texts h) example_options example_defaults (final [] l) = Parsed r ->
  (configured h (final [] l ++ r ++ example_defaults) = Ok D <-> exists c, configured_by h l c /\ D = c ++ example_defaults).
Proof.
  intros h argv l r D S C. unfold configured, configured_by. rewrite (config_in_said _ argv l r S C). unfold last_or.
  destruct (last_said l ["--config-in"]) as [v|] eqn:E.
  - destruct (config_in_path _ argv l v S E) as [p ->]. split.
    + destruct (load_config h p) as [c0|] eqn:L; cbn [bind]; [|discriminate]. destruct (normalize_config _ c0) as [c|] eqn:Nm; cbn [bind]; [|discriminate].
      unfold set_defaults. destruct (existsb _ c) eqn:Es; [discriminate|]. intros [= <-]. exists c. split; [|reflexivity]. exists p, c0.
      split; [reflexivity|]. split; [apply load_spec, L|]. split; [apply normalize_spec, Nm|]. apply self_spec, Es.
    + intros [c [[p' [c0 [[= <-] [L [Nm Es]]]]] ->]]. apply load_spec in L. apply normalize_spec in Nm. rewrite L. cbn [bind]. rewrite Nm. cbn [bind].
      unfold set_defaults. apply self_spec in Es. rewrite Es. reflexivity.
  - split; [intros [= <-]; exists []; auto|]. intros [c [-> ->]]. reflexivity.
Qed.
Lemma app_defaults : forall c d, lookup (c ++ example_defaults) d = match entry c d with Some v => Some v | None => lookup example_defaults d end.
Proof. intros c d. rewrite lookup_app, entry_lookup. reflexivity. Qed.
Lemma documented_lookup : forall d names, In (d, names) spoken ->
  lookup example_defaults d = Some (match entry documented_defaults d with Some x => x | None => VNone end).
Proof.
  intros d names I. unfold spoken in I. cbn [In] in I.
  repeat (destruct I as [I|I]; [inversion I; subst; reflexivity|]). destruct I.
Qed.
Lemma documented_texts : forall X d names v v', In (d, names) spoken -> lookup example_defaults d = Some v -> default_is X d v v' -> v' = v.
Proof.
  intros X d names v v' I E D. destruct v; cbn in D; try exact D. destruct D as [[_ D]|[o [[Io Ed] D]]]; [exact D|]. subst d.
  rewrite (default_texts o s Io E) in D. exact D.
Qed.
Lemma in_force_parsed : forall X argv l r c, said X example_options argv l -> convert_defaults X example_options (c ++ example_defaults) (final [] l) = Parsed r ->
  all_in_force X l c (attribute (final [] l ++ r ++ c ++ example_defaults)).
Proof.
  intros X argv l r c S C d I. apply in_map_iff in I. destruct I as [[d' names] [Ed I]]. cbn [fst] in Ed. subst d'. exists names. split; [exact I|].
  pose proof (parsed_attribute X (c ++ example_defaults) argv l r S C d names (spoken_dest _ _ (or_introl I))) as P. unfold attribute.
  destruct (last_said l names) as [v|]; [rewrite P; reflexivity|]. rewrite app_defaults in P. destruct (entry c d) as [v|].
  - destruct P as [v' [-> D]]. exact D.
  - rewrite (documented_lookup d names I) in P. destruct P as [v' [-> D]]. apply (documented_texts X d names) in D; [|exact I|apply (documented_lookup d names I)].
    subst v'. destruct (entry documented_defaults d); reflexivity.
Qed.
Lemma readable_spec : forall X argv l c, said X example_options argv l ->
  (readable X l c <-> exists r, convert_defaults X example_options (c ++ example_defaults) (final [] l) = Parsed r).
Proof.
  intros X argv l c S. split.
  - intros R. apply convert_defaults_some. intros o s I Hu E. destruct (dest_spoken o I) as [Hh|[names Hn]].
    + assert (Ho : o = mkO "-h" "help" KHelp TText None false \/ o = mkO "--help" "help" KHelp TText None false).
      { unfold example_options, help_options, output_options in I. cbn [app In] in I.
        repeat (destruct I as [<-|I]; [first [left; reflexivity|right; reflexivity|discriminate Hh]|]). destruct I. }
      destruct Ho as [-> | ->]; discriminate.
    + rewrite app_defaults in E. rewrite (final_lookup example_options [] names (o_dest o) (spoken_dest _ _ Hn) l (said_in X _ argv l S)) in Hu.
      assert (U : last_said l names = None) by (destruct (last_said l names); [discriminate|reflexivity]).
      destruct (entry c (o_dest o)) as [v|] eqn:Ec.
      * injection E as ->. destruct (R (o_dest o) names s Hn U Ec) as [v [[Hno _]|[o' [[Io' Ed'] Hv]]]]; [destruct (Hno o); split; auto|].
        rewrite (same_type o' o Io' I Ed') in Hv. apply convert_spec in Hv. congruence.
      * rewrite (default_texts o s I E). discriminate.
  - intros [r C] d names s Hn U Ec.
    pose proof (parsed_attribute X (c ++ example_defaults) argv l r S C d names (spoken_dest _ _ Hn)) as P. rewrite U, app_defaults, Ec in P.
    destruct P as [v' [_ D]]. eauto.
Qed.
(** ** After the arguments *)
Lemma level_named_spec : forall v z, UtlModel.resolve_level (level_of v) = Ok z <-> level_named v z.
Proof.
  intros v z. rewrite UtlProofs.resolve_level_means. unfold level_named. split.
  - intros M. destruct v as [|y|x|s|s|[|]|l]; cbn [level_of] in M; inversion M; subst; eauto 10.
  - intros [->|[[-> ->]|[[-> ->]|[s [n [-> [I E]]]]]]]; cbn [level_of]; econstructor; eauto.
Qed.
Lemma level_error_kind : forall v e, UtlModel.resolve_level (level_of v) = Err e -> e = match v with VText _ => ValueError | _ => TypeError end.
Proof.
  intros v e H. destruct v as [|y|x|s|s|[|]|l]; cbn -[UtlModel.level_names find] in H; try congruence. destruct (find _ _); congruence.
Qed.
Lemma list_of_room : forall v c, list_of v = Ok c -> (forall s, v <> VText s) -> v = VList c.
Proof. intros [] c H N; cbn in H; try congruence. Qed.
Lemma serialize_spec : forall h ns c, (forall s, attribute ns "room" <> VText s) -> (serialize_args h ns = Ok c <-> saves h (attribute ns) c).
Proof.
  intros h ns c Nr. unfold serialize_args. split.
  - destruct (list_of (attribute ns "room")) as [rm|] eqn:E; cbn [bind]; [|discriminate]. intros [= <-]. split; [reflexivity|].
    apply list_of_room in E; [|exact Nr].
    intros d v I. cbn [In] in I. repeat (destruct I as [I|I]; [injection I as <- <-; try reflexivity; cbn; eauto|]). destruct I.
  - intros [K H]. unfold saved in K.
    do 18 (destruct c as [|[? ?] c]; [discriminate K|]; cbn [map fst] in K; injection K as -> K). destruct c; [|discriminate].
    assert (Hr : exists rm, attribute ns "room" = VList rm /\ v6 = VList rm) by (apply (H "room" v6); cbn; tauto).
    destruct Hr as [rm [Er Hr]]. rewrite Er. cbn [list_of bind].
    f_equal.
    f_equal; [f_equal; symmetry; apply (H "mode"); cbn; tauto|].
    f_equal; [f_equal; symmetry; apply (H "dataset_dir"); cbn; tauto|].
    f_equal; [f_equal; symmetry; apply (H "download"); cbn; tauto|].
    f_equal; [f_equal; symmetry; apply (H "num_sources"); cbn; tauto|].
    f_equal; [f_equal; symmetry; apply (H "duration"); cbn; tauto|].
    f_equal; [f_equal; symmetry; apply (H "seed"); cbn; tauto|].
    f_equal; [f_equal; symmetry; apply (H "deterministic"); cbn; tauto|].
    f_equal; [f_equal; symmetry; exact Hr|].
    f_equal; [f_equal; symmetry; apply (H "steps"); cbn; tauto|].
    f_equal; [f_equal; symmetry; apply (H "order"); cbn; tauto|].
    f_equal; [f_equal; symmetry; apply (H "tmax"); cbn; tauto|].
    f_equal; [f_equal; symmetry; apply (H "device"); cbn; tauto|].
    f_equal; [f_equal; symmetry; apply (H "out_dir"); cbn; tauto|].
    f_equal; [f_equal; symmetry; apply (H "plot"); cbn; tauto|].
    f_equal; [f_equal; symmetry; apply (H "show"); cbn; tauto|].
    f_equal; [f_equal; symmetry; apply (H "gif"); cbn; tauto|].
    f_equal; [f_equal; symmetry; apply (H "gif_fps"); cbn; tauto|].
    f_equal; [f_equal; symmetry; apply (H "log_level"); cbn; tauto].
Qed.

Lemma saves_fun : forall h ns c c', (forall s, attribute ns "room" <> VText s) -> saves h (attribute ns) c -> saves h (attribute ns) c' -> c = c'.
Proof. intros h ns c c' N S1 S2. apply serialize_spec in S1; [|exact N]. apply serialize_spec in S2; [|exact N]. congruence. Qed.
Lemma serialize_error : forall h ns e, (forall s, attribute ns "room" <> VText s) -> serialize_args h ns = Err e -> e = TypeError /\ forall l, attribute ns "room" <> VList l.
Proof.
  intros h ns e N H. unfold serialize_args in H. destruct (attribute ns "room") eqn:E; cbn in H; try (injection H as <-; split; [reflexivity|congruence]); try discriminate.
Qed.
Lemma writes_spec : forall h ns r, (forall s, attribute ns "room" <> VText s) -> (write_config h ns = r <-> writes h (attribute ns) r).
Proof.
  intros h ns r N. unfold write_config. split.
  - intros <-. destruct (attribute ns "config_out") as [|z|x|s|p|b|l] eqn:E; [constructor; exact E|..];
      (destruct (serialize_args h ns) as [c|e] eqn:Es; cbn [bind];
       [apply serialize_spec in Es; [|exact N]|apply serialize_error in Es; [|exact N]; destruct Es as [-> Hr]; apply write_room; [congruence|exact Hr]]);
      try (apply write_path; congruence).
    destruct (h_write h p c) as [[]|e] eqn:Ew; cbn [bind]; [eapply write_ok|eapply write_error]; eauto.
  - intros W. destruct W as [E|p c E S W|p c e E S W|E R|E P]; try rewrite E.
    + reflexivity.
    + apply serialize_spec in S; [|exact N]. rewrite S. cbn [bind]. rewrite W. reflexivity.
    + apply serialize_spec in S; [|exact N]. rewrite S. cbn [bind]. rewrite W. reflexivity.
    + assert (Es : serialize_args h ns = Err TypeError).
      { unfold serialize_args. destruct (attribute ns "room"); try reflexivity; [destruct (N s); reflexivity|destruct (R l); reflexivity]. }
      rewrite Es. cbn [bind]. destruct (attribute ns "config_out"); [destruct E; reflexivity|..]; reflexivity.
    + destruct (serialize_args h ns) as [c|e] eqn:Es; [|apply serialize_error in Es; [|exact N]; destruct Es as [-> _]]; cbn [bind];
        destruct (attribute ns "config_out") as [|z|x|s|p|b|l]; try (destruct E; reflexivity); try reflexivity; destruct (P p); reflexivity.
Qed.
Lemma modes_spec : forall m, existsb (String.eqb m) ["static"; "dynamic_src"; "dynamic_mic"] = true <-> In m modes.
Proof.
  intros m. change ["static"; "dynamic_src"; "dynamic_mic"] with modes. rewrite existsb_exists. split.
  - intros [x [I E]]. apply String.eqb_eq in E. subst. exact I.
  - intros I. exists m. split; [exact I|apply String.eqb_refl].
Qed.
Lemma goes_start : forall h ns, (forall s, attribute ns "room" <> VText s) -> goes h (attribute ns) (start_with h ns).
Proof.
  intros h ns N. unfold start_with. destruct (UtlModel.resolve_level _) as [z|e] eqn:El; cbn [bind].
  2:{ apply goes_level; [|apply level_error_kind; exact El]. intros z M. apply level_named_spec in M. congruence. }
  apply level_named_spec in El. destruct (h_seed h _ _) as [[]|e] eqn:Es; cbn [bind]; [|eapply goes_seed; eauto].
  destruct (write_config h ns) as [w|e] eqn:Ew; apply writes_spec in Ew; try exact N; [|eapply goes_write; eauto].
  destruct (attribute ns "mode") as [|y|x|m|s|b|l] eqn:Em; try (eapply goes_mode; eauto; intros m _ Q; congruence).
  destruct (existsb _ _) eqn:Ex.
  - apply modes_spec in Ex. eapply goes_run; eauto.
  - eapply goes_mode; eauto. intros m' I Q. rewrite Em in Q. injection Q as ->. apply modes_spec in I. congruence.
Qed.
(** The room is never a text. *)
Lemma room_not_text : forall X argv l c a, said X example_options argv l -> all_in_force X l c a -> forall s, a "room" <> VText s.
Proof.
  intros X argv l c a S A s E. destruct (A "room") as [names [I F]]; [cbn; tauto|]. rewrite E in F.
  assert (names = ["--room"]) as -> by (cbn in I; repeat (destruct I as [I|I]; [inversion I; reflexivity || discriminate|]); destruct I).
  destruct (last_said l ["--room"]) as [v|] eqn:El.
  - subst v. destruct (last_said_in _ _ _ El) as [it [J K]]. pose proof (said_meant X _ argv l S it _ J) as [[IT _] M].
    assert (Q : typed_by (fun o => match o_kind o with KMany => true | _ => false end) example_options ["--room"] = true) by (vm_compute; reflexivity).
    pose proof (typed_in _ _ _ _ Q IT K) as Q'. cbn beta in Q'. destruct (o_kind (i_opt it)); try discriminate. destruct M as [_ [_ [vs [M _]]]]. discriminate.
  - destruct (entry c "room") as [x|].
    + destruct x; cbn in F; try discriminate. destruct F as [[F _]|[o [[Io Ed] F]]].
      * apply (F (mkO "--room" "room" KMany TFloat None false)). split; [cbn; tauto|reflexivity].
      * rewrite (same_type o (mkO "--room" "room" KMany TFloat None false) Io) in F; [|cbn; tauto|exact Ed]. cbn in F. destruct F as [x [_ F]]. discriminate.
    + cbn in F. discriminate.
Qed.
Lemma start_said : forall h argv l c, said (h_texts h) example_options argv l -> configured_by h l c ->
  (readable (h_texts h) l c -> exists ns, start_main h argv = start_with h ns /\ all_in_force (h_texts h) l c (attribute ns)) /\
  (~ readable (h_texts h) l c -> start_main h argv = SQuit 2).
Proof.
  intros h argv l c S C. destruct (first_pass (h_texts h) argv l S) as [r [Er Ep]]. unfold start_main. rewrite Ep.
  assert (Ed : configured h (final [] l ++ r ++ example_defaults) = Ok (c ++ example_defaults)) by (apply (configured_spec h argv l r _ S Er); eauto).
  rewrite Ed, (parse_defaults_said _ _ argv l S). split.
  - intros R. apply (readable_spec _ argv l c S) in R. destruct R as [r' E]. rewrite E. eexists. split; [reflexivity|]. eapply in_force_parsed; eauto.
  - intros R. destruct (convert_defaults _ _ (c ++ example_defaults) (final [] l)) as [r'|k] eqn:E.
    + destruct R. apply (readable_spec _ argv l c S). eauto.
    + destruct (convert_defaults_exit _ _ _ _ _ E) as [-> _]. reflexivity.
Qed.
Lemma start_unconfigured : forall h argv l, said (h_texts h) example_options argv l -> (forall c, ~ configured_by h l c) ->
  exists e, start_main h argv = SRaised e None.
Proof.
  intros h argv l S N. destruct (first_pass (h_texts h) argv l S) as [r [Er Ep]]. unfold start_main. rewrite Ep.
  destruct (configured h (final [] l ++ r ++ example_defaults)) as [D|e] eqn:E; [|eauto].
  apply (configured_spec h argv l r _ S Er) in E. destruct E as [c [C _]]. destruct (N c C).
Qed.
Lemma start_unsaid : forall h argv, (forall l, ~ said (h_texts h) example_options argv l) ->
  (exists e, start_main h argv = SRaised e None) \/ start_main h argv = SQuit 2 \/ (start_main h argv = SQuit 0 /\ exists s, In s argv /\ asks_help example_options s).
Proof.
  intros h argv N. unfold start_main.
  destruct (parse_known (h_texts h) example_options [] argv) as [[ns ex]|k] eqn:E.
  - assert (X1 : ex <> []).
    { intros ->. assert (P : parse (h_texts h) example_options [] argv = Parsed ns) by (unfold parse; rewrite E; reflexivity).
      destruct (parse_inv _ _ _ _ _ example_table P) as [l [S _]]. exact (N l S). }
    unfold parse_known_defaults. rewrite E. cbn [pbind fst snd]. destruct (convert_defaults _ _ example_defaults ns) as [r|k] eqn:Ec; cbn [pbind].
    2:{ destruct (convert_defaults_exit _ _ _ _ _ Ec) as [-> _]. auto. }
    destruct (configured h _) as [D|e]; [|eauto]. unfold parse_defaults, parse_known_defaults. rewrite E. cbn [pbind fst snd].
    destruct (convert_defaults _ _ D ns) as [r'|k] eqn:Ec'; cbn [pbind fst snd].
    + destruct ex; [destruct X1; reflexivity|auto].
    + destruct (convert_defaults_exit _ _ _ _ _ Ec') as [-> _]. auto.
  - unfold parse_known_defaults. rewrite E. cbn [pbind].
    assert (P : parse (h_texts h) example_options [] argv = Exit k) by (unfold parse; rewrite E; reflexivity).
    destruct (parse_exit _ _ _ _ _ example_table P) as [->|[-> H]]; auto.
Qed.
(** ** Reading a saved configuration again *)
Lemma not_text : forall X argv l c a d names o, said X example_options argv l -> all_in_force X l c a -> In (d, names) spoken -> sets o d -> o_type o <> TText ->
  forall s, a d <> VText s.
Proof.
  intros X argv l c a d names o S A I [Io Ed] Nt s E. destruct (A d) as [names' [I' F]]; [apply in_map_iff; exists (d, names); auto|]. rewrite E in F.
  destruct (last_said l names') as [v|] eqn:El.
  - subst v. destruct (last_said_in _ _ _ El) as [it [J K]]. pose proof (said_meant X _ argv l S it _ J) as [[IT _] M].
    apply (spoken_dest d names' (or_introl I') _ IT) in K. assert (Ht : o_type (i_opt it) = o_type o) by (apply same_type; auto; congruence).
    destruct (o_kind (i_opt it)).
    + destruct M as [t [_ [_ [M _]]]]. rewrite Ht in M. destruct (o_type o); [apply Nt; reflexivity|discriminate|destruct M as [? [_ M]]; discriminate|destruct M as [? [_ M]]; discriminate].
    + destruct M as [_ [_ [vs [M _]]]]. discriminate.
    + destruct M as [_ [_ M]]. discriminate.
    + exact M.
  - destruct (entry c d) as [x|].
    + destruct x; cbn in F; try discriminate. destruct F as [[F _]|[o' [[Io' Ed'] F]]]; [apply (F o); split; auto|].
      rewrite (same_type o' o Io' Io) in F by congruence. destruct (o_type o); [apply Nt; reflexivity|discriminate|destruct F as [? [_ F]]; discriminate|destruct F as [? [_ F]]; discriminate].
    + pose proof (documented_lookup d names I) as Dl. destruct (entry documented_defaults d) as [x|]; [|discriminate]. subst x.
      apply Nt. apply (default_texts o s Io). rewrite Ed. exact Dl.
Qed.
Lemma reads_floats : forall X o ss vs, o_type o = TFloat -> Forall2 (CliSpec.reads X o) ss vs -> exists xs, vs = map VFloat xs.
Proof.
  intros X o ss vs Ht F. induction F as [|s v ss vs H F [xs IH]]; [exists []; reflexivity|]. unfold CliSpec.reads in H. rewrite Ht in H. destruct H as [[x [_ ->]] _].
  exists (x :: xs). rewrite IH. reflexivity.
Qed.
Lemma entry_in : forall c d v, entry c d = Some v -> In (d, v) c.
Proof.
  induction c as [|[k w] c IH]; intros d v H; [discriminate|]. cbn [entry] in H. destruct (string_dec k d) as [->|N]; [injection H as ->; left; reflexivity|right; auto].
Qed.
Lemma configured_room : forall h l c xs, configured_by h l c -> In ("room", VList xs) c -> exists ys, xs = map VFloat ys.
Proof.
  intros h l c xs C I. unfold configured_by in C. destruct (last_said l _) as [v|]; [|subst; destruct I]. destruct C as [p [c0 [_ [_ [F _]]]]].
  induction F as [|[k v0] [k' v'] c0 c [Ek H] F IH]; [destruct I|]. destruct I as [I|I]; [|auto]. cbn [fst snd] in *. injection I as Ik Iv. rewrite Iv in H. rewrite <- Ek, Ik in H. clear - H.
  inversion H as [? Hk|? ys ? G|? H1 H2]; subst; [eauto|]. destruct (H2 eq_refl xs). reflexivity.
Qed.
Lemma room_floats : forall h argv l c a xs, said (h_texts h) example_options argv l -> configured_by h l c -> all_in_force (h_texts h) l c a ->
  a "room" = VList xs -> exists ys, xs = map VFloat ys.
Proof.
  intros h argv l c a xs S C A E. destruct (A "room") as [names [I F]]; [cbn; tauto|]. rewrite E in F.
  assert (names = ["--room"]) as -> by (cbn in I; repeat (destruct I as [I|I]; [inversion I; reflexivity || discriminate|]); destruct I).
  destruct (last_said l ["--room"]) as [v|] eqn:El.
  - subst v. destruct (last_said_in _ _ _ El) as [it [J K]]. pose proof (said_meant _ _ argv l S it _ J) as [[IT _] M].
    assert (Q : typed_by (fun o => match o_kind o, o_type o with KMany, TFloat => true | _, _ => false end) example_options ["--room"] = true) by (vm_compute; reflexivity).
    pose proof (typed_in _ _ _ _ Q IT K) as Q'. cbn beta in Q'. destruct (o_kind (i_opt it)); try discriminate. destruct (o_type (i_opt it)) eqn:Ht; try discriminate.
    destruct M as [_ [_ [vs [M F]]]]. injection M as ->. eapply reads_floats; eauto.
  - destruct (entry c "room") as [x|] eqn:Ex.
    + apply entry_in in Ex. destruct x; cbn in F; try discriminate.
      * destruct F as [[_ F]|[o [[Io Ed] F]]]; [discriminate|]. destruct (o_type o); try discriminate; destruct F as [? [_ F]]; discriminate.
      * injection F as ->. eapply configured_room; eauto.
    + cbn in F. injection F as ->. eexists [_; _; _]. reflexivity.
Qed.
(** The saved entries as they are read. *)
Definition reread (c : config) : config :=
  map (fun p => (fst p, match snd p with VText s => if in_dec string_dec (fst p) ["dataset_dir"; "out_dir"] then VPath s else snd p | v => v end)) c.
Lemma reread_entry : forall c d, entry (reread c) d = option_map (fun v => match v with VText s => if in_dec string_dec d ["dataset_dir"; "out_dir"] then VPath s else v | _ => v end) (entry c d).
Proof.
  induction c as [|[k v] c IH]; intros d; [reflexivity|]. cbn [reread map fst snd entry]. destruct (string_dec k d) as [->|N]; [cbn; destruct v; reflexivity|]. apply IH.
Qed.
Lemma reread_cleans : forall h a c, saves h a c -> (forall xs, a "room" = VList xs -> exists ys, xs = map VFloat ys) -> forall X,
  Forall2 (fun x y => fst y = fst x /\ cleans X (fst x) (snd x) (snd y)) c (reread c).
Proof.
  intros h a c [_ H] Hr X. unfold reread. assert (G : forall q, In q c -> cleans X (fst q) (snd q) (match snd q with VText s => if in_dec string_dec (fst q) ["dataset_dir"; "out_dir"] then VPath s else snd q | v => v end)).
  { intros [d v] I. cbn [fst snd]. specialize (H d v I).
    destruct (in_dec string_dec d ["dataset_dir"; "out_dir"]) as [J|J].
    - subst v. apply clean_path. cbn in J. intuition congruence.
    - assert (J' : ~ (d = "dataset_dir" \/ d = "out_dir")) by (cbn in J; intuition congruence).
      destruct (string_dec d "room") as [->|N].
      + destruct H as [xs [Ea ->]]. destruct (Hr xs Ea) as [ys ->]. apply clean_room; [reflexivity|]. clear. induction ys; cbn; constructor; auto. constructor.
      + assert (Q : cleans X d v v) by (apply clean_same; tauto). destruct v; exact Q. }
  clear H. induction c as [|q c IH]; cbn [map]; constructor.
  - split; [reflexivity|]. apply G. left. reflexivity.
  - apply IH. intros q' I. apply G. right. exact I.
Qed.
Lemma saved_entry : forall h a c d, saves h a c -> In d saved -> exists v, entry c d = Some v /\ In (d, v) c.
Proof.
  intros h a c d [K _] I. rewrite <- K in I. clear K. induction c as [|[k v] c IH]; [destruct I|]. cbn [map fst In entry] in *.
  destruct (string_dec k d) as [->|N]; [exists v; split; [reflexivity|left; reflexivity]|]. destruct I as [I|I]; [contradiction|].
  destruct (IH I) as [w [E J]]. exists w. auto.
Qed.
Lemma reread_keys : forall c, map fst (reread c) = map fst c.
Proof. intros c. unfold reread. rewrite map_map. apply map_ext. reflexivity. Qed.
Lemma typed_option : forall d names, In (d, names) spoken -> exists o, sets o d.
Proof.
  intros d names I. unfold sets. 
  assert (F : forallb (fun p => existsb (fun o => String.eqb (o_dest o) (fst p)) example_options) spoken = true) by (vm_compute; reflexivity).
  rewrite forallb_forall in F. specialize (F _ I). apply existsb_exists in F. destruct F as [o [Io Eo]]. apply String.eqb_eq in Eo. exists o. split; [exact Io|exact Eo].
Qed.
Definition config_in_option : opt := one "--config-in" "config_in" TPath.
Lemma said_config_in : forall X p, ~ starts "-" p -> said X example_options ["--config-in"; p] [(mkItem config_in_option "--config-in" false [p], VPath p)].
Proof.
  intros X p N. split; [reflexivity|]. split.
  - constructor; [|constructor]. split; [split; [cbn; tauto|left; reflexivity]|]. cbn. exists p. split; [reflexivity|]. split; [left; exact N|]. split; [reflexivity|exact I].
  - intros o I R. exfalso. assert (F : forallb (fun o => negb (o_required o)) example_options = true) by (vm_compute; reflexivity).
    rewrite forallb_forall in F. specialize (F o I). rewrite R in F. discriminate.
Qed.
Lemma saved_spoken : forall d, In d saved -> In d (map fst spoken).
Proof. intros d I. cbn in *. tauto. Qed.
Lemma text_stays : forall X d s v o, sets o d -> o_type o = TText -> default_is X d (VText s) v -> v = VText s.
Proof.
  intros X d s v o [Io Ed] Ht [[_ H]|[o' [[Io' Ed'] H]]]; [exact H|]. rewrite (same_type o' o Io' Io) in H by congruence. rewrite Ht in H. exact H.
Qed.
Lemma roundtrip : forall h h' argv l c a cf p q1 q2, said (h_texts h) example_options argv l -> configured_by h l c -> all_in_force (h_texts h) l c a ->
  saves h a cf -> a "dataset_dir" = VPath q1 -> a "out_dir" = VPath q2 -> file_holds h' p cf -> ~ starts "-" p ->
  exists ns, start_main h' ["--config-in"; p] = start_with h' ns /\ (forall s, attribute ns "room" <> VText s) /\
    (forall d, In d saved -> attribute ns d = kept h d (a d)) /\ attribute ns "config_out" = VNone.
Proof.
  intros h h' argv l c a cf p q1 q2 S C A Sv E1 E2 Fh Np. set (X' := h_texts h').
  pose proof (said_config_in X' p Np) as S'. set (l' := [(mkItem config_in_option "--config-in" false [p], VPath p)]) in *.
  assert (C' : configured_by h' l' (reread cf)).
  { unfold configured_by. change (last_said l' ["--config-in"]) with (Some (VPath p)). exists p, cf. split; [reflexivity|]. split; [exact Fh|]. split.
    - eapply reread_cleans; [exact Sv|]. intros xs Ex. exact (room_floats h argv l c a xs S C A Ex).
    - rewrite reread_keys. destruct Sv as [-> _]. cbn. intuition discriminate. }
  assert (Unsaid : forall d names, In (d, names) spoken -> last_said l' names = None).
  { intros d names I. unfold spoken in I. cbn [In] in I. repeat (destruct I as [I|I]; [injection I as <- <-; reflexivity|]). destruct I. }
  (* a text in the saved configuration belongs to an option that takes texts *)
  assert (Txt : forall d s, entry (reread cf) d = Some (VText s) -> In d saved /\ a d = VText s /\ exists o, sets o d /\ o_type o = TText).
  { intros d s E. rewrite reread_entry in E. destruct (entry cf d) as [v|] eqn:Ev; [|discriminate]. cbn [option_map] in E. apply entry_in in Ev.
    assert (Is : In d saved) by (destruct Sv as [K _]; rewrite <- K; apply in_map_iff; exists (d, v); auto).
    split; [exact Is|]. destruct Sv as [_ H]. specialize (H d v Ev). destruct v; try discriminate.
    destruct (in_dec string_dec d ["dataset_dir"; "out_dir"]) as [J|J]; [discriminate|]. injection E as ->.
    destruct (string_dec d "room") as [->|N]; [destruct H as [? [_ H]]; discriminate|]. symmetry in H. split; [exact H|].
    apply saved_spoken in Is. apply in_map_iff in Is. destruct Is as [[d' names] [Ed I]]. cbn [fst] in Ed. subst d'.
    destruct (typed_option d names I) as [o So]. exists o. split; [exact So|].
    destruct (o_type o) eqn:Ht; [reflexivity|..]; exfalso; (eapply (not_text _ argv l c a d names o S A I So); [congruence|exact H]). }
  destruct (start_said h' ["--config-in"; p] l' (reread cf) S' C') as [G _]. destruct G as [ns [Es A']].
  { intros d names s Hn U E. destruct (Txt d s E) as [_ [_ [o [So Ht]]]]. exists (VText s). right. exists o. split; [exact So|]. rewrite Ht. reflexivity. }
  exists ns. split; [exact Es|]. split; [eapply room_not_text; eauto|]. split.
  - intros d Is. destruct (A' d (saved_spoken d Is)) as [names [I F]]. rewrite (Unsaid d names I) in F.
    destruct (saved_entry h a cf d Sv Is) as [v [Ev Iv]]. pose proof Sv as [_ H]. specialize (H d v Iv).
    destruct (entry (reread cf) d) as [w|] eqn:Ew; [|rewrite reread_entry, Ev in Ew; discriminate].
    assert (Ek : w = kept h d (a d)).
    { rewrite reread_entry, Ev in Ew. cbn [option_map] in Ew.
      assert (Hs : forall x y : val, Some x = Some y -> x = y) by congruence. apply Hs in Ew. rewrite <- Ew. clear Ew F.
      destruct (in_dec string_dec d ["dataset_dir"; "out_dir"]) as [J|J].
      - subst v. cbn in J. destruct J as [<-|[<-|[]]]; [rewrite E1|rewrite E2]; reflexivity.
      - destruct (string_dec d "room") as [->|N].
        + destruct H as [xs [Ea ->]]. rewrite Ea. reflexivity.
        + subst v. unfold kept. destruct (in_dec string_dec d ["dataset_dir"; "out_dir"]) as [J'|_]; [contradiction|]. destruct (a d); reflexivity. }
    destruct w as [| | |s| | |]; cbn in F; try (rewrite F; exact Ek).
    destruct (Txt d s Ew) as [_ [_ [o [So Ht]]]]. rewrite (text_stays X' d s (attribute ns d) o So Ht F). exact Ek.
  - destruct (A' "config_out") as [names [I F]]; [cbn; tauto|]. rewrite (Unsaid _ _ I) in F.
    destruct (entry (reread cf) "config_out") as [v|] eqn:E.
    + exfalso. apply entry_in, (in_map fst) in E. rewrite reread_keys in E. destruct Sv as [K _]. rewrite K in E. cbn in E. intuition discriminate.
    + cbn in F. exact F.
Qed.
