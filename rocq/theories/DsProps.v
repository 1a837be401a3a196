(** C56-C59: sources of fixed length, collation, transcripts, indexing. *)
From Coq Require Import String List ZArith NArith Reals Lra Lia Bool Permutation.
From Verif Require Import Prelude PreludeFacts FloatModel FloatProofs RoomModel DsModel DsSpec DsProofs.
Import ListNotations.
Local Notation length := List.length.

(** * C56 *)
(** When sources are returned, there is one row per chosen speaker, the speakers are distinct
    speakers of the corpus, and (for a target that is not negative) each row has exactly the
    number of whole samples, being the beginning of the concatenation of utterances of that
    speaker, all of the common sample rate, taken epoch by epoch, and no more than needed. *)
Theorem C56_sources c n dur g fuel rows f info : fair g -> NoDup (speakers c) ->
  load_dataset_sources c n dur g fuel = Some (Ok (rows, f, info)) ->
  Z.of_nat (length rows) = n /\ length info = length rows /\ NoDup (map fst info) /\ (forall s, In s (map fst info) -> In s (speakers c)) /\
  (forall target, whole_samples dur f target -> forall i row spk ids, nth_error rows i = Some row -> nth_error info i = Some (spk, ids) ->
     row_for c f target spk ids row).
Proof.
  intros G ND H. unfold load_dataset_sources in H. destruct (choose_speakers c n g) as [l|] eqn:Ec; [|discriminate].
  destruct (load_speakers c g dur fuel 0 None l) as [[[[fs rs] inf]|e]|] eqn:El; try discriminate.
  destruct (stack_rows rs) as [st|] eqn:Es; [|discriminate]. destruct fs as [f'|]; [|discriminate].
  apply stack_ok in Es as [-> Nr]. assert (E : (rs, f', inf) = (rows, f, info)) by congruence. injection E as -> -> ->.
  apply choose_ok in Ec as [Hn ->]. destruct (load_speakers_spec _ _ _ _ G _ _ _ _ _ _ El) as (A & B & C).
  destruct (proj2 G (speakers c) (Z.to_nat n)) as [Ls [rest P]]; [lia|].
  assert (Li : length info = length rows) by (rewrite B, <- A, map_length; auto).
  split; [rewrite B, Ls; lia|]. split; auto. rewrite A. split; [|split].
  - eapply Permutation_NoDup in P; auto. clear -P. revert P. generalize (sample g (speakers c) (Z.to_nat n)). induction l as [|x l IH]; intros P; [constructor|].
    inversion P; subst. constructor; auto. intros H. apply H1. apply in_or_app. auto.
  - intros s Hs. eapply Permutation_in; [apply Permutation_sym; exact P|]. apply in_or_app. auto.
  - intros target T. apply target_whole in T. destruct (sample g (speakers c) (Z.to_nat n)) as [|s0 l] eqn:E0; [destruct rows; [contradiction|discriminate]|].
    destruct C as (f' & Ef & _ & C & _). injection Ef as <-. rewrite T, Nat2Z.id in C. apply C. lia.
Qed.
(** So every row has exactly [dur * f] samples when that is a whole number (below 2^53). *)
Theorem C56_exact_length c n dur g fuel rows f info k : fair g -> NoDup (speakers c) ->
  load_dataset_sources c n dur g fuel = Some (Ok (rows, f, info)) -> (dur * IZR f = INR k)%R -> (Z.of_nat k <= 2 ^ 53)%Z ->
  Forall (fun row => length row = k) rows.
Proof.
  intros G ND H E K. destruct (C56_sources c n dur g fuel rows f info G ND H) as (_ & L & _ & _ & S).
  apply Forall_forall. intros row I. apply In_nth_error in I as (i & I).
  destruct (nth_error info i) as [[spk ids]|] eqn:J.
  - apply (S k) with (i := i) (row := row) (spk := spk) (ids := ids); auto. unfold whole_samples. rewrite E, rnd64_INR by auto. lra.
  - apply nth_error_None in J. assert (i < length rows) by (apply nth_error_Some; congruence). lia.
Qed.
(** More speakers than there are, or an empty corpus, are rejected. *)
Theorem C56_too_many c n dur g fuel : (Z.of_nat (length (speakers c)) < n)%Z ->
  exists e, load_dataset_sources c n dur g fuel = Some (Err e) /\ (speakers c <> [] -> e = ValueError).
Proof.
  intros H. unfold load_dataset_sources, choose_speakers. destruct (speakers c) as [|s l]; [exists RuntimeError; split; [auto|contradiction]|].
  apply Z.ltb_lt in H. rewrite H. eauto.
Qed.
(** With several speakers a duration of less than one sample never gives a result (the second speaker
    has nothing to concatenate). *)
Theorem C56_positive_target c n dur g fuel rows f info : fair g -> (2 <= n)%Z ->
  load_dataset_sources c n dur g fuel = Some (Ok (rows, f, info)) -> (1 <= rnd64 (dur * IZR f))%R.
Proof.
  intros G Hn H. unfold load_dataset_sources in H. destruct (choose_speakers c n g) as [l|] eqn:Ec; [|discriminate].
  destruct (load_speakers c g dur fuel 0 None l) as [[[[fs rs] inf]|e]|] eqn:El; try discriminate.
  destruct (stack_rows rs) as [st|] eqn:Es; [|discriminate]. destruct fs as [f'|]; [|discriminate].
  assert (E : f' = f) by congruence. subst f'. apply choose_ok in Ec as [Hn' ->].
  destruct (load_speakers_spec _ _ _ _ G _ _ _ _ _ _ El) as (A & B & C).
  destruct (proj2 G (speakers c) (Z.to_nat n)) as [Ls _]; [lia|].
  destruct (sample g (speakers c) (Z.to_nat n)) as [|s0 l] eqn:E0; [cbn in Ls; lia|].
  destruct C as (f' & Ef & _ & _ & C). injection Ef as <-. apply target_pos, C. right. lia.
Qed.
(** It terminates (returns or raises) whenever each speaker has an utterance that is not empty
    or that cannot be loaded. *)
Theorem C56_terminates c n dur g : fair g ->
  (forall spk all, In spk (speakers c) -> utts c spk = Ok all -> all <> [] -> exists u, In u all /\ forall a f, audio_of c spk u = Ok (a, f) -> a <> []) ->
  exists fuel0 r, forall fuel, fuel0 <= fuel -> load_dataset_sources c n dur g fuel = Some r.
Proof.
  intros G H. unfold load_dataset_sources. destruct (choose_speakers c n g) as [l|] eqn:Ec; [|exists 0; eauto].
  apply choose_ok in Ec as [Hn ->]. destruct (proj2 G (speakers c) (Z.to_nat n)) as [Ls [rest P]]; [lia|].
  destruct (load_speakers_halts c g dur (sample g (speakers c) (Z.to_nat n)) G) with (k := 0) (fs := @None Z) as (f0 & r & E).
  - intros spk all Hs. apply H. eapply Permutation_in; [apply Permutation_sym; exact P|]. apply in_or_app; auto.
  - exists f0. 
    assert (K : forall fuel, f0 <= fuel -> load_speakers c g dur fuel 0 None (sample g (speakers c) (Z.to_nat n)) = Some r).
    { intros fuel Hf. replace fuel with ((fuel - f0) + f0) by lia. apply load_speakers_mono. auto. }
    destruct r as [[[fs rows] info]|e].
    + destruct (stack_rows rows) as [st|e] eqn:Es; [destruct fs as [f|]|]; eexists; intros fuel Hf; rewrite (K fuel Hf), Es; reflexivity.
    + eexists. intros fuel Hf. rewrite (K fuel Hf). reflexivity.
Qed.
(** Otherwise it may run for ever: a first speaker whose utterances are all empty is read over
    and over again. *)
Theorem C56_diverges c n dur g spk rest all f : fair g -> sample g (speakers c) (Z.to_nat n) = spk :: rest ->
  (0 < n <= Z.of_nat (length (speakers c)))%Z -> utts c spk = Ok all -> all <> [] -> (forall u, In u all -> audio_of c spk u = Ok ([], f)) ->
  (1 <= rnd64 (dur * IZR f))%R -> forall fuel, load_dataset_sources c n dur g fuel = None.
Proof.
  intros G Es Hn Hu N Ha T fuel. apply target_pos in T. unfold load_dataset_sources, choose_speakers. destruct (speakers c) as [|s0 l0] eqn:E0; [cbn in Hn; lia|].
  destruct (Z.ltb_spec (Z.of_nat (length (s0 :: l0))) n); [lia|]. destruct (Z.ltb_spec n 0); [lia|]. rewrite Es. cbn [load_speakers].
  unfold load_speaker. rewrite Hu. destruct all as [|u0 all']; [contradiction|].
  rewrite (diverges c g dur spk (u0 :: all') f G N Ha T); auto; [apply (proj1 G)|lia].
Qed.

(** * C57 *)
(** A batch is collated exactly when it is not empty and has one sample rate. *)
Theorem C57_accepts items pad km :
  (exists b, collate items pad km = Ok b) <-> items <> [] /\ (forall i j, In i items -> In j items -> it_rate i = it_rate j).
Proof.
  unfold collate. destruct items as [|i0 rest]; [split; [intros [b H]; discriminate|intros [[] _]; auto]|].
  destruct (forallb (fun i => (it_rate i =? it_rate i0)%Z) rest) eqn:E; cbn.
  - split; [|eauto]. intros _. split; [discriminate|]. rewrite forallb_forall in E.
    assert (K : forall i, i0 = i \/ In i rest -> it_rate i = it_rate i0) by (intros i [->|H]; auto; apply Z.eqb_eq, E; auto).
    intros i j Hi Hj. rewrite (K i), (K j); auto.
  - split; [intros [b H]; discriminate|]. intros [_ H]. exfalso.
    assert (X : forallb (fun i => (it_rate i =? it_rate i0)%Z) rest = true); [|congruence].
    apply forallb_forall. intros i Hi. apply Z.eqb_eq, H; auto.
Qed.
Theorem C57_rejects items pad km e : collate items pad km = Err e -> e = ValueError.
Proof. unfold collate. destruct items; [congruence|]. destruct (forallb _ _); cbn; congruence. Qed.
(** Nothing is lost: rows in the order of the items, all of the same length, that of the
    longest item; each row is the audio followed by padding. *)
Theorem C57_lossless items pad km b d : uniform_dtype d items -> collate items pad km = Ok b ->
  length (b_audio b) = length items /\ length (b_lengths b) = length items /\
  b_ids b = map it_id items /\ b_texts b = map it_text items /\ b_speakers b = map it_speaker items /\
  (forall i, In i items -> it_rate i = b_rate b) /\
  exists L, (exists i, In i items /\ length (it_audio i) = L) /\
    forall k i, nth_error items k = Some i ->
      exists row n, nth_error (b_audio b) k = Some row /\ nth_error (b_lengths b) k = Some n /\
        n = length (it_audio i) /\ length row = L /\ n <= L /\
        firstn n row = it_audio i /\ (forall x, In x (skipn n row) -> x = store d pad).
Proof.
  intros U H. assert (HA : exists b0, collate items pad km = Ok b0) by eauto. apply (proj1 (C57_accepts items pad km)) in HA as [NE HR].
  unfold collate in H. destruct items as [|i0 rest] eqn:Ei; [discriminate|]. rewrite <- Ei in *.
  destruct (negb _); [discriminate|]. injection H as <-. cbn [b_audio b_lengths b_ids b_texts b_speakers b_rate].
  assert (D0 : it_dtype i0 = d) by (apply U; rewrite Ei; left; auto). rewrite D0.
  set (lens := map (fun i => length (it_audio i)) items). set (L := fold_right Nat.max 0 lens).
  split; [rewrite map_length; auto|]. split; [unfold lens; rewrite map_length; auto|]. split; auto. split; auto. split; auto.
  split; [intros i Hi; apply HR; auto; rewrite Ei; left; auto|].
  exists L. split.
  - assert (HL : In L lens) by (apply fold_max_in; unfold lens; rewrite Ei; discriminate). unfold lens in HL. apply in_map_iff in HL as (i & E & Hi). eauto.
  - intros k i Hk. assert (Hi : In i items) by (eapply nth_error_In; eauto).
    assert (EA : map (store d) (it_audio i) = it_audio i).
    { destruct (U i Hi) as [_ Ud]. clear -Ud. induction (it_audio i) as [|x l IH]; auto. cbn. f_equal.
      - apply store_id. destruct d; auto. apply Ud. left; auto.
      - apply IH. destruct d; auto. intros y Hy. apply Ud. right; auto. }
    assert (LE : length (it_audio i) <= L) by (apply fold_max_ge; unfold lens; apply in_map_iff; eauto).
    exists (assign_prefix (repeat (store d pad) L) (map (store d) (it_audio i))), (length (it_audio i)).
    split; [apply (map_nth_error (fun i => assign_prefix (repeat (store d pad) L) (map (store d) (it_audio i)))); auto|].
    split; [apply (map_nth_error (fun i => length (it_audio i))); auto|]. split; auto. unfold assign_prefix. rewrite EA.
    split; [rewrite app_length, skipn_length, repeat_length; lia|]. split; auto. split.
    + rewrite firstn_app, Nat.sub_diag, firstn_all. cbn. apply app_nil_r.
    + intros x Hx. rewrite skipn_app, Nat.sub_diag, skipn_all in Hx. cbn in Hx.
      assert (Hr : In x (repeat (store d pad) L)).
      { rewrite <- (firstn_skipn (length (it_audio i)) (repeat (store d pad) L)). apply in_or_app. auto. }
      eapply repeat_spec; eauto.
Qed.
(** With mixed dtypes the first item decides: a float item after an integer one is truncated. *)
Theorem C57_mixed_dtypes : exists items b, collate items 0 false = Ok b /\
  nth 1 (b_audio b) [] <> it_audio (nth 1 items (mkItem Float [] 0 "" None None)).
Proof.
  exists [mkItem Int64 [1%R] 16000 "a" None None; mkItem Float [(/ 2)%R] 16000 "b" None None]. eexists. split; [reflexivity|].
  cbn. intros E. injection E as E. unfold truncZ in E. destruct (Rle_dec 0 (/ 2)) as [|N]; [|lra].
  unfold floorZ in E. rewrite <- (up_tech (/ 2) 0) in E; [|lra|cbn; lra]. cbn in E. lra.
Qed.

(** * C58 *)
Theorem C58_cmu_line id text : is_word id -> ~ In 34%N id -> ~ In 40%N id -> parse_cmu (cmu_line id text) = Ok (id, text).
Proof. apply parse_cmu_line. Qed.
(** A whole prompt file: entries with any white space around them, blank lines, Unix, DOS
    or Macintosh line ends, last line with or without line end.  The text may be anything, quotation
    marks included. *)
Theorem C58_cmu_file l last : (forall r, In r (rows_of l last) -> cmu_wf r) ->
  sentences_cmu (file_of cmu_row l last) = Ok (entries (rows_of l last)).
Proof. apply sentences_cmu_rows. Qed.
(** Only the sentences with a wav file are offered, in file order. *)
Theorem C58_cmu_available wav l last : (forall r, In r (rows_of l last) -> cmu_wf r) ->
  available_cmu wav (file_of cmu_row l last) = Ok (filter (fun s => wav (fst s)) (entries (rows_of l last))).
Proof. intros H. unfold available_cmu. rewrite sentences_cmu_rows by auto. reflexivity. Qed.
Theorem C58_libri_file flac l last : (forall r, In r (rows_of l last) -> libri_wf r) ->
  available_libri flac (file_of libri_row l last) = filter (fun s => flac (fst s)) (entries (rows_of l last)).
Proof. apply available_libri_rows. Qed.
(** A prompt line without identifier makes the whole file unreadable. *)
Theorem C58_cmu_malformed l last bad : In bad (rows_of l last) ->
  (forall r, In r (rows_of l last) -> r = bad \/ cmu_wf r) -> (exists text, bad = Entry [] [] text [] /\ no_newline text) ->
  sentences_cmu (file_of cmu_row l last) = Err IndexError.
Proof.
  intros Hb H (text & -> & Nt). unfold sentences_cmu. change (fun l0 : list N => match l0 with [] => false | _ :: _ => true end) with nonempty.
  rewrite stripped_lines.
  - revert Hb H. generalize (rows_of l last). clear l last. intros rows Hb H.
    assert (PB : parse_cmu (cmu_line [] text) = Err IndexError).
    { unfold parse_cmu, cmu_line. cbn [app partition N.eqb Pos.eqb quote filter negb paren]. reflexivity. }
    induction rows as [|r rows IH]; [destruct Hb|]. cbn [map filter].
    assert (W : (r = Entry [] [] text [] -> mapM parse_cmu (filter nonempty (strip (cmu_row r) :: map (fun r => strip (cmu_row r)) rows)) = Err IndexError)).
    { intros ->. cbn [cmu_row]. rewrite strip_around by (try apply cmu_line_trimmed; intros c []). cbn [filter nonempty cmu_line app].
      cbn [mapM]. change (40%N :: 32%N :: 32%N :: 34%N :: text ++ [34%N; 32%N; 41%N]) with (cmu_line [] text). rewrite PB. reflexivity. }
    destruct (H r (or_introl eq_refl)) as [->|Wr]; [apply W; auto|].
    destruct Hb as [->|Hb]; [apply W; auto|]. specialize (IH Hb (fun x Hx => H x (or_intror Hx))).
    destruct r as [ws|b id t a]; cbn [cmu_row cmu_wf] in *.
    + rewrite strip_blank by (intros; apply white_true; apply Wr; auto). cbn. exact IH.
    + destruct Wr as ((_ & Wb) & (_ & Wa) & Wt & Wi & Q & P). rewrite strip_around; try (intros; apply white_true; auto); [|apply cmu_line_trimmed].
      cbn [nonempty cmu_line app]. cbn [mapM]. change (40%N :: 32%N :: id ++ 32%N :: 34%N :: t ++ [34%N; 32%N; 41%N]) with (cmu_line id t).
      rewrite parse_cmu_line by auto. rewrite IH. reflexivity.
  - intros r Hr. destruct (H r Hr) as [->|Wr].
    + cbn [cmu_row]. intros c Hc. cbn [app] in Hc. rewrite app_nil_r in Hc. unfold cmu_line in Hc. cbn in Hc.
      destruct Hc as [<- |[<- |[<- |[<- |Hc]]]]; try (split; discriminate). apply in_app_or in Hc as [Hc|Hc]; auto.
      destruct Hc as [<- |[<- |[<- |[]]]]; split; discriminate.
    + destruct r as [ws|b id t a]; cbn [cmu_row cmu_wf] in *; [apply Wr|].
      destruct Wr as ((Wb & _) & (Wa & _) & Wt & Wi & _). apply no_newline_app; auto. apply no_newline_app; auto. apply cmu_no_newline; auto.
Qed.

(** * C59 *)
(** For every history of calls on any number of dataset objects, the disk changing at will
    between them, there are fixed sentence lists, one per object, that all answers follow. *)
Theorem C59_stable h st answers : perform_all fresh_caches h = (st, answers) ->
  exists L, length answers = length h /\ forall k d c a, nth_error h k = Some (d, c) -> nth_error answers k = Some a -> agrees L c a.
Proof.
  generalize fresh_caches. intros st0 H. exists (fun o => match cached st o with Some l => l | None => [] end).
  revert st0 st answers H. induction h as [|[d0 c0] h IH]; intros st0 st answers H; cbn in H; [injection H as <- <-; split; auto; intros [|k]; discriminate|].
  destruct (perform st0 d0 c0) as [s1 a1] eqn:E1. destruct (perform_all s1 h) as [s2 l2] eqn:E2. injection H as <- <-.
  destruct (IH _ _ _ E2) as [L K]. split; [cbn; auto|]. intros [|k] d c a Hk Ha; cbn in Hk, Ha; [|eapply K; eauto].
  injection Hk as <- <-. injection Ha as <-. eapply perform_agrees; [exact E1|]. intros o l Hc. rewrite (perform_all_keep _ _ _ _ _ _ E2 Hc). auto.
Qed.
(** So two lengths of one object agree, and so do two items with one index. *)
Theorem C59_len_item_stable h st answers j k dj dk o : perform_all fresh_caches h = (st, answers) ->
  (forall n m, nth_error h j = Some (dj, Len o) -> nth_error h k = Some (dk, Len o) ->
     nth_error answers j = Some (ALen n) -> nth_error answers k = Some (ALen m) -> n = m) /\
  (forall i a r id t a' r' id' t', nth_error h j = Some (dj, Get o i) -> nth_error h k = Some (dk, Get o i) ->
     nth_error answers j = Some (AItem a r id t) -> nth_error answers k = Some (AItem a' r' id' t') -> id = id' /\ t = t') /\
  (forall n i a r id t, nth_error h j = Some (dj, Len o) -> nth_error h k = Some (dk, Get o i) ->
     nth_error answers j = Some (ALen n) -> nth_error answers k = Some (AItem a r id t) -> (- Z.of_nat n <= i < Z.of_nat n)%Z).
Proof.
  intros H. destruct (C59_stable h st answers H) as (L & _ & K). split; [|split].
  - intros n m H1 H2 A1 A2. pose proof (K _ _ _ _ H1 A1) as B1. pose proof (K _ _ _ _ H2 A2) as B2. cbn in *. congruence.
  - intros i a r id t a' r' id' t' H1 H2 A1 A2. pose proof (K _ _ _ _ H1 A1) as (j1 & B1 & C1). pose proof (K _ _ _ _ H2 A2) as (j2 & B2 & C2).
    assert (j1 < length (L o)) by (apply nth_error_Some; congruence). assert (j2 < length (L o)) by (apply nth_error_Some; congruence).
    assert (j1 = j2) by lia. subst j2. rewrite B1 in B2. injection B2 as -> ->. auto.
  - intros n i a r id t H1 H2 A1 A2. pose proof (K _ _ _ _ H1 A1) as B1. pose proof (K _ _ _ _ H2 A2) as (j2 & B2 & C2). cbn in B1. subst n.
    assert (j2 < length (L o)) by (apply nth_error_Some; congruence). lia.
Qed.
(** The directory of an object is read until it has been read once successfully, never again. *)
Theorem C59_read_once h st answers o : perform_all fresh_caches h = (st, answers) ->
  (forall d c, In (d, c) h -> exists l, d_sentences d = Ok l) -> reads st o <= 1.
Proof.
  assert (G : forall h st0 st answers, perform_all st0 h = (st, answers) -> (forall d c, In (d, c) h -> exists l, d_sentences d = Ok l) ->
    reads st0 o <= (if match cached st0 o with Some _ => true | None => false end then 1 else 0) -> reads st o <= 1).
  { clear. induction h as [|[d c] h IH]; intros st0 st answers H HD HR; cbn in H.
    - injection H as <- <-. destruct (cached st0 o); lia.
    - destruct (perform st0 d c) as [s1 a1] eqn:E1. destruct (perform_all s1 h) as [s2 l2] eqn:E2. injection H as <- <-.
      eapply IH; [exact E2|intros d' c' H'; apply (HD d' c'); right; auto|].
      assert (GS : forall o' s r, get_sentences st0 d o' = (s, r) -> reads s o <= (if match cached s o with Some _ => true | None => false end then 1 else 0)).
      { intros o' s r E. unfold get_sentences in E. destruct (HD d c (or_introl eq_refl)) as [l El]. rewrite El in E.
        destruct (cached st0 o') eqn:Ec; injection E as <- <-; auto. cbn. unfold set_at. destruct (Nat.eqb_spec o o') as [->|N]; auto. rewrite Ec in HR. lia. }
      unfold perform in E1. destruct c as [o'|o' i|o'].
      + destruct (get_sentences st0 d o') as [s [r|e]] eqn:E; injection E1 as <- <-; eapply GS; eauto.
      + destruct (get_sentences st0 d o') as [s [r|e]] eqn:E; [|injection E1 as <- <-; eapply GS; eauto].
        destruct (py_index r i) as [[id t]|]; [destruct (d_audio d id) as [[x y]|]|]; injection E1 as <- <-; eapply GS; eauto.
      + injection E1 as <- <-. auto. }
  intros H HD. eapply G; eauto.
Qed.

(** * Examples *)
Definition c0 : corpus := mkCorpus ["a"; "b"]%string
  (fun s => if String.eqb s "a" then Ok ["a1"; "a2"]%string else Ok ["b1"]%string)
  (fun s u => if String.eqb u "a1" then Ok ([1; 2; 3]%R, 2%Z) else if String.eqb u "a2" then Ok ([4]%R, 2%Z) else Ok ([5; 6]%R, 2%Z)).
Definition g0 : rng := mkRng (fun l n => firstn n l) (fun _ l => rev l).
Lemma g0_fair : fair g0.
Proof.
  split; [intros k l; apply Permutation_rev|]. intros l n H. cbn. split; [apply firstn_length_le; auto|]. exists (skipn n l). rewrite firstn_skipn. auto.
Qed.
Lemma target0 : target_samples 2.5 2 = 5%Z.
Proof.
  unfold target_samples. replace (2.5 * IZR 2)%R with (IZR 5) by lra. rewrite rnd64_IZR by (vm_compute; discriminate).
  unfold truncZ. destruct (Rle_dec 0 5); [|lra]. unfold floorZ. rewrite <- (up_tech 5 5); try lia; try lra. rewrite plus_IZR. lra.
Qed.
Example C56_ex : load_dataset_sources c0 2 2.5 g0 10 = Some (Ok ([[4; 1; 2; 3; 1]; [5; 6; 5; 6; 5]]%R, 2%Z,
  [("a", ["a2"; "a1"; "a1"]); ("b", ["b1"; "b1"; "b1"])]%string)).
Proof.
  generalize target0. generalize 2.5%R. intros dur T. unfold load_dataset_sources. cbn - [target_samples Pos.to_nat]. change (Pos.to_nat 2) with 2. cbn - [target_samples]. repeat (rewrite T; cbn - [target_samples]). reflexivity.
Qed.
Example C57_ex : exists b, collate [mkItem Float [1; 2; 3]%R 16000 "u1" (Some "x"%string) None; mkItem Float [4]%R 16000 "u2" None (Some "s"%string)] (-1) true = Ok b /\
  b_audio b = [[1; 2; 3]; [4; -1; -1]]%R /\ b_lengths b = [3; 1].
Proof. eexists. split; [reflexivity|]. split; reflexivity. Qed.
(** Two prompts with identifiers a and b, the text of the first containing a quotation mark. *)
Example C58_ex : sentences_cmu [40; 32; 97; 32; 34; 120; 34; 121; 34; 32; 41; 13; 10; 10; 32; 10; 40; 32; 98; 32; 34; 122; 34; 32; 41]%N =
  Ok [([97], [120; 34; 121]); ([98], [122])]%N /\
  available_libri (fun _ => true) [97; 32; 72; 73; 32; 89; 10; 10; 98; 32; 90; 10]%N = [([97], [72; 73; 32; 89]); ([98], [90])]%N.
Proof. split; reflexivity. Qed.
(** The directory loses a file after the first access; indices still refer to the old list. *)
Example C59_ex : let d1 := mkDisk (Ok [("u", None); ("v", None)]%string) (fun _ => Ok ([1%R], 8000%Z)) in
  let d2 := mkDisk (Ok [("v", None)]%string) (fun _ => Ok ([2%R], 8000%Z)) in
  snd (perform_all fresh_caches [(d1, Len 0); (d2, Len 0); (d2, Get 0 (-1)); (d2, Get 0 0); (d2, Get 0 2); (d2, GetOther 0); (d2, Len 1)]) =
  [ALen 2; ALen 2; AItem [2%R] 8000 "v" None; AItem [2%R] 8000 "u" None; AErr IndexError; AErr TypeError; ALen 1].
Proof. reflexivity. Qed.

Print Assumptions C56_sources.
Print Assumptions C56_exact_length.
Print Assumptions C56_too_many.
Print Assumptions C56_positive_target.
Print Assumptions C56_terminates.
Print Assumptions C56_diverges.
Print Assumptions C57_accepts.
Print Assumptions C57_rejects.
Print Assumptions C57_lossless.
Print Assumptions C57_mixed_dtypes.
Print Assumptions C58_cmu_line.
Print Assumptions C58_cmu_file.
Print Assumptions C58_cmu_available.
Print Assumptions C58_libri_file.
Print Assumptions C58_cmu_malformed.
Print Assumptions C59_stable.
Print Assumptions C59_len_item_stable.
Print Assumptions C59_read_once.
