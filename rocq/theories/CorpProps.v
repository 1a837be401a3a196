(** Properties of the corpus listings and of the attribution notice: C74, C75. *)
From Coq Require Import String Ascii List ZArith NArith Bool Lia.
From Verif Require Import Prelude PreludeFacts DirModel DirSpec DsModel CorpModel CorpSpec CorpProofs.
From Verif Require DirProofs.
Import ListNotations.
Local Notation length := List.length.
Local Open Scope list_scope.

(** ** C74 *)
(** In a tree <subset>/<speaker>/<chapter>/ an utterance named after its place is loaded from
    the very file that made it appear in the list. *)
Theorem C74_libri_partial : forall A on_disk (decode : path -> result A) subset found s rest,
  (forall dir text, In (dir, text) found -> exists sp ch, dir = below subset [sp; ch] /\
     plain sp /\ no_dash sp /\ plain ch /\ no_dash ch) ->
  In s (libri_sentences on_disk found) -> s_id s = dashed (s_speaker s) (s_chapter s) rest -> ~ In 47%N rest ->
  let file := below subset [s_speaker s; s_chapter s; s_id s ++ u ".flac"] in
  on_disk file = true /\ libri_load on_disk decode subset (s_id s) = decode file.
Proof. exact @libri_tidy. Qed.
(** Any identifier: where it is looked for, and which identifiers are refused. *)
Theorem C74_libri_path : forall subset sp ch rest, plain sp -> plain ch -> no_dash sp -> no_dash ch -> ~ In 47%N rest ->
  libri_path subset (dashed sp ch rest) = Ok (below subset [sp; ch; dashed sp ch rest ++ u ".flac"]).
Proof.
  intros subset sp ch rest P1 P2 D1 D2 R. unfold libri_path. rewrite three_dashed by auto. cbn [bind].
  assert (PF : plain (dashed sp ch rest ++ u ".flac")).
  { apply plain_file; [|cbn; intuition discriminate|cbn; lia]. unfold dashed. intros I.
    apply in_app_or in I as [I|[I|I]]; [apply P1; auto|discriminate|].
    apply in_app_or in I as [I|[I|I]]; [apply P2; auto|discriminate|auto]. }
  rewrite !join_plain, !below_below by auto. reflexivity.
Qed.
Theorem C74_libri_few_dashes : forall A on_disk (decode : path -> result A) subset utt,
  (count_occ N.eq_dec utt 45%N < 2)%nat -> libri_load on_disk decode subset utt = Err ValueError.
Proof. intros A on_disk decode subset utt H. unfold libri_load, libri_path. rewrite three_few by auto. reflexivity. Qed.

Definition ex_subset : path := mkPath true [u "data"; u "LibriSpeech"; u "dev-clean"].
Definition ex_found : list (path * ustr) :=
  [(below ex_subset [u "84"; u "121123"], u "84-121123-0000 GO DO YOU HEAR" ++ [10%N] ++ u "84-121123-0001 BUT" ++ [10%N])].
Definition ex_disk (p : path) : bool :=
  if list_eq_dec (list_eq_dec N.eq_dec) (p_parts p)
       (p_parts ex_subset ++ [u "84"; u "121123"; u "84-121123-0000.flac"]) then true else false.
Example C74_libri_ex :
  libri_sentences ex_disk ex_found =
    [mkSent (u "84-121123-0000") (u "GO DO YOU HEAR") (u "84") (u "121123")] /\
  libri_load ex_disk (fun p => Ok (name p)) ex_subset (u "84-121123-0000") = Ok (u "84-121123-0000.flac").
Proof.
  assert (L : libri_sentences ex_disk ex_found = [mkSent (u "84-121123-0000") (u "GO DO YOU HEAR") (u "84") (u "121123")])
    by (vm_compute; reflexivity).
  split; [exact L|].
  destruct (C74_libri_partial _ ex_disk (fun p => Ok (name p)) ex_subset ex_found
    (mkSent (u "84-121123-0000") (u "GO DO YOU HEAR") (u "84") (u "121123")) (u "0000")) as [_ H].
  - intros dir text [E|[]]. injection E as <- _. exists (u "84"), (u "121123"). split; [reflexivity|].
    unfold plain, no_dash. cbn. repeat split; intuition discriminate.
  - rewrite L. left. reflexivity.
  - reflexivity.
  - cbn. intuition discriminate.
  - cbn [s_id] in H. rewrite H. vm_compute. reflexivity.
Qed.
(** Listed, with its file on disk, but not loadable: the transcript of chapter 1 names an
    utterance without dashes, or one of another chapter. *)
Theorem C74_libri_refuted :
  exists subset found on_disk s1 s2,
    In s1 (libri_sentences on_disk found) /\ In s2 (libri_sentences on_disk found) /\
    forall A (decode : path -> result A),
      libri_load on_disk decode subset (s_id s1) = Err ValueError /\
      libri_load on_disk decode subset (s_id s2) = Err FileNotFoundError.
Proof.
  pose (dir := below ex_subset [u "84"; u "1"]).
  exists ex_subset, [(dir, u "intro HELLO" ++ [10%N] ++ u "84-2-0000 BYE")],
    (fun p => if list_eq_dec (list_eq_dec N.eq_dec) (p_parts p) (p_parts dir ++ [u "intro.flac"]) then true else
              if list_eq_dec (list_eq_dec N.eq_dec) (p_parts p) (p_parts dir ++ [u "84-2-0000.flac"]) then true else false),
    (mkSent (u "intro") (u "HELLO") (u "84") (u "1")), (mkSent (u "84-2-0000") (u "BYE") (u "84") (u "1")).
  split; [vm_compute; auto|]. split; [vm_compute; auto|]. intros A decode. split; vm_compute; reflexivity.
Qed.
(** CMU ARCTIC: the listed prompt has its wav file at the path that is loaded. *)
Theorem C74_cmu_partial : forall audio_dir names text l id t,
  (forall n, In n names -> ~ In 47%N n) -> cmu_sentences names text = Ok l -> In (id, t) l -> id <> u ".wav" ->
  In (id ++ u ".wav") names /\ cmu_path audio_dir id = below audio_dir [id ++ u ".wav"].
Proof.
  intros audio_dir names text l id t F H I N. destruct (cmu_listed _ _ _ _ _ H I) as (n & J & W & <-).
  apply is_wav_iff in W as (x & ->). rewrite stem_wav in *. destruct x as [|c x]; [congruence|]. split; auto.
  apply join_plain. apply F in J. apply plain_file; [|cbn; intuition discriminate|cbn; lia].
  intros K. apply J. apply in_or_app. auto.
Qed.
Example C74_cmu_ex :
  cmu_sentences [u "arctic_a0001.wav"; u "notes.txt"] (u "( arctic_a0001 ""Author."" )" ++ [10%N] ++ u "( arctic_a0002 ""Not."" )") =
    Ok [(u "arctic_a0001", u "Author.")] /\
  cmu_path (mkPath false [u "wav"]) (u "arctic_a0001") = mkPath false [u "wav"; u "arctic_a0001.wav"].
Proof. split; vm_compute; reflexivity. Qed.
(** The hidden file [.wav] counts as the prompt [.wav], whose audio would be [.wav.wav]. *)
Theorem C74_cmu_refuted : exists names text id t,
  cmu_sentences names text = Ok [(id, t)] /\ ~ In (id ++ u ".wav") names /\
  cmu_path (mkPath false []) id = mkPath false [u ".wav.wav"].
Proof.
  exists [u ".wav"], (u "( .wav ""Hi."" )"), (u ".wav"), (u "Hi.").
  split; [vm_compute; reflexivity|]. split; [vm_compute; intuition discriminate|vm_compute; reflexivity].
Qed.

(** ** C75 *)
Lemma coerce_ok g m f : presents g m -> states m f -> coerce_attribution g = Ok m.
Proof.
  intros H (A & B & C & D & E & _).
  assert (K : forallb (fun k => match m k with Some _ => true | None => false end) required_keys = true).
  { cbn [required_keys forallb]. unfold entry in *.
    destruct A as [->|[-> _]], B as [->|[-> _]], C as [->|[-> _]], D as [->|[-> _]], E as [->|[-> _]]; reflexivity. }
  destruct H as [->|[->| ->]]; cbn [coerce_attribution]; rewrite K; reflexivity.
Qed.
(** The notice is written below the directory and can be read back line by line. *)
Theorem C75_notice : forall dir g m f notes file,
  presents g m -> states m f -> single_lines f -> Forall one_line notes ->
  exists text, save_attribution_file dir g notes file = ([Mkdir dir; Write (join dir file) text], Ok (join dir file)) /\
    tells text f notes.
Proof.
  intros dir g m f notes file P St Sl Nt. unfold save_attribution_file. rewrite (coerce_ok g m f P St).
  eexists. split; [reflexivity|]. destruct St as (A & B & C & D & E & S). destruct Sl as (A' & B' & C' & D' & E' & S').
  exists (notice_lines m notes). split.
  - split; [|apply joined_lines; discriminate]. unfold notice_lines.
    rewrite (look_entry _ _ _ A), (look_entry _ _ _ B), (look_entry _ _ _ C), (look_entry _ _ _ D), (look_entry _ _ _ E).
    rewrite !Forall_app. repeat match goal with |- _ /\ _ => split end.
    + repeat (constructor; [first [apply one_line_app; [reflexivity|assumption]|apply clean_one_line; reflexivity]|]). constructor.
    + destruct (f_subset f) as [s|]; [rewrite S; constructor; [apply one_line_app; [reflexivity|assumption]|constructor]|].
      destruct S as [->| ->]; constructor.
    + repeat (constructor; [apply clean_one_line; reflexivity|]). constructor.
    + rewrite Forall_map. eapply Forall_impl; [|exact Nt]. intros n Hn. apply one_line_app; [reflexivity|assumption].
    + repeat (constructor; [apply clean_one_line; reflexivity|]). constructor.
  - unfold notice_lines.
    rewrite (look_entry _ _ _ A), (look_entry _ _ _ B), (look_entry _ _ _ C), (look_entry _ _ _ D), (look_entry _ _ _ E).
    set (sub := match m "subset"%string with Some (VText s) => [u "Subset: " ++ s] | _ => [] end).
    assert (Esub : sub = match f_subset f with Some s => [u "Subset: " ++ s] | None => [] end).
    { unfold sub. destruct (f_subset f) as [s|]; [rewrite S; reflexivity|]. destruct S as [->| ->]; reflexivity. }
    rewrite Esub. clear sub Esub. rewrite !fields_app.
    assert (Q : forall lb x y, lb = x :: y -> x <> 45%N -> fields lb (map (fun n => u "- " ++ n) notes) = [])
      by (intros lb x y; apply fields_dashes).
    repeat split.
    1-6: erewrite Q; [|reflexivity|discriminate].
    1-6: destruct (f_subset f); reflexivity.
    rewrite fields_same. match goal with |- ?a ++ ?b ++ ?c ++ notes ++ ?d = _ =>
      replace a with (@nil ustr) by reflexivity; replace b with (@nil ustr) by (destruct (f_subset f); reflexivity);
      replace c with (@nil ustr) by reflexivity; replace d with (@nil ustr) by reflexivity end.
    apply app_nil_r.
Qed.
(** Different contents never give the same text. *)
Theorem C75_lossless : forall text f notes f' notes', tells text f notes -> tells text f' notes' -> f = f' /\ notes = notes'.
Proof.
  intros text [d1 d2 d3 d4 d5 d6] notes [e1 e2 e3 e4 e5 e6] notes' (ls & C & A1 & A2 & A3 & A4 & A5 & A6 & A7)
    (ls' & C' & B1 & B2 & B3 & B4 & B5 & B6 & B7).
  assert (ls = ls') as <- by (eapply consists_unique; eauto). cbn [f_dataset f_source f_license f_url f_credit f_subset] in *.
  rewrite A1 in B1. rewrite A2 in B2. rewrite A3 in B3. rewrite A4 in B4. rewrite A5 in B5. rewrite A6 in B6. rewrite A7 in B7.
  split; auto. injection B1 as ->. injection B2 as ->. injection B3 as ->. injection B4 as ->. injection B5 as ->.
  f_equal. destruct d6, e6; try discriminate; auto. injection B6 as ->. reflexivity.
Qed.
(** A missing field, or something that is no mapping, is refused before anything but the
    directory is written. *)
Theorem C75_missing : forall dir g m k notes file, presents g m ->
  In k ["dataset"; "source"; "license_name"; "license_url"; "required_attribution"]%string -> m k = None ->
  save_attribution_file dir g notes file = ([Mkdir dir], Err ValueError).
Proof.
  intros dir g m k notes file P I E. unfold save_attribution_file.
  assert (K : forallb (fun k => match m k with Some _ => true | None => false end) required_keys = false).
  { apply not_true_is_false. intros T. rewrite forallb_forall in T. specialize (T k I). rewrite E in T. discriminate. }
  destruct P as [->|[->| ->]]; cbn [coerce_attribution]; rewrite K; reflexivity.
Qed.
Theorem C75_no_mapping : forall dir notes file, save_attribution_file dir GOther notes file = ([Mkdir dir], Err TypeError).
Proof. reflexivity. Qed.
(** Two data sets have an attribution, under any capitalisation of their names; the subset is
    recorded for LibriSpeech. *)
Theorem C75_datasets : forall d s a, attribution_for d s = Ok a ->
  (spells d "cmu_arctic" /\ a_dataset a = u "CMU ARCTIC" /\ a_subset a = None \/
   spells d "librispeech" /\ a_dataset a = u "LibriSpeech (SLR12)" /\ a_subset a = s) /\
  a_required a = true /\ a_credit a <> [] /\ a_license a <> [].
Proof.
  intros d s a. unfold attribution_for.
  destruct (String.eqb_spec (lower d) "cmu_arctic") as [E|_]; [|destruct (String.eqb_spec (lower d) "librispeech") as [E|_]; [|discriminate]];
    intros H; injection H as <-; (split; [|repeat split; discriminate]); [left|right]; repeat split;
    apply DirProofs.lower_spells; auto; cbn; unfold DirProofs.lower_char; cbn; repeat split; lia.
Qed.
Theorem C75_unsupported : forall d s, ~ spells d "cmu_arctic" -> ~ spells d "librispeech" -> attribution_for d s = Err ValueError.
Proof.
  intros d s A B. unfold attribution_for.
  destruct (String.eqb_spec (lower d) "cmu_arctic") as [E|_];
    [exfalso; apply A; apply DirProofs.lower_spells; auto; cbn; unfold DirProofs.lower_char; cbn; repeat split; lia|].
  destruct (String.eqb_spec (lower d) "librispeech") as [E|_];
    [exfalso; apply B; apply DirProofs.lower_spells; auto; cbn; unfold DirProofs.lower_char; cbn; repeat split; lia|reflexivity].
Qed.
(** Exactly one of the default notes says whether the responses are static or dynamic, and it says
    so truly. *)
Theorem C75_kind : forall dynamic n, In n (default_notes dynamic) ->
  let says w := exists rest, n = (u w ++ rest)%list in
  (says "Dynamic room impulse responses"%string -> dynamic = true) /\ (says "Static room impulse responses"%string -> dynamic = false).
Proof.
  intros dynamic n H says. split; intros [rest E]; subst n; destruct dynamic; auto; exfalso;
    (destruct H as [H|[H|[H|[]]]]; discriminate H).
Qed.
Theorem C75_kind_said : forall dynamic : bool, exists rest,
  In (u (if dynamic then "Dynamic room impulse responses" else "Static room impulse responses")%string ++ rest)%list (default_notes dynamic).
Proof.
  intros dynamic. exists (u (if dynamic then " are simulated with ISM over trajectories." else " are simulated with ISM at fixed geometry.")%string).
  right. left. destruct dynamic; reflexivity.
Qed.
(** The notice of a supported data set with the default notes is always written in full. *)
Theorem C75_default : forall dir d s a dynamic file, attribution_for d s = Ok a ->
  match s with Some x => one_line x | None => True end ->
  exists text, save_attribution_file dir (GToDict (to_dict a)) (default_notes dynamic) file =
      ([Mkdir dir; Write (join dir file) text], Ok (join dir file)) /\
    tells text (mkFacts (a_dataset a) (a_source a) (a_license a) (a_url a) (a_credit a) (a_subset a)) (default_notes dynamic).
Proof.
  intros dir d s a dynamic file H Hs. apply (C75_notice dir _ (to_dict a)).
  - right; left; reflexivity.
  - unfold states, entry. cbn [f_dataset f_source f_license f_url f_credit f_subset]. repeat split; try (left; reflexivity).
    destruct (a_subset a) eqn:E; cbn; rewrite E; auto.
  - unfold attribution_for in H.
    destruct (String.eqb _ _); [|destruct (String.eqb _ _); [|discriminate]]; injection H as <-;
      unfold single_lines; cbn [f_dataset f_source f_license f_url f_credit f_subset a_dataset a_source a_license a_url a_credit a_subset];
      repeat split; try (apply clean_one_line; reflexivity); auto.
  - unfold default_notes. repeat (constructor; [apply clean_one_line; destruct dynamic; reflexivity|]). constructor.
Qed.
(** The notice lies in the directory when the file is named by a relative path; an absolute
    path leads out of it. *)
Theorem C75_destination : forall dir g m f notes names, presents g m -> states m f -> names <> [] -> Forall plain names ->
  (exists text, save_attribution_file dir g notes (slashed names) =
     ([Mkdir dir; Write (below dir names) text], Ok (below dir names))) /\
  (exists text, save_attribution_file dir g notes (47%N :: slashed names) =
     ([Mkdir dir; Write (mkPath true names) text], Ok (mkPath true names))).
Proof.
  intros dir g m f notes names P St Hn F. unfold save_attribution_file. rewrite (coerce_ok g m f P St).
  destruct (join_slashed dir names Hn F) as [-> ->]. split; eexists; reflexivity.
Qed.
(** Dots and doubled slashes in a relative path change nothing. *)
Theorem C75_dots : forall dir g m f notes words names x t, presents g m -> CorpSpec.states m f -> padded words names -> Forall plain names ->
  slashed words = x :: t -> x <> 47%N ->
  exists text, save_attribution_file dir g notes (slashed words) = ([Mkdir dir; Write (below dir names) text], Ok (below dir names)).
Proof.
  intros dir g m f notes words names x t P St Pd F E N. unfold save_attribution_file. rewrite (coerce_ok g m f P St).
  rewrite (join_padded dir x t words names E N Pd F). eexists. reflexivity.
Qed.
Example C75_dots_example : join (mkPath true [u "out"]) (u "./docs//./NOTICE.txt") = mkPath true [u "out"; u "docs"; u "NOTICE.txt"].
Proof. reflexivity. Qed.
Example C75_destination_example : slashed [u "docs"; u "NOTICE.txt"] = u "docs/NOTICE.txt" /\
  below (mkPath true [u "data"; u "out"]) [u "docs"; u "NOTICE.txt"] <> mkPath true [u "docs"; u "NOTICE.txt"].
Proof. split; [reflexivity|]. intros H. apply (f_equal (fun p => List.length (p_parts p))) in H. cbn in H. discriminate. Qed.
Example C75_example : exists text,
  save_attribution_file (mkPath false [u "out"]) (GToDict (to_dict
     (mkAtt (u "k") (u "Corpus") (u "here") (u "CC") (u "url") (u "Someone") true (Some (u "dev-clean"))))) [u "cut"; u "mixed"] (u "NOTE.txt") =
    ([Mkdir (mkPath false [u "out"]); Write (mkPath false [u "out"; u "NOTE.txt"]) text], Ok (mkPath false [u "out"; u "NOTE.txt"])) /\
  exists a b, text = a ++ u "Required attribution: Someone" ++ [10%N] ++ u "Subset: dev-clean" ++ [10%N; 10%N] ++
    u "Modifications applied in this output:" ++ [10%N] ++ u "- cut" ++ [10%N] ++ u "- mixed" ++ [10%N] ++ b.
Proof.
  eexists. split; [reflexivity|].
  exists (u "TorchRIR Dataset Attribution" ++ [10; 10]%N ++ u "This directory contains derived audio generated with TorchRIR." ++ [10; 10]%N ++
    u "Dataset: Corpus" ++ [10%N] ++ u "Source: here" ++ [10%N] ++ u "License: CC" ++ [10%N] ++ u "License URL: url" ++ [10%N]).
  eexists. vm_compute. reflexivity.
Qed.
Example C75_default_ex : attribution_for "CMU_Arctic" (Some (u "dev-clean")) = attribution_for "cmu_arctic" None /\
  attribution_for "timit" None = Err ValueError.
Proof. split; reflexivity. Qed.
(** Values with a line break are not refused: two different mappings give one text. *)
Theorem C75_newline_unchecked : exists m m' text dir file,
  save_attribution_file dir (GMapping m) [] file = ([Mkdir dir; Write (join dir file) text], Ok (join dir file)) /\
  save_attribution_file dir (GMapping m') [] file = ([Mkdir dir; Write (join dir file) text], Ok (join dir file)) /\
  m "source"%string = Some (VText (u "http")) /\ m' "source"%string = Some (VText (u "ftp" ++ [10%N] ++ u "Source: http")).
Proof.
  exists (to_dict (mkAtt [] (u "A" ++ [10%N] ++ u "Source: ftp") (u "http") [] [] [] true None)),
    (to_dict (mkAtt [] (u "A") (u "ftp" ++ [10%N] ++ u "Source: http") [] [] [] true None)).
  eexists. exists (mkPath false []), (u "N"). repeat split; reflexivity.
Qed.
Print Assumptions C74_libri_partial.
Print Assumptions C74_libri_path.
Print Assumptions C74_libri_few_dashes.
Print Assumptions C74_libri_refuted.
Print Assumptions C74_cmu_partial.
Print Assumptions C74_cmu_refuted.
Print Assumptions C75_notice.
Print Assumptions C75_lossless.
Print Assumptions C75_missing.
Print Assumptions C75_no_mapping.
Print Assumptions C75_datasets.
Print Assumptions C75_unsupported.
Print Assumptions C75_default.
Print Assumptions C75_destination.
Print Assumptions C75_dots.
Print Assumptions C75_newline_unchecked.
Print Assumptions C75_kind.
Print Assumptions C75_kind_said.
