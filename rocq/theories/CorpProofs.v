(** Lemmas for C74 and C75. *)
From Coq Require Import String Ascii List ZArith NArith Bool Lia.
From Verif Require Import Prelude PreludeFacts DirModel DsModel CorpModel CorpSpec.
Import ListNotations.
Local Notation length := List.length.
Local Open Scope list_scope.

(** ** Paths *)
Lemma split_no_slash w : ~ In slash w -> split_on slash w = [w].
Proof.
  induction w as [|x w IH]; [reflexivity|]. intros H. cbn [split_on].
  destruct (N.eqb_spec x slash) as [->|_]; [exfalso; apply H; left; auto|].
  rewrite IH by (intros Hx; apply H; right; auto). reflexivity.
Qed.
Lemma kept_plain w : plain w -> kept w = true.
Proof.
  intros (A & B & _). destruct w as [|x w]; [congruence|].
  destruct (N.eq_dec x 46) as [->|Hx].
  - destruct w; [congruence|reflexivity].
  - destruct x as [|p]; [reflexivity|]. cbn. repeat (destruct p as [p|p|]; try reflexivity); destruct w; congruence.
Qed.
Lemma join_plain p w : plain w -> join p w = below p [w].
Proof.
  intros H. pose proof (kept_plain w H) as K. destruct H as (A & B & C). unfold join, below.
  rewrite (split_no_slash w C). cbn [filter]. rewrite K. destruct w as [|x w]; [congruence|].
  destruct (N.eqb_spec x slash) as [->|_]; [exfalso; apply C; left; auto|]. reflexivity.
Qed.
Lemma split_slash w s : ~ In 47%N w -> split_on slash (w ++ 47%N :: s) = w :: split_on slash s.
Proof.
  induction w as [|x w IH]; [reflexivity|]. intros H. cbn [split_on app].
  destruct (N.eqb_spec x slash) as [->|_]; [exfalso; apply H; left; auto|].
  rewrite IH by (intros Hx; apply H; right; auto). reflexivity.
Qed.
Lemma split_slashed l : l <> [] -> Forall plain l -> split_on slash (slashed l) = l.
Proof.
  induction l as [|w l IH]; [congruence|]. intros _ H. inversion H as [|? ? Pw Pl]; subst. destruct l as [|v l].
  - cbn [slashed]. apply split_no_slash, Pw.
  - change (slashed (w :: v :: l)) with (w ++ 47%N :: slashed (v :: l)). rewrite split_slash by apply Pw.
    rewrite IH; congruence || auto.
Qed.
Lemma filter_plain l : Forall plain l -> filter kept l = l.
Proof. induction 1 as [|w l Hw _ IH]; [reflexivity|]. cbn [filter]. rewrite (kept_plain w Hw), IH. reflexivity. Qed.
Lemma join_slashed p l : l <> [] -> Forall plain l ->
  join p (slashed l) = below p l /\ join p (47%N :: slashed l) = mkPath true l.
Proof.
  intros Hl F. pose proof (split_slashed l Hl F) as Sp. split.
  - assert (E : exists x t, slashed l = x :: t /\ (x =? slash)%N = false).
    { destruct l as [|w l]; [congruence|]. inversion F as [|? ? Pw Pl]; subst. destruct Pw as (A & B & C).
      destruct w as [|x w]; [congruence|]. exists x. destruct l; eexists; (split; [reflexivity|]).
      all: apply N.eqb_neq; intros ->; apply C; left; auto. }
    destruct E as (x & t & E & N). unfold join. rewrite Sp, (filter_plain l F), E. cbv zeta. rewrite N. reflexivity.
  - unfold join. cbn [split_on]. change (47 =? slash)%N with true. cbv iota. rewrite Sp. cbn [filter kept]. rewrite (filter_plain l F). reflexivity.
Qed.
Lemma padded_split l l' : padded l l' -> Forall plain l' -> l <> [] -> split_on slash (slashed l) = l.
Proof.
  intros H. induction H as [|w l l' H IH|l l' H IH|l l' H IH]; intros F Hn; [congruence| | |].
  - inversion F as [|? ? Pw Pl]; subst. destruct l as [|v l]; [cbn [slashed]; apply split_no_slash, Pw|].
    change (slashed (w :: v :: l)) with (w ++ 47%N :: slashed (v :: l)). rewrite split_slash by apply Pw. rewrite IH; congruence || auto.
  - destruct l as [|v l]; [reflexivity|].
    change (slashed ([46%N] :: v :: l)) with ([46%N] ++ 47%N :: slashed (v :: l)). rewrite split_slash by (cbn; intuition discriminate). rewrite IH; congruence || auto.
  - destruct l as [|v l]; [reflexivity|].
    change (slashed ([] :: v :: l)) with (47%N :: slashed (v :: l)). cbn [split_on]. change (47 =? slash)%N with true. cbv iota. rewrite IH; congruence || auto.
Qed.
Lemma padded_filter l l' : padded l l' -> Forall plain l' -> filter kept l = l'.
Proof.
  intros H. induction H as [|w l l' H IH|l l' H IH|l l' H IH]; intros F; [reflexivity| | |]; [|cbn [filter kept]; auto|cbn [filter kept]; auto].
  inversion F as [|? ? Pw Pl]; subst. cbn [filter]. rewrite (kept_plain w Pw), IH by auto. reflexivity.
Qed.
Lemma join_padded p x t l l' : slashed l = x :: t -> x <> 47%N -> padded l l' -> Forall plain l' -> join p (slashed l) = below p l'.
Proof.
  intros E N P F. unfold join. rewrite (padded_split l l' P F) by (intros ->; discriminate). rewrite (padded_filter l l' P F). cbv zeta. rewrite E.
  apply N.eqb_neq in N. change slash with 47%N. rewrite N. reflexivity.
Qed.
Lemma below_below p l l' : below (below p l) l' = below p (l ++ l').
Proof. unfold below. cbn. rewrite app_assoc. reflexivity. Qed.
Lemma plain_file w e : ~ In 47%N w -> ~ In 47%N e -> (2 <= length e)%nat -> plain (w ++ e).
Proof.
  intros A B L. split; [|split].
  - intros E. apply (f_equal (@length N)) in E. rewrite app_length in E. cbn in E. lia.
  - intros E. apply (f_equal (@length N)) in E. rewrite app_length in E. cbn in E. lia.
  - intros I. apply in_app_or in I as [I|I]; auto.
Qed.

(** ** Splitting at dashes *)
Lemma partition_no c w : ~ In c w -> partition c w = (w, false, []).
Proof.
  induction w as [|x w IH]; [reflexivity|]. intros H. cbn [partition].
  destruct (N.eqb_spec x c) as [->|_]; [exfalso; apply H; left; auto|].
  rewrite IH by (intros Hx; apply H; right; auto). reflexivity.
Qed.
Lemma partition_at c w r : ~ In c w -> partition c (w ++ c :: r) = (w, true, r).
Proof.
  induction w as [|x w IH]; intros H; cbn [partition app].
  - rewrite N.eqb_refl. reflexivity.
  - destruct (N.eqb_spec x c) as [->|_]; [exfalso; apply H; left; auto|].
    rewrite IH by (intros Hx; apply H; right; auto). reflexivity.
Qed.
Lemma three_dashed sp ch rest : no_dash sp -> no_dash ch -> three_parts (dashed sp ch rest) = Ok (sp, ch, rest).
Proof.
  intros A B. unfold three_parts, dashed. rewrite partition_at by exact A. cbn [negb].
  rewrite partition_at by exact B. reflexivity.
Qed.
Lemma partition_inv c w : (~ In c w /\ partition c w = (w, false, [])) \/
  exists a r, w = a ++ c :: r /\ ~ In c a /\ partition c w = (a, true, r).
Proof.
  induction w as [|x w IH]; [left; auto|]. cbn [partition]. destruct (N.eqb_spec x c) as [->|N].
  - right. exists [], w. auto.
  - destruct IH as [(A & ->)|(a & r & -> & A & ->)].
    + left. split; auto. intros [E|E]; auto.
    + right. exists (x :: a), r. repeat split; auto. intros [E|E]; auto.
Qed.
Lemma three_few s : (count_occ N.eq_dec s 45%N < 2)%nat -> three_parts s = Err ValueError.
Proof.
  intros H. unfold three_parts. destruct (partition_inv 45 s) as [(_ & ->)|(a & r & -> & A & ->)]; [reflexivity|]. cbn [negb].
  destruct (partition_inv 45 r) as [(_ & ->)|(b & q & -> & B & ->)]; [reflexivity|].
  exfalso. rewrite !count_occ_app in H. cbn [count_occ] in H. destruct (N.eq_dec 45 45) as [_|]; [|congruence].
  rewrite count_occ_app in H. cbn [count_occ] in H. destruct (N.eq_dec 45 45) as [_|]; [lia|congruence].
Qed.

(** ** LibriSpeech *)
Lemma libri_listed on_disk found s : In s (libri_sentences on_disk found) ->
  exists dir text, In (dir, text) found /\ s_speaker s = name (parent dir) /\ s_chapter s = name dir /\
    on_disk (join dir (s_id s ++ u ".flac")) = true.
Proof.
  unfold libri_sentences. intros H. apply in_flat_map in H as ([dir text] & F & H). apply in_map_iff in H as ([i t] & <- & H).
  exists dir, text. cbn. repeat split; auto. unfold available_libri in H. apply filter_In in H as [_ H]. exact H.
Qed.
Lemma name_below p sp ch : name (parent (below p [sp; ch])) = sp /\ name (below p [sp; ch]) = ch.
Proof.
  unfold name, parent, below. cbn [p_parts p_abs].
  replace (p_parts p ++ [sp; ch]) with ((p_parts p ++ [sp]) ++ [ch]) by (rewrite <- app_assoc; reflexivity).
  rewrite removelast_last, !last_last. auto.
Qed.
Lemma libri_tidy {A} on_disk (decode : path -> result A) subset found s rest :
  (forall dir text, In (dir, text) found -> exists sp ch, dir = below subset [sp; ch] /\
     plain sp /\ no_dash sp /\ plain ch /\ no_dash ch) ->
  In s (libri_sentences on_disk found) -> s_id s = dashed (s_speaker s) (s_chapter s) rest -> ~ In 47%N rest ->
  let file := below subset [s_speaker s; s_chapter s; s_id s ++ u ".flac"] in
  on_disk file = true /\ libri_load on_disk decode subset (s_id s) = decode file.
Proof.
  intros T H E R file. apply libri_listed in H as (dir & text & F & Es & Ec & D).
  apply T in F as (sp & ch & -> & P1 & P2 & P3 & P4). destruct (name_below subset sp ch) as [N1 N2].
  rewrite N1 in Es. rewrite N2 in Ec.
  assert (PF : plain (s_id s ++ u ".flac")).
  { apply plain_file; [|cbn; intuition discriminate|cbn; lia]. rewrite E, Es, Ec. unfold dashed. intros I.
    apply in_app_or in I as [I|[I|I]]; [apply P1; auto|discriminate|].
    apply in_app_or in I as [I|[I|I]]; [apply P3; auto|discriminate|auto]. }
  rewrite (join_plain _ _ PF), below_below in D. cbn [app] in D. subst file. rewrite Es, Ec. split; auto.
  unfold libri_load, libri_path. rewrite E, Es, Ec at 1. rewrite three_dashed by auto. cbn [bind].
  rewrite !join_plain, !below_below by auto. cbn [app]. rewrite D. reflexivity.
Qed.

(** ** CMU ARCTIC *)
Lemma is_wav_iff n : is_wav n = true <-> exists x, n = x ++ u ".wav".
Proof.
  unfold is_wav. split.
  - intros H. apply andb_prop in H as [L H]. destruct (list_eq_dec _ _ _) as [E|]; [|discriminate].
    exists (firstn (length n - 4) n). rewrite <- E. symmetry. apply firstn_skipn.
  - intros (x & ->). rewrite app_length. cbn [u length]. replace (length x + 4 - 4)%nat with (length x) by lia.
    apply andb_true_intro. split; [apply Nat.leb_le; lia|].
    rewrite skipn_app, skipn_all, Nat.sub_diag. cbn [skipn app]. destruct (list_eq_dec _ _ _); congruence.
Qed.
Lemma stem_wav x : stem (x ++ u ".wav") = match x with [] => u ".wav" | _ => x end.
Proof.
  unfold stem, rfind. rewrite rev_app_distr. change (rev (u ".wav")) with ([118; 97; 119]%N ++ [46%N]).
  rewrite <- app_assoc. change ([46%N] ++ rev x) with (46%N :: rev x). rewrite partition_at by (cbn; intuition discriminate).
  rewrite rev_length, app_length. change (length (u ".wav")) with 4%nat.
  destruct x as [|c x]; [reflexivity|].
  replace ((0 <? length (c :: x)) && (length (c :: x) <? length (c :: x) + 4 - 1))%nat with true.
  - rewrite firstn_app, Nat.sub_diag, firstn_all. cbn [firstn]. apply app_nil_r.
  - symmetry. apply andb_true_intro. split; [reflexivity|]. apply Nat.ltb_lt. lia.
Qed.
Lemma cmu_listed names text l id t : cmu_sentences names text = Ok l -> In (id, t) l ->
  exists n, In n names /\ is_wav n = true /\ stem n = id.
Proof.
  unfold cmu_sentences, available_cmu. intros H I. destruct (sentences_cmu text) as [r|e]; [|discriminate]. cbn [bind] in H.
  injection H as <-. apply filter_In in I as [_ I]. cbn [fst] in I.
  match type of I with context [in_dec ?d ?a ?b] => destruct (in_dec d a b) as [J|]; [|discriminate] end. apply in_map_iff in J as (n & E & J). apply filter_In in J as [J W]. eauto.
Qed.

(** ** Lines *)
Lemma joined_lines ls : ls <> [] -> joined ls ++ [10%N] = flat_map (fun l => l ++ [10%N]) ls.
Proof.
  induction ls as [|x [|y ls] IH]; [congruence| |].
  - intros _. cbn. rewrite app_nil_r. reflexivity.
  - intros _. change (joined (x :: y :: ls)) with (x ++ [10%N] ++ joined (y :: ls)).
    rewrite <- !app_assoc, IH by discriminate. cbn [flat_map]. rewrite <- !app_assoc. reflexivity.
Qed.
Lemma consists_unique t l : forall l', consists t l -> consists t l' -> l = l'.
Proof.
  revert t. induction l as [|x l IH]; intros t l' [F E] [F' E'].
  - destruct l' as [|y l']; auto. subst t. cbn in E'. destruct y; discriminate.
  - inversion F as [|? ? Hx Fl]; subst. destruct l' as [|y l'].
    + cbn in E'. destruct x; discriminate.
    + inversion F' as [|? ? Hy Fl']; subst. cbn [flat_map] in E'. rewrite <- !app_assoc in E'. cbn [app] in E'.
      pose proof (partition_at 10 x (flat_map (fun l => l ++ [10%N]) l) Hx) as P.
      rewrite E', (partition_at 10 y _ Hy) in P. injection P as <- P.
      f_equal. apply (IH (flat_map (fun l => l ++ [10%N]) l)); split; auto.
Qed.
Lemma in_u c s : In c (u s) -> (c < 256)%N.
Proof.
  induction s as [|a s IH]; [intros []|]. intros [<-|H]; auto. apply N_ascii_bounded.
Qed.

(** ** The notice *)
Lemma labelled_self a : forall s, labelled a (a ++ s) = true.
Proof. induction a as [|x a IH]; intros s; cbn; auto. rewrite N.eqb_refl. apply IH. Qed.
Lemma fields_app lb a b : fields lb (a ++ b) = fields lb a ++ fields lb b.
Proof. unfold fields. rewrite filter_app, map_app. reflexivity. Qed.
Lemma fields_same lb notes : fields lb (map (fun n => lb ++ n) notes) = notes.
Proof.
  induction notes as [|n l IH]; [reflexivity|]. unfold fields in *. cbn [map filter]. rewrite labelled_self. cbn [map].
  rewrite IH, skipn_app, skipn_all, Nat.sub_diag. reflexivity.
Qed.
Lemma fields_dashes lb x y notes : lb = x :: y -> x <> 45%N -> fields lb (map (fun n => u "- " ++ n) notes) = [].
Proof.
  intros -> H. induction notes as [|n l IH]; [reflexivity|]. unfold fields in *. cbn [map filter].
  replace (labelled (x :: y) (u "- " ++ n)) with false; auto. cbn. destruct (N.eqb_spec x 45); [congruence|reflexivity].
Qed.
Definition clean (s : ustr) : bool := forallb (fun c => negb (c =? 10)%N) s.
Lemma clean_one_line s : clean s = true <-> one_line s.
Proof.
  unfold clean, one_line. rewrite forallb_forall. split.
  - intros H I. specialize (H _ I). discriminate.
  - intros H x I. destruct (N.eqb_spec x 10) as [->|]; auto.
Qed.
Lemma one_line_app a b : clean a = true -> one_line b -> ~ In 10%N (a ++ b).
Proof. intros A B I. apply clean_one_line in A. apply in_app_or in I as [I|I]; [apply A|apply B]; auto. Qed.
Lemma look_entry m k s : entry m k s -> look m k = s.
Proof. unfold look. intros [->|[-> ->]]; reflexivity. Qed.
