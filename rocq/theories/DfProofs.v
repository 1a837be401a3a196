(** Lemmas for C92. *)
From Coq Require Import String List Arith Lia Bool.
From Verif Require Import Prelude PreludeFacts DlModel DlSpec DlProofs DfModel DfSpec.
Import ListNotations.
Local Open Scope string_scope.

Lemma mem_iff x l : mem x l = true <-> In x l.
Proof.
  unfold mem. rewrite existsb_exists. split; [intros (y & I & E); apply String.eqb_eq in E; subst; auto|].
  intros I. exists x. split; [auto|apply String.eqb_refl].
Qed.
Lemma prefix_iff p s : String.prefix p s = true <-> exists rest, s = p ++ rest.
Proof.
  revert s. induction p as [|a p IH]; intros s; [split; [intros _; exists s; reflexivity|destruct s; auto]|].
  destruct s as [|b s]; cbn; [split; [discriminate|intros (r & E); discriminate]|].
  destruct (Ascii.ascii_dec a b) as [->|N]; [rewrite IH; split; intros (r & E); exists r; congruence|].
  split; [discriminate|intros (r & E); injection E; congruence].
Qed.
Lemma append_assoc (a b c : string) : (a ++ b) ++ c = a ++ (b ++ c).
Proof. induction a as [|x a IH]; cbn; [reflexivity|]. rewrite IH. reflexivity. Qed.
Lemma has_speaker_iff s w : has_speaker s w = true <-> exists l, data w = Some l /\ exists f rest, In f l /\ fst f = s ++ "/" ++ rest.
Proof.
  unfold has_speaker. destruct (data w) as [l|]; [|split; [discriminate|intros (l & E & _); discriminate]].
  rewrite existsb_exists. split.
  - intros (f & I & P). apply prefix_iff in P as (r & P). exists l. split; auto. exists f, r. split; auto. rewrite P. apply append_assoc.
  - intros (l' & E & f & r & I & P). injection E as <-. exists f. split; auto. apply prefix_iff. exists r. rewrite P. symmetry. apply append_assoc.
Qed.
Lemma put_same k d : same d (put k (d k) d).
Proof. intros k'. unfold put. destruct (String.eqb_spec k' k) as [->|]; auto. Qed.
Lemma construct_local e w : construct e false w = ([], w, if some (data w) then Ok tt else Err FileNotFoundError).
Proof. unfold construct, seq, ret. destruct (some (data w)); reflexivity. Qed.
(** What a construction says besides the files. *)
Definition verdict (q : request) (w : world) (r : result unit) : result unit :=
  match q, r with
  | Libri _ (Some s), Ok _ => if String.eqb s "" || has_speaker s w then Ok tt else Err FileNotFoundError
  | _, _ => r
  end.
Lemma make_known e d q dl : known q -> make e d q dl =
  let '(_, w, r) := construct (e (archive q)) dl (d (archive q)) in (put (archive q) w d, verdict q w r).
Proof.
  intros K. destruct q as [s|b s]; cbn [make known archive] in *.
  - unfold cmu. apply mem_iff in K. change (mem s valid_speakers = true) in K. rewrite K. cbn. change (cmu_archive s) with ("cmu_us_" ++ s ++ "_arctic.tar.bz2").
    destruct (construct _ dl _) as [[t w] r]. reflexivity.
  - unfold libri. apply mem_iff in K. change (mem b valid_subsets = true) in K. rewrite K. cbn. change (libri_archive b) with (b ++ ".tar.gz").
    destruct (construct _ dl _) as [[t w] r]. destruct r, s; reflexivity.
Qed.
Lemma make_unknown e d q dl : ~ known q -> make e d q dl = (d, Err ValueError).
Proof.
  intros K. destruct q as [s|b s]; cbn [make known] in *.
  - unfold cmu. destruct (mem s valid_speakers) eqn:E; [apply mem_iff in E; contradiction|reflexivity].
  - unfold libri. destruct (mem b valid_subsets) eqn:E; [apply mem_iff in E; contradiction|reflexivity].
Qed.
Lemma known_dec q : {known q} + {~ known q}.
Proof. destruct q; apply in_dec, string_dec. Qed.
Lemma make_local e d q : known q -> same d (fst (make e d q false)) /\
  (there d q -> snd (make e d q false) = Ok tt) /\ (~ there d q -> snd (make e d q false) = Err FileNotFoundError).
Proof.
  intros K. rewrite make_known by auto. rewrite construct_local. cbn [fst snd]. split; [apply put_same|]. unfold there. split.
  - intros (l & E & T). rewrite E. cbn [some]. destruct q as [s|b [s|]]; cbn [verdict archive] in *; auto.
    destruct T as [->|T]; [reflexivity|]. replace (has_speaker s (d (b ++ ".tar.gz"))) with true by (symmetry; apply has_speaker_iff; eauto).
    rewrite orb_true_r. reflexivity.
  - intros N. destruct (data (d (archive q))) as [l|] eqn:E; [|destruct q as [s|b [s|]]; reflexivity]. cbn [some].
    destruct q as [s|b [s|]]; cbn [verdict archive] in *; [exfalso; apply N; eauto| |exfalso; apply N; eauto].
    destruct (String.eqb_spec s "") as [->|Ns]; [exfalso; apply N; eauto|].
    destruct (has_speaker s (d (b ++ ".tar.gz"))) eqn:H; [|reflexivity]. exfalso. apply N. exists l. split; auto. right. apply has_speaker_iff in H as (l' & E' & H). rewrite E in E'. injection E' as <-. exact H.
Qed.
(** A construction while the directory exists. *)
Lemma construct_there e w l : data w = Some l -> construct e true w =
  if some (final w) then ([], w, Ok tt) else download e w.
Proof.
  intros E. unfold construct, prepare, seq, cond. destruct (final w) as [c|] eqn:F; cbn; [rewrite E; cbn; rewrite E; reflexivity|].
  destruct (download e w) as [[t w1] r] eqn:D. destruct (download_triple e w F w eq_refl _ _ _ D) as (_ & (H & _) & _ & R).
  destruct r as [[]|x]; [|reflexivity]. rewrite H, E. cbn. rewrite H, E. cbn. rewrite !app_nil_r. reflexivity.
Qed.
Lemma extract_tries e w t w' r : extract e w = (t, w', r) -> tries w' = tries w.
Proof.
  unfold extract. destruct (final w) as [c|] eqn:F; [|intros H; injection H as <- <- <-; auto]. destruct (pack e c) as [l|x]; [|intros H; injection H as <- <- <-; auto].
  assert (W : forall l f w t w' r, write_files l f w = (t, w', r) -> tries w' = tries w).
  { clear. induction l as [|y l IH]; cbn; intros f w t w' r; [intros H; injection H as <- <- <-; auto|].
    destruct f as [[|n]|]; [intros H; injection H as <- <- <-; auto| |];
      unfold seq, step; destruct (write_files l _ _) as [[t1 w1] r1] eqn:E; intros H; injection H as <- <- <-; apply IH in E; exact E. }
  unfold seq, step. cbn. destruct (write_files l (io e (unpacks w)) (begin_extract w)) as [[t4 w4] r4] eqn:E4. intros H. injection H as <- <- <-.
  apply W in E4. exact E4.
Qed.
Lemma download_tries e w t w' r : final w = None -> download e w = (t, w', r) -> tries w <= tries w' <= tries w + 2.
Proof. intros F D. destruct (download_triple e w F w eq_refl _ _ _ D) as (_ & _ & B & _). lia. Qed.
Lemma unlinked w : exists tu wu, unlink_final w = (tu, wu, Ok tt) /\ final wu = None /\ tries wu = tries w.
Proof. unfold unlink_final, cond. destruct (final w) eqn:F; cbn; do 2 eexists; (split; [reflexivity|]); auto. Qed.
Lemma seq_end a b w t w' r : seq a b w = (t, w', r) ->
  (exists x, a w = (t, w', Err x)) \/ exists t1 w1 t2 u, a w = (t1, w1, Ok u) /\ b w1 = (t2, w', r).
Proof.
  unfold seq. destruct (a w) as [[t1 w1] [u|x]] eqn:E; [|intros H; injection H as <- <- <-; eauto].
  destruct (b w1) as [[t2 w2] r2] eqn:E2. intros H. injection H as <- <- <-. right. exists t1, w1, t2, u. auto.
Qed.
Lemma catch_end a p h w t w' r : catch a p h w = (t, w', r) -> (exists t1 r1, a w = (t1, w', r1)) \/ exists t1 w1 t2 x, a w = (t1, w1, Err x) /\ h x w1 = (t2, w', r).
Proof.
  unfold catch. destruct (a w) as [[t1 w1] [u|x]] eqn:E; [intros H; injection H as <- <- <-; eauto|].
  destruct (p x); [|intros H; injection H as <- <- <-; eauto].
  destruct (h x w1) as [[t2 w2] r2] eqn:E2. intros H. injection H as <- <- <-. right. exists t1, w1, t2, x. auto.
Qed.
Lemma prepare_tries e w t w' r : prepare e w = (t, w', r) -> tries w <= tries w' <= tries w + 4.
Proof.
  assert (D1 : forall t w' r, cond (fun w => negb (some (final w))) (download e) w = (t, w', r) -> tries w <= tries w' <= tries w + 2).
  { unfold cond. intros t1 w1 r1. destruct (final w) eqn:F; cbn; [intros H; injection H as <- <- <-; lia|apply download_tries; auto]. }
  intros H. apply seq_end in H as [(x & H)|(t1 & w1 & t2 & u & H & G)]; apply D1 in H; [lia|].
  unfold cond in G. destruct (negb (some (data w1))); [|injection G as <- <- <-; lia].
  apply catch_end in G as [(t3 & r3 & G)|(t3 & w3 & t4 & x & G & K)]; apply extract_tries in G; [lia|].
  destruct (unlinked w3) as (tu & wu & U & Fu & Tu).
  apply seq_end in K as [(x' & K)|(t5 & w5 & t6 & u' & K & L)]; rewrite U in K; [discriminate|]. injection K as <- <- <-.
  apply seq_end in L as [(x' & L)|(t7 & w7 & t8 & u' & L & M)]; apply download_tries in L; auto; [lia|].
  apply extract_tries in M. lia.
Qed.
Lemma construct_tries e w t w' r : construct e true w = (t, w', r) -> tries w <= tries w' <= tries w + 4.
Proof.
  intros H. apply seq_end in H as [(x & H)|(t1 & w1 & t2 & u & H & G)]; apply prepare_tries in H; [lia|].
  destruct (some (data w1)); injection G as <- <- <-; lia.
Qed.
Lemma download_refused e w : final w = None -> (forall n, net e n = Refuse) -> exists t w', download e w = (t, w', Err OSError) /\ tries w' = tries w + 2.
Proof.
  intros F N. unfold download, catch. unfold stream_download at 1. rewrite N. unfold seq, cond, fail, step. destruct (part w) eqn:P; cbn.
  - unfold unlink_final, cond. cbn. rewrite F. cbn. unfold stream_download. rewrite N. unfold seq, cond, fail. cbn. rewrite F. cbn. do 2 eexists. split; [reflexivity|]. cbn. lia.
  - unfold unlink_final, cond. cbn. rewrite F. cbn. unfold stream_download. rewrite N. unfold seq, cond, fail. cbn. rewrite P. cbn. rewrite F. cbn. do 2 eexists. split; [reflexivity|]. cbn. lia.
Qed.
Lemma verdict_err q w x : verdict q w (Err x) = Err x.
Proof. destruct q as [s|b [s|]]; reflexivity. Qed.
Lemma make_other e d q dl k : k <> archive q -> fst (make e d q dl) k = d k.
Proof.
  intros N. destruct (known_dec q) as [K|K]; [|rewrite make_unknown by auto; reflexivity]. rewrite make_known by auto.
  destruct (construct _ dl _) as [[t w] r]. cbn [fst]. unfold put. apply String.eqb_neq in N. rewrite N. reflexivity.
Qed.
