(** C92: when data sets are fetched. *)
From Coq Require Import String List Arith Lia Bool.
From Verif Require Import Prelude PreludeFacts DlModel DlSpec DlProofs DfModel DfSpec DfProofs.
Import ListNotations.
Local Open Scope string_scope.

(** Names that do not exist are refused before anything is read or fetched. *)
Theorem C92_unknown e d q dl : ~ known q -> make e d q dl = (d, Err ValueError).
Proof. apply make_unknown. Qed.
(** Without [download] the disk is not changed, the server is not asked (the outcome is the same
    whatever it would answer), and the outcome is decided by the directories alone. *)
Theorem C92_local e d q : known q ->
  same d (fst (make e d q false)) /\
  (there d q -> snd (make e d q false) = Ok tt) /\ (~ there d q -> snd (make e d q false) = Err FileNotFoundError) /\
  (forall e', make e' d q false = make e d q false).
Proof.
  intros K. destruct (make_local e d q K) as (A & B & C). split; [auto|]. split; [auto|]. split; [auto|]. intros e'. rewrite !make_known, !construct_local by auto. reflexivity.
Qed.
(** With [download]: nothing is done when archive and directories are there; otherwise at most
    four requests are made, and only the files of the archive asked for are touched. *)
Theorem C92_present e d q c : known q -> there d q -> final (d (archive q)) = Some c ->
  same d (fst (make e d q true)) /\ snd (make e d q true) = Ok tt.
Proof.
  intros K T F. destruct (make_local e d q K) as (A & B & _). specialize (B T). rewrite make_known in A, B |- * by auto. rewrite construct_local in A, B.
  destruct T as (l & E & T). rewrite E in A, B. rewrite (construct_there _ _ l) by auto. rewrite F. cbn [some fst snd] in *. auto.
Qed.
Theorem C92_requests e d q : let d' := fst (make e d q true) in
  tries (d (archive q)) <= tries (d' (archive q)) <= tries (d (archive q)) + 4 /\ forall k, k <> archive q -> d' k = d k.
Proof.
  cbv zeta. split; [|intros k N; apply make_other; auto]. destruct (known_dec q) as [K|K]; [|rewrite make_unknown by auto; cbn; lia].
  rewrite make_known by auto. destruct (construct _ true _) as [[t w] r] eqn:E. cbn [fst]. unfold put. rewrite String.eqb_refl. eapply construct_tries; eauto.
Qed.
(** The factory of the example that builds data sets: with [--download] it is the constructor;
    without, the constructor is tried without downloading, and what is missing is fetched. *)
Definition as_request (dataset subset : string) (speaker : option string) : request :=
  if string_dec dataset "cmu_arctic" then Cmu (match speaker with None | Some "" => "bdl" | Some s => s end) else Libri subset speaker.
Theorem C92_factory e d dataset subset speaker : let q := as_request dataset subset speaker in
  factory e d dataset subset true speaker = make e d q true /\
  (known q -> there d q -> same d (fst (factory e d dataset subset false speaker)) /\ snd (factory e d dataset subset false speaker) = Ok tt) /\
  (known q -> ~ there d q -> exists d0, same d d0 /\ factory e d dataset subset false speaker = make e d0 q true) /\
  (~ known q -> factory e d dataset subset false speaker = (d, Err ValueError)).
Proof.
  cbv zeta. set (q := as_request dataset subset speaker).
  assert (F : forall dl, factory e d dataset subset dl speaker = with_retry (fun d b => make e d q b) d dl).
  { intros dl. unfold factory, q, as_request. destruct (string_dec dataset "cmu_arctic") as [->|N]; [|apply String.eqb_neq in N; rewrite N; reflexivity].
    cbn [String.eqb]. destruct speaker as [[|x s]|]; reflexivity. }
  rewrite !F. unfold with_retry. split; [|split; [|split]].
  - destruct (make e d q true) as [d1 [u|[]]]; reflexivity.
  - intros K T. destruct (make_local e d q K) as (A & B & _). specialize (B T). destruct (make e d q false) as [d1 r1]. cbn [fst snd] in *. subst r1. auto.
  - intros K N. destruct (make_local e d q K) as (A & _ & C). specialize (C N). destruct (make e d q false) as [d1 r1]. cbn [fst snd] in *. subst r1. exists d1. auto.
  - intros K. rewrite make_unknown by auto. reflexivity.
Qed.
(** "Only what is missing is fetched" is false for directories without their archive (the
    archive deleted after unpacking, or a tree copied from elsewhere): with [download] the whole
    archive is requested, and when the server cannot be reached the complete local data set
    cannot be used. *)
Theorem C92_refetched_refuted e d q : known q -> there d q -> final (d (archive q)) = None ->
  tries (d (archive q)) < tries (fst (make e d q true) (archive q)) /\
  data (fst (make e d q true) (archive q)) = data (d (archive q)) /\
  (no_network e -> snd (make e d q true) = Err OSError).
Proof.
  intros K (l & E & T) F. rewrite make_known by auto. rewrite (construct_there _ _ l) by auto. rewrite F. cbn [some].
  destruct (download (e (archive q)) (d (archive q))) as [[t w] r] eqn:D. cbn [fst snd]. unfold put. rewrite String.eqb_refl.
  destruct (download_triple _ _ F _ eq_refl _ _ _ D) as (_ & (H & _) & B & _). split; [lia|]. split; [auto|].
  intros N. destruct (download_refused (e (archive q)) (d (archive q)) F (N _)) as (t' & w' & D' & _). rewrite D' in D. injection D as <- <- <-. apply verdict_err.
Qed.
(** In the same state the example asks for the archive when only a speaker is missing, and then
    the speaker is still missing. *)
Theorem C92_wrong_speaker e d subset s l : known (Libri subset (Some s)) -> data (d (subset ++ ".tar.gz")) = Some l ->
  ~ there d (Libri subset (Some s)) -> final (d (subset ++ ".tar.gz")) = None ->
  let '(d', r) := factory e d "librispeech" subset false (Some s) in
  tries (d (subset ++ ".tar.gz")) < tries (d' (subset ++ ".tar.gz")) /\ r <> Ok tt.
Proof.
  intros K E N F. destruct (C92_factory e d "librispeech" subset (Some s)) as (_ & _ & H & _). change (as_request "librispeech" subset (Some s)) with (Libri subset (Some s)) in H.
  destruct (H K N) as (d0 & S & ->). clear H. rewrite make_known by auto. cbn [archive]. rewrite (S (subset ++ ".tar.gz")). rewrite (construct_there _ _ l) by auto. rewrite F. cbn [some].
  destruct (download (e (subset ++ ".tar.gz")) (d (subset ++ ".tar.gz"))) as [[t w] r] eqn:D.
  destruct (download_triple _ _ F _ eq_refl _ _ _ D) as (_ & (H & _) & B & _). unfold put. rewrite String.eqb_refl. split; [lia|].
  destruct r as [u|x]; [|rewrite verdict_err; discriminate]. cbn [verdict].
  destruct (String.eqb_spec s "") as [->|Ns]; [exfalso; apply N; exists l; auto|]. cbn.
  destruct (has_speaker s w) eqn:Hs; [|discriminate]. exfalso. apply N. apply has_speaker_iff in Hs as (l' & E' & Hs). exists l. cbn [archive]. split; auto. right. rewrite H, E in E'. injection E' as <-. exact Hs.
Qed.
(** What holds: without [download], or with the archive in place, nothing is fetched for
    directories that are there. *)
Theorem C92_fetched_partial e d q dl : known q -> there d q -> dl = false \/ final (d (archive q)) <> None ->
  same d (fst (make e d q dl)) /\ snd (make e d q dl) = Ok tt.
Proof.
  intros K T [->|F]; [destruct (make_local e d q K) as (A & B & _); auto|].
  destruct dl; [|destruct (make_local e d q K) as (A & B & _); auto].
  destruct (final (d (archive q))) as [c|] eqn:E; [|congruence]. eapply C92_present; eauto.
Qed.

(** Concrete: a server with the archive [1;2;3] of two speakers' files. *)
Definition pk1 (c : bytes) : result (list file) :=
  match c with [1; 2; 3] => Ok [("84/121/a.flac", 10); ("174/50/b.flac", 11)] | _ => Err OSError end.
Definition server : surroundings := fun _ => mkE (fun _ => Serve (Some 3) [[1; 2]; [3]] true) (fun _ => None) pk1.
Definition offline : surroundings := fun _ => mkE (fun _ => Refuse) (fun _ => None) pk1.
Definition empty : disk := fun _ => mkW None None None 0 0 false.
Example C92_ex_local : snd (libri server empty "dev-clean" None false) = Err FileNotFoundError /\ snd (cmu server empty "bob" true) = Err ValueError /\
  let '(d, r) := factory server empty "librispeech" "dev-clean" false (Some "84") in
  r = Ok tt /\ tries (d "dev-clean.tar.gz") = 1 /\ tries (d "test-clean.tar.gz") = 0 /\ snd (libri offline d "dev-clean" (Some "84") false) = Ok tt /\
  snd (libri offline d "dev-clean" (Some "8") false) = Err FileNotFoundError /\ snd (libri offline d "dev-clean" (Some "") true) = Ok tt.
Proof. vm_compute. repeat split. Qed.
(** The archive deleted after unpacking. *)
Example C92_ex_refetched : let d := put "dev-clean.tar.gz" (mkW None None (Some [("84/121/a.flac", 10)]) 1 1 false) empty in
  snd (libri offline d "dev-clean" (Some "84") false) = Ok tt /\ snd (libri offline d "dev-clean" (Some "84") true) = Err OSError /\
  (let '(d', r) := factory server d "librispeech" "dev-clean" false (Some "174") in
   r = Err FileNotFoundError /\ tries (d' "dev-clean.tar.gz") = 2 /\ data (d' "dev-clean.tar.gz") = Some [("84/121/a.flac", 10)]).
Proof. vm_compute. repeat split. Qed.
(** All four requests: cut short, damaged, cut short, good. *)
Example C92_ex_four : let e := fun _ : string => mkE (fun n => match n with 1 => Serve (Some 2) [[7; 7]] true | 3 => Serve None [[1]; [2; 3]] true | _ => Serve (Some 3) [[1]] true end) (fun _ => None) pk1 in
  let '(d, r) := cmu e empty "slt" true in r = Ok tt /\ tries (d "cmu_us_slt_arctic.tar.bz2") = 4.
Proof. vm_compute. repeat split. Qed.

Print Assumptions C92_unknown.
Print Assumptions C92_local.
Print Assumptions C92_present.
Print Assumptions C92_requests.
Print Assumptions C92_factory.
Print Assumptions C92_refetched_refuted.
Print Assumptions C92_wrong_speaker.
Print Assumptions C92_fetched_partial.
