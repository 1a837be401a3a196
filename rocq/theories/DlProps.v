(** C54, C55: downloads are atomic; interrupted preparation. *)
From Coq Require Import String List Arith Lia Bool.
From Verif Require Import Prelude PreludeFacts DlModel DlSpec DlProofs.
Import ListNotations.
Local Notation length := List.length.
Open Scope string_scope.
Open Scope list_scope.

(** Whatever responses come (in a set [S]), and however often construction is started, fails
    or is cut short between any two steps: the archive path holds nothing or the whole body of
    one response, of the announced length if one was announced. *)
Theorem C54_atomic (S : response -> Prop) w0 w : final w0 = None -> history (fun e _ => forall k, S (net e k)) w0 w ->
  final w = None \/ exists c, final w = Some c /\ intact S c.
Proof.
  intros F H. change (good S w). induction H as [|e dl w w' H IH I OK]; [left; auto|]. eapply construct_good; eauto.
Qed.
(** In particular, if the server always announces the size of the archive, no file of another
    size ever sits at the archive path. *)
Theorem C54_announced_size n w0 w : n > 0 -> final w0 = None ->
  history (fun e _ => forall k, match net e k with Refuse => True | Serve a _ _ => a = Some n end) w0 w ->
  final w = None \/ exists c, final w = Some c /\ length c = n.
Proof.
  intros Hn F H. destruct (C54_atomic (fun r => match r with Refuse => True | Serve a _ _ => a = Some n end) w0 w F H) as [E|(c & E & a & ch & b & Ha & _ & L)]; auto.
  right. exists c. split; auto.
Qed.
(** One download: at most two attempts; until its last step there is no archive; if it fails
    there is none at all; if it succeeds the temporary file is gone and the archive is the
    whole body of one of the two responses. *)
Theorem C54_download e w t w' r : final w = None -> download e w = (t, w', r) ->
  (forall x, In x t -> final x = None) /\ tries w < tries w' <= tries w + 2 /\
  match r with
  | Err _ => final w' = None
  | Ok _ => part w' = None /\ exists k a chunks b, net e k = Serve a chunks b /\ final w' = Some (delivered chunks) /\
              (forall n, a = Some n -> n > 0 -> length (delivered chunks) = n)
  end.
Proof.
  intros F E. destruct (download_triple e w F w eq_refl _ _ _ E) as (A & _ & B & C). split; [|split]; auto.
  intros x Hx. eapply Forall_forall in A; [|exact Hx]. apply A.
Qed.
(** Between any two successive states of a construction, in which a crash may leave the disk,
    lies at most one operation: a change of the temporary file, its renaming to the archive,
    the removal of the archive, or one more file of the dataset. *)
Theorem C54_one_at_a_time e dl w l1 a b l2 : states (construct e dl w) = l1 ++ a :: b :: l2 -> one_change a b.
Proof.
  destruct (construct e dl w) as [[t w'] r] eqn:E. apply links_construct in E. cbn. eapply linked_steps; eauto.
Qed.

(** A run that is not interrupted, starting without dataset directory, ends with the complete
    dataset or raises - whatever network and I/O errors occur in it. *)
Theorem C55_uninterrupted S pk e dl w t w' : fits S pk e -> fresh w -> construct e dl w = (t, w', Ok tt) -> complete S pk w'.
Proof.
  intros HF [F D] E. unfold construct, seq in E. destruct dl.
  - destruct (prepare e w) as [[t1 w1] r1] eqn:Ep. destruct r1 as [[]|x]; [|discriminate].
    destruct (some (data w1)) eqn:Ed; [|discriminate]. cbn in E. injection E as <- <-.
    destruct (prepare_complete S pk e w t1 w1 _ HF (or_introl F) D Ep eq_refl) as [H|H]; auto. rewrite H in Ed. discriminate.
  - cbn in E. rewrite D in E. discriminate.
Qed.
(** Any number of runs, each failing or cut short at any point outside extraction: the next
    construction raises or finds the complete dataset.  Missing from the full claim: crashes
    and I/O errors in the middle of extraction. *)
Theorem C55_partial S pk w0 w e dl t w' : fresh w0 -> extracting w0 = false ->
  history (fun e w => fits S pk e /\ (forall k, io e k = None) /\ extracting w = false) w0 w ->
  fits S pk e -> (forall k, io e k = None) -> construct e dl w = (t, w', Ok tt) -> complete S pk w'.
Proof.
  intros [F D] X H HF HI E.
  assert (K : fine S pk w /\ extracting w = false).
  { clear E. induction H as [|e1 dl1 w wx H IH I (O1 & O2 & O3)]; [split; [split; [left; auto|auto]|auto]|].
    destruct IH as [IH1 IH2]. split; auto. apply (construct_fine S pk e1 dl1 w wx); auto. }
  destruct K as [[G K] Xw]. unfold construct, seq in E. destruct dl.
  - destruct (prepare e w) as [[t1 w1] r1] eqn:Ep. destruct r1 as [[]|x]; [|discriminate].
    destruct (some (data w1)) eqn:Ed; [|discriminate]. cbn in E. injection E as <- <-.
    destruct K as [K|K].
    + destruct (prepare_complete S pk e w t1 w1 _ HF G K Ep eq_refl) as [H1|H1]; auto. rewrite H1 in Ed. discriminate.
    + unfold prepare, seq in Ep. assert (C : forall w2, data w2 = data w -> cond (fun w => negb (some (data w))) (catch (extract e) retry_exn (fun _ => seq unlink_final (seq (download e) (extract e)))) w2 = ([], w2, Ok tt)).
      { intros w2 E2. unfold cond. rewrite E2. destruct K as (c & fs & pre & _ & _ & ->). auto. }
      destruct (cond (fun w => negb (some (final w))) (download e) w) as [[t2 w2] r2] eqn:E2. destruct r2 as [u|x]; [|discriminate].
      assert (D2 : data w2 = data w).
      { unfold cond in E2. destruct (negb (some (final w))) eqn:En; [|injection E2 as <- <-; auto].
        assert (Fw : final w = None) by (destruct (final w); [discriminate|auto]).
        destruct (download_triple e w Fw w eq_refl _ _ _ E2) as (_ & (H1 & _) & _). auto. }
      match type of Ep with context [cond ?p ?a w2] => replace (cond p a w2) with (@nil world, w2, @Ok unit tt) in Ep by (symmetry; apply C; auto) end.
      injection Ep as <- <-. eapply complete_data; eauto.
  - cbn in E. destruct (data w) eqn:Ed; [|discriminate]. cbn in E. injection E as <- <-. destruct K as [K|K]; auto. congruence.
Qed.

(** An archive refused as unsafe is not fetched again: construction ends with that error, and
    nothing on disk changes. *)
Theorem C55_unsafe_archive e w c : final w = Some c -> data w = None -> pack e c = Err ValueError ->
  construct e true w = ([], w, Err ValueError).
Proof. intros F D P. unfold construct, prepare, seq, catch, cond, ret, extract. rewrite F. cbn. rewrite D. cbn. rewrite F, P. reflexivity. Qed.
(** An archive that cannot be read is removed and fetched again: one or two attempts. *)
Theorem C55_damaged_archive e w c t w' r : final w = Some c -> data w = None -> pack e c = Err OSError ->
  construct e true w = (t, w', r) -> tries w < tries w' <= tries w + 2 /\ (final w' = None \/ exists k a chunks b, net e k = Serve a chunks b /\ final w' = Some (delivered chunks)).
Proof.
  intros F D P. unfold construct, prepare, seq, catch, cond, ret. rewrite F. cbn. rewrite D. cbn.
  unfold extract at 1. rewrite F, P. cbn. unfold unlink_final, cond, step. rewrite F. cbn.
  set (w1 := set_final None w). destruct (download e w1) as [[t2 w2] r2] eqn:E2.
  destruct (C54_download e w1 t2 w2 r2 eq_refl E2) as (_ & T & Q). change (tries w1) with (tries w) in T.
  destruct r2 as [u|x].
  - destruct Q as (_ & k & a & ch & b & N & Fw & _).
    assert (X : forall t3 w3 r3, extract e w2 = (t3, w3, r3) -> tries w3 = tries w2 /\ final w3 = final w2).
    { intros t3 w3 r3. unfold extract. rewrite Fw. destruct (pack e (delivered ch)) as [l|x]; [|intros H; injection H as <- <- <-; auto].
      assert (W : forall l f w t w' r, write_files l f w = (t, w', r) -> tries w' = tries w /\ final w' = final w).
      { clear. induction l as [|y l IH]; cbn; intros f w t w' r; [intros H; injection H as <- <- <-; auto|].
        destruct f as [[|n]|]; [intros H; injection H as <- <- <-; auto| |];
          unfold seq, step; destruct (write_files l _ _) as [[t1 w1] r1] eqn:E; intros H; injection H as <- <- <-; apply IH in E; exact E. }
      unfold seq, step. cbn. destruct (write_files l (io e (unpacks w2)) (begin_extract w2)) as [[t4 w4] r4] eqn:E4. intros H. injection H as <- <- <-.
      apply W in E4. cbn in E4. rewrite Fw in E4. exact E4. }
    destruct (extract e w2) as [[t3 w3] r3] eqn:E3. destruct (X _ _ _ eq_refl) as [X1 X2].
    intros H. assert (w' = w3).
    { destruct r3; [|injection H as <- <- <-; auto]. destruct (some (data w3)); cbn in H; injection H as <- <- <-; auto. }
    subst w'. rewrite X1, X2, Fw. split; [lia|]. right. eauto 8.
  - intros H. injection H as <- <- <-. auto.
Qed.

(** Concrete environment: the archive [1;2;3] contains two files; anything else is damaged. *)
Definition pk0 (c : bytes) : result (list file) :=
  match c with [1; 2; 3] => Ok [("a.wav", 10); ("b.wav", 11)] | _ => Err OSError end.
Definition good_net (k : nat) : response := Serve (Some 3) [[1; 2]; [3]] true.
Definition w_fresh : world := mkW None None None 0 0 false.
Definition env0 := mkE good_net (fun _ => None) pk0.
(** Disk full after one file, at the first two extractions. *)
Definition env_full := mkE good_net (fun _ => Some 1) pk0.

(** The full claim is false.  A crash after the first file leaves a dataset directory, and the
    next construction takes it for the dataset. *)
Theorem C55_crash_refuted : exists S pk e w w' t, fits S pk e /\ In w (states (construct e true w_fresh)) /\
  construct e true w = (t, w', Ok tt) /\ ~ complete S pk w'.
Proof.
  exists (fun r => r = good_net 0), pk0, env0, (mkW None (Some [1; 2; 3]) (Some [("a.wav", 10)]) 1 1 true).
  eexists _, _. split; [split; auto|]. split; [vm_compute; repeat (try (left; reflexivity); right)|]. split; [vm_compute; reflexivity|].
  intros (c & fs & pre & (a & ch & b & E & Ec & _) & P & D). injection E as -> -> ->. cbn in Ec. subst c. cbn in P. injection P as <-.
  cbn in D. destruct pre as [|x [|y pre]]; discriminate.
Qed.
(** No crash is needed: if both extractions of a run fail halfway, that run raises, but the
    next one, without any error, accepts the incomplete directory. *)
Theorem C55_failed_extraction_refuted : exists S pk e e' w w' t t' x, fits S pk e /\ fits S pk e' /\ (forall k, io e' k = None) /\
  construct e true w_fresh = (t, w, Err x) /\ construct e' true w = (t', w', Ok tt) /\ ~ complete S pk w'.
Proof.
  exists (fun r => r = good_net 0), pk0, env_full, env0, (mkW None (Some [1; 2; 3]) (Some [("a.wav", 10); ("a.wav", 10)]) 2 2 false).
  eexists _, _, _, _. split; [split; auto|]. split; [split; auto|]. split; [auto|]. split; [vm_compute; reflexivity|]. split; [vm_compute; reflexivity|].
  intros (c & fs & pre & (a & ch & b & E & Ec & _) & P & D). injection E as -> -> ->. cbn in Ec. subst c. cbn in P. injection P as <-.
  cbn in D. destruct pre as [|y [|z [|? pre]]]; cbn in D; discriminate.
Qed.

Example C54_ex : let '(t, w, r) := construct env0 true w_fresh in
  r = Ok tt /\ final w = Some [1; 2; 3] /\ data w = Some [("a.wav", 10); ("b.wav", 11)] /\ tries w = 1 /\ length t > 3.
Proof. vm_compute. repeat split; lia. Qed.
(** First response cut off, second refused. *)
Example C54_ex_fail : let e := mkE (fun k => match k with 0 => Serve (Some 3) [[1]] true | _ => Refuse end) (fun _ => None) pk0 in
  let '(t, w, r) := construct e true w_fresh in r = Err OSError /\ final w = None /\ tries w = 2 /\ part w = None.
Proof. vm_compute. repeat split. Qed.
(** Without an announced length a truncated body is accepted as the archive (and extraction
    then fails, so that a second download follows). *)
Example C54_ex_unannounced : let e := mkE (fun k => match k with 0 => Serve None [[1]] true | _ => good_net 0 end) (fun _ => None) pk0 in
  (let '(t, w, r) := download e w_fresh in r = Ok tt /\ final w = Some [1]) /\
  (let '(t, w, r) := construct e true w_fresh in r = Ok tt /\ final w = Some [1; 2; 3]).
Proof. vm_compute. repeat split. Qed.
(** A damaged archive and the remains of an earlier download: the archive goes first. *)
Example C54_ex_steps : let '(t, w, r) := construct env0 true (mkW (Some [9]) (Some [7]) None 0 0 false) in
  r = Ok tt /\ map (fun x => (part x, final x)) (firstn 4 t) = [(Some [9], Some [7]); (Some [9], None); (None, None); (Some [], None)].
Proof. vm_compute. split; reflexivity. Qed.
Example C55_ex : forall w, In w (states (construct env0 true w_fresh)) -> extracting w = false ->
  let '(_, w', r) := construct env0 true w in r = Ok tt /\ data w' = Some [("a.wav", 10); ("b.wav", 11)].
Proof. vm_compute. intros w H X. repeat (destruct H as [<- |H]; [try discriminate X; split; reflexivity|]). destruct H. Qed.

(** An unsafe archive: one download; a damaged one: fetched again. *)
Example C55_ex_unsafe : let e := mkE good_net (fun _ => None) (fun _ => Err ValueError) in
  let '(_, w, r) := construct e true w_fresh in r = Err ValueError /\ tries w = 1 /\ final w = Some [1; 2; 3].
Proof. vm_compute. repeat split. Qed.
Example C55_ex_damaged : let '(_, w, r) := construct env0 true (mkW None (Some [7]) None 0 0 false) in
  r = Ok tt /\ tries w = 1 /\ final w = Some [1; 2; 3] /\ data w = Some [("a.wav", 10); ("b.wav", 11)].
Proof. vm_compute. repeat split. Qed.

Print Assumptions C54_atomic.
Print Assumptions C54_announced_size.
Print Assumptions C54_download.
Print Assumptions C54_one_at_a_time.
Print Assumptions C55_uninterrupted.
Print Assumptions C55_unsafe_archive.
Print Assumptions C55_damaged_archive.
Print Assumptions C55_partial.
Print Assumptions C55_crash_refuted.
Print Assumptions C55_failed_extraction_refuted.
