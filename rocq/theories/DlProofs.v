(** Lemmas about dataset download and extraction. *)
From Coq Require Import String List Arith Lia Bool.
From Verif Require Import Prelude PreludeFacts DlModel DlSpec.
Import ListNotations.
Local Notation length := List.length.

(** Triples: from [P], all intermediate states satisfy [M], the end satisfies [Q]. *)
Definition triple (M P : world -> Prop) (a : run) (Q : result unit -> world -> Prop) : Prop :=
  forall w, P w -> forall t w1 r, a w = (t, w1, r) -> Forall M t /\ Q r w1.
Section Rules.
  Variable M : world -> Prop.
  Lemma t_ret P : triple M P ret (fun r w => r = Ok tt /\ P w).
  Proof. intros w H t w1 r E. injection E as <- <- <-. auto. Qed.
  Lemma t_fail P e : triple M P (fail e) (fun r w => r = Err e /\ P w).
  Proof. intros w H t w1 r E. injection E as <- <- <-. auto. Qed.
  Lemma t_step (P Q : world -> Prop) f : (forall w, P w -> M w) -> (forall w, P w -> Q (f w)) -> triple M P (step f) (fun r w => r = Ok tt /\ Q w).
  Proof. intros H1 H2 w H t w1 r E. injection E as <- <- <-. split; [constructor; auto|]. auto. Qed.
  Lemma t_seq P a (R : result unit -> world -> Prop) b (Q : result unit -> world -> Prop) : triple M P a R -> triple M (R (Ok tt)) b Q -> (forall e w, R (Err e) w -> Q (Err e) w) -> triple M P (seq a b) Q.
  Proof.
    intros Ha Hb He w H t w1 r E. unfold seq in E. destruct (a w) as [[ta wa] ra] eqn:Ea. destruct (Ha w H _ _ _ Ea) as [Fa Ra].
    destruct ra as [[]|e]; [|injection E as <- <- <-; auto]. destruct (b wa) as [[tb wb] rb] eqn:Eb. injection E as <- <- <-.
    destruct (Hb wa Ra _ _ _ Eb) as [Fb Rb]. split; auto. apply Forall_app. auto.
  Qed.
  Lemma t_catch P a p h (R Q : result unit -> world -> Prop) : triple M P a R -> (forall w, R (Ok tt) w -> Q (Ok tt) w) ->
    (forall e, p e = true -> triple M (R (Err e)) (h e) Q) -> (forall e w, p e = false -> R (Err e) w -> Q (Err e) w) -> triple M P (catch a p h) Q.
  Proof.
    intros Ha Hok Hh Hn w H t w1 r E. unfold catch in E. destruct (a w) as [[ta wa] ra] eqn:Ea. destruct (Ha w H _ _ _ Ea) as [Fa Ra].
    destruct ra as [[]|e]; [injection E as <- <- <-; auto|]. destruct (p e) eqn:Ep; [|injection E as <- <- <-; auto].
    destruct (h e wa) as [[tb wb] rb] eqn:Eb. injection E as <- <- <-. destruct (Hh e Ep wa Ra _ _ _ Eb) as [Fb Rb]. split; auto. apply Forall_app. auto.
  Qed.
  Lemma t_cond (P : world -> Prop) c a (Q : result unit -> world -> Prop) : triple M (fun w => P w /\ c w = true) a Q -> (forall w, P w -> c w = false -> Q (Ok tt) w) -> triple M P (cond c a) Q.
  Proof.
    intros Ha Hn w H t w1 r E. unfold cond in E. destruct (c w) eqn:Ec; [eapply Ha; eauto|]. injection E as <- <- <-. auto.
  Qed.
  Lemma t_weaken (P P' : world -> Prop) a (Q Q' : result unit -> world -> Prop) : triple M P a Q -> (forall w, P' w -> P w) -> (forall r w, Q r w -> Q' r w) -> triple M P' a Q'.
  Proof. intros H1 H2 H3 w H t w1 r E. destruct (H1 w (H2 w H) _ _ _ E). auto. Qed.
End Rules.

(** Parts of the world that downloading leaves alone. *)
Definition frame (w0 w : world) : Prop := data w = data w0 /\ unpacks w = unpacks w0 /\ extracting w = extracting w0.
Definition untouched (w0 w : world) : Prop := final w = None /\ frame w0 w.

Lemma read_loop_triple w0 n chunks b : forall pre,
  triple (untouched w0) (fun w => untouched w0 w /\ tries w = n /\ part w = Some pre) (read_loop chunks b)
    (fun r w => untouched w0 w /\ tries w = n /\ (r = Ok tt -> part w = Some (pre ++ delivered chunks))).
Proof.
  induction chunks as [|c rest IH]; intros pre; cbn [read_loop delivered].
  - destruct b.
    + eapply t_weaken; [apply t_ret|intros w H; exact H|]; cbn beta. intros r w (-> & H & T & ->). rewrite app_nil_r. auto.
    + eapply t_weaken; [apply t_fail|intros w H; exact H|]; cbn beta. intros r w (-> & H & T & E). split; [auto|split; [auto|discriminate]].
  - destruct c as [|x c].
    + eapply t_weaken; [apply t_ret|intros w H; exact H|]; cbn beta. intros r w (-> & H & T & ->). rewrite app_nil_r. auto.
    + eapply t_seq.
      * apply t_step with (Q := fun w => untouched w0 w /\ tries w = n /\ part w = Some (pre ++ x :: c)); [intros w [H _]; auto|].
        intros w ((H1 & H2 & H3 & H4) & T & E). unfold append_part. rewrite E. cbn. repeat split; auto.
      * eapply t_weaken; [apply (IH (pre ++ x :: c))|intros w [_ H]; exact H|]. cbn beta. intros r w (H & T & E). rewrite <- app_assoc in E. auto.
      * intros e w [H _]. discriminate.
Qed.

(** One attempt, started without archive. *)
Definition fetched (e : env) (w0 : world) (r : result unit) (w : world) : Prop :=
  frame w0 w /\ tries w = S (tries w0) /\
  match r with
  | Err _ => final w = None
  | Ok _ => part w = None /\ exists a ch b, net e (tries w0) = Serve a ch b /\ final w = Some (delivered ch) /\
              (forall n, a = Some n -> n > 0 -> length (delivered ch) = n)
  end.
Lemma stream_triple e w0 : final w0 = None ->
  triple (untouched w0) (fun w => w = w0) (stream_download e) (fetched e w0).
Proof.
  intros F0 w -> t w1 r E. unfold stream_download in E. revert E. generalize (eq_refl w0). 
  set (prog := seq _ _). assert (T : triple (untouched w0) (fun w => w = w0) prog (fetched e w0)); [|intros _ E; eapply T; eauto].
  unfold prog. eapply t_seq with (R := fun r w => r = Ok tt /\ untouched w0 w /\ tries w = tries w0).
  - apply t_cond.
    + eapply t_weaken; [apply t_step with (P := fun w => w = w0) (Q := fun w => untouched w0 w /\ tries w = tries w0)|intros w [H _]; exact H|auto].
      * intros w ->. repeat split; auto.
      * intros w ->. repeat split; auto.
    + intros w -> _. repeat split; auto.
  - eapply t_seq with (R := fun r w => r = Ok tt /\ untouched w0 w /\ tries w = S (tries w0)).
    + intros w (_ & (H1 & H2 & H3 & H4) & T) t' w' r' E. injection E as <- <- <-. split; auto. split; auto. cbn. repeat split; auto.
    + destruct (net e (tries w0)) as [|a ch b] eqn:En.
      * eapply t_weaken; [apply t_fail|intros w H; exact H|]. cbn beta. intros r' w (-> & _ & (H1 & H2) & T). repeat split; auto; apply H2.
      * eapply t_seq with (R := fun r w => r = Ok tt /\ untouched w0 w /\ tries w = S (tries w0) /\ part w = Some []).
        -- apply t_step; [intros w (_ & H & _); auto|]. intros w (_ & (H1 & H2 & H3 & H4) & T). repeat split; auto.
        -- eapply t_seq.
           ++ eapply t_weaken; [apply (read_loop_triple w0 (S (tries w0)) ch b [])|intros w [_ H]; exact H|]. intros r' w H. exact H.
           ++ cbn [app]. set (tot := match a with Some n => n | None => 0 end).
              destruct ((0 <? tot) && negb (length (delivered ch) =? tot)) eqn:Ec.
              ** eapply t_weaken; [apply t_fail|intros w H; exact H|]. cbn beta. intros r' w (-> & (H1 & H2) & T & _). repeat split; auto; apply H2.
              ** eapply t_weaken; [apply t_step with (Q := fetched e w0 (Ok tt))|intros w H; exact H|intros r' w [-> H]; exact H].
                 { intros w (H & _). exact H. }
                 { intros w ((H1 & H2) & T & P). specialize (P eq_refl). unfold fetched. split; [exact H2|]. split; [exact T|]. split; [reflexivity|].
                   exists a, ch, b. split; auto. split; [cbn; auto|]. intros n -> Hn. cbn in tot. subst tot.
                   destruct (Nat.ltb_spec 0 n); [|lia]. cbn in Ec. apply negb_false_iff, Nat.eqb_eq in Ec. auto. }
           ++ cbn beta. intros x w ((H1 & H2) & T & _). repeat split; auto; apply H2.
        -- intros x w [H _]. discriminate.
    + intros x w [H _]. discriminate.
  - intros x w [H _]. discriminate.
Qed.

Definition downloaded (e : env) (w0 : world) (r : result unit) (w : world) : Prop :=
  frame w0 w /\ tries w0 < tries w <= tries w0 + 2 /\
  match r with
  | Err _ => final w = None
  | Ok _ => part w = None /\ exists k a ch b, net e k = Serve a ch b /\ final w = Some (delivered ch) /\
              (forall n, a = Some n -> n > 0 -> length (delivered ch) = n)
  end.
Lemma untouched_frame w0 w1 w : frame w0 w1 -> untouched w1 w -> untouched w0 w.
Proof. intros (A & B & C) (D & E & F & G). repeat split; auto; congruence. Qed.
Lemma download_triple e w0 : final w0 = None -> triple (untouched w0) (fun w => w = w0) (download e) (downloaded e w0).
Proof.
  intros F0. unfold download. eapply t_catch with (R := fetched e w0); [apply stream_triple; auto| | |discriminate].
  - intros w (H1 & H2 & H3 & a & ch & b & H). split; auto. split; [lia|]. split; auto. eauto.
  - intros x _. assert (U : forall P : world -> Prop, (forall w, P w -> final w = None) -> triple (untouched w0) P unlink_final (fun r w => r = Ok tt /\ P w)).
    { intros P HP. apply t_cond; [|auto]. intros w [H1 H2]. rewrite (HP w H1) in H2. discriminate. }
    eapply t_seq; [apply U; intros w (_ & _ & H); exact H| |intros y w [H _]; discriminate].
    eapply t_weaken with (P := fetched e w0 (Err x)); [|intros w [_ H]; exact H|intros r w H; exact H].
    intros w1 H1 t w2 r E. assert (F1 : final w1 = None) by apply H1.
    assert (T : triple (untouched w0) (fun w => w = w1) (catch (stream_download e) any_exception (fun x => seq unlink_final (fail x))) (downloaded e w0));
      [|eapply T; eauto]. destruct H1 as (Fr & Tr & _).
    eapply t_catch with (R := fetched e w1).
    + intros w -> t' w' r' E'. destruct (stream_triple e w1 F1 w1 eq_refl _ _ _ E') as [A B]. split; auto.
      eapply Forall_impl; [|exact A]. intros w. apply untouched_frame. auto.
    + intros w (A1 & A2 & A3 & a & ch & b & A). split; [destruct A1 as (?&?&?), Fr as (?&?&?); repeat split; congruence|]. split; [lia|]. split; auto. eauto.
    + intros y _. eapply t_seq; [apply U; intros w (_ & _ & H); exact H| |intros z w [H _]; discriminate].
      eapply t_weaken; [apply t_fail|intros w [_ H]; exact H|]. cbn beta. intros r' w (-> & A1 & A2 & A3).
      split; [destruct A1 as (?&?&?), Fr as (?&?&?); repeat split; congruence|]. split; [lia|]. auto.
    + discriminate.
Qed.

(** ** Extraction *)
Definition same_final (w0 w : world) : Prop := final w = final w0.
Lemma write_files_final l : forall fault w t w1 r, write_files l fault w = (t, w1, r) ->
  Forall (fun w' => final w' = final w /\ extracting w' = extracting w) t /\ final w1 = final w /\ extracting w1 = extracting w.
Proof.
  induction l as [|f l IH]; intros fault w t w1 r E; cbn in E; [injection E as <- <- <-; auto|].
  destruct fault as [[|n]|]; [injection E as <- <- <-; auto| |]; unfold seq in E; cbn in E;
    destruct (write_files l _ (write_file f w)) as [[t' w'] r'] eqn:E'; injection E as <- <- <-;
    destruct (IH _ _ _ _ _ E') as [A B]; split; auto.
Qed.
Lemma write_files_data l : forall w t w1 r, write_files l None w = (t, w1, r) -> r = Ok tt /\
  (l = [] \/ data w1 = Some (match data w with Some x => x | None => [] end ++ l)) /\ (l = [] -> data w1 = data w).
Proof.
  induction l as [|f l IH]; intros w t w1 r E; cbn in E; [injection E as <- <- <-; auto|].
  unfold seq in E. cbn in E. destruct (write_files l None (write_file f w)) as [[t' w'] r'] eqn:E'. injection E as <- <- <-.
  destruct (IH _ _ _ _ E') as (A & B & C). split; auto. split; [right|discriminate].
  destruct B as [-> |B]; [rewrite (C eq_refl)|rewrite B]; cbn; destruct (data w); cbn; rewrite <- ?app_assoc; reflexivity.
Qed.
Lemma write_files_ok l : forall fault w t w1, write_files l fault w = (t, w1, Ok tt) -> write_files l None w = (t, w1, Ok tt).
Proof.
  induction l as [|f l IH]; intros fault w t w1 E; cbn in *; auto. destruct fault as [[|n]|]; [discriminate| |]; unfold seq in *; cbn in *;
    destruct (write_files l _ (write_file f w)) as [[t' w'] r'] eqn:E'; injection E as <- <- ->; try rewrite (IH _ _ _ _ E'); auto.
Qed.
Lemma extract_facts e w t w1 r : extract e w = (t, w1, r) ->
  Forall (fun w' => final w' = final w) t /\ final w1 = final w /\
  (r = Ok tt -> exists c files, final w = Some c /\ pack e c = Ok files /\ (data w1 = Some (match data w with Some x => x | None => [] end ++ files) \/ data w1 = data w /\ files = [])).
Proof.
  unfold extract. destruct (final w) as [c|] eqn:F; [|intros E; injection E as <- <- <-; split; auto; split; auto; discriminate].
  destruct (pack e c) as [files|x] eqn:P; [|intros E; injection E as <- <- <-; split; auto; split; auto; discriminate].
  unfold seq. cbn [step]. destruct (write_files files (io e (unpacks w)) (begin_extract w)) as [[t' w'] r'] eqn:E'. cbn. intros E. injection E as <- <- <-.
  destruct (write_files_final _ _ _ _ _ _ E') as (A & B & _). cbn in A, B. split; [|split].
  - constructor; auto. apply Forall_app. split; [|constructor; auto; congruence]. eapply Forall_impl; [|exact A]. intros x [H _]. congruence.
  - cbn. congruence.
  - intros ->. exists c, files. split; auto. split; auto. apply write_files_ok in E'. destruct (write_files_data _ _ _ _ _ E') as (_ & D & D0). cbn in *.
    destruct D as [-> |D]; [right|left]; auto.
Qed.

(** ** Whole constructions *)
Definition good (S : response -> Prop) (w : world) : Prop := final w = None \/ exists c, final w = Some c /\ intact S c.
Lemma download_good (S : response -> Prop) e w t w1 r : (forall k, S (net e k)) -> final w = None -> download e w = (t, w1, r) ->
  Forall (fun w' => good S w' /\ frame w w') t /\ good S w1 /\ frame w w1 /\ (r = Ok tt -> final w1 <> None).
Proof.
  intros HS F E. destruct (download_triple e w F w eq_refl _ _ _ E) as (A & B & _ & C). split; [|split; [|split]]; auto.
  - eapply Forall_impl; [|exact A]. intros w' [H1 H2]. split; auto. left; auto.
  - destruct r as [u|x]; [|left; auto]. destruct C as (_ & k & a & ch & b & H1 & H2 & H3). right. exists (delivered ch). split; auto. exists a, ch, b. split; auto. rewrite <- H1. auto.
  - intros ->. destruct C as (_ & k & a & ch & b & H1 & H2 & H3). congruence.
Qed.
Lemma Forall_states t w (P : world -> Prop) r : Forall P t -> P w -> forall w', In w' (states (t, w, r)) -> P w'.
Proof. intros H1 H2 w' H. cbn in H. apply in_app_or in H as [H|[<- |[]]]; auto. eapply Forall_forall; eauto. Qed.
(** The invariant of the archive file, for arbitrary extraction faults. *)
Lemma prepare_good (S : response -> Prop) e w t w1 r : (forall k, S (net e k)) -> good S w -> prepare e w = (t, w1, r) -> Forall (good S) t /\ good S w1.
Proof.
  intros HS G E. revert E. assert (T : triple (good S) (good S) (prepare e) (fun _ w => good S w)); [|intros E; eapply T; eauto].
  clear w t w1 r G.
  assert (TD : triple (good S) (fun w => final w = None) (download e) (fun _ w => good S w)).
  { intros w F t w1 r E. destruct (download_good S e w t w1 r HS F E) as (A & B & _). split; auto. eapply Forall_impl; [|exact A]. intros w' [H _]; auto. }
  assert (TE : triple (good S) (good S) (extract e) (fun _ w => good S w)).
  { intros w F t w1 r E. destruct (extract_facts _ _ _ _ _ E) as (A & B & _). unfold good in *. split; [|rewrite B; auto].
    eapply Forall_impl; [|exact A]. cbn. intros w' ->. auto. }
  unfold prepare. eapply t_seq with (R := fun _ w => good S w).
  - apply t_cond; [|auto]. eapply t_weaken; [exact TD| |auto]. cbn. intros w [_ H]. destruct (final w); [discriminate|auto].
  - apply t_cond; [|auto]. eapply t_catch with (R := fun _ w => good S w).
    + eapply t_weaken; [exact TE|intros w [H _]; exact H|auto].
    + auto.
    + intros x _. eapply t_seq with (R := fun r w => r = Ok tt /\ final w = None).
      * apply t_cond.
        -- eapply t_weaken; [apply t_step with (P := good S) (Q := fun w => final w = None); auto|intros w [H _]; exact H|auto].
        -- cbn. intros w _ H. destruct (final w); [discriminate|auto].
      * eapply t_seq with (R := fun _ w => good S w); [eapply t_weaken; [exact TD|intros w [_ H]; exact H|auto]|exact TE|auto].
      * intros y w [H _]. discriminate.
    + auto.
  - auto.
Qed.
Lemma construct_good (S : response -> Prop) e dl w w' : (forall k, S (net e k)) -> good S w -> In w' (states (construct e dl w)) -> good S w'.
Proof.
  intros HS G. unfold construct, seq. destruct dl; [|cbn; unfold ret; destruct (data w); cbn; intros [<-|[]]; auto].
  destruct (prepare e w) as [[t w1] r] eqn:E. destruct (prepare_good S e w t w1 r HS G E) as [A B].
  destruct r as [u|x]; [|intros H; eapply Forall_states; eauto]. destruct (some (data w1)); cbn [ret fail]; rewrite app_nil_r; intros H; eapply Forall_states; eauto.
Qed.

(** Completeness when extraction itself is not disturbed. *)
Definition fine (S : response -> Prop) pk (w : world) : Prop := good S w /\ (data w = None \/ complete S pk w).
Lemma complete_data (S : response -> Prop) pk w w' : complete S pk w -> data w' = data w -> complete S pk w'.
Proof. intros (c & f & pre & A & B & C) E. exists c, f, pre. rewrite E. auto. Qed.
Lemma extract_quiet (S : response -> Prop) pk e w t w1 r : pack e = pk -> (forall k, io e k = None) -> good S w -> data w = None -> extracting w = false ->
  extract e w = (t, w1, r) -> Forall (fun w' => extracting w' = true \/ data w' = None) t /\ (data w1 = None \/ r = Ok tt /\ complete S pk w1).
Proof.
  intros HP HI G D X E. pose proof (extract_facts _ _ _ _ _ E) as (_ & _ & C). unfold extract in E.
  destruct (final w) as [c|] eqn:F; [|injection E as <- <- <-; auto].
  destruct (pack e c) as [files|x] eqn:P; [|injection E as <- <- <-; auto].
  unfold seq in E. cbn [step] in E. rewrite HI in E. destruct (write_files files None (begin_extract w)) as [[t' w'] r'] eqn:E'. cbn in E. injection E as <- <- <-.
  destruct (write_files_final _ _ _ _ _ _ E') as (A & _ & B). cbn in A, B. destruct (write_files_data _ _ _ _ _ E') as (-> & _). split.
  - constructor; auto. apply Forall_app. split; [|constructor; auto]. eapply Forall_impl; [|exact A]. cbn. intros y [_ H]. auto.
  - destruct (C eq_refl) as (c' & fs & F' & P' & [H|[H ->]]); [|left; congruence]. right. split; auto.
    rewrite D in H. injection F' as <-. destruct G as [G|(c' & G & I)]; [congruence|].
    exists c, fs, []. split; [congruence|]. split; [congruence|]. exact H.
Qed.
Lemma extract_flag e w t w1 r : extract e w = (t, w1, r) -> extracting w = false -> extracting w1 = false.
Proof.
  unfold extract. destruct (final w); [|congruence]. destruct (pack e _); [|congruence]. destruct (seq _ _ w) as [[t' w'] r']. intros E. injection E as <- <- <-. auto.
Qed.
Lemma construct_fine (S : response -> Prop) pk e dl w w' : fits S pk e -> (forall k, io e k = None) -> fine S pk w -> extracting w = false ->
  In w' (states (construct e dl w)) -> extracting w' = false -> fine S pk w'.
Proof.
  intros [HS HP] HI [G D] X I X'. split; [eapply construct_good; eauto|].
  set (M := fun w' : world => extracting w' = true \/ data w' = None \/ complete S pk w').
  assert (HM : M w'); [|destruct HM as [H|[H|H]]; auto; congruence].
  assert (T : forall t w1 r, prepare e w = (t, w1, r) -> Forall M t /\ M w1).
  { clear I X' w'.
    assert (TD : triple M (fun w => extracting w = false /\ M w /\ final w = None) (download e) (fun _ w => good S w /\ extracting w = false /\ M w)).
    { clear w D X G. intros w (X & D & F) t w1 r E. destruct (download_good S e w t w1 r HS F E) as (A & B & (C1 & C2 & C3) & C).
      assert (K : forall w', frame w w' -> M w'). { intros w' (H1 & H2 & H3). destruct D as [D|[D|D]]; [left|right; left|right; right; eapply complete_data; eauto]; congruence. }
      split; [|split; [auto|split; [congruence|apply K; repeat split; auto]]]. eapply Forall_impl; [|exact A]. intros w' [_ H]. auto. }
    assert (TE : triple M (fun w => good S w /\ extracting w = false /\ data w = None) (extract e)
       (fun r w => good S w /\ extracting w = false /\ M w /\ (r <> Ok tt -> data w = None))).
    { clear w D X G. intros w (G & X & D) t w1 r E. destruct (extract_facts _ _ _ _ _ E) as (A & B & _).
      destruct (extract_quiet S pk e w t w1 r HP HI G D X E) as [C1 C2]. split; [eapply Forall_impl; [|exact C1]; unfold M; tauto|].
      split; [unfold good in *; rewrite B; auto|]. split; [eapply extract_flag; eauto|]. split; [unfold M; tauto|]. intros N. tauto. }
    intros t w1 r E.
    assert (TP : triple M (fun w => good S w /\ extracting w = false /\ M w) (prepare e) (fun _ w => M w)); [|eapply TP; eauto; split; auto; split; auto; unfold M; tauto].
    clear w t w1 r E D X G.
    unfold prepare. eapply t_seq with (R := fun _ w => good S w /\ extracting w = false /\ M w); [| |tauto].
    - apply t_cond; [|tauto]. eapply t_weaken; [exact TD| |auto]. cbn. intros w [(H1 & H2 & H3) H]. destruct (final w); [discriminate|auto].
    - apply t_cond; [|tauto]. eapply t_catch with (R := fun r w => good S w /\ extracting w = false /\ M w /\ (r <> Ok tt -> data w = None)).
      + eapply t_weaken; [exact TE| |auto]. cbn. intros w [(H1 & H2 & _) H]. destruct (data w); [discriminate|auto].
      + tauto.
      + intros x _. eapply t_seq with (R := fun r w => r = Ok tt /\ final w = None /\ extracting w = false /\ data w = None).
        * apply t_cond.
          -- eapply t_weaken; [apply t_step with (P := fun w => extracting w = false /\ data w = None) (Q := fun w => final w = None /\ extracting w = false /\ data w = None)|..].
             ++ unfold M. tauto.
             ++ cbn. tauto.
             ++ cbn. intros w ((_ & H1 & _ & H2) & _). split; auto. apply H2. discriminate.
             ++ auto.
          -- cbn. intros w (_ & H1 & _ & H2) H. destruct (final w); [discriminate|]. repeat split; auto. apply H2. discriminate.
        * assert (TD' : triple M (fun w => final w = None /\ extracting w = false /\ data w = None) (download e) (fun _ w => good S w /\ extracting w = false /\ data w = None)).
          { intros w (F & X & D) t w1 r E. destruct (TD w) with (2 := E) as [A (B1 & B2 & _)]; [split; auto; split; auto; unfold M; tauto|].
            destruct (download_good S e w t w1 r HS F E) as (_ & _ & (C & _) & _). split; auto. split; auto. split; auto. congruence. }
          eapply t_seq; [eapply t_weaken; [exact TD'|intros w [_ H]; exact H|intros r w H; exact H]| |unfold M; tauto].
          eapply t_weaken; [exact TE|auto|cbn; tauto].
        * intros y w [H _]. discriminate.
      + cbn. tauto. }
  unfold construct, seq in I. destruct dl.
  - destruct (prepare e w) as [[t w1] r] eqn:E. destruct (T _ _ _ eq_refl) as [A B].
    destruct r as [u|x]; [|eapply Forall_states; eauto]. destruct (some (data w1)); cbn [ret fail] in I; rewrite app_nil_r in I; eapply Forall_states; eauto.
  - cbn in I. destruct (data w) eqn:Ed; cbn in I; destruct I as [<-|[]]; unfold M; rewrite ?Ed; tauto.
Qed.

(** A run that starts without dataset directory and ends well is complete. *)
Lemma prepare_complete (S : response -> Prop) pk e w t w1 r : fits S pk e -> good S w -> data w = None -> prepare e w = (t, w1, r) -> r = Ok tt ->
  data w1 = None \/ complete S pk w1.
Proof.
  intros [HS HP] G D E. revert E.
  assert (TD : forall (P : world -> Prop), (forall w w', frame w w' -> P w -> P w') -> triple (fun _ => True) (fun w => final w = None /\ P w) (download e) (fun _ w => good S w /\ P w)).
  { intros P HPf w' [F Pw] t' w1' r' E. destruct (download_good S e w' t' w1' r' HS F E) as (A & B & C & _). split; [apply Forall_forall; auto|]. split; auto. eapply HPf; eauto. }
  set (Q := fun (r : result unit) w => r = Ok tt -> data w = None \/ complete S pk w).
  assert (TE : triple (fun _ => True) (good S) (extract e) (fun r w => good S w /\ Q r w)).
  { intros w' G' t' w1' r' E. destruct (extract_facts _ _ _ _ _ E) as (A & B & C). split; [apply Forall_forall; auto|]. split; [unfold good in *; rewrite B; auto|].
    intros ->. destruct (C eq_refl) as (c & files & F & P & H). destruct G' as [G'|(c' & G' & I)]; [congruence|].
    assert (c' = c) by congruence. subst c'. destruct H as [H|[H ->]].
    - right. exists c, files, (match data w' with Some x => x | None => [] end). split; auto. split; auto. congruence.
    - destruct (data w') as [l|] eqn:Ed; [|left; auto]. right. exists c, [], l. split; auto. split; [congruence|]. rewrite app_nil_r. auto. }
  assert (T : triple (fun _ => True) (fun w => good S w /\ data w = None) (prepare e) Q).
  { unfold prepare. eapply t_seq with (R := fun _ w => good S w /\ data w = None).
    - apply t_cond; [|auto]. eapply t_weaken; [apply (TD (fun w => data w = None))| |auto].
      + intros a b (H & _) ?. congruence.
      + cbn. intros x [[H1 H2] H]. destruct (final x); [discriminate|auto].
    - apply t_cond; [|unfold Q; tauto]. eapply t_catch with (R := fun r w => good S w /\ Q r w).
      + eapply t_weaken; [exact TE|cbn; tauto|auto].
      + tauto.
      + intros x _. eapply t_seq with (R := fun r w => r = Ok tt /\ final w = None).
        * apply t_cond.
          -- eapply t_weaken; [apply t_step with (P := fun _ => True) (Q := fun w => final w = None)|intros y _; exact I|intros y z H; exact H]; auto.
          -- cbn. intros y _ H. destruct (final y); [discriminate|auto].
        * eapply t_seq with (R := fun _ w => good S w).
          -- eapply t_weaken; [apply (TD (fun _ => True)); auto| |cbn; tauto]. cbn. tauto.
          -- eapply t_weaken; [exact TE|auto|intros r0 w0 [_ H]; exact H].
          -- unfold Q. discriminate.
        * unfold Q. discriminate.
      + unfold Q. discriminate.
    - unfold Q. discriminate. }
  intros E ->. destruct (T w (conj G D) _ _ _ E) as [_ H]. apply H. auto.
Qed.

(** * One file operation at a time *)
Definition same_disk (w w' : world) : Prop := part w' = part w /\ final w' = final w /\ data w' = data w.
Fixpoint linked (w : world) (t : list world) (w' : world) : Prop :=
  match t with
  | [] => same_disk w w'
  | x :: t' => same_disk w x /\ exists y, one_change x y /\ linked y t' w'
  end.
Definition links (a : run) : Prop := forall w t w' r, a w = (t, w', r) -> linked w t w'.
Lemma same_refl w : same_disk w w. Proof. split; auto. Qed.
Lemma linked_same t : forall w w1 w', same_disk w w1 -> linked w1 t w' -> linked w t w'.
Proof. intros w w1 w' (A & B & C). destruct t as [|x t]; [|intros [(D & E & F) G]; split; auto]; [intros (D & E & F)|]; unfold same_disk; repeat split; congruence. Qed.
Lemma linked_app t : forall w w1 t' w', linked w t w1 -> linked w1 t' w' -> linked w (t ++ t') w'.
Proof.
  induction t as [|x t IH]; cbn [app]; intros w w1 t' w' H G; [eapply linked_same; eauto|]. destruct H as (A & y & O & H). split; auto. exists y. split; auto. eapply IH; eauto.
Qed.
Lemma links_ret : links ret.
Proof. intros w t w' r E. injection E as <- <- <-. apply same_refl. Qed.
Lemma links_fail e : links (fail e).
Proof. intros w t w' r E. injection E as <- <- <-. apply same_refl. Qed.
Lemma links_step f : (forall w, one_change w (f w)) -> links (step f).
Proof. intros H w t w' r E. injection E as <- <- <-. split; [apply same_refl|]. exists (f w). split; [auto|apply same_refl]. Qed.
Lemma links_seq a b : links a -> links b -> links (seq a b).
Proof.
  intros Ha Hb w t w' r E. unfold seq in E. destruct (a w) as [[ta wa] ra] eqn:Ea. apply Ha in Ea. destruct ra as [u|e]; [|injection E as <- <- <-; auto].
  destruct (b wa) as [[tb wb] rb] eqn:Eb. apply Hb in Eb. injection E as <- <- <-. eapply linked_app; eauto.
Qed.
Lemma links_catch a p h : links a -> (forall e, links (h e)) -> links (catch a p h).
Proof.
  intros Ha Hh w t w' r E. unfold catch in E. destruct (a w) as [[ta wa] ra] eqn:Ea. apply Ha in Ea. destruct ra as [u|e]; [injection E as <- <- <-; auto|].
  destruct (p e); [|injection E as <- <- <-; auto]. destruct (h e wa) as [[tb wb] rb] eqn:Eb. apply Hh in Eb. injection E as <- <- <-. eapply linked_app; eauto.
Qed.
Lemma links_cond c a : links a -> links (cond c a).
Proof. intros Ha w t w' r E. unfold cond in E. destruct (c w); [eapply Ha; eauto|eapply links_ret; eauto]. Qed.
Lemma links_read chunks b : links (read_loop chunks b).
Proof.
  induction chunks as [|[|x c] chunks IH]; cbn [read_loop]; [destruct b; [apply links_ret|apply links_fail]|apply links_ret|].
  apply links_seq; auto. apply links_step. intros w. apply O_part; reflexivity.
Qed.
Lemma links_stream e : links (stream_download e).
Proof.

  assert (H : forall rsp, links (seq (cond (fun w => some (part w)) (step (set_part None))) (seq (fun w => ([], count_try w, Ok tt))
       match rsp with Refuse => fail OSError | Serve announced chunks normal_end =>
           seq (step (set_part (Some []))) (seq (read_loop chunks normal_end)
                (let total := match announced with Some n => n | None => 0 end in
                 if (0 <? total) && negb (length (delivered chunks) =? total) then fail OSError
                 else step (fun w => set_part None (set_final (part w) w)))) end))).
  { intros rsp. apply links_seq; [apply links_cond, links_step; intros w; apply O_part; reflexivity|].
    apply links_seq; [intros w t w' rr E; injection E as <- <- <-; split; auto|].
    destruct rsp as [|a ch b]; [apply links_fail|]. apply links_seq; [apply links_step; intros w; apply O_part; reflexivity|].
    apply links_seq; [apply links_read|]. cbv zeta. destruct (_ && _); [apply links_fail|]. apply links_step. intros w. apply O_rename; reflexivity. }
  intros w t w' rr E. apply (H (net e (tries w)) w t w' rr E).
Qed.
Lemma links_unlink : links unlink_final.
Proof. apply links_cond, links_step. intros w. apply O_unlink; reflexivity. Qed.
Lemma links_download e : links (download e).
Proof.
  apply links_catch; [apply links_stream|]. intros _. apply links_seq; [apply links_unlink|]. apply links_catch; [apply links_stream|].
  intros x. apply links_seq; [apply links_unlink|apply links_fail].
Qed.
Lemma links_write_files l : forall f, links (write_files l f).
Proof.
  induction l as [|x l IH]; intros f; [apply links_ret|]. cbn [write_files].
  assert (S : links (step (write_file x))) by (apply links_step; intros w; apply O_write with x; [reflexivity|reflexivity|cbn; destruct (data w); reflexivity]).
  destruct f as [[|n]|]; [apply links_fail| |]; apply links_seq; auto.
Qed.
Lemma links_extract e : links (extract e).
Proof.
  intros w t w' r. unfold extract. destruct (final w) as [c|]; [|intros E; injection E as <- <- <-; apply same_refl].
  destruct (pack e c) as [l|x]; [|intros E; injection E as <- <- <-; apply same_refl].
  destruct (seq (step begin_extract) (write_files l (io e (unpacks w))) w) as [[t1 w1] r1] eqn:E1. intros E. injection E as <- <- <-.
  assert (S : links (seq (step begin_extract) (write_files l (io e (unpacks w))))).
  { apply links_seq; [apply links_step; intros v; apply O_none; reflexivity|apply links_write_files]. }
  apply S in E1. eapply linked_app; [exact E1|]. split; [apply same_refl|]. exists (end_extract w1). split; [apply O_none; reflexivity|apply same_refl].
Qed.
Lemma links_construct e dl : links (construct e dl).
Proof.
  apply links_seq.
  - destruct dl; [|apply links_ret]. apply links_seq; [apply links_cond, links_download|]. apply links_cond, links_catch; [apply links_extract|].
    intros _. apply links_seq; [apply links_unlink|]. apply links_seq; [apply links_download|apply links_extract].
  - intros w t w' r E. destruct (some (data w)); [eapply links_ret|eapply links_fail]; eauto.
Qed.
Lemma change_same w x y : one_change w x -> same_disk x y -> one_change w y.
Proof.
  intros O (A & B & C). destruct O as [H1 H2 H3|H1 H2|H1 H2 H3|H1 H2 H3|f H1 H2 H3];
    [apply O_none|apply O_part|apply O_rename|apply O_unlink|apply O_write with f]; congruence.
Qed.
Lemma linked_steps t : forall w w', linked w t w' -> forall l1 a b l2, t ++ [w'] = l1 ++ a :: b :: l2 -> one_change a b.
Proof.
  induction t as [|x t IH]; intros w w' H l1 a b l2 E.
  - destruct l1 as [|? [|? ?]]; discriminate.
  - destruct H as (_ & y & O & H). destruct l1 as [|z l1]; [|injection E as -> E; eapply IH; eauto].
    injection E as -> E. eapply change_same; [exact O|]. destruct t as [|v t]; cbn in *; [injection E as <- _; auto|]. injection E as <- _. tauto.
Qed.
