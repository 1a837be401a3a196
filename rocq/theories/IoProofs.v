(** Lemmas about the audio file model. *)
From Coq Require Import Ascii String List ZArith Reals Lia Lra Bool.
From Flocq Require Import Core.
From Verif Require Import Prelude PreludeFacts FloatModel FloatProofs DirModel DirSpec DirProofs AccumModel RoomModel GeoModel
  IoModel IoSpec GeoProofs GeoSampling.
Import ListNotations.
Local Open Scope R_scope.
Local Notation length := List.length.

(** ** Roundings *)
Lemma rounding_id : rounding (fun x => x).
Proof. constructor; auto. Qed.
Lemma rounding_rnd32 : rounding rnd32.
Proof.
  constructor.
  - exact rnd32_le.
  - intros x. unfold rnd32. apply round_NE_opp.
  - intros x. exact (rnd32_single x).
  - apply (rnd32_IZR 1). cbn. lia.
Qed.
Lemma fl_zero fl : rounding fl -> fl 0 = 0.
Proof. intros H. pose proof (fl_odd _ H 0) as E. rewrite Ropp_0 in E. lra. Qed.
Lemma fl_abs fl x : rounding fl -> Rabs (fl x) = fl (Rabs x).
Proof.
  intros H. destruct (Rle_dec 0 x) as [P|P].
  - assert (0 <= fl x) by (rewrite <- (fl_zero _ H); apply (fl_mono _ H); auto). rewrite !Rabs_right; auto; lra.
  - assert (fl x <= 0) by (rewrite <- (fl_zero _ H); apply (fl_mono _ H); lra).
    rewrite !Rabs_left1 by lra. rewrite (fl_odd _ H). auto.
Qed.

(** ** Peak *)
Lemma max_abs_loudest l m : loudest l m -> max_abs l = Some m.
Proof.
  intros [A B]. assert (G : forall l, (forall x, In x l -> exists r, x = Some r /\ Rabs r <= m) ->
     exists k, max_abs l = Some k /\ 0 <= k /\ (k <= m \/ l = []) /\ forall r, In (Some r) l -> Rabs r <= k).
  { clear. induction l as [|x l IH]; intros A.
    - exists 0. repeat split; auto; try lra. intros r [].
    - destruct IH as (k & E & K0 & K1 & K2); [intros; apply A; right; auto|].
      destruct (A x (or_introl eq_refl)) as (r & -> & Hr). exists (Rmax (Rabs r) k). cbn [max_abs fold_right].
      unfold max_abs in E. rewrite E. split; [auto|]. pose proof (Rmax_l (Rabs r) k). pose proof (Rmax_r (Rabs r) k).
      pose proof (Rabs_pos r). repeat split; try lra.
      + left. apply Rmax_lub; auto. destruct K1 as [K1| ->]; auto. cbn in E. injection E as <-. lra.
      + intros s [Es|Hs]; [injection Es as ->; auto|]. specialize (K2 s Hs). lra. }
  destruct (G l A) as (k & E & K0 & K1 & K2). rewrite E. f_equal. destruct B as (r & Hr & Er).
  pose proof (K2 r Hr). destruct K1 as [K1| ->]; [lra|destruct Hr].
Qed.
Lemma max_abs_nan l : In None l -> max_abs l = None.
Proof.
  induction l as [|x l IH]; [intros []|]. cbn. intros [->|H]; auto. unfold max_abs in IH. rewrite (IH H). destruct x; auto.
Qed.
Lemma max_abs_zero l : (forall x, In x l -> x = Some 0) -> max_abs l = Some 0.
Proof.
  induction l as [|x l IH]; auto. intros H. cbn. unfold max_abs in IH. rewrite IH by (intros; apply H; right; auto).
  rewrite (H x) by (left; auto). rewrite Rabs_R0. f_equal. apply Rmax_left. lra.
Qed.
Lemma has_loudest l : (forall x, In x l -> x <> None) -> l <> [] -> exists m, loudest l m /\ 0 <= m.
Proof.
  induction l as [|x l IH]; [contradiction|]. intros A _. destruct x as [r|]; [|destruct (A None); cbn; auto].
  destruct l as [|y l].
  - exists (Rabs r). split; [split|apply Rabs_pos].
    + intros x [<-|[]]. exists r. split; auto. lra.
    + exists r. split; auto. left; auto.
  - destruct IH as (m & [B C] & M); [intros; apply A; right; auto|discriminate|].
    exists (Rmax (Rabs r) m). pose proof (Rmax_l (Rabs r) m). pose proof (Rmax_r (Rabs r) m). split; [split|lra].
    + intros x [<-|Hx]; [exists r; split; auto|]. destruct (B x Hx) as (s & -> & Hs). exists s. split; auto. lra.
    + destruct (Rle_dec m (Rabs r)) as [P|P].
      * exists r. split; [left; auto|]. rewrite Rmax_left; auto.
      * destruct C as (s & Hs & Es). exists s. split; [right; auto|]. rewrite Rmax_right; auto. lra.
Qed.
Section Peak.
  Variables (fl : R -> R) (peak m : R) (l : list (option R)).
  Hypotheses (HF : rounding fl) (HP : 0 < peak) (HM : 0 < m) (HL : loudest l m).
  Let out (x : R) := fl (fl (x / m) * fl peak).
  Lemma normalize_ok : normalize_audio fl true peak l = Ok (map (option_map out) l).
  Proof.
    unfold normalize_audio. destruct (Rleb_spec peak 0); [lra|]. rewrite (max_abs_loudest _ _ HL).
    destruct (Rltb_spec 0 m); [auto|lra].
  Qed.
  Lemma fl_peak_nonneg : 0 <= fl peak.
  Proof. rewrite <- (fl_zero _ HF). apply (fl_mono _ HF). lra. Qed.
  Lemma out_mono x y : x <= y -> out x <= out y.
  Proof.
    intros H. unfold out. apply (fl_mono _ HF). apply Rmult_le_compat_r; [apply fl_peak_nonneg|].
    apply (fl_mono _ HF). apply Rmult_le_compat_r; auto. left. apply Rinv_0_lt_compat. auto.
  Qed.
  Lemma out_odd x : out (- x) = - out x.
  Proof. unfold out. replace (- x / m) with (- (x / m)) by (field; lra). rewrite (fl_odd _ HF). rewrite Ropp_mult_distr_l_reverse. apply (fl_odd _ HF). Qed.
  Lemma out_m : out m = fl peak.
  Proof. unfold out. replace (m / m) with 1 by (field; lra). rewrite (fl_one _ HF), Rmult_1_l. apply (fl_idem _ HF). Qed.
  Lemma out_abs x : Rabs (out x) = out (Rabs x).
  Proof.
    assert (Z : out 0 = 0) by (pose proof (out_odd 0) as E; rewrite Ropp_0 in E; lra).
    destruct (Rle_dec 0 x) as [P|P].
    - assert (0 <= out x) by (rewrite <- Z; apply out_mono; auto). rewrite !Rabs_right; auto; lra.
    - assert (out x <= 0) by (rewrite <- Z; apply out_mono; lra). rewrite !Rabs_left1 by lra. rewrite out_odd. auto.
  Qed.
  Lemma out_loudest : loudest (map (option_map out) l) (fl peak).
  Proof.
    destruct HL as [A (r & Hr & Er)]. split.
    - intros x Hx. apply in_map_iff in Hx as (y & <- & Hy). destruct (A y Hy) as (s & -> & Hs).
      exists (out s). split; auto. rewrite out_abs, <- out_m. apply out_mono. auto.
    - exists (out r). split; [apply in_map_iff; exists (Some r); auto|]. rewrite out_abs, Er. apply out_m.
  Qed.
End Peak.

(** ** Layout *)
Lemma nth_transpose a b l t c : (t < b)%nat -> (c < a)%nat ->
  nth (t * a + c) (transpose a b l) None = nth (c * b + t) l None.
Proof.
  intros Ht Hc. unfold transpose. rewrite nth_tab by nia.
  rewrite (Nat.add_comm (t * a)), Nat.mod_add, Nat.div_add by lia.
  rewrite Nat.mod_small, Nat.div_small by auto. rewrite Nat.add_0_l. auto.
Qed.
Lemma length_transpose a b l : length (transpose a b l) = (a * b)%nat.
Proof. unfold transpose. rewrite map_length, seq_length. auto. Qed.
Lemma in_transpose a b l x : length l = (a * b)%nat -> In x (transpose a b l) <-> In x l.
Proof.
  intros L. split; intros H.
  - unfold transpose in H. apply in_map_iff in H as (k & <- & Hk). apply in_seq in Hk. apply nth_In. rewrite L.
    assert (a <> 0)%nat by nia. pose proof (Nat.mod_upper_bound k a ltac:(auto)).
    assert (k / a < b)%nat by (apply Nat.div_lt_upper_bound; lia). nia.
  - apply (@In_nth xr l x None) in H as (k & Hk & <-). assert (Hk' : (k < a * b)%nat) by (rewrite <- L; exact Hk). assert (b <> 0)%nat by nia.
    assert (k / b < a)%nat by (apply Nat.div_lt_upper_bound; lia).
    pose proof (Nat.mod_upper_bound k b ltac:(auto)).
    assert (E : nth (k mod b * a + k / b) (transpose a b l) None = nth k l None).
    { rewrite nth_transpose by auto. f_equal. rewrite (Nat.div_mod k b) at 3 by auto. lia. }
    rewrite <- E. apply nth_In. rewrite length_transpose. nia.
Qed.
Lemma save_in fl norm peak w w' l' x : length (w_data w) = prodn (w_shape w) ->
  normalize_audio fl norm peak (w_data w) = Ok l' -> length l' = length (w_data w) ->
  save_samples fl norm peak w = Ok w' -> In x (w_data w') <-> In x l'.
Proof.
  intros L E L' H. unfold save_samples in H. rewrite E in H. cbn [bind] in H. apply Ok_inj in H. subst w'.
  destruct (w_shape w) as [|a [|b [|? ?]]] eqn:S; try tauto.
  destruct (Nat.leb_spec a 8); cbn [w_data]; try tauto. apply in_transpose. rewrite L', L. cbn. lia.
Qed.
Lemma normalize_length fl norm peak l l' : normalize_audio fl norm peak l = Ok l' -> length l' = length l.
Proof.
  unfold normalize_audio. destruct norm; [destruct (Rleb peak 0); [discriminate|]; destruct (max_abs l) as [m|]; [destruct (Rltb 0 m)|]|];
    intros H; apply Ok_inj in H; subst; auto. apply map_length.
Qed.

(** ** Formats *)
Lemma last_dot_some s a b : last_dot s = Some (a, b) <-> s = (a ++ String "." b)%string /\ no_dot b.
Proof.
  revert a b. assert (N : forall s, last_dot s = None <-> no_dot s).
  { induction s0 as [|c s' IH]; cbn; [tauto|]. destruct (last_dot s') as [[x y]|].
    - split; [discriminate|]. intros [_ H]. apply IH in H. discriminate.
    - destruct (Ascii.eqb_spec c ".").
      + split; [discriminate|]. intros [H _]. contradiction.
      + split; auto. intros _. split; auto. apply IH. auto. }
  induction s as [|c s' IH]; intros a b.
  - cbn. split; [discriminate|]. intros [H _]. destruct a; discriminate.
  - cbn. destruct (last_dot s') as [[x y]|] eqn:E.
    + split.
      * intros H. injection H as <- <-. destruct (proj1 (IH x y) eq_refl) as [-> D]. auto.
      * intros [H D]. destruct a as [|c' a].
        -- exfalso. cbn in H. injection H as -> ->. apply N in D. congruence.
        -- cbn in H. injection H as -> H. pose proof (proj2 (IH a b) (conj H D)) as Q. injection Q as -> ->. auto.
    + destruct (Ascii.eqb_spec c ".") as [->|Q].
      * split.
        -- intros H. injection H as <- <-. split; auto. apply N. auto.
        -- intros [H D]. destruct a as [|c' a]; cbn in H; [injection H as ->; auto|].
           injection H as <- H. pose proof (proj2 (IH a b) (conj H D)). discriminate.
      * split; [discriminate|]. intros [H D]. destruct a as [|c' a]; cbn in H; [injection H as -> ->; contradiction|].
        injection H as <- H. pose proof (proj2 (IH a b) (conj H D)). discriminate.
Qed.
Lemma suffix_extension name e : suffix name = String "." e <-> (extension name e).
Proof.
  unfold suffix, extension. destruct (last_dot name) as [[a b]|] eqn:E.
  - pose proof (proj1 (last_dot_some _ _ _) E) as [-> D]. destruct a as [|x a], b as [|y b]; try (split; [discriminate|]);
      try (intros (st & H & S1 & S2 & S3); assert (Q : last_dot (st ++ String "." e) = Some (st, e)) by (apply last_dot_some; auto);
           rewrite <- H, E in Q; injection Q as <- <-; contradiction).
    split.
    + intros H. injection H as <-. exists (String x a). repeat split; try discriminate; auto; apply D.
    + intros (st & H & S1 & S2 & S3). assert (Q : last_dot (st ++ String "." e) = Some (st, e)) by (apply last_dot_some; auto).
      rewrite <- H, E in Q. injection Q as <- <-. auto.
  - split; [discriminate|]. intros (st & -> & S1 & S2 & S3).
    assert (Q : last_dot (st ++ String "." e) = Some (st, e)) by (apply last_dot_some; auto). congruence.
Qed.
Lemma suffix_cases name : suffix name = ""%string \/ exists e, suffix name = String "." e /\ extension name e.
Proof.
  destruct (suffix name) as [|c e] eqn:E; auto. right. exists e.
  assert (c = "."%char) as ->.
  { unfold suffix in E. destruct (last_dot name) as [[[|a a'] [|b b']]|]; try discriminate. injection E as <-. auto. }
  split; auto. apply suffix_extension. auto.
Qed.
Lemma lstrip_no_dot e : no_dot e -> lstrip_dots e = e.
Proof. destruct e as [|c e]; auto. intros [H _]. cbn. destruct (Ascii.eqb_spec c "."); [contradiction|auto]. Qed.
Lemma lstrip_suffix name : match suffix name with String _ e => lstrip_dots (suffix name) = e | _ => True end.
Proof.
  destruct (suffix_cases name) as [E|(e & E & x & _ & _ & _ & D)]; rewrite E; auto. cbn. apply lstrip_no_dot. auto.
Qed.
Lemma extension_fun name e e' : extension name e -> extension name e' -> e = e'.
Proof. intros A B. apply suffix_extension in A, B. rewrite A in B. injection B. auto. Qed.
Lemma lower_empty s : lower s = ""%string <-> s = ""%string.
Proof. destruct s; cbn; split; auto; discriminate. Qed.
Lemma is_wav_in f : str_in (lower f) ["wav"; "wave"]%string = true <-> is_wav f.
Proof.
  rewrite str_in_spells.
  - unfold is_wav. split; [intros (n & [<-|[<-|[]]] & H); auto|]. intros [H|H]; eexists; (split; [|exact H]); cbn; auto.
  - repeat constructor; unfold lower_char; cbn; lia.
Qed.
Lemma normalize_effective name fmt : (forall f, effective name fmt f -> normalize_format name fmt = Ok (lower f)) /\
  ((forall f, ~ effective name fmt f) -> normalize_format name fmt = Err ValueError).
Proof.
  unfold normalize_format. assert (G : effective name fmt = effective name fmt) by auto.
  assert (B : forall fm, (fm = None \/ fm = Some ""%string) -> (forall f, effective name fm f <-> extension name f)).
  { intros fm [->| ->] f; cbn; tauto. }
  destruct fmt as [[|c s]|].
  2: { cbn [effective str_or]. split.
       - intros f ->. destruct (String.eqb_spec (lower (String c s)) ""); auto. apply lower_empty in e. discriminate.
       - intros H. destruct (H _ eq_refl). }
  all: cbn [effective str_or]; split.
  1,3: intros f F; pose proof (proj2 (suffix_extension _ _) F) as E; pose proof (lstrip_suffix name) as L; rewrite E in L; rewrite E, L;
    destruct (String.eqb_spec (lower f) ""); auto; apply (proj1 (lower_empty _)) in e; exfalso; destruct F as (? & _ & _ & N & _); auto.
  all: intros H; destruct (suffix_cases name) as [E|(e & E & F)]; [rewrite E; auto|destruct (H e F)].
Qed.
Lemma effective_dec name fmt : (exists f, effective name fmt f) \/ forall f, ~ effective name fmt f.
Proof.
  destruct fmt as [[|c s]|]; cbn [effective].
  2: left; eauto.
  all: destruct (suffix_cases name) as [E|(e & E & F)]; [right|left; eauto]; intros f F; apply suffix_extension in F; congruence.
Qed.
Lemma effective_fun name fmt f f' : effective name fmt f -> effective name fmt f' -> f = f'.
Proof. destruct fmt as [[|c s]|]; cbn; intros; try (subst; auto; fail); eapply extension_fun; eauto. Qed.

(** ** Backends *)
Lemma str_in_In s l : str_in s l = true <-> In s l.
Proof.
  unfold str_in. rewrite existsb_exists. split.
  - intros (x & H & E). apply String.eqb_eq in E. subst. auto.
  - intros H. exists s. split; auto. apply String.eqb_refl.
Qed.
Lemma run_app r h h' : fst (run r (h ++ h')) = fst (run (fst (run r h)) h').
Proof.
  revert r. induction h as [|a h IH]; intros r; auto. cbn. destruct (act r a) as [r1 o]. specialize (IH r1).
  destruct (run r1 (h ++ h')) eqn:E1, (run r1 h) eqn:E2. cbn in *. auto.
Qed.
Lemma run_outcomes r h h' : snd (run r (h ++ h')) = snd (run r h) ++ snd (run (fst (run r h)) h').
Proof.
  revert r. induction h as [|a h IH]; intros r; auto. cbn. destruct (act r a) as [r1 o]. specialize (IH r1).
  destruct (run r1 (h ++ h')) eqn:E1, (run r1 h) eqn:E2. cbn in *. f_equal. auto.
Qed.
Lemma run_snoc r h a : fst (run r (h ++ [a])) = fst (act (fst (run r h)) a).
Proof. rewrite run_app. cbn. destruct (act _ a). auto. Qed.
Definition known (h : list action) := reg_names (fst (run initial h)).
Lemma known_spec h b : In b (known h) <-> registered h b.
Proof.
  unfold known. revert b. induction h as [|a h IH] using rev_ind; intros b.
  - cbn. unfold registered. cbn. intuition.
  - rewrite run_snoc. unfold registered in *. rewrite in_app_iff. set (r := fst (run initial h)) in *. destruct a as [n|n| |]; cbn.
    + unfold set_audio_backend. destruct (str_in n (reg_names r)); cbn; rewrite IH; intuition; discriminate.
    + unfold add_backend. destruct (str_in n (reg_names r)) eqn:E; cbn.
      * apply str_in_In in E. rewrite IH. apply IH in E. split; [tauto|]. intros [H|[H|[H|[]]]]; auto. injection H as <-. auto.
      * rewrite in_app_iff. rewrite IH. cbn. split; [intros [[H|H]|[->|[]]]; auto|]. intros [H|[H|[H|[]]]]; auto. injection H as ->. auto.
    + rewrite IH. intuition; discriminate.
    + rewrite IH. intuition; discriminate.
Qed.
Lemma snoc_split {A} (h : list A) a h1 x h2 : h ++ [a] = h1 ++ x :: h2 ->
  (h2 = [] /\ h1 = h /\ x = a) \/ exists h3, h2 = h3 ++ [a] /\ h = h1 ++ x :: h3.
Proof.
  intros E. destruct (exists_last (l := x :: h2) ltac:(discriminate)) as (p & y & Q). rewrite Q in E.
  rewrite app_assoc in E. apply app_inj_tail in E as [E1 E2]. destruct p as [|z p].
  - injection Q as -> ->. left. rewrite app_nil_r in E1. auto.
  - cbn in Q. injection Q as -> ->. right. exists p. subst. auto.
Qed.
Lemma current_keep h a : (forall b, a = Select b -> ~ registered h b) -> forall b, current h b -> current (h ++ [a]) b.
Proof.
  intros N b [(h1 & h2 & -> & R1 & L)|[-> L]].
  - left. exists h1, (h2 ++ [a]). rewrite <- app_assoc. split; auto. split; auto. intros h3 b' h4 E.
    apply snoc_split in E as [(-> & -> & E)|(h5 & -> & ->)]; [|eapply L; eauto]. apply N. auto.
  - right. split; auto. intros h3 b' h4 E. apply snoc_split in E as [(-> & -> & E)|(h5 & -> & ->)]; [|eapply L; eauto]. apply N. auto.
Qed.
Lemma default_current h : current h (reg_default (fst (run initial h))).
Proof.
  induction h as [|a h IH] using rev_ind.
  - right. split; auto. intros h3 b' h4 E. destruct h3; discriminate.
  - rewrite run_snoc. destruct a as [n|n| |].
    + cbn. unfold set_audio_backend. destruct (str_in n (reg_names (fst (run initial h)))) eqn:E; cbn.
      * left. exists h, []. split; auto. split; [apply known_spec, str_in_In; auto|]. intros h3 b' h4 Q. destruct h3; discriminate.
      * apply current_keep; auto. intros b Q. injection Q as <-. intros K. apply known_spec in K. apply str_in_In in K. unfold known in *. congruence.
    + cbn. unfold add_backend. destruct (str_in n _); cbn; apply current_keep; auto; discriminate.
    + cbn. apply current_keep; auto; discriminate.
    + cbn. apply current_keep; auto; discriminate.
Qed.
Lemma registered_app h h' b : registered h b -> registered (h ++ h') b.
Proof. unfold registered. rewrite in_app_iff. tauto. Qed.
Lemma current_registered h b : current h b -> registered h b.
Proof. intros [(h1 & h2 & -> & H & _)|[-> _]]; [apply registered_app; auto|left; auto]. Qed.
(** The current backend is unique. *)
Lemma list_align {A} (a b : list A) x y c d : a ++ x :: c = b ++ y :: d ->
  (a = b /\ x = y /\ c = d) \/ (exists e, c = e ++ y :: d /\ b = a ++ x :: e) \/ (exists e, d = e ++ x :: c /\ a = b ++ y :: e).
Proof.
  revert b. induction a as [|z a IH]; intros [|w b] E; cbn in E; injection E as -> E.
  - left. auto.
  - right; left. exists b. subst. auto.
  - right; right. exists a. subst. auto.
  - destruct (IH b E) as [(-> & -> & ->)|[(e & -> & ->)|(e & -> & ->)]]; [left; auto|right; left; eauto|right; right; eauto].
Qed.
Lemma current_fun h b b' : current h b -> current h b' -> b = b'.
Proof.
  intros [(h1 & h2 & E & R1 & L)|[-> L]] [(k1 & k2 & E' & R2 & L')|[-> L']]; auto.
  - rewrite E in E'. apply list_align in E' as [(_ & Q & _)|[(e & -> & ->)|(e & -> & ->)]].
    + injection Q; auto.
    + destruct (L e b' k2 eq_refl). auto.
    + destruct (L' e b h2 eq_refl). auto.
  - destruct (L' h1 b h2 E). auto.
  - destruct (L k1 b' k2 E'). auto.
Qed.
Lemma resolve_target h choice :
  (forall b, target h choice b -> resolve_backend (fst (run initial h)) choice = Ok b) /\
  ((forall b, ~ target h choice b) -> resolve_backend (fst (run initial h)) choice = Err ValueError).
Proof.
  unfold resolve_backend. pose proof (default_current h) as D. pose proof (known_spec h) as K. unfold known in K.
  destruct choice as [[|c s]|]; cbn [target str_or].
  2: { split.
       - intros b [-> H]. apply K in H. apply str_in_In in H. rewrite H. auto.
       - intros H. destruct (str_in _ _) eqn:E; auto. destruct (H (String c s)). split; auto. apply K, str_in_In. auto. }
  all: split; [|intros H; destruct (H _ D)].
  all: intros b H; rewrite (current_fun h _ _ D H) in *; pose proof (current_registered _ _ H) as R1; apply K, str_in_In in R1; rewrite R1; auto.
Qed.
Lemma target_fun h choice b b' : target h choice b -> target h choice b' -> b = b'.
Proof. destruct choice as [[|c s]|]; cbn; intros A B; [eapply current_fun; eauto| |eapply current_fun; eauto]. destruct A, B; subst; auto. Qed.
Lemma target_dec h choice : (exists b, target h choice b) \/ forall b, ~ target h choice b.
Proof.
  pose proof (default_current h) as D. pose proof (known_spec h) as K.
  destruct choice as [[|c s]|]; cbn [target]; eauto.
  destruct (str_in (String c s) (known h)) eqn:E.
  - left. exists (String c s). split; auto. apply K, str_in_In. auto.
  - right. intros b [-> H]. apply K, str_in_In in H. congruence.
Qed.
