(** Lemmas about animations and muxing. *)
From Coq Require Import Ascii String List ZArith Reals Lia Lra Bool.
From Flocq Require Import Core.
From Verif Require Import Prelude PreludeFacts FloatModel FloatProofs RoomModel IoModel IoSpec IoProofs VizModel VizSpec.
Import ListNotations.
Local Open Scope R_scope.
Local Notation length := List.length.

(** ** Frames *)
Lemma nearest_IZR n : ZnearestE (IZR n) = n.
Proof. apply Zrnd_IZR. apply valid_rnd_N. Qed.
Lemma frame_count_spec T step : (1 <= T)%Z -> (1 <= step)%Z -> exists k, frame_count T step = Ok k /\ (1 <= k)%Z /\
  ((k - 1) * step <= T - 1)%Z /\ (T - 1 < k * step)%Z.
Proof.
  intros HT Hs. unfold frame_count. destruct (Z.eqb_spec step 0); [lia|].
  exists (Z.max 1 ((T + step - 1) / step)). split; auto.
  pose proof (Z.div_mod (T + step - 1) step ltac:(lia)) as D. pose proof (Z.mod_pos_bound (T + step - 1) step ltac:(lia)) as B.
  set (q := ((T + step - 1) / step)%Z) in *. assert (1 <= q)%Z by (destruct (Z_lt_le_dec q 1); [nia|auto]).
  rewrite Z.max_r by auto. repeat split; try lia; nia.
Qed.
Lemma mapM_ok {A B} (f : A -> result B) g l : (forall x, In x l -> f x = Ok (g x)) -> mapM f l = Ok (map g l).
Proof. induction l as [|x l IH]; cbn; auto. intros H. rewrite (H x) by auto. cbn. rewrite IH by auto. auto. Qed.
Lemma frames_shown T step k : (1 <= step)%Z -> ((k - 1) * step <= Z.of_nat T - 1)%Z ->
  mapM (frame T T step) (seq 0 (Z.to_nat k)) = Ok (map (fun i => Z.of_nat i * step)%Z (seq 0 (Z.to_nat k))).
Proof.
  intros Hs Hk. apply mapM_ok. intros i Hi. apply in_seq in Hi. unfold frame.
  assert (Z.of_nat i <= k - 1)%Z by lia. assert (Z.of_nat i * step <= Z.of_nat T - 1)%Z by nia.
  rewrite Z.min_l by auto. unfold in_range.
  assert (0 <= Z.of_nat i * step)%Z by nia.
  rewrite (proj2 (Z.leb_le _ _)) by lia. rewrite (proj2 (Z.ltb_lt _ _)) by lia. auto.
Qed.
Lemma last_nth {A} (l : list A) d : last l d = nth (length l - 1) l d.
Proof.
  induction l as [|x l IH]; auto. destruct l as [|y l]; auto. change (last (x :: y :: l) d) with (last (y :: l) d). rewrite IH.
  replace (length (x :: y :: l) - 1)%nat with (S (length (y :: l) - 1)) by (cbn; lia). auto.
Qed.
Lemma shown_covers T step k : (1 <= step)%Z -> (1 <= k)%Z -> ((k - 1) * step <= Z.of_nat T - 1)%Z -> (Z.of_nat T - 1 < k * step)%Z ->
  covers T step (map (fun i => Z.of_nat i * step)%Z (seq 0 (Z.to_nat k))).
Proof.
  intros Hs Hk H1 H2. assert (N : forall i d, (i < Z.to_nat k)%nat -> nth i (map (fun i => Z.of_nat i * step)%Z (seq 0 (Z.to_nat k))) d = (Z.of_nat i * step)%Z).
  { intros i d Hi. rewrite (nth_indep _ d (Z.of_nat 0 * step)%Z) by (rewrite map_length, seq_length; auto).
    rewrite (map_nth (fun i => Z.of_nat i * step)%Z), seq_nth by auto. auto. }
  assert (L : last (map (fun i => Z.of_nat i * step)%Z (seq 0 (Z.to_nat k))) (-1)%Z = ((k - 1) * step)%Z).
  { rewrite last_nth, map_length, seq_length, N by lia. f_equal. lia. }
  constructor.
  - intros x Hx. apply in_map_iff in Hx. destruct Hx as (i & <- & Hi). apply in_seq in Hi. nia.
  - rewrite N by lia. auto.
  - intros i Hi. rewrite map_length, seq_length in Hi. rewrite !N by lia. lia.
  - rewrite L. lia.
  - rewrite L. split.
    + intros E. exists (k - 1)%Z. lia.
    + intros [q Hq]. assert (q = k - 1)%Z by nia. subst q. lia.
Qed.
Lemma counts_same T src mic : same_length T src mic -> step_counts src mic = Ok (T, T).
Proof. intros [[-> [->| ->]]|[-> ->]]; auto. Qed.
Lemma rate_min fps d frames k : frame_rate fps d frames = Ok k -> (1 <= k)%Z.
Proof. unfold frame_rate. intros H. destruct (match fps with Some x => _ | None => _ end); try discriminate. injection H as <-. lia. Qed.

(** ** Muxing *)
Definition triple (M P : files -> Prop) (a : prog) (Q : result unit -> files -> Prop) : Prop :=
  forall w, P w -> forall t w1 r, a w = (t, w1, r) -> Forall M t /\ Q r w1.
Section Rules.
  Variable M : files -> Prop.
  Lemma m_ret (P : files -> Prop) (Q : result unit -> files -> Prop) : (forall w, P w -> Q (Ok tt) w) -> triple M P ret Q.
  Proof. intros G w H t w1 r E. injection E as <- <- <-. auto. Qed.
  Lemma m_fail (P : files -> Prop) (Q : result unit -> files -> Prop) e : (forall w, P w -> Q (Err e) w) -> triple M P (fail e) Q.
  Proof. intros G w H t w1 r E. injection E as <- <- <-. auto. Qed.
  Lemma m_step (P : files -> Prop) (Q : result unit -> files -> Prop) f : (forall w, P w -> M w) -> (forall w, P w -> Q (Ok tt) (f w)) -> triple M P (step1 f) Q.
  Proof. intros H1 H2 w H t w1 r E. injection E as <- <- <-. split; [constructor; auto|]. auto. Qed.
  Lemma m_seq (P : files -> Prop) a b (R Q : result unit -> files -> Prop) : triple M P a R -> triple M (R (Ok tt)) b Q ->
    (forall e w, R (Err e) w -> Q (Err e) w) -> triple M P (andthen a b) Q.
  Proof.
    intros Ha Hb He w H t w1 r E. unfold andthen in E. destruct (a w) as [[ta wa] ra] eqn:Ea. destruct (Ha w H _ _ _ Ea) as [Fa Ra].
    destruct ra as [[]|e]; [|injection E as <- <- <-; auto]. destruct (b wa) as [[tb wb] rb] eqn:Eb. injection E as <- <- <-.
    destruct (Hb wa Ra _ _ _ Eb) as [Fb Rb]. split; auto. apply Forall_app. auto.
  Qed.
  Lemma m_contents (P : files -> Prop) p l : (forall w, P w -> M w) -> (forall w c, P w -> P (put p c w)) ->
    triple M P (contents p l) (fun r w => r = Ok tt /\ P w).
  Proof.
    intros H1 H2. induction l as [|c l IH]; cbn [contents]; [apply m_ret; auto|].
    apply m_seq with (R := fun r w => r = Ok tt /\ P w).
    - apply m_step; auto.
    - intros w [_ H]. apply IH. auto.
    - intros e w [? _]. discriminate.
  Qed.
  Lemma m_unlink (P : files -> Prop) (Q : result unit -> files -> Prop) p : (forall w, P w -> M w) -> (forall w, P w -> Q (Ok tt) (put p None w)) ->
    (forall w, P w -> w p = None -> Q (Ok tt) w) -> triple M P (unlink_if p) Q.
  Proof.
    intros H1 H2 H3 w H t w1 r E. unfold unlink_if, when, here in E. destruct (w p) eqn:F.
    - injection E as <- <- <-. auto.
    - injection E as <- <- <-. auto.
  Qed.
End Rules.
Lemma put_same p c w : put p c w p = c.
Proof. unfold put. rewrite String.eqb_refl. auto. Qed.
Lemma put_other p q c w : q <> p -> put p c w q = w q.
Proof. intros H. unfold put. destruct (String.eqb_spec q p); congruence. Qed.
Lemma append_cancel a b c : (a ++ b)%string = (a ++ c)%string -> b = c.
Proof. induction a; cbn; auto. intros H. injection H. auto. Qed.
Lemma append_nil_r s : (s ++ "")%string = s.
Proof. induction s; cbn; congruence. Qed.
Lemma tmp_names v : tmp_audio v <> v /\ tmp_video v <> v /\ tmp_audio v <> tmp_video v.
Proof.
  assert (G : exists r, v = (stem v ++ r)%string /\ (r = ""%string \/ exists e, r = String "." e)).
  { unfold stem. destruct (last_dot v) as [[[|c a] [|d b]]|] eqn:E; try (exists ""%string; rewrite append_nil_r; auto; fail).
    apply last_dot_some in E. destruct E as [E _]. exists (String "." (String d b)). split; eauto. }
  unfold tmp_audio, tmp_video. destruct G as (r & E & Hr). split; [|split].
  - intros H. rewrite E in H at 2. apply append_cancel in H. destruct Hr as [->|(e & ->)]; discriminate.
  - intros H. rewrite E in H at 2. apply append_cancel in H. destruct Hr as [->|(e & ->)]; discriminate.
  - intros H. apply append_cancel in H. discriminate.
Qed.

Section Mux.
  Variables (e : tools) (video : string) (w0 : files).
  Let ta := tmp_audio video.
  Let tv := tmp_video video.
  (** Everything but the temporary files is as at the beginning; the video may be [v]. *)
  Definition only (v : option bytes) (w : files) : Prop :=
    w video = v /\ forall p, p <> video -> p <> ta -> p <> tv -> w p = w0 p.
  Definition M (w : files) : Prop :=
    only (w0 video) w \/ (exit_status e = Ok 0%Z /\ mux_final e <> None /\ only (mux_final e) w).
  Lemma only_put v p c w : p = ta \/ p = tv -> only v w -> only v (put p c w).
  Proof.
    destruct (tmp_names video) as (N1 & N2 & N3). fold ta in N1, N3; fold tv in N2, N3. intros Hp [H1 H2]. split.
    - rewrite put_other; auto. destruct Hp; congruence.
    - intros q Q1 Q2 Q3. rewrite put_other; auto. destruct Hp; congruence.
  Qed.
  (** Outcome of the part after the checks. *)
  Definition finished (w : files) : Prop :=
    w ta = None /\ w tv = None /\
    ((exit_status e = Ok 0%Z /\ mux_final e <> None /\ only (mux_final e) w) \/
     ((exists z, exit_status e = Ok z /\ z <> 0%Z) /\ only (w0 video) w)).
  Definition broken (x : exn) : Prop :=
    write_fails e = Some x \/ exit_status e = Err x \/ (x = FileNotFoundError /\ exit_status e = Ok 0%Z /\ mux_final e = None).
  Definition after (r : result unit) (w : files) : Prop :=
    match r with Ok _ => finished w | Err x => only (w0 video) w /\ broken x end.
  Lemma tail_triple sound : triple M (only (w0 video))
    (andthen (contents ta (write_steps e))
       (andthen (match write_fails e with Some x => fail x | None => step1 (put ta (Some sound)) end)
          (andthen (contents tv (mux_steps e))
             (andthen (step1 (put tv (mux_final e)))
                (andthen (match exit_status e with Err x => fail x | Ok 0%Z => replace_video video | Ok _ => ret end)
                   (andthen (unlink_if ta) (unlink_if tv))))))) after.
  Proof.
    destruct (tmp_names video) as (N1 & N2 & N3). fold ta in N1, N3; fold tv in N2, N3.
    assert (M0 : forall w, only (w0 video) w -> M w) by (left; auto).
    eapply m_seq; [apply m_contents with (P := only (w0 video)); auto; intros; apply only_put; auto| |intros x w [? _]; discriminate].
    cbn beta. apply m_seq with (R := fun r w => match r with Ok _ => only (w0 video) w | Err x => only (w0 video) w /\ broken x end); [| |auto].
    { unfold broken. destruct (write_fails e) as [x|] eqn:W; [apply m_fail; intros w [_ H]; split; auto|].
      apply m_step; intros w [_ H]; [auto|apply only_put; auto]. }
    eapply m_seq; [apply m_contents with (P := only (w0 video)); auto; intros; apply only_put; auto| |intros x w [? _]; discriminate].
    cbn beta. apply m_seq with (R := fun r w => r = Ok tt /\ only (w0 video) w /\ w tv = mux_final e); [| |intros x w [? _]; discriminate].
    { apply m_step; intros w [_ H]; auto. split; auto. split; [apply only_put; auto|apply put_same]. }
    apply m_seq with (R := fun r w => match r with
      | Ok _ => (exit_status e = Ok 0%Z /\ mux_final e <> None /\ only (mux_final e) w) \/ ((exists z, exit_status e = Ok z /\ z <> 0%Z) /\ only (w0 video) w)
      | Err x => only (w0 video) w /\ broken x end); [| |auto].
    { intros w (_ & H & Hv) t w1 r E. destruct (exit_status e) as [z|x] eqn:S.
      - destruct (Z.eq_dec z 0) as [->|Nz].
        + unfold replace_video in E. fold tv in E. rewrite Hv in E. destruct (mux_final e) as [c|] eqn:F.
          * injection E as <- <- <-. split; [constructor; auto|]. left. split; auto. split; [discriminate|]. split.
            -- rewrite put_other by auto. apply put_same.
            -- intros p P1 P2 P3. rewrite !put_other by auto. apply H; auto.
          * injection E as <- <- <-. split; auto. split; auto. unfold broken. rewrite S, F. auto.
        + assert (E' : ret w = (t, w1, r)) by (destruct z; [congruence|auto|auto]). injection E' as <- <- <-. split; auto. right. split; eauto.
      - injection E as <- <- <-. split; auto. split; auto. unfold broken. auto. }
    set (P := fun w => (exit_status e = Ok 0%Z /\ mux_final e <> None /\ only (mux_final e) w) \/ ((exists z, exit_status e = Ok z /\ z <> 0%Z) /\ only (w0 video) w)).
    assert (MP : forall w, P w -> M w) by (intros w [H|[_ H]]; [right; auto|left; auto]).
    assert (PP : forall p c w, p = ta \/ p = tv -> P w -> P (put p c w)).
    { intros p c w Hp [(A & B & C)|(A & C)]; [left; split; [auto|split; [auto|]]|right; split; [auto|]]; apply only_put; auto. }
    apply m_seq with (R := fun r w => r = Ok tt /\ P w /\ w ta = None); [| |intros x w [? _]; discriminate].
    { apply m_unlink; auto. intros w H. split; auto. split; [apply PP; auto|apply put_same]. }
    apply m_unlink.
    - intros w (_ & H & _). auto.
    - intros w (_ & H & Ha). cbn. split; [rewrite put_other; auto|]. split; [apply put_same|]. apply PP; auto.
    - intros w (_ & H & Ha) Hv. cbn. split; auto.
  Qed.
End Mux.
(** The run either stops at one of the checks or goes through the part above. *)
Lemma add_audio_cases e video mixture l r w :
  (exists o, add_audio e video mixture l r w = ([], w, o) /\
     (o = Ok tt \/ exists c x, w mixture = Some c /\ decode e c = Err x /\ o = Err x)) \/
  (exists v c n rows, w video = Some v /\ w mixture = Some c /\ has_ffmpeg e = true /\ decode e c = Ok (n, rows) /\ n <> O /\
    let sound := encode e (stereo n l r rows) in
    forall t w1 o, add_audio e video mixture l r w = (t, w1, o) -> Forall (M e video w) t /\ after e video w o w1).
Proof.
  unfold add_audio. destruct (w video) as [v|] eqn:V; [|left; exists (Ok tt); auto].
  destruct (w mixture) as [c|] eqn:C; [|left; exists (Ok tt); auto].
  destruct (has_ffmpeg e) eqn:F; [|left; exists (Ok tt); auto].
  destruct (decode e c) as [[[|n] rows]|x] eqn:D; [left; exists (Ok tt); auto| |left; exists (Err x); split; auto; right; exists c, x; auto].
  right. exists v, c, (S n), rows. repeat split; auto; eapply tail_triple; try exact H; split; auto.
Qed.
