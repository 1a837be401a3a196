(** Property theorems C96: the notes drawn on the layouts of a built scene. *)
From Coq Require Import Ascii String List ZArith Reals Bool Lia Lra.
From Verif Require Import Prelude PreludeFacts SignalModel FloatModel BldModel BldSpec BldProofs LoopModel LoopSpec LoopNames CliModel CliSpec CliTriple
  NoteModel NoteSpec NoteProofs.
Import ListNotations.
Local Notation length := List.length.
Local Open Scope string_scope.
Local Open Scope list_scope.
Local Open Scope R_scope.

(** ** C96 *)
(** A number is shown by the one text of two decimals nearest to it, with a sign if it is negative. *)
Theorem C96_number : forall x,
  (0 <= x -> forall s, s = fixed2 x <-> shows s x) /\
  (x < 0 -> exists s, fixed2 x = ("-" ++ s)%string /\ shows s (- x)).
Proof.
  intros x. split.
  - intros H s. split; [intros ->; apply fixed2_shows; auto|]. intros S. eapply shows_fun; eauto. apply fixed2_shows; auto.
  - intros H. exists (fixed2 (- x)). split; [|apply fixed2_shows; lra]. rewrite (fixed2_nonneg (- x)) by lra. unfold fixed2, hundredths, Rltb.
    destruct (Rlt_dec x 0); [|lra]. rewrite Rabs_Ropp. reflexivity.
Qed.
(** The three lines: the scene, the times of the motion, and exactly the sources with a positive
    speed, in order. *)
Theorem C96_lines : forall scene start stop speeds, 0 <= start -> 0 <= stop ->
  exists a b s l, annotation_lines scene start stop speeds = ["scene:" ++ scene; "move:" ++ a ++ "-" ++ b ++ " s"; "speed:" ++ s]%string /\
    shows a start /\ shows b stop /\ positives speeds l /\ lists l s.
Proof.
  intros scene a b v A B. exists (fixed2 a), (fixed2 b), (speed_text v), (moving_list 0 v). split; [reflexivity|].
  split; [apply fixed2_shows; auto|]. split; [apply fixed2_shows; auto|]. split; [apply moving_positives|apply speed_text_lists].
Qed.
(** The line can be read back: it tells which sources move, and their speeds to a hundredth. *)
Theorem C96_read : forall scene start stop start' stop' scene' v v',
  nth 2 (annotation_lines scene start stop v) "" = nth 2 (annotation_lines scene' start' stop' v') "" ->
  forall i, (exists x, nth_error v i = Some x /\ 0 < x) -> exists x x', nth_error v i = Some x /\ nth_error v' i = Some x' /\ 0 < x' /\ Rabs (x - x') <= / 100.
Proof.
  intros sc a b a' b' sc' v v' E i (x & Ex & P). cbn in E. injection E as E.
  pose proof (speed_text_lists v) as L. pose proof (speed_text_lists v') as L'. rewrite E in L. pose proof (lists_read _ _ _ L L') as F.
  pose proof (proj2 (proj1 (moving_positives v) i x) (conj Ex P)) as I. apply In_nth_error in I as (k & I).
  assert (G : exists q, nth_error (moving_list 0 v') k = Some q /\ i = fst q /\ Rabs (x - snd q) <= / 100).
  { clear - F I. revert k I. induction F as [|p q l l' H F IH]; intros [|k] I; try discriminate; cbn in *; [|eauto]. injection I as ->. exists q. cbn in H. auto. }
  destruct G as ([j x'] & G & Ei & D). cbn in Ei, D. subst j. apply nth_error_In, (moving_positives v') in G as (G1 & G2). exists x, x'. auto.
Qed.
(** In a built scene the line names exactly the sources chosen to move, with speeds in the given range. *)
Theorem C96_scene : forall a d c k l idx, fair_scene a d ->
  constrained_positions (sd_trials d) (sd_moving d) (sa_n a) (sa_moving a) (sa_motion a) c (sa_room a) (sa_margin a) min_distance k = Ok l ->
  exists s p, nth_error (scene_lines idx (sa_motion a) l) 2 = Some ("speed:" ++ s)%string /\ lists p s /\
    (forall i, In i (map fst p) <-> In i (sd_moving d)) /\
    forall i x, In (i, x) p -> v_min (sa_motion a) <= x <= v_max (sa_motion a).
Proof.
  intros a d c k l idx Fs H. destruct (constrained_ok a d c _ _ _ _ _ _ _ Fs eq_refl H) as (N & _ & _ & V & V' & _ & _ & Ln & j & G).
  set (v := map p_vel l). exists (speed_text v), (moving_list 0 v). split; [reflexivity|]. split; [apply speed_text_lists|].
  assert (Q : forall i q, nth_error l i = Some q -> (In i (sd_moving d) -> v_min (sa_motion a) <= p_vel q <= v_max (sa_motion a)) /\ (~ In i (sd_moving d) -> p_vel q = 0)).
  { intros i q E. specialize (G i q E). destruct G as (r & _ & _ & _ & _ & _ & G).
    assert (Im : is_moving (sd_moving d) i = true <-> In i (sd_moving d)).
    { unfold is_moving. rewrite existsb_exists. split; [intros (y & I & Ey); apply Nat.eqb_eq in Ey; subst; auto|intros I; exists i; split; auto; apply Nat.eqb_refl]. }
    destruct (is_moving (sd_moving d) i) eqn:M.
    - split; [intros _; apply G|]. intros Nn. exfalso. apply Nn, Im. reflexivity.
    - split; [intros I; apply Im in I; discriminate|]. intros _. apply G. }
  assert (R : forall i x, In (i, x) (moving_list 0 v) <-> exists q, nth_error l i = Some q /\ x = p_vel q /\ In i (sd_moving d)).
  { intros i x. rewrite (proj1 (moving_positives v)). unfold v. rewrite nth_error_map. split.
    - intros (E & P). destruct (nth_error l i) as [q|] eqn:Eq; [|discriminate]. cbn in E. injection E as <-. exists q. repeat split; auto.
      destruct (Q i q Eq) as (_ & Q2). destruct (in_dec Nat.eq_dec i (sd_moving d)); auto. rewrite Q2 in P by auto. lra.
    - intros (q & E & -> & I). rewrite E. cbn. split; auto. destruct (Q i q E) as (Q1 & _). specialize (Q1 I). lra. }
  split.
  - intros i. split.
    + intros I. apply in_map_iff in I as ([i' x] & <- & I). apply R in I as (q & _ & _ & I). exact I.
    + intros I. assert (B : (i < length l)%nat) by (rewrite Ln; apply Fs; auto). destruct (nth_error l i) as [q|] eqn:E; [|apply nth_error_None in E; lia].
      apply in_map_iff. exists (i, p_vel q). split; auto. apply R. eauto.
  - intros i x I. apply R in I as (q & E & -> & I). apply (Q i q E). exact I.
Qed.
(** ** On the axes *)
(** The text is the trimmed lines that are not blank, one below the other; nothing if there is none. *)
Theorem C96_axes : forall lines, exists kept all, Forall2 trims (match lines with Some l => l | None => [] end) all /\
  kept = filter (fun t => if string_dec t "" then false else true) all /\
  axes_annotation lines = match kept with [] => None | _ => Some (below kept) end.
Proof.
  intros lines. set (l := match lines with Some l => l | None => [] end). exists (filter (fun t => if string_dec t "" then false else true) (map strip l)), (map strip l).
  split; [|split; auto].
  - induction l; constructor; auto. apply strip_trims.
  - assert (E : filter (fun t => if string_dec t "" then false else true) (map strip l) = filter (fun s => negb (String.eqb s EmptyString)) (map strip l)).
    { apply filter_ext. intros s. destruct (String.eqb_spec s ""); destruct (string_dec s ""); try contradiction; reflexivity. }
    unfold axes_annotation. destruct lines as [l0|]; [|reflexivity]. change l0 with l. rewrite <- E. generalize (filter (fun t => if string_dec t "" then false else true) (map strip l)). intros [|? ?]; reflexivity.
Qed.
(** The lines of a scene appear as they are. *)
Definition ends (s : string) (c : ascii) : Prop := exists u, s = (u ++ String c "")%string.
Lemma ends_app s t c : ends t c -> ends (s ++ t)%string c.
Proof. intros (u & ->). exists (s ++ u)%string. symmetry. apply EdsProofs.append_assoc'. Qed.
Lemma ends_unique s c c' : ends s c -> ends s c' -> c = c'.
Proof.
  intros (u & ->) (u' & E). apply (f_equal chars) in E. rewrite !chars_app in E. cbn in E. apply app_inj_tail in E as (_ & E). exact E.
Qed.
Lemma trims_self s c t d : s = String c t -> ends s d -> ~ white c -> ~ white d -> strip s = s.
Proof.
  intros E D Wc Wd. symmetry. apply trims_strip. exists "", "". cbn. split; [|split; [intros ? []|split; [intros ? []|split]]].
  - clear. induction s; cbn; congruence.
  - intros c' u E'. rewrite E in E'. injection E' as <- _. exact Wc.
  - intros u c' E'. rewrite (ends_unique s d c' D) in Wd; auto. exists u. exact E'.
Qed.
Lemma writes_ends w n s : (0 < w)%nat -> writes w n s -> exists c, ends s c /\ digit c.
Proof.
  intros W (F & _ & L & _). destruct (exists_last (l := chars s)) as (l & c & E); [destruct (chars s); [cbn in L; lia|discriminate]|].
  exists c. split.
  - exists (string_of_list_ascii l). apply chars_inj. rewrite E, chars_app. cbn. f_equal. clear. induction l; cbn; congruence.
  - rewrite Forall_forall in F. apply F. rewrite E. apply in_or_app. right. left. auto.
Qed.
Lemma concat_ends sep l c : l <> [] -> Forall (fun s => ends s c) l -> ends (String.concat sep l) c.
Proof.
  induction l as [|s l IH]; intros N F; [contradiction|]. inversion_clear F. destruct l as [|s' l]; [auto|]. change (ends (s ++ sep ++ String.concat sep (s' :: l))%string c).
  apply ends_app, ends_app, IH; auto. discriminate.
Qed.
Lemma item_ends i x : ends (speed_item i x) "s"%char.
Proof. unfold speed_item. do 4 apply ends_app. exists "m/". reflexivity. Qed.
Theorem C96_axes_scene : forall idx m l, axes_annotation (Some (scene_lines idx m l)) = Some (below (scene_lines idx m l)).
Proof.
  intros idx m l. unfold axes_annotation, scene_lines, annotation_lines.
  assert (K : forall c, In (nat_of_ascii c) [101; 115]%nat \/ digit c -> ~ white c).
  { intros c H W. unfold white, digit in *. cbn in H, W. lia. }
  assert (E1 : strip ("scene:" ++ scene_name idx)%string = ("scene:" ++ scene_name idx)%string).
  { destruct (writes_ends 4 idx (padded 4 idx)) as (c & E & D); [lia|apply padded_writes; lia|].
    eapply (trims_self _ "s"%char _ c); [reflexivity|apply ends_app; unfold scene_name; apply ends_app; auto| |]; apply K; cbn; auto. }
  assert (E2 : strip ("move:" ++ fixed2 (m_dur m * m_start m) ++ "-" ++ fixed2 (m_dur m * m_end m) ++ " s")%string =
               ("move:" ++ fixed2 (m_dur m * m_start m) ++ "-" ++ fixed2 (m_dur m * m_end m) ++ " s")%string).
  { eapply (trims_self _ "m"%char _ "s"%char); [reflexivity|do 4 apply ends_app; exists " "; reflexivity| |]; [|apply K; cbn; auto].
    unfold white. cbn. lia. }
  assert (E3 : strip ("speed:" ++ speed_text (map p_vel l))%string = ("speed:" ++ speed_text (map p_vel l))%string).
  { set (c := match speed_items 0 (map p_vel l) with [] => "e" | _ => "s" end%char).
    eapply (trims_self _ "s"%char _ c); [reflexivity|apply ends_app| |]; [|apply K; cbn; auto|apply K; unfold c; destruct (speed_items _ _); cbn; auto].
    unfold speed_text. assert (Z : forall v i, Forall (fun s => ends s "s"%char) (speed_items i v)).
    { induction v as [|x v IH]; intros i; cbn [speed_items]; [constructor|]. destruct (Rltb 0 x); [constructor|]; auto using item_ends. }
    specialize (Z (map p_vel l) 0%nat). unfold c. destruct (speed_items _ _) eqn:Q; [exists "non"; reflexivity|]. apply concat_ends; auto; discriminate. }
  cbn [map filter]. rewrite E1, E2, E3. reflexivity.
Qed.
(** A source that moves by less than half a centimetre per second is listed with the speed 0.00. *)
Theorem C96_slow_unchecked : forall v, 0 < v < / 200 -> speed_text [v] = "S0=0.00m/s"%string.
Proof.
  intros v H. unfold speed_text. cbn [speed_items]. unfold Rltb at 1. destruct (Rlt_dec 0 v) as [P|P]; [|lra]. cbn [String.concat]. unfold speed_item.
  assert (E : fixed2 v = "0.00"%string); [|rewrite E; reflexivity].
  symmetry. apply (proj1 (C96_number v)); [lra|]. exists 0%nat. split; [|split].
  - exists "0"%string, "00"%string. split; [reflexivity|]. split; [apply (dec_writes 0)|apply (padded_writes 2 0); lia].
  - cbn [INR]. rewrite Rabs_right by lra. lra.
  - reflexivity.
Qed.
Example C96_example : annotation_lines "scene_0003" (3 / 2) 4 [0; 1 / 8; 3 / 8] =
  ["scene:scene_0003"; "move:1.50-4.00 s"; "speed:S1=0.12m/s, S2=0.38m/s"]%string.
Proof.
  assert (N : forall x n, 0 <= x -> Rabs (x - INR n / 100) <= / 200 -> (Rabs (x - INR n / 100) = / 200 -> Nat.even n = true) ->
    fixed2 x = (dec (n / 100) ++ "." ++ padded 2 (n mod 100))%string).
  { intros x n H A B. symmetry. apply (proj1 (C96_number x)); auto. exists n. split; [apply hundredths_two|auto]. }
  unfold annotation_lines, speed_text. cbn [speed_items]. unfold Rltb.
  destruct (Rlt_dec 0 0); [lra|]. destruct (Rlt_dec 0 (1 / 8)); [|lra]. destruct (Rlt_dec 0 (3 / 8)); [|lra]. unfold speed_item.
  rewrite (N (3 / 2) 150%nat), (N 4 400%nat), (N (1 / 8) 12%nat), (N (3 / 8) 38%nat); try reflexivity; try lra; rewrite INR_IZR_INZ; cbn [Z.of_nat Pos.of_succ_nat Pos.succ].
  all: try (apply Rabs_le; lra). all: intros; rewrite Rabs_right in * by lra; lra.
Qed.
Print Assumptions C96_number.
Print Assumptions C96_lines.
Print Assumptions C96_read.
Print Assumptions C96_scene.
Print Assumptions C96_axes.
Print Assumptions C96_axes_scene.
Print Assumptions C96_slow_unchecked.
