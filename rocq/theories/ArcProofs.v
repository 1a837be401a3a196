(** Lemmas about archive extraction. *)
From Coq Require Import String List Arith Lia Bool.
From Verif Require Import Prelude PreludeFacts ArcModel ArcSpec.
Import ListNotations.
Local Notation length := List.length.

Lemma path_eqb_spec p q : reflect (p = q) (path_eqb p q).
Proof. unfold path_eqb. destruct (list_eq_dec string_dec p q); constructor; auto. Qed.
Lemma put_eq fs p n : put fs p n p = Some n.
Proof. unfold put. destruct (path_eqb_spec p p); auto. contradiction. Qed.
Lemma put_neq fs p n q : q <> p -> put fs p n q = fs q.
Proof. unfold put. destruct (path_eqb_spec q p); auto. contradiction. Qed.

(** ** Links do not change *)
Definition same_links (fs fs' : fsys) : Prop := forall p a t, fs p = Some (Link a t) <-> fs' p = Some (Link a t).
Lemma same_links_refl fs : same_links fs fs.
Proof. intros p a t. tauto. Qed.
Lemma same_links_trans a b c : same_links a b -> same_links b c -> same_links a c.
Proof. intros H1 H2 p x t. rewrite (H1 p x t). apply H2. Qed.
Lemma put_links fs p n : (forall a t, fs p <> Some (Link a t)) -> (forall a t, n <> Link a t) -> same_links fs (put fs p n).
Proof.
  intros H1 H2 q a t. unfold put. destruct (path_eqb_spec q p); [subst|tauto]. split; intros H; [destruct (H1 _ _ H)|injection H as H; destruct (H2 _ _ H)].
Qed.
Lemma resolve_links fs fs' fuel : same_links fs fs' -> forall cur comps, resolve fs fuel cur comps = resolve fs' fuel cur comps.
Proof.
  intros L. induction fuel as [|f IH]; auto. intros cur [|c rest]; auto. cbn. destruct (here c); auto. destruct (String.eqb c ".."); auto.
  destruct (fs (cur ++ [c])) as [[| |ab t]|] eqn:E, (fs' (cur ++ [c])) as [[| |ab' t']|] eqn:E'; auto;
    try (apply L in E; rewrite E' in E; discriminate); try (apply L in E'; rewrite E' in E; discriminate).
  apply L in E. rewrite E' in E. injection E as -> ->. auto.
Qed.

(** ** The operating system goes where Python said *)
Lemma resolve_empties fs fuel cur e q : Forall (eq ""%string) e -> resolve fs fuel cur e = Some q -> q = cur.
Proof.
  revert cur e. induction fuel as [|f IH]; [discriminate|]. intros cur e F H. destruct e as [|c e]; cbn in H; [congruence|].
  inversion F; subst. cbn in H. eapply IH; eauto.
Qed.
Lemma locate_resolve fs f : forall f' cur comps e p q, Forall (eq ""%string) e ->
  locate fs f cur comps = Some p -> resolve fs f' cur (comps ++ e) = Some q -> p = q.
Proof.
  induction f as [|f IH]; [discriminate|]. intros f' cur comps e p q F L R. destruct comps as [|c rest]; cbn in L.
  - injection L as <-. symmetry. eapply resolve_empties; eauto.
  - destruct f' as [|f']; [discriminate|]. cbn in R. destruct (fs cur) as [[]|]; try discriminate.
    destruct (here c); [eapply IH; eauto|]. destruct (String.eqb c ".."); [eapply IH; eauto|].
    destruct (fs (cur ++ [c])) as [[| |ab t]|].
    + eapply IH; eauto.
    + destruct rest; [|discriminate]. injection L as <-. symmetry. eapply resolve_empties; eauto.
    + rewrite app_assoc in R. eapply IH; eauto.
    + destruct rest; [|discriminate]. injection L as <-. symmetry. eapply resolve_empties; eauto.
Qed.
(** Splitting a resolution at a located prefix. *)
Lemma locate_resolve_app fs f : forall f' cur a b p q,
  locate fs f cur a = Some p -> resolve fs f' cur (a ++ b) = Some q -> exists f'', resolve fs f'' p b = Some q.
Proof.
  induction f as [|f IH]; [discriminate|]. intros f' cur a b p q L R. destruct a as [|c rest]; cbn in L.
  - injection L as <-. eauto.
  - destruct f' as [|f']; [discriminate|]. cbn in R. destruct (fs cur) as [[]|]; try discriminate.
    destruct (here c); [eapply IH; eauto|]. destruct (String.eqb c ".."); [eapply IH; eauto|].
    destruct (fs (cur ++ [c])) as [[| |ab t]|].
    + eapply IH; eauto.
    + destruct rest; [|discriminate]. injection L as <-. eauto.
    + rewrite app_assoc in R. eapply IH; eauto.
    + destruct rest; [|discriminate]. injection L as <-. eauto.
Qed.

(** ** Trees *)
Lemma tree_prefix fs : tree fs -> forall p r, fs (p ++ r) <> None -> r <> [] -> fs p = Some Dir.
Proof.
  intros [T0 T] p r. induction r as [|c r IH] using rev_ind; [contradiction|]. intros H _. rewrite app_assoc in H. apply T in H.
  destruct r as [|x r]; [rewrite app_nil_r in H; auto|]. apply IH; [congruence|discriminate].
Qed.
Lemma tree_below fs : tree fs -> forall p r, fs p = None -> fs (p ++ r) = None.
Proof.
  intros T p r N. destruct r as [|c r]; [rewrite app_nil_r; auto|]. destruct (fs (p ++ c :: r)) eqn:E; auto.
  assert (fs p = Some Dir) by (eapply tree_prefix; [auto|rewrite E; discriminate|discriminate]). congruence.
Qed.
Lemma tree_put fs p n : tree fs -> (exists d c, p = d ++ [c] /\ fs d = Some Dir) ->
  (fs p = None \/ (exists x, fs p = Some (File x)) /\ n <> Dir) -> (exists x, n = File x) \/ n = Dir -> tree (put fs p n).
Proof.
  intros [T0 T] (d & c & -> & Hd) Hp Hn. split.
  - rewrite put_neq; auto. destruct d; discriminate.
  - intros q x H. destruct (list_eq_dec string_dec (q ++ [x]) (d ++ [c])) as [E|E].
    + apply app_inj_tail in E as [-> ->]. destruct (list_eq_dec string_dec d (d ++ [c])) as [E|E].
      * apply (f_equal (@length _)) in E. rewrite app_length in E. cbn in E. lia.
      * rewrite put_neq; auto.
    + rewrite put_neq in H by auto. pose proof (T q x H) as Hq. destruct (list_eq_dec string_dec q (d ++ [c])) as [->|E']; [|rewrite put_neq; auto].
      destruct Hp as [Hp|[[y Hp] _]]; congruence.
Qed.
(** Beneath something missing there are no links: resolution is lexical. *)
Lemma resolve_missing fs : tree fs -> forall f p comps q, fs p = None -> ~ In ".."%string comps -> resolve fs f p comps = Some q -> inside p q.
Proof.
  intros T. induction f as [|f IH]; [discriminate|]. intros p comps q N D R. destruct comps as [|c rest]; cbn in R.
  - injection R as <-. exists []. rewrite app_nil_r. auto.
  - assert (D' : ~ In ".."%string rest) by (intros H; apply D; right; auto).
    destruct (here c); [eapply IH; eauto|]. destruct (String.eqb_spec c ".."); [destruct D; left; auto|].
    rewrite (tree_below fs T p [c] N) in R. destruct (IH (p ++ [c]) rest q) as [r ->]; auto.
    + apply (tree_below fs T p [c] N).
    + exists (c :: r). rewrite <- app_assoc. auto.
Qed.
(** A missing location is in an existing directory. *)
Lemma locate_parent fs : tree fs -> forall f cur comps p, locate fs f cur comps = Some p -> fs cur <> None -> fs p = None ->
  exists d z, p = d ++ [z] /\ fs d = Some Dir.
Proof.
  intros T. induction f as [|f IH]; [discriminate|]. intros cur [|z rest] p L H N; cbn in L; [congruence|].
  destruct (fs cur) as [[]|] eqn:Ec; try discriminate.
  destruct (here z); [eapply IH; eauto; congruence|]. destruct (String.eqb z "..").
  - eapply IH; [exact L| |auto]. destruct cur as [|y cur _] using rev_ind; [cbn; congruence|]. rewrite removelast_last.
    destruct T as [_ T]. rewrite (T cur y); [discriminate|congruence].
  - destruct (fs (cur ++ [z])) as [[| |ab t]|] eqn:Ez.
    + eapply IH; eauto. congruence.
    + destruct rest; [|discriminate]. injection L as <-. congruence.
    + eapply IH; [exact L| |auto]. destruct ab; [destruct T as [-> _]; discriminate|congruence].
    + destruct rest; [|discriminate]. injection L as <-. eauto.
Qed.
Lemma prefix_cases {A} (a b c d : list A) : a ++ b = c ++ d -> (exists x, c = a ++ x) \/ (exists x, a = c ++ x).
Proof.
  revert c. induction a as [|y a IH]; intros [|z c] E; cbn in E.
  - left. exists []. auto.
  - left. eexists. reflexivity.
  - right. eexists. reflexivity.
  - injection E as -> E. destruct (IH c E) as [[x ->]|[x ->]]; [left|right]; eexists; reflexivity.
Qed.

(** ** Steps *)
(** [fs'] is [fs] with possibly some new directories, each satisfying [P]. *)
Definition grows (P : path -> Prop) (fs fs' : fsys) : Prop :=
  forall p, fs' p = fs p \/ (fs p = None /\ fs' p = Some Dir /\ P p).
Lemma grows_refl P fs : grows P fs fs.
Proof. intros p. auto. Qed.
Lemma grows_trans P a b c : grows P a b -> grows P b c -> grows P a c.
Proof.
  intros H1 H2 p. destruct (H1 p) as [E1|(E1 & E1' & Q1)], (H2 p) as [E2|(E2 & E2' & Q2)].
  - left. congruence.
  - right. repeat split; auto. congruence.
  - right. repeat split; auto. congruence.
  - congruence.
Qed.
Lemma grows_links P fs fs' : grows P fs fs' -> same_links fs fs'.
Proof. intros H p a t. destruct (H p) as [->|(-> & -> & _)]; [tauto|]. split; discriminate. Qed.
(** What may be created while working on the (full) name [full] that resolves to [q]: a
    directory at a located parent of some component of the name; inside the root if the name
    never goes up. *)
Section Member.
  Variables (root : path) (pf kf : nat) (exist_ok : bool) (full : list string) (q : path).
  Let P (fs : fsys) (p : path) := fs root = Some Dir -> inside root q -> ~ In ".."%string full -> inside root p.
  Lemma mkdir_grows fs pre rest fs' : tree fs -> full = pre ++ rest -> resolve fs pf [] full = Some q ->
    mkdir fs kf pre = Ok fs' -> grows (P fs) fs fs' /\ tree fs' /\ (rest = [] -> fs' q = Some Dir /\ forall p, p <> q -> fs' p = fs p).
  Proof.
    intros T Ef R M. unfold mkdir in M. destruct (rev pre) as [|c rhead] eqn:Er; [discriminate|].
    assert (Ep : pre = rev rhead ++ [c]) by (rewrite <- (rev_involutive pre), Er; reflexivity).
    destruct (locate fs kf [] (rev rhead)) as [d|] eqn:L; [|discriminate].
    destruct (fs d) as [[]|] eqn:Ed; try discriminate. destruct (here c || String.eqb c "..") eqn:Hc; [discriminate|].
    apply orb_false_iff in Hc as [H1 H2]. destruct (fs (d ++ [c])) eqn:Ec; [discriminate|]. injection M as <-.
    assert (Q : exists f'', resolve fs f'' (d ++ [c]) rest = Some q).
    { rewrite Ef, Ep, <- app_assoc in R. destruct (locate_resolve_app _ _ _ _ _ _ _ _ L R) as [f R']. cbn [app] in R'.
      destruct f as [|f]; [discriminate|]. cbn in R'. rewrite H1, H2, Ec in R'. eauto. }
    destruct Q as [f'' Q]. split; [|split].
    - intros p. destruct (list_eq_dec string_dec p (d ++ [c])) as [->|N]; [|left; apply put_neq; auto].
      right. split; auto. split; [apply put_eq|]. intros HR [r ->] ND.
      assert (NR : ~ In ".."%string rest) by (intros H; apply ND; rewrite Ef; apply in_or_app; auto).
      destruct (resolve_missing fs T f'' (d ++ [c]) rest _ Ec NR Q) as [r' E'].
      destruct (prefix_cases _ _ _ _ E') as [[x E]|[x E]]; [exists x; auto|].
      exists []. destruct x as [|y x]; [rewrite app_nil_r in *; auto|].
      assert (fs (d ++ [c]) = Some Dir); [|congruence]. apply (tree_prefix fs T (d ++ [c]) (y :: x)); [|discriminate]. rewrite <- E, HR. discriminate.
    - apply tree_put; auto. exists d, c. auto.
    - intros ->. destruct f'' as [|f'']; [discriminate|]. cbn in Q. injection Q as Q. rewrite <- Q. split; [apply put_eq|].
      intros p N. apply put_neq. auto.
  Qed.
  Lemma makedirs_grows rpre : forall fs rest fs' r, tree fs -> full = rev rpre ++ rest -> resolve fs pf [] full = Some q ->
    makedirs fs kf exist_ok rpre = (fs', r) -> grows (P fs) fs fs' /\ tree fs'.
  Proof.
    induction rpre as [|tail rhead IH]; intros fs rest fs' r T Ef R M.
    - injection M as <- <-. split; auto. apply grows_refl.
    - cbn [makedirs] in M. cbn [rev] in Ef. rewrite <- app_assoc in Ef.
      destruct (String.eqb tail ""); [eapply IH; eauto|].
      set (ex := exists_at fs kf (rev rhead)) in *.
      assert (G : exists fs1 r1, (if ex then (fs, Ok tt) else match makedirs fs kf exist_ok rhead with (fs1, Err FileExistsError) => (fs1, Ok tt) | x => x end) = (fs1, r1)
        /\ grows (P fs) fs fs1 /\ tree fs1).
      { destruct ex; [exists fs, (Ok tt); split; auto; split; auto; apply grows_refl|].
        destruct (makedirs fs kf exist_ok rhead) as [fs1 r1] eqn:E. destruct (IH _ _ _ _ T Ef R E) as [G1 G2].
        exists fs1. destruct r1 as [u|[]]; eexists; split; try reflexivity; auto. }
      destruct G as (fs1 & r1 & E & G1 & G2). rewrite E in M. destruct r1 as [u|e]; [|injection M as <- <-; auto].
      destruct (negb ex && String.eqb tail "."); [injection M as <- <-; auto|].
      assert (R1 : resolve fs1 pf [] full = Some q) by (rewrite <- (resolve_links _ _ _ (grows_links _ _ _ G1)); auto).
      destruct (mkdir fs1 kf (rev (tail :: rhead))) as [fs2|e] eqn:EM.
      + injection M as <- <-. assert (Ef' : full = rev (tail :: rhead) ++ rest) by (cbn [rev]; rewrite <- app_assoc; auto).
        destruct (mkdir_grows fs1 _ _ _ G2 Ef' R1 EM) as (M1 & M2 & _). split; auto. eapply grows_trans; [exact G1|].
        intros p. destruct (M1 p) as [H|(H1 & H2 & H3)]; auto. right. repeat split; auto. intros HR. apply H3.
        destruct (G1 root) as [H|(H & _ & _)]; congruence.
      + destruct (exist_ok && isdir_at fs1 kf (rev (tail :: rhead))); injection M as <- <-; auto.
  Qed.
End Member.
Lemma drop_here_spec l : exists e, l = e ++ drop_here l /\ Forall (eq ""%string) e.
Proof.
  induction l as [|c l IH]; cbn; [exists []; auto|]. destruct (String.eqb_spec c "").
  - destruct IH as (e0 & E & F). exists (c :: e0). split; [cbn; congruence|]. constructor; auto.
  - exists []. auto.
Qed.
(** The effect of one member whose name resolves to [q] inside the root. *)
Lemma extract_member_effect fs pf kf ek root m fs' r q : tree fs -> fs root = Some Dir -> inside root q ->
  resolve fs pf [] (join root m) = Some q -> extract_member fs kf ek root m = (fs', r) ->
  (forall p, fs' p = fs p \/
     (fs p = None /\ fs' p = Some Dir /\ (~ In ".."%string (join root m) -> inside root p)) \/
     (inside root p /\ (fs p = None \/ exists c, fs p = Some (File c)) /\ (fs' p = Some Dir \/ exists c, fs' p = Some (File c)))) /\
  tree fs' /\ same_links fs fs'.
Proof.
  intros T HR IQ R M. unfold extract_member in M.
  set (target := rev (drop_here (rev (join root m)))) in *.
  destruct (drop_here_spec (rev (join root m))) as (e & E & F).
  assert (EJ : join root m = target ++ rev e) by (rewrite <- (rev_involutive (join root m)), E, rev_app_distr; auto).
  assert (Fr : Forall (eq ""%string) (rev e)) by (apply Forall_rev; auto).
  assert (G : exists fs1 r1, (if exists_at fs kf (removelast target) then (fs, Ok tt) else makedirs fs kf ek (rev (removelast target))) = (fs1, r1) /\
     grows (fun p => ~ In ".."%string (join root m) -> inside root p) fs fs1 /\ tree fs1).
  { destruct (exists_at fs kf (removelast target)); [exists fs, (Ok tt); split; auto; split; auto; apply grows_refl|].
    destruct (makedirs fs kf ek (rev (removelast target))) as [fs1 r1] eqn:EM. exists fs1, r1. split; auto.
    destruct target as [|x tg] eqn:Et.
    - cbn in EM. injection EM as <- <-. split; auto. apply grows_refl.
    - assert (Ef : join root m = rev (rev (removelast target)) ++ [last target ""%string] ++ rev e).
      { rewrite rev_involutive, app_assoc, <- app_removelast_last by (rewrite Et; discriminate). rewrite Et. auto. }
      rewrite <- Et in EM. destruct (makedirs_grows root pf kf ek (join root m) q _ _ _ _ _ T Ef R EM) as [G1 G2]. split; auto.
      intros p. destruct (G1 p) as [H|(H1 & H2 & H3)]; auto. }
  destruct G as (fs1 & r1 & EG & G1 & G2). rewrite EG in M. pose proof (grows_links _ _ _ G1) as SL.
  assert (R1 : resolve fs1 pf [] (join root m) = Some q) by (rewrite <- (resolve_links _ _ _ SL); auto).
  assert (HR1 : fs1 root = Some Dir) by (destruct (G1 root) as [H|(H & _)]; congruence).
  assert (D : (forall p, fs1 p = fs p \/
     (fs p = None /\ fs1 p = Some Dir /\ (~ In ".."%string (join root m) -> inside root p)) \/
     (inside root p /\ (fs p = None \/ exists c, fs p = Some (File c)) /\ (fs1 p = Some Dir \/ exists c, fs1 p = Some (File c)))) /\ tree fs1 /\ same_links fs fs1).
  { split; auto. intros p. destruct (G1 p) as [H|H]; auto. }
  destruct r1 as [u|e1]; [|injection M as <- <-; exact D].
  destruct (m_kind m) as [c| | |]; try (injection M as <- <-; exact D).
  - destruct (locate fs1 kf [] target) as [p|] eqn:L; [|injection M as <- <-; exact D].
    assert (p = q) by (eapply locate_resolve; [exact Fr|exact L|rewrite <- EJ; exact R1]). subst p.
    assert (Wr : fs1 q = None \/ (exists x, fs1 q = Some (File x)) -> (put fs1 q (File c), Ok tt) = (fs', r) ->
      (forall p, fs' p = fs p \/
        (fs p = None /\ fs' p = Some Dir /\ (~ In ".."%string (join root m) -> inside root p)) \/
        (inside root p /\ (fs p = None \/ exists c, fs p = Some (File c)) /\ (fs' p = Some Dir \/ exists c, fs' p = Some (File c)))) /\ tree fs' /\ same_links fs fs').
    { intros Hq Hw. injection Hw as <- <-. split; [|split].
      - intros p. destruct (list_eq_dec string_dec p q) as [->|N].
        + right; right. rewrite put_eq. split; auto. split; [|right; eauto].
          destruct (G1 q) as [H|(H & _ & _)]; [rewrite <- H; auto|left; auto].
        + rewrite put_neq by auto. destruct (G1 p) as [H|H]; auto.
      - apply tree_put; auto.
        + destruct q as [|y q'] using rev_ind; [destruct G2 as [G0 _]; rewrite G0 in Hq; destruct Hq as [Hq|[x Hq]]; discriminate|].
          exists q', y. split; auto. clear IHq'. 
          destruct Hq as [Hq|[x Hq]].
          * destruct (locate_parent fs1 G2 _ _ _ _ L) as (d & z & E' & Hd); auto; [destruct G2 as [-> _]; discriminate|].
            apply app_inj_tail in E' as [-> ->]. auto.
          * apply (proj2 G2 q' y). congruence.
        + destruct Hq as [Hq|Hq]; [left; auto|right; split; auto; discriminate].
        + left. eauto.
      - eapply same_links_trans; [exact SL|]. apply put_links; [|intros; discriminate]. intros a t. destruct Hq as [->|[x ->]]; discriminate.
        }
    destruct (fs1 q) as [[|x|a t]|] eqn:Eq; try (injection M as <- <-; exact D); apply Wr; eauto.
  - destruct (mkdir fs1 kf target) as [fs2|e2] eqn:EM.
    + injection M as <- <-.
      destruct (mkdir_grows root pf kf (join root m) q fs1 target (rev e) fs2 G2 EJ R1 EM) as (M1 & M2 & _). split; [|split]; auto.
      * intros p. destruct (M1 p) as [H|(H1 & H2 & H3)].
        -- rewrite H. destruct (G1 p) as [H'|H']; auto.
        -- right; left. destruct (G1 p) as [H'|(H' & H'' & _)]; [|congruence]. rewrite <- H'. auto.
      * eapply same_links_trans; [exact SL|]. eapply grows_links; eauto.
    + destruct e2; try (injection M as <- <-; exact D). destruct (isdir_at _ _ _); injection M as <- <-; exact D.
Qed.

(** ** The whole archive *)
Lemma commonpath_inside root t : commonpath root t = root <-> inside root t.
Proof.
  revert t. induction root as [|a root IH]; intros t; cbn.
  - split; auto. intros _. exists t. auto.
  - destruct t as [|b t]; [split; [discriminate|intros [r E]; discriminate]|]. destruct (String.eqb_spec a b) as [->|N].
    + split.
      * intros E. injection E as E. apply (proj1 (IH t)) in E as [r ->]. exists r. auto.
      * intros [r E]. injection E as E. f_equal. apply IH. exists r. auto.
    + split; [discriminate|]. intros [r E]. injection E as E _. congruence.
Qed.
Lemma check_member_ok fs pf root m u : check_member fs pf root m = Ok u <->
  ~ is_link m /\ exists q, resolve fs pf [] (join root m) = Some q /\ inside root q.
Proof.
  unfold check_member, is_link. destruct u. destruct (m_kind m) as [c| |a t|]; try (split; [discriminate|intros [[] _]; exact I]);
    (destruct (resolve fs pf [] (join root m)) as [q|]; [destruct (path_eqb_spec (commonpath root q) root) as [E|E]|]).
  all: try (split; [discriminate|intros [_ (q' & E1 & E2)]; try discriminate E1; injection E1 as <-; apply (proj2 (commonpath_inside _ _)) in E2; contradiction]).
  all: split; auto; intros _; split; [tauto|]; eexists; split; eauto; apply commonpath_inside; auto.
Qed.
Lemma mapM_ok_iff {A B} (f : A -> result B) l : (exists r, mapM f l = Ok r) <-> forall x, In x l -> exists y, f x = Ok y.
Proof.
  induction l as [|x l IH]; cbn; [split; [tauto|eauto]|]. split.
  - intros [r H]. destruct (f x) as [y|] eqn:E; [|discriminate]. cbn in H. destruct (mapM f l) as [r'|] eqn:E'; [|discriminate].
    intros z [->|Hz]; [eauto|]. apply (proj1 IH); eauto.
  - intros H. destruct (H x (or_introl eq_refl)) as [y ->]. destruct (proj2 IH) as [r ->]; [intros z Hz; apply H; auto|]. cbn. eauto.
Qed.
Definition effect (clean : Prop) (root : path) (fs fs' : fsys) : Prop :=
  forall p, fs' p = fs p \/
     (fs p = None /\ fs' p = Some Dir /\ (clean -> inside root p)) \/
     (inside root p /\ (fs p = None \/ exists c, fs p = Some (File c)) /\ (fs' p = Some Dir \/ exists c, fs' p = Some (File c))).
Lemma effect_refl cl root fs : effect cl root fs fs.
Proof. intros p. auto. Qed.
Lemma effect_trans cl root a b c : effect cl root a b -> effect cl root b c -> effect cl root a c.
Proof.
  intros H1 H2 p. destruct (H2 p) as [E2|[(E2 & F2 & C2)|(I2 & E2 & F2)]].
  - rewrite E2. apply H1.
  - destruct (H1 p) as [E1|[(E1 & F1 & C1)|(I1 & E1 & F1)]].
    + right; left. rewrite <- E1. auto.
    + congruence.
    + destruct F1 as [F1|[x F1]]; congruence.
  - destruct (H1 p) as [E1|[(E1 & F1 & C1)|(I1 & E1 & F1)]].
    + right; right. rewrite <- E1. auto.
    + destruct E2 as [E2|[x E2]]; congruence.
    + right; right. auto.
Qed.
Lemma extractall_effect pf kf ek root (cl : Prop) l : forall fs fs' r, tree fs -> fs root = Some Dir ->
  (forall m, In m l -> exists q, resolve fs pf [] (join root m) = Some q /\ inside root q) ->
  (cl -> forall m, In m l -> ~ In ".."%string (join root m)) ->
  extractall fs kf ek root l = (fs', r) -> effect cl root fs fs' /\ tree fs' /\ same_links fs fs'.
Proof.
  induction l as [|m l IH]; intros fs fs' r T HR HQ HC M; cbn in M.
  - injection M as <- <-. split; [apply effect_refl|]. split; auto. apply same_links_refl.
  - destruct (extract_member fs kf ek root m) as [fs1 r1] eqn:E. destruct (HQ m (or_introl eq_refl)) as (q & R & IQ).
    destruct (extract_member_effect fs pf kf ek root m fs1 r1 q T HR IQ R E) as (F & T1 & L1).
    assert (F' : effect cl root fs fs1).
    { intros p. destruct (F p) as [H|[(H1 & H2 & H3)|H]]; auto. right; left. split; auto. split; auto. intros C. apply H3. apply HC; auto. left; auto. }
    destruct r1 as [u|e]; [|injection M as <- <-; auto].
    assert (HR1 : fs1 root = Some Dir).
    { destruct (F root) as [H|[(H & _)|(_ & [H|[x H]] & _)]]; congruence. }
    destruct (IH fs1 fs' r T1 HR1) as (F2 & T2 & L2); auto.
    + intros m' Hm. destruct (HQ m' (or_intror Hm)) as (q' & R' & I'). exists q'. split; auto. rewrite <- (resolve_links fs fs1); auto.
    + intros C m' Hm. apply HC; auto. right; auto.
    + split; [eapply effect_trans; eauto|]. split; auto. eapply same_links_trans; eauto.
Qed.

(** Resolution never leaves ".." behind. *)
Lemma resolve_clean fs f : forall cur comps q, ~ In ".."%string cur -> resolve fs f cur comps = Some q -> ~ In ".."%string q.
Proof.
  induction f as [|f IH]; [discriminate|]. intros cur [|c rest] q N R; cbn in R; [congruence|].
  destruct (here c); [eapply IH; eauto|]. destruct (String.eqb_spec c "..").
  - eapply IH; [|exact R]. intros H. apply N. destruct cur as [|y cur _] using rev_ind; [auto|]. rewrite removelast_last in H. apply in_or_app; auto.
  - destruct (fs (cur ++ [c])) as [[| |ab t]|]; (eapply IH; [|exact R]).
    3: destruct ab; auto.
    all: intros H; apply in_app_or in H as [H|[H|[]]]; auto.
Qed.
Lemma safe_effect fs pf kf ek dest l fs' r root : tree fs -> resolve fs pf [] dest = Some root -> fs root = Some Dir ->
  safe_extractall fs pf kf ek dest l = (fs', r) -> effect (forall m, In m l -> ~ climbs m) root fs fs'.
Proof.
  intros T R HR M. unfold safe_extractall in M. rewrite R in M. destruct (mapM (check_member fs pf root) l) as [us|e] eqn:E;
    [|injection M as <- <-; apply effect_refl].
  assert (C : forall m, In m l -> exists q, resolve fs pf [] (join root m) = Some q /\ inside root q).
  { intros m Hm. destruct (proj1 (mapM_ok_iff _ _) (ex_intro _ us E) m Hm) as [u H]. apply (proj1 (check_member_ok _ _ _ _ _)) in H. tauto. }
  destruct (extractall_effect pf kf ek root (forall m, In m l -> ~ climbs m) l fs fs' r T HR C) as (F & _); auto.
  intros N m Hm H. unfold join in H. destruct (m_abs m); [exact (N m Hm H)|]. apply in_app_or in H as [H|H]; [|exact (N m Hm H)].
  eapply resolve_clean; [|exact R|exact H]. cbn. tauto.
Qed.

(** Without links resolution is lexical. *)
Lemma resolve_normal fs : no_links fs -> forall f cur comps, (length comps < f)%nat -> resolve fs f cur comps = Some (normal cur comps).
Proof.
  intros NL. induction f as [|f IH]; [lia|]. intros cur [|c rest] L; cbn; auto. cbn in L. unfold here.
  destruct (string_dec c "") as [->|N1]; [apply IH; lia|]. destruct (string_dec c ".") as [->|N2]; [apply IH; lia|].
  rewrite (proj2 (String.eqb_neq _ _) N1), (proj2 (String.eqb_neq _ _) N2). cbn.
  destruct (string_dec c "..") as [->|N3]; [apply IH; lia|]. rewrite (proj2 (String.eqb_neq _ _) N3).
  destruct (fs (cur ++ [c])) as [[| |ab t]|] eqn:E; try (apply IH; lia). destruct (NL _ _ _ E).
Qed.

(** ** Extraction of archives with ordinary names *)
Lemma ordinary_here c : ordinary c -> here c = false /\ String.eqb c ".." = false /\ String.eqb c "" = false /\ String.eqb c "." = false.
Proof.
  intros (A & B & C). unfold here. rewrite (proj2 (String.eqb_neq _ _) A), (proj2 (String.eqb_neq _ _) B), (proj2 (String.eqb_neq _ _) C). auto.
Qed.
Lemma locate_plain fs : no_links fs -> forall comps f cur, Forall ordinary comps -> (length comps < f)%nat -> fs cur = Some Dir ->
  (forall a, above a comps -> fs (cur ++ a) = Some Dir) -> locate fs f cur comps = Some (cur ++ comps).
Proof.
  intros NL. induction comps as [|c rest IH]; intros f cur P L D H; (destruct f as [|f]; [lia|]); cbn.
  - rewrite app_nil_r. auto.
  - inversion P as [|? ? Pc Pr]; subst. destruct (ordinary_here c Pc) as (-> & -> & _ & _). rewrite D. cbn in L.
    assert (E : cur ++ c :: rest = (cur ++ [c]) ++ rest) by (rewrite <- app_assoc; reflexivity).
    destruct rest as [|c2 rest].
    + destruct (fs (cur ++ [c])) as [[| |ab t]|] eqn:F; auto; [|destruct (NL _ _ _ F)].
      destruct f as [|f]; [lia|]. reflexivity.
    + assert (F : fs (cur ++ [c]) = Some Dir) by (apply H; exists (c2 :: rest); split; [discriminate|reflexivity]).
      rewrite F, E. apply IH; auto; [cbn in *; lia|]. intros a (r & R & Er). rewrite <- app_assoc. cbn. apply H. exists r. split; auto. rewrite Er. reflexivity.
Qed.
Lemma locate_name fs : no_links fs -> forall comps f cur p, Forall ordinary comps -> locate fs f cur comps = Some p -> p = cur ++ comps.
Proof.
  intros NL. induction comps as [|c rest IH]; intros f cur p P L; (destruct f as [|f]; [discriminate|]); cbn in L.
  - rewrite app_nil_r. congruence.
  - inversion P as [|? ? Pc Pr]; subst. destruct (ordinary_here c Pc) as (E1 & E2 & _ & _). rewrite E1, E2 in L.
    destruct (fs cur) as [[]|]; try discriminate.
    assert (E : cur ++ c :: rest = (cur ++ [c]) ++ rest) by (rewrite <- app_assoc; reflexivity). rewrite E.
    destruct (fs (cur ++ [c])) as [[| |ab t]|] eqn:F; [apply (IH f); auto| |destruct (NL _ _ _ F)|];
      (destruct rest; [rewrite app_nil_r; congruence|discriminate]).
Qed.
Lemma above_app (a w v : list string) : above a w -> above a (w ++ v).
Proof. intros (r & R & ->). exists (r ++ v). split; [destruct r; [contradiction|discriminate]|]. apply app_assoc_reverse. Qed.
Lemma above_last (a d : list string) c : above a (d ++ [c]) -> a = d \/ above a d.
Proof.
  intros (r & R & E). destruct r as [|x r _] using rev_ind; [contradiction|]. rewrite app_assoc in E. apply app_inj_tail in E as [E _].
  destruct r as [|y r]; [left; rewrite app_nil_r in E; auto|]. right. exists (y :: r). split; [discriminate|auto].
Qed.
Lemma tree_above fs w a : tree fs -> fs w <> None -> above a w -> fs a = Some Dir.
Proof. intros T H (r & R & E). subst. eapply tree_prefix; eauto. Qed.
Lemma exists_plain fs f comps : tree fs -> no_links fs -> Forall ordinary comps -> (length comps < f)%nat ->
  exists_at fs f comps = match fs comps with Some _ => true | None => false end.
Proof.
  intros T NL P L. unfold exists_at. destruct (fs comps) as [n|] eqn:E.
  - rewrite (locate_plain fs NL comps f [] P L); [cbn [app]; rewrite E; auto|apply T|]. intros a A. apply (tree_above fs comps); auto. congruence.
  - destruct (locate fs f [] comps) as [p|] eqn:Lo; auto. apply locate_name in Lo; auto. cbn in Lo. subst. rewrite E. auto.
Qed.
Lemma isdir_plain fs f comps : tree fs -> no_links fs -> Forall ordinary comps -> (length comps < f)%nat ->
  isdir_at fs f comps = match fs comps with Some Dir => true | _ => false end.
Proof.
  intros T NL P L. unfold isdir_at. destruct (fs comps) as [n|] eqn:E.
  - rewrite (locate_plain fs NL comps f [] P L); [cbn [app]; rewrite E; auto|apply T|]. intros a A. apply (tree_above fs comps); auto. congruence.
  - destruct (locate fs f [] comps) as [p|] eqn:Lo; auto. apply locate_name in Lo; auto. cbn in Lo. subst. rewrite E. auto.
Qed.
Lemma mkdir_plain fs f d c : tree fs -> no_links fs -> Forall ordinary d -> ordinary c -> (length d < f)%nat -> fs d = Some Dir ->
  mkdir fs f (d ++ [c]) = match fs (d ++ [c]) with None => Ok (put fs (d ++ [c]) Dir) | Some _ => Err FileExistsError end.
Proof.
  intros T NL P Pc L D. unfold mkdir. rewrite rev_unit, rev_involutive.
  rewrite (locate_plain fs NL d f [] P L); [|apply T|intros a A; apply (tree_above fs d); auto; congruence].
  cbn [app]. rewrite D. destruct (ordinary_here c Pc) as (-> & -> & _ & _). reflexivity.
Qed.
Lemma put_dir_tree fs d c : tree fs -> no_links fs -> fs d = Some Dir -> fs (d ++ [c]) = None ->
  tree (put fs (d ++ [c]) Dir) /\ no_links (put fs (d ++ [c]) Dir).
Proof.
  intros T NL D N. split.
  - apply tree_put; auto. exists d, c. auto.
  - intros p a t H. unfold put in H. destruct (path_eqb p (d ++ [c])); [discriminate|]. destruct (NL _ _ _ H).
Qed.
Lemma app_neq_self {A} (d r : list A) : r <> [] -> d <> d ++ r.
Proof. intros R E. apply R. apply (app_inv_head d). rewrite app_nil_r. auto. Qed.
Lemma makedirs_plain ek f comps : forall fs, tree fs -> no_links fs -> Forall ordinary comps -> (length comps < f)%nat ->
  fs comps = None -> (forall a, above a comps -> forall x, fs a <> Some (File x)) ->
  exists fs', makedirs fs f ek (rev comps) = (fs', Ok tt) /\ tree fs' /\ no_links fs' /\
    fs' comps = Some Dir /\ (forall a, above a comps -> fs' a = Some Dir) /\
    forall p, p <> comps -> ~ above p comps -> fs' p = fs p.
Proof.
  induction comps as [|c d IH] using rev_ind; intros fs T NL P L N H.
  - destruct T as [T _]. congruence.
  - rewrite rev_unit. cbn [makedirs]. apply Forall_app in P as [Pd Pc]. inversion Pc as [|? ? Oc _]; subst. rewrite app_length in L. cbn in L.
    destruct (ordinary_here c Oc) as (_ & _ & -> & E2). rewrite rev_involutive. rewrite exists_plain by (auto; lia).
    assert (Ad : above d (d ++ [c])) by (exists [c]; split; [discriminate|auto]).
    assert (Step : forall fs1, tree fs1 -> no_links fs1 -> fs1 d = Some Dir -> fs1 (d ++ [c]) = None ->
      mkdir fs1 f (rev (c :: rev d)) = Ok (put fs1 (d ++ [c]) Dir)).
    { intros fs1 T1 NL1 D1 N1. cbn [rev]. rewrite rev_involutive. rewrite mkdir_plain by (auto; lia). rewrite N1. auto. }
    destruct (fs d) as [[|x|ab t]|] eqn:D.
    + cbn [negb andb]. rewrite Step by auto. eexists. split; [reflexivity|]. destruct (put_dir_tree fs d c T NL D N) as [T' NL'].
      split; [auto|]. split; [auto|]. split; [apply put_eq|]. split.
      * intros a A. rewrite put_neq by (destruct A as (r & R & E); rewrite E; apply app_neq_self; auto).
        destruct (above_last _ _ _ A) as [->|A']; auto. apply (tree_above fs d); auto. congruence.
      * intros p Np _. apply put_neq. auto.
    + destruct (H d Ad x D).
    + destruct (NL _ _ _ D).
    + destruct (IH fs T NL Pd ltac:(lia) D) as (fs1 & M & T1 & NL1 & D1 & A1 & O1).
      { intros a A. apply H. apply above_app. auto. }
      rewrite M. cbn [negb andb]. rewrite E2.
      assert (N1 : fs1 (d ++ [c]) = None).
      { rewrite O1; auto.
        - intros E. symmetry in E. apply app_neq_self in E; auto. discriminate.
        - intros (r & R & E). rewrite <- app_assoc in E. apply app_neq_self in E; auto. discriminate. }
      rewrite Step by auto. eexists. split; [reflexivity|]. destruct (put_dir_tree fs1 d c T1 NL1 D1 N1) as [T' NL'].
      split; [auto|]. split; [auto|]. split; [apply put_eq|]. split.
      * intros a A. rewrite put_neq by (destruct A as (r & R & E); rewrite E; apply app_neq_self; auto).
        destruct (above_last _ _ _ A) as [->|A']; auto.
      * intros p Np NA. rewrite put_neq by auto. apply O1; [intros ->; auto|]. intros A. apply NA, above_app. auto.
Qed.
Lemma drop_empties k l : (match l with c :: _ => c <> ""%string | [] => True end) -> drop_here (repeat ""%string k ++ l) = l.
Proof.
  intros H. induction k; cbn; auto. destruct l as [|c l]; auto. cbn. rewrite (proj2 (String.eqb_neq _ _) H). auto.
Qed.
Lemma rev_repeat {A} (x : A) k : rev (repeat x k) = repeat x k.
Proof. induction k; cbn; auto. rewrite IHk. clear. induction k; cbn; auto. rewrite IHk. auto. Qed.
Lemma target_of root m w : named m w -> rev (drop_here (rev (join root m))) = root ++ w.
Proof.
  intros (Ab & Nw & O & k & E). unfold join. rewrite Ab, E, app_assoc, rev_app_distr, rev_repeat.
  rewrite drop_empties; [apply rev_involutive|]. destruct w as [|c w _] using rev_ind; [contradiction|].
  rewrite app_assoc, rev_unit. apply Forall_app in O as [_ O]. inversion O as [|? ? [O1 _] _]; auto.
Qed.
Lemma above_root (root a w : list string) : above a w -> above (root ++ a) (root ++ w).
Proof. intros (r & R & ->). exists r. split; auto. apply app_assoc. Qed.
(** What the extraction of one member does. *)
Definition placed (root : path) (m : member) (w : list string) (fs fs' : fsys) : Prop :=
  (match m_kind m with KFile c => fs' (root ++ w) = Some (File c) | _ => fs' (root ++ w) = Some Dir end) /\
  (forall a, above a w -> fs' (root ++ a) = Some Dir) /\
  (forall p, (forall a, p = root ++ a -> a <> w /\ ~ above a w) -> fs' p = fs p).
Lemma extract_plain fs f ek root m w : tree fs -> no_links fs -> fs root = Some Dir -> Forall ordinary root -> named m w -> fits fs root m w ->
  (length (root ++ w) < f)%nat ->
  exists fs', extract_member fs f ek root m = (fs', Ok tt) /\ tree fs' /\ no_links fs' /\ fs' root = Some Dir /\ placed root m w fs fs'.
Proof.
  intros T NL HR PR Nm [F1 F2] L. unfold extract_member. rewrite (target_of root m w Nm). destruct Nm as (_ & Nw & O & _).
  destruct w as [|c v _] using rev_ind; [contradiction|]. clear Nw. apply Forall_app in O as [Ov Oc]. inversion Oc as [|? ? Oc' _]; subst. clear Oc.
  rewrite app_assoc in *. rewrite removelast_last. rewrite app_length in L. cbn in L.
  assert (PU : Forall ordinary (root ++ v)) by (apply Forall_app; auto).
  assert (Av : above v (v ++ [c])) by (exists [c]; split; [discriminate|auto]).
  assert (U : exists fs1, (if exists_at fs f (root ++ v) then (fs, Ok tt) else makedirs fs f ek (rev (root ++ v))) = (fs1, Ok tt) /\
    tree fs1 /\ no_links fs1 /\ fs1 (root ++ v) = Some Dir /\ (forall a, above a v -> fs1 (root ++ a) = Some Dir) /\
    (forall p, (forall a, p = root ++ a -> a <> v /\ ~ above a v) -> fs1 p = fs p) /\ fs1 root = Some Dir).
  { rewrite exists_plain by (auto; lia). destruct (fs (root ++ v)) as [[|x|ab t]|] eqn:D.
    - exists fs. split; [auto|]. split; [auto|]. split; [auto|]. split; [auto|]. split; [|auto].
      intros a A. apply (tree_above fs (root ++ v)); auto; [congruence|apply above_root; auto].
    - destruct (F1 v Av x D).
    - destruct (NL _ _ _ D).
    - assert (NF : forall a, above a (root ++ v) -> forall x, fs a <> Some (File x)).
      { intros a (r & R & E) x Fx. destruct (prefix_cases _ _ _ _ E) as [[b ->]|[b Eb]].
        - apply (F1 b) in Fx; auto. rewrite <- app_assoc in E. apply app_inv_head in E. exists (r ++ [c]). split; [destruct r; [contradiction|discriminate]|].
          rewrite app_assoc, <- E. auto.
        - destruct b as [|y b]; [rewrite app_nil_r in Eb; congruence|].
          assert (fs a = Some Dir) by (apply (tree_above fs root); [auto|congruence|exists (y :: b); split; [discriminate|auto]]). congruence. }
      destruct (makedirs_plain ek f (root ++ v) fs T NL PU ltac:(lia) D NF) as (fs1 & M & T1 & NL1 & D1 & A1 & O1).
      exists fs1. split; [exact M|]. split; [auto|]. split; [auto|]. split; [auto|]. split; [intros a A; apply A1, above_root; auto|].
      assert (Q : forall p, (forall a, p = root ++ a -> a <> v /\ ~ above a v) -> fs1 p = fs p).
      { intros p Hp. destruct (list_eq_dec string_dec p (root ++ v)) as [->|Np]; [destruct (Hp v eq_refl); congruence|].
        destruct (fs p) as [n|] eqn:Ep.
        - destruct (in_dec (list_eq_dec string_dec) p (map (fun k => firstn k (root ++ v)) (seq 0 (length (root ++ v))))) as [I|I].
          + apply in_map_iff in I as (k & Ek & Hk). apply in_seq in Hk. rewrite A1.
            * destruct n as [|x|ab t]; [auto| |destruct (NL _ _ _ Ep)]. exfalso. apply (NF p) in Ep; auto.
              exists (skipn k (root ++ v)). split; [|rewrite <- Ek; symmetry; apply firstn_skipn].
              intros Z. apply (f_equal (@length _)) in Z. rewrite skipn_length in Z. cbn in Z. lia.
            * exists (skipn k (root ++ v)). split; [|rewrite <- Ek; symmetry; apply firstn_skipn].
              intros Z. apply (f_equal (@length _)) in Z. rewrite skipn_length in Z. cbn in Z. lia.
          + rewrite O1; auto. intros (r & R & E). apply I. apply in_map_iff. exists (length p). split.
            * rewrite E, firstn_app, firstn_all, Nat.sub_diag. cbn. apply app_nil_r.
            * apply in_seq. rewrite E, app_length. destruct r; [contradiction|]. cbn. lia.
        - rewrite O1; auto. intros (r & R & E). destruct (prefix_cases _ _ _ _ E) as [[b ->]|[b Eb]].
          + destruct (Hp b eq_refl) as [_ Hb]. apply Hb. exists r. split; auto. rewrite <- app_assoc in E. apply app_inv_head in E. auto.
          + destruct b as [|y b]; [rewrite app_nil_r in Eb; congruence|].
            assert (fs p = Some Dir) by (apply (tree_above fs root); [auto|congruence|exists (y :: b); split; [discriminate|auto]]). congruence. }
      split; [exact Q|]. destruct v as [|y v]; [rewrite app_nil_r in D1; auto|]. apply A1. exists (y :: v). split; [discriminate|auto]. }
  destruct U as (fs1 & -> & T1 & NL1 & D1 & A1 & O1 & R1).
  assert (E1 : fs1 ((root ++ v) ++ [c]) = fs ((root ++ v) ++ [c])).
  { apply O1. intros a Ea. rewrite <- app_assoc in Ea. apply app_inv_head in Ea. subst. split.
    - intros Z. symmetry in Z. apply app_neq_self in Z; auto. discriminate.
    - intros (r & R & Z). rewrite <- app_assoc in Z. apply app_neq_self in Z; auto. discriminate. }
  assert (Done : forall n, (match m_kind m with KFile x => n = File x | _ => n = Dir end) ->
     placed root m (v ++ [c]) fs (put fs1 ((root ++ v) ++ [c]) n)).
  { intros n Hn. unfold placed. rewrite app_assoc. split; [|split].
    - destruct (m_kind m); subst; apply put_eq.
    - intros a A. rewrite put_neq.
      + destruct (above_last _ _ _ A) as [->|A']; auto.
      + rewrite <- app_assoc. intros Z. apply app_inv_head in Z. destruct A as (r & R & E). rewrite E in Z. apply app_neq_self in Z; auto.
    - intros p Hp. rewrite put_neq.
      + apply O1. intros a ->. destruct (Hp a eq_refl) as [H1 H2]. split; [intros ->; auto|]. intros A. apply H2, above_app. auto.
      + intros ->. destruct (Hp (v ++ [c])) as [H1 _]; [symmetry; apply app_assoc|]. auto. }
  assert (Rn : forall n, put fs1 ((root ++ v) ++ [c]) n root = Some Dir).
  { intros n. rewrite put_neq; auto. rewrite <- app_assoc. apply app_neq_self. destruct v; discriminate. }
  destruct (m_kind m) as [x| |ab t|] eqn:K; try contradiction.
  - rewrite (locate_plain fs1 NL1 ((root ++ v) ++ [c]) f []); [|apply Forall_app; auto|rewrite app_length; cbn; lia|apply T1|].
    2:{ intros a A. cbn. apply above_last in A as [->|A]; auto. apply (tree_above fs1 (root ++ v)); auto. congruence. }
    cbn [app]. rewrite E1.
    assert (TT : tree (put fs1 ((root ++ v) ++ [c]) (File x)) /\ no_links (put fs1 ((root ++ v) ++ [c]) (File x)) ->
      exists fs', (put fs1 ((root ++ v) ++ [c]) (File x), Ok tt) = (fs', Ok tt) /\ tree fs' /\ no_links fs' /\ fs' root = Some Dir /\ placed root m (v ++ [c]) fs fs').
    { intros [TA TB]. eexists. split; [reflexivity|]. split; [auto|]. split; [auto|]. split; [apply Rn|]. apply Done. auto. }
    assert (NLp : no_links (put fs1 ((root ++ v) ++ [c]) (File x))).
    { intros p a t H. unfold put in H. destruct (path_eqb p _); [discriminate|]. destruct (NL1 _ _ _ H). }
    destruct (fs ((root ++ v) ++ [c])) as [[|y|ab t]|] eqn:G.
    + contradiction.
    + apply TT. split; auto. apply tree_put; auto; [exists (root ++ v), c; auto|right; split; [exists y; auto|discriminate]|left; eauto].
    + destruct (NL _ _ _ G).
    + apply TT. split; auto. apply tree_put; auto; [exists (root ++ v), c; auto|left; eauto].
  - rewrite mkdir_plain by (auto; lia). rewrite E1. destruct (fs ((root ++ v) ++ [c])) as [[|y|ab t]|] eqn:G.
    + rewrite isdir_plain; auto; [|apply Forall_app; auto|rewrite app_length; cbn; lia]. rewrite E1. exists fs1. split; [reflexivity|]. split; [auto|]. split; [auto|].
      split; [auto|]. unfold placed. rewrite K, app_assoc. split; [auto|]. split.
      * intros a A. destruct (above_last _ _ _ A) as [->|A']; auto.
      * intros p Hp. apply O1. intros a ->. destruct (Hp a eq_refl) as [H1 H2]. split; [intros ->; auto|]. intros A. apply H2, above_app. auto.
    + destruct (F2 y eq_refl).
    + destruct (NL _ _ _ G).
    + eexists. split; [reflexivity|]. destruct (put_dir_tree fs1 (root ++ v) c T1 NL1 D1 E1) as [TA TB]. split; [auto|]. split; [auto|]. split; [apply Rn|].
      apply Done. auto.
Qed.

Lemma above_dec (a w : list string) : {above a w} + {~ above a w}.
Proof.
  destruct (list_eq_dec string_dec (firstn (length a) w) a) as [E|N].
  - destruct (lt_dec (length a) (length w)) as [L|L].
    + left. exists (skipn (length a) w). split; [|rewrite <- E at 1; symmetry; apply firstn_skipn].
      intros Z. apply (f_equal (@length _)) in Z. rewrite skipn_length in Z. cbn in Z. lia.
    + right. intros (r & R & E'). rewrite E', app_length in L. destruct r; [contradiction|]. cbn in L. lia.
  - right. intros (r & R & ->). apply N. rewrite firstn_app, firstn_all, Nat.sub_diag. cbn. apply app_nil_r.
Qed.
Lemma fits_kept fs fs' root m w m2 w2 : ~ is_link m -> placed root m w fs fs' -> fits fs root m2 w2 -> agree m w m2 w2 -> agree m2 w2 m w -> fits fs' root m2 w2.
Proof.
  intros NK (P1 & P2 & P3) [F1 F2] A1 A2.
  assert (V : forall a, (a = w \/ above a w) \/ fs' (root ++ a) = fs (root ++ a)).
  { intros a. destruct (list_eq_dec string_dec a w) as [E|N]; [auto|]. destruct (above_dec a w) as [A|NA]; [auto|].
    right. apply P3. intros b Eb. apply app_inv_head in Eb. subst. auto. }
  unfold is_link in NK. unfold agree in *. split.
  - intros a A x H. destruct (V a) as [[->|Aw]|E].
    + destruct (m_kind m); try congruence; try contradiction. destruct A1 as [A1 _]. contradiction.
    + rewrite P2 in H by auto. discriminate.
    + rewrite E in H. apply (F1 a A x H).
  - destruct (m_kind m2) as [y| | |]; try contradiction.
    + destruct (V w2) as [[->|Aw]|E]; [|destruct A2; contradiction|rewrite E; auto].
      destruct (m_kind m); try congruence; try contradiction. destruct A2 as [_ A2]. destruct (A2 eq_refl eq_refl).
    + intros x H. destruct (V w2) as [[->|Aw]|E]; [|rewrite P2 in H by auto; discriminate|rewrite E in H; apply (F2 x H)].
      destruct (m_kind m); try congruence; try contradiction. destruct A1 as [_ A1]. apply A1; auto.
Qed.
Definition all_placed (root : path) (lw : list (member * list string)) (fs fs' : fsys) : Prop :=
  (forall m w, In (m, w) lw -> (forall a, above a w -> fs' (root ++ a) = Some Dir) /\ (m_kind m = KDir -> fs' (root ++ w) = Some Dir)) /\
  (forall l1 m w c l2, lw = l1 ++ (m, w) :: l2 -> m_kind m = KFile c -> (forall m', ~ In (m', w) l2) -> fs' (root ++ w) = Some (File c)) /\
  (forall p, (forall m w a, In (m, w) lw -> p = root ++ a -> a <> w /\ ~ above a w) -> fs' p = fs p).
Lemma fits_link fs root m w : fits fs root m w -> ~ is_link m.
Proof. intros [_ F]. unfold is_link. destruct (m_kind m); auto. Qed.
Lemma extractall_plain f ek root : Forall ordinary root -> forall lw fs, tree fs -> no_links fs -> fs root = Some Dir ->
  (forall m w, In (m, w) lw -> named m w /\ fits fs root m w /\ (length (root ++ w) < f)%nat) ->
  (forall m1 w1 m2 w2, In (m1, w1) lw -> In (m2, w2) lw -> agree m1 w1 m2 w2) ->
  exists fs', extractall fs f ek root (map fst lw) = (fs', Ok tt) /\ all_placed root lw fs fs'.
Proof.
  intros PR. induction lw as [|[m w] lw IH]; intros fs T NL HR H C.
  - exists fs. split; [reflexivity|]. split; [intros m w []|]. split; [intros [|? l1] m w c l2 E; discriminate|auto].
  - destruct (H m w (or_introl eq_refl)) as (Nm & F & L). cbn [map fst extractall].
    destruct (extract_plain fs f ek root m w T NL HR PR Nm F L) as (fs1 & -> & T1 & NL1 & R1 & P1).
    pose proof (fits_link _ _ _ _ F) as NK.
    destruct (IH fs1 T1 NL1 R1) as (fs' & -> & Q1 & Q2 & Q3).
    { intros m2 w2 I2. destruct (H m2 w2 (or_intror I2)) as (Nm2 & F2 & L2). split; [auto|]. split; [|auto].
      apply (fits_kept fs fs1 root m w); auto; apply C; cbn; auto. }
    { intros m1 w1 m2 w2 I1 I2. apply C; right; auto. }
    exists fs'. split; [reflexivity|].
    (* a directory that is there stays *)
    assert (Keep : forall a, (fs1 (root ++ a) = Some Dir) -> (forall m2 w2 c, In (m2, w2) lw -> m_kind m2 = KFile c -> a <> w2) -> fs' (root ++ a) = Some Dir).
    { intros a Da Na. destruct (in_dec (fun x y => list_eq_dec string_dec x y) a (map snd lw)) as [I|I].
      - apply in_map_iff in I as ([m2 w2] & E & I). cbn in E. subst a. destruct (H m2 w2 (or_intror I)) as (_ & F2 & _). apply fits_link in F2.
        unfold is_link in F2. destruct (m_kind m2) as [x| | |] eqn:K; [destruct (Na m2 w2 x I K eq_refl)|apply (Q1 m2 w2 I); auto|tauto|tauto].
      - destruct (existsb (fun mw => if above_dec a (snd mw) then true else false) lw) eqn:Ex.
        + apply existsb_exists in Ex as ([m2 w2] & I2 & A2). cbn in A2. destruct (above_dec a w2) as [A|]; [|discriminate]. apply (Q1 m2 w2 I2); auto.
        + rewrite Q3; auto. intros m2 w2 b I2 Eb. apply app_inv_head in Eb. subst b. split; [intros ->; apply I, in_map_iff; exists (m2, w2); auto|].
          intros A. assert (Z : existsb (fun mw => if above_dec a (snd mw) then true else false) lw = true).
          { apply existsb_exists. exists (m2, w2). split; auto. cbn. destruct (above_dec a w2); auto. }
          congruence. }
    destruct P1 as (P1 & P2 & P3). split; [|split].
    + intros m2 w2 [E|I]; [|apply Q1; auto]. injection E as <- <-. split.
      * intros a A. apply Keep; auto. intros m2 w2 c I K ->. specialize (C m2 w2 m w (or_intror I) (or_introl eq_refl)). unfold agree in C. rewrite K in C. tauto.
      * intros K. rewrite K in P1. apply Keep; auto. intros m2 w2 c I K2 ->. specialize (C m2 w2 m w2 (or_intror I) (or_introl eq_refl)). unfold agree in C.
        rewrite K2 in C. destruct C as [_ C]. apply C; auto.
    + intros l1 m2 w2 c l2 E K Last. destruct l1 as [|x l1]; [|injection E as _ E; apply (Q2 l1 m2 w2 c l2); auto].
      injection E as <- <- <-. rewrite K in P1. rewrite Q3; auto. intros m2 w2 a I2 Ea. apply app_inv_head in Ea. subst a. split; [intros ->; apply (Last m2); auto|].
      specialize (C m w m2 w2 (or_introl eq_refl) (or_intror I2)). unfold agree in C. rewrite K in C. tauto.
    + intros p Hp. rewrite Q3; [apply P3; intros a Ea; apply (Hp m w a); [left; auto|auto]|]. intros m2 w2 a I2 Ea. apply (Hp m2 w2 a); [right; auto|auto].
Qed.
Lemma resolve_ordinary fs f : forall cur comps q, Forall ordinary cur -> resolve fs f cur comps = Some q -> Forall ordinary q.
Proof.
  induction f as [|f IH]; [discriminate|]. intros cur [|c rest] q P R; cbn in R; [congruence|].
  destruct (here c) eqn:Hh; [eapply IH; eauto|]. destruct (String.eqb_spec c "..") as [|N].
  - eapply IH; [|exact R]. destruct cur as [|y cur _] using rev_ind; [auto|]. rewrite removelast_last. apply Forall_app in P. tauto.
  - assert (Oc : ordinary c).
    { unfold here in Hh. apply orb_false_iff in Hh as [H1 H2]. apply String.eqb_neq in H1, H2. split; auto. }
    assert (P' : Forall ordinary (cur ++ [c])) by (apply Forall_app; auto).
    destruct (fs (cur ++ [c])) as [[| |ab t]|]; (eapply IH; [|exact R]); auto. destruct ab; auto.
Qed.
Lemma normal_plain w k : forall cur, Forall ordinary w -> normal cur (w ++ repeat ""%string k) = cur ++ w.
Proof.
  induction w as [|c w IH]; intros cur P.
  - rewrite app_nil_r. cbn [app]. induction k; auto.
  - inversion P as [|? ? (A & B & C) P']; subst. cbn [app normal]. destruct (string_dec c ""); [contradiction|]. destruct (string_dec c "."); [contradiction|].
    destruct (string_dec c ".."); [contradiction|]. rewrite IH by auto. rewrite <- app_assoc. reflexivity.
Qed.
