(** C53: archive extraction is confined to its destination. *)
From Coq Require Import String List Arith Lia Bool.
From Verif Require Import Prelude PreludeFacts ArcModel ArcSpec ArcProofs.
Import ListNotations.
Local Notation length := List.length.
Open Scope string_scope.
Open Scope list_scope.

(** An archive with one bad member (a symbolic or hard link, or a member whose name, links
    followed, leads outside the destination) is rejected as a whole: nothing at all is
    changed on disk, wherever the bad member is in the archive. *)
Theorem C53_all_or_nothing fs pf kf ek dest l m root : In m l -> resolve fs pf [] dest = Some root ->
  is_link m \/ (forall q, resolve fs pf [] (join root m) = Some q -> ~ inside root q) ->
  exists e, safe_extractall fs pf kf ek dest l = (fs, Err e).
Proof.
  intros Hm R B. unfold safe_extractall. rewrite R. destruct (mapM (check_member fs pf root) l) as [us|e] eqn:E; [|eauto].
  destruct (proj1 (mapM_ok_iff _ _) (ex_intro _ us E) m Hm) as [u H]. apply (proj1 (check_member_ok _ _ _ _ _)) in H as (H1 & q & H2 & H3).
  destruct B as [B|B]; [contradiction|]. destruct (B q H2 H3).
Qed.

(** Whatever the archive, and whether or not extraction fails midway: everything that existed
    outside the destination is still there with the same content, and nothing but empty
    directories can have appeared there. *)
Theorem C53_outside_untouched fs pf kf ek dest l fs' r root : tree fs -> resolve fs pf [] dest = Some root -> fs root = Some Dir ->
  safe_extractall fs pf kf ek dest l = (fs', r) ->
  forall p, ~ inside root p -> (forall n, fs p = Some n -> fs' p = Some n) /\ (forall n, fs' p = Some n -> fs p = Some n \/ (fs p = None /\ n = Dir)).
Proof.
  intros T R HR M p NI. destruct (safe_effect _ _ _ _ _ _ _ _ _ T R HR M p) as [E|[(E & F & _)|(I & _)]]; [| |contradiction].
  - rewrite E. auto.
  - rewrite E, F. split; [discriminate|]. intros n H. injection H as <-. auto.
Qed.
(** Nor does extraction anywhere (even inside) add a link or turn a directory into a file. *)
Theorem C53_no_new_links fs pf kf ek dest l fs' r root : tree fs -> resolve fs pf [] dest = Some root -> fs root = Some Dir ->
  safe_extractall fs pf kf ek dest l = (fs', r) ->
  (forall p a t, fs' p = Some (Link a t) -> fs p = Some (Link a t)) /\ (forall p, fs p = Some Dir -> fs' p = Some Dir).
Proof.
  intros T R HR M. pose proof (safe_effect _ _ _ _ _ _ _ _ _ T R HR M) as F. split.
  - intros p a t H. destruct (F p) as [E|[(E & E' & _)|(_ & _ & [E|[x E]])]]; congruence.
  - intros p H. destruct (F p) as [E|[(E & E' & _)|(_ & [E|[x E]] & _)]]; congruence.
Qed.
(** If no member name goes up, everything that changes is inside the destination - whatever
    links are already on disk.  Missing from the full claim: names containing "..". *)
Theorem C53_confined_partial fs pf kf ek dest l fs' r root : tree fs -> resolve fs pf [] dest = Some root -> fs root = Some Dir ->
  (forall m, In m l -> ~ climbs m) -> safe_extractall fs pf kf ek dest l = (fs', r) ->
  forall p, fs' p <> fs p -> inside root p.
Proof.
  intros T R HR C M p N. destruct (safe_effect _ _ _ _ _ _ _ _ _ T R HR M p) as [E|[(_ & _ & H)|(I & _)]]; auto. contradiction.
Qed.

(** The check itself, on a file system without links: a member is refused exactly when it is
    a link or its name, read lexically, leads outside the destination. *)
Theorem C53_check_exact fs pf kf ek dest l root : no_links fs -> root = normal [] dest ->
  (length dest < pf)%nat -> (forall m, In m l -> length (join root m) < pf)%nat ->
  ((exists m, In m l /\ (is_link m \/ ~ inside root (normal [] (join root m)))) -> safe_extractall fs pf kf ek dest l = (fs, Err ValueError)) /\
  ((forall m, In m l -> ~ is_link m /\ inside root (normal [] (join root m))) -> safe_extractall fs pf kf ek dest l = extractall fs kf ek root l).
Proof.
  intros NL Er LD LM. assert (R : resolve fs pf [] dest = Some root) by (rewrite resolve_normal by auto; congruence).
  unfold safe_extractall. rewrite R. split.
  - intros (m & Hm & B). destruct (mapM (check_member fs pf root) l) as [us|e] eqn:E.
    + destruct (proj1 (mapM_ok_iff _ _) (ex_intro _ us E) m Hm) as [u H]. apply (proj1 (check_member_ok _ _ _ _ _)) in H as (H1 & q & H2 & H3).
      rewrite resolve_normal in H2 by auto. injection H2 as <-. destruct B as [B|B]; contradiction.
    + assert (e = ValueError); [|congruence]. clear Hm B. revert e E. induction l as [|x l' IH]; [discriminate|]. cbn [mapM]. intros e.
      assert (Hc : check_member fs pf root x = Ok tt \/ check_member fs pf root x = Err ValueError).
      { unfold check_member. destruct (m_kind x); auto; rewrite (resolve_normal fs NL pf [] _ (LM x (or_introl eq_refl)));
        destruct (path_eqb _ _); auto. }
      destruct Hc as [-> | ->]; cbn; [|congruence]. destruct (mapM (check_member fs pf root) l') as [r|e'] eqn:E'; [discriminate|].
      cbn. intros H. injection H as <-. apply (IH (fun y Hy => LM y (or_intror Hy)) e' eq_refl).
  - intros H. destruct (proj2 (mapM_ok_iff (check_member fs pf root) l)) as [us ->]; auto.
    intros m Hm. exists tt. apply check_member_ok. destruct (H m Hm). split; auto. exists (normal [] (join root m)). split; auto.
    apply resolve_normal; auto.
Qed.

(** An archive with ordinary names and nothing in its way is unpacked completely, also over the
    remains of an earlier extraction: every directory is there, every file has the content of
    the last member of its name, everything else is as before. *)
Theorem C53_complete fs pf kf ek dest root lw : tree fs -> no_links fs -> resolve fs pf [] dest = Some root -> fs root = Some Dir ->
  (forall m w, In (m, w) lw -> named m w /\ fits fs root m w /\ (length (root ++ m_name m) < pf)%nat /\ (length (root ++ w) < kf)%nat) ->
  (forall m1 w1 m2 w2, In (m1, w1) lw -> In (m2, w2) lw -> agree m1 w1 m2 w2) ->
  exists fs', safe_extractall fs pf kf ek dest (map fst lw) = (fs', Ok tt) /\
  (forall m w, In (m, w) lw -> (forall a, above a w -> fs' (root ++ a) = Some Dir) /\ (m_kind m = KDir -> fs' (root ++ w) = Some Dir)) /\
  (forall l1 m w c l2, lw = l1 ++ (m, w) :: l2 -> m_kind m = KFile c -> (forall m', ~ In (m', w) l2) -> fs' (root ++ w) = Some (File c)) /\
  (forall p, (forall m w a, In (m, w) lw -> p = root ++ a -> a <> w /\ ~ above a w) -> fs' p = fs p).
Proof.
  intros T NL R HR H C. assert (PR : Forall ordinary root) by (eapply resolve_ordinary; [|exact R]; constructor).
  unfold safe_extractall. rewrite R.
  destruct (proj2 (mapM_ok_iff (check_member fs pf root) (map fst lw))) as [us ->].
  { intros m Hm. apply in_map_iff in Hm as ([m' w] & E & I). cbn in E. subst m'. destruct (H m w I) as (Nm & F & L & _). exists tt. apply check_member_ok.
    split; [eapply fits_link; eauto|]. destruct Nm as (Ab & _ & O & k & Em). unfold join. rewrite Ab.
    exists (root ++ w). split; [|exists w; auto]. rewrite resolve_normal by auto. rewrite Em, app_assoc, normal_plain by (apply Forall_app; auto). reflexivity. }
  apply (extractall_plain kf ek root PR lw fs T NL HR); auto. intros m w I. destruct (H m w I) as (A & B & _ & D). auto.
Qed.
(** A member that is in conflict with the disk is refused and nothing is changed: a directory
    where a file is, a file where a directory is. *)
Theorem C53_conflict fs f ek root m w : tree fs -> no_links fs -> Forall ordinary root -> named m w -> (length (root ++ w) < f)%nat ->
  match m_kind m, fs (root ++ w) with
  | KDir, Some (File _) => extract_member fs f ek root m = (fs, Err FileExistsError)
  | KFile _, Some Dir => extract_member fs f ek root m = (fs, Err OSError)
  | _, _ => True
  end.
Proof.
  intros T NL PR Nm L.
  assert (U : fs (root ++ w) <> None -> exists v c, root ++ w = (root ++ v) ++ [c] /\ Forall ordinary (root ++ v) /\ ordinary c /\ fs (root ++ v) = Some Dir).
  { intros Hx. destruct Nm as (_ & Nw & O & _). destruct w as [|c v _] using rev_ind; [contradiction|]. exists v, c. apply Forall_app in O as [O1 O2]. inversion O2; subst.
    split; [apply app_assoc|]. split; [apply Forall_app; auto|]. split; [auto|]. apply (tree_above fs (root ++ v ++ [c])); auto. exists [c]. split; [discriminate|apply app_assoc]. }
  pose proof (target_of root m w Nm) as Tg.
  destruct (m_kind m) as [x| |ab t|] eqn:K; auto; destruct (fs (root ++ w)) as [[|y|ab t]|] eqn:E; auto;
    (destruct U as (v & c & Ew & Pv & Oc & D); [discriminate|]); rewrite Ew in *; unfold extract_member; rewrite Tg, removelast_last, K;
    rewrite app_length in L; cbn in L; rewrite exists_plain by (auto; lia); rewrite D.
  - rewrite (locate_plain fs NL ((root ++ v) ++ [c]) f []); [cbn [app]; rewrite E; auto|apply Forall_app; auto|rewrite app_length; cbn; lia|apply T|].
    intros a A. apply (tree_above fs ((root ++ v) ++ [c])); auto. congruence.
  - rewrite mkdir_plain by (auto; lia). rewrite E, isdir_plain; auto; [rewrite E; auto|apply Forall_app; auto|rewrite app_length; cbn; lia].
Qed.

(** A file system with directories /home and /home/data. *)
Definition fs0 : fsys := fun p =>
  match p with
  | [] => Some Dir
  | ["home"] => Some Dir
  | ["home"; "data"] => Some Dir
  | ["home"; "notes"] => Some (File 7)
  | _ => None
  end.
Lemma fs0_tree : tree fs0.
Proof.
  split; auto. intros p c H. destruct p as [|a [|b [|d p]]]; auto.
  - unfold fs0 in *. cbn in *. destruct (string_dec a "home") as [->|N]; auto. exfalso. apply H.
    repeat (destruct a as [|[[] [] [] [] [] [] [] []] a]; auto). contradiction.
  - exfalso. apply H. unfold fs0. cbn.
    repeat (destruct a as [|[[] [] [] [] [] [] [] []] a]; auto); repeat (destruct b as [|[[] [] [] [] [] [] [] []] b]; auto).
  - exfalso. apply H. unfold fs0. cbn.
    repeat (destruct a as [|[[] [] [] [] [] [] [] []] a]; auto); repeat (destruct b as [|[[] [] [] [] [] [] [] []] b]; auto).
Qed.
(** The full claim is false: the member "../new/../data/s/x" resolves to data/s/x and passes the
    check, but making its missing parent creates the directory /home/new. *)
Theorem C53_confined_refuted ek : exists fs pf kf dest l fs' root p, tree fs /\ resolve fs pf [] dest = Some root /\ fs root = Some Dir /\
  safe_extractall fs pf kf ek dest l = (fs', Ok tt) /\ ~ inside root p /\ fs p = None /\ fs' p = Some Dir.
Proof.
  set (l := [mkMember false [".."; "new"; ".."; "data"; "s"; "x"] (KFile 1)]).
  exists fs0, 20%nat, 20%nat, ["home"; "data"], l, (fst (safe_extractall fs0 20 20 ek ["home"; "data"] l)), ["home"; "data"], ["home"; "new"].
  split; [apply fs0_tree|]. split; [reflexivity|]. split; [reflexivity|].
  split; [rewrite (surjective_pairing (safe_extractall _ _ _ _ _ _)) at 1; f_equal; destruct ek; vm_compute; reflexivity|].
  split; [|split; [|destruct ek]; vm_compute; reflexivity]. intros [r E]. injection E as E. discriminate.
Qed.

(** Whether a name that goes up and down again can be unpacked depends on the argument that the
    standard library passes to [os.makedirs]. *)
Theorem C53_up_and_down : forall ek, snd (safe_extractall fs0 20 20 ek ["home"; "data"] [mkMember false ["b"; ".."; "b"; "x"] (KFile 1)]) =
  if ek then Ok tt else Err FileExistsError.
Proof. intros []; vm_compute; reflexivity. Qed.
(** Unpacking twice gives the second contents. *)
Example C53_ex_again : let fs1 := fst (safe_extractall fs0 20 20 false ["home"; "data"] [mkMember false ["a"; "x.wav"] (KFile 1)]) in
  let '(fs2, r) := safe_extractall fs1 20 20 false ["home"; "data"] [mkMember false ["a"; ""] KDir; mkMember false ["a"; "x.wav"] (KFile 2)] in
  r = Ok tt /\ fs1 ["home"; "data"; "a"; "x.wav"] = Some (File 1) /\ fs2 ["home"; "data"; "a"; "x.wav"] = Some (File 2).
Proof. vm_compute. auto. Qed.
Example C53_ex_ok : let '(fs', r) := safe_extractall fs0 20 20 true ["home"; "data"]
    [mkMember false ["a"; ""] KDir; mkMember false ["a"; "x.wav"] (KFile 1); mkMember false ["b"; "c"; "y.wav"] (KFile 2)] in
  r = Ok tt /\ fs' ["home"; "data"; "a"; "x.wav"] = Some (File 1) /\ fs' ["home"; "data"; "b"; "c"; "y.wav"] = Some (File 2) /\
  fs' ["home"; "data"; "b"] = Some Dir /\ fs' ["home"; "notes"] = Some (File 7).
Proof. vm_compute. auto. Qed.
Example C53_ex_bad : safe_extractall fs0 20 20 true ["home"; "data"]
    [mkMember false ["x"] (KFile 1); mkMember false [".."; "notes"] (KFile 2)] = (fs0, Err ValueError) /\
  safe_extractall fs0 20 20 true ["home"; "data"] [mkMember false ["x"] (KFile 1); mkMember true ["etc"; "passwd"] (KFile 2)] = (fs0, Err ValueError) /\
  safe_extractall fs0 20 20 true ["home"; "data"] [mkMember false ["x"] (KSym true ["etc"])] = (fs0, Err ValueError).
Proof. repeat split; reflexivity. Qed.
(** The sibling directory /home/data2 is not "inside" /home/data although the strings agree. *)
Example C53_ex_sibling : safe_extractall fs0 20 20 true ["home"; "data"] [mkMember false [".."; "data2"; "x"] (KFile 1)] = (fs0, Err ValueError).
Proof. reflexivity. Qed.

Print Assumptions C53_all_or_nothing.
Print Assumptions C53_outside_untouched.
Print Assumptions C53_no_new_links.
Print Assumptions C53_confined_partial.
Print Assumptions C53_check_exact.
Print Assumptions C53_confined_refuted.
Print Assumptions C53_complete.
Print Assumptions C53_conflict.
Print Assumptions C53_up_and_down.
