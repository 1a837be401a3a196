(** Lemmas for C76 and C77. *)
From Coq Require Import String Ascii List ZArith Reals Lia Lra Bool Permutation.
From Verif Require Import Prelude PreludeFacts FloatModel DirModel ScnModel ScnSpec.
Import ListNotations.
Local Open Scope R_scope.
Local Notation length := List.length.

(** ** Coordinates, distances and strides *)
Lemma coords_id dim p : (dim = 2 \/ dim = 3)%nat -> length p = dim -> coords dim p = Ok p.
Proof.
  intros [->| ->] L.
  - destruct p as [|a [|b [|]]]; try discriminate. reflexivity.
  - destruct p as [|a [|b [|c [|]]]]; try discriminate. reflexivity.
Qed.
Lemma sum_diff a : forall b, vdot (map2 Rminus a b) (map2 Rminus a b) = lsum (map2 (fun x y => (x - y)²) a b).
Proof.
  unfold vdot, map2. induction a as [|x a IH]; intros [|y b]; auto. cbn [combine map lsum fst snd]. rewrite IH. reflexivity.
Qed.
Lemma sum_sq_pos a : forall b, 0 <= lsum (map2 (fun x y => (x - y)²) a b).
Proof.
  unfold map2. induction a as [|x a IH]; intros [|y b]; cbn; try lra. specialize (IH b). pose proof (Rle_0_sqr (x - y)). lra.
Qed.
Lemma not_within d a b : 0 < d -> Rltb d (vnorm (map2 Rminus a b)) = true <-> ~ within d a b.
Proof.
  intros Hd. unfold vnorm, within. rewrite sum_diff. pose proof (sum_sq_pos a b) as P. set (q := lsum _) in *.
  destruct (Rltb_spec d (sqrt q)) as [H|H]; split; intros K; auto; try discriminate.
  - intros Q. apply sqrt_le_1_alt in Q. rewrite sqrt_Rsqr in Q by lra. lra.
  - exfalso. apply K. apply Rnot_lt_le in H. rewrite <- (Rsqr_sqrt q P). apply Rsqr_incr_1; auto; [apply sqrt_pos|lra].
Qed.
Lemma tol_pos : 0 < / 10 ^ 6.
Proof. apply Rinv_0_lt_compat. apply pow_lt. lra. Qed.
Lemma is_moving_iff t p : is_moving t p = true <-> moves t p.
Proof.
  unfold is_moving, moves. rewrite existsb_exists. split.
  - intros (s & Hs & H). apply existsb_exists in H as (i & Hi & H). apply in_seq in Hs, Hi.
    apply not_within in H; [|exact tol_pos]. exists s, i. repeat split; auto; lia.
  - intros (s & i & Hs & Hi & H). exists s. split; [apply in_seq; lia|]. apply existsb_exists. exists i. split; [apply in_seq; lia|].
    apply not_within; [exact tol_pos|auto].
Qed.
Definition strides (n k : nat) : list nat := map (fun j => j * k)%nat (seq 0 ((n + k - 1) / k)).
Lemma strided_ok n step : (0 < step)%Z -> strided n step = Ok (strides n (Z.to_nat step)).
Proof. intros H. unfold strided. destruct (Z.leb_spec step 0); [lia|reflexivity]. Qed.
Lemma strides_in n k s : (0 < k)%nat -> In s (strides n k) <-> (s < n)%nat /\ Nat.divide k s.
Proof.
  intros Hk. unfold strides. rewrite in_map_iff.
  assert (Q : forall j, (j < (n + k - 1) / k)%nat <-> (j * k < n)%nat).
  { intros j. pose proof (Nat.div_mod_eq (n + k - 1) k) as D. pose proof (Nat.mod_upper_bound (n + k - 1) k ltac:(lia)) as M.
    set (q := ((n + k - 1) / k)%nat) in *. set (r := ((n + k - 1) mod k)%nat) in *. clearbody q r. split; intros H; nia. }
  split.
  - intros (j & <- & Hj). apply in_seq in Hj. split; [apply Q; lia|]. exists j. lia.
  - intros [H (j & ->)]. exists j. split; auto. apply in_seq. rewrite <- Q in H. lia.
Qed.
Lemma strides_visited n k : (0 < k)%nat -> visited n k (strides n k).
Proof.
  intros Hk. split; [intros s; apply strides_in; auto|]. intros i j. unfold strides. rewrite map_length, seq_length. intros [A B].
  assert (E : forall q, (q < (n + k - 1) / k)%nat -> nth q (map (fun j => (j * k)%nat) (seq 0 ((n + k - 1) / k))) 0%nat = (q * k)%nat).
  { intros q Hq. pose proof (map_nth (fun j => (j * k)%nat) (seq 0 ((n + k - 1) / k)) 0%nat q) as M. cbn [Nat.mul] in M. rewrite M, seq_nth by auto. reflexivity. }
  rewrite !E by lia. apply Nat.mul_lt_mono_pos_r; lia.
Qed.

(** ** Groups of entities *)
Section Group.
Variables (pal : list string) (dim : nat) (t : trajectory) (p : postab) (step : Z) (label marker : string) (color : option string) (uniform : bool).
Hypothesis Hdim : (dim = 2 \/ dim = 3)%nat.
Hypothesis Ht : traj_ok dim t.
Hypothesis Hp : pos_ok dim p.
Hypothesis Hn : p_n p = t_n t.
Hypothesis T0 : (0 < t_steps t)%nat.
Hypothesis N0 : (0 < t_n t)%nat.
Hypothesis Hstep : (0 < step)%Z.
Let col i := entity_color pal color uniform i.
Let ls := strides (t_steps t) (Z.to_nat step).
Definition dot (i : nat) : cmd := CScatter [p_row p i] "_nolegend_" (Some (entity_color pal color uniform i)) marker.
Definition path (i : nat) : cmd :=
  CLine (map (fun s => t_at t s i) (strides (t_steps t) (Z.to_nat step))) (if (i =? 0)%nat then label else "_nolegend_"%string)
    (entity_color pal color uniform i) marker.

Lemma scatter_one q lb c mk n : (length q = dim)%nat -> scatter (mkPos (Nat.min 1 (S n)) dim (fun _ => q)) lb c mk = Ok [CScatter [q] lb c mk].
Proof.
  intros L. unfold scatter. cbn [p_n p_dim p_row Nat.min seq mapM].
  destruct (Nat.eqb_spec (1 * dim) 0); [destruct Hdim; lia|]. rewrite coords_id by auto. reflexivity.
Qed.
Lemma scatter_at lb c mk i : (i < t_n t)%nat ->
  scatter (mkPos (Nat.min 1 (p_n p - i)) (p_dim p) (fun k => p_row p (i + k))) lb c mk = Ok [CScatter [p_row p i] lb c mk].
Proof.
  intros Hi. destruct Hp as [Ed Hl]. unfold scatter. cbn [p_n p_dim p_row]. rewrite Hn, Ed.
  replace (Nat.min 1 (t_n t - i)) with 1%nat by lia. cbn [seq mapM].
  destruct (Nat.eqb_spec (1 * dim) 0); [destruct Hdim; lia|]. rewrite Nat.add_0_r, coords_id by (auto; apply Hl; lia). reflexivity.
Qed.
Lemma plot_item_ok b i : (i < t_n t)%nat ->
  plot_item t p b step label marker (entity_color pal color uniform i) i = Ok ((if b then [path i] else []) ++ [dot i]).
Proof.
  intros Hi. unfold plot_item. rewrite scatter_at by auto. destruct b; [|reflexivity]. rewrite strided_ok by auto. cbn [bind].
  destruct Ht as [Ed Hl].
  rewrite (mapM_Ok_map _ (fun s => t_at t s i)).
  - reflexivity.
  - intros s Hs. apply strides_in in Hs as [Hs _]; [|lia]. rewrite Ed. apply coords_id; auto.
Qed.
Lemma plot_entity_ok : plot_entity pal t p step label marker color uniform =
  Ok (if is_moving t p then flat_map (fun i => [path i; dot i]) (seq 0 (t_n t))
      else map dot (seq 0 (t_n t)) ++ [CScatter [p_row p 0] label (Some (entity_color pal color uniform 0)) marker]).
Proof.
  unfold plot_entity. destruct Ht as [Ed _], Hp as [Ed' Hl].
  destruct (Nat.eqb_spec (t_steps t * t_n t * t_dim t) 0) as [E|_].
  { exfalso. rewrite Ed in E. apply Nat.mul_eq_0 in E as [E|E]; [apply Nat.mul_eq_0 in E; lia|destruct Hdim; lia]. }
  rewrite Hn, Ed, Ed', !Nat.eqb_refl. cbn [andb].
  rewrite (mapM_Ok_map _ (fun i => (if is_moving t p then [path i] else []) ++ [dot i])).
  2:{ intros i Hi. apply in_seq in Hi. apply plot_item_ok. lia. }
  cbn [bind]. destruct (is_moving t p); cbn [bind].
  - f_equal. rewrite app_nil_r, <- flat_map_concat_map. reflexivity.
  - pose proof (scatter_at label (Some (entity_color pal color uniform 0)) marker 0 N0) as S0. rewrite Nat.sub_0_r in S0. cbn [Nat.add] in S0.
    match type of S0 with scatter ?a _ _ _ = _ => match goal with |- context [scatter ?b _ _ _] => change b with a end end.
    rewrite S0. cbn [bind]. rewrite <- flat_map_concat_map. do 2 f_equal.
Qed.
End Group.

(** ** Reading drawings *)
Lemma legend_app a b : legend (a ++ b) = legend a ++ legend b. Proof. apply flat_map_app. Qed.
Lemma paths_app a b : paths (a ++ b) = paths a ++ paths b. Proof. apply flat_map_app. Qed.
Lemma markers_app a b : markers (a ++ b) = markers a ++ markers b. Proof. apply flat_map_app. Qed.
Lemma indices_app a b : indices (a ++ b) = indices a ++ indices b. Proof. apply flat_map_app. Qed.
Lemma outline_app a b : outline (a ++ b) = outline a ++ outline b. Proof. apply flat_map_app. Qed.
Lemma limits_app a b : limits (a ++ b) = limits a ++ limits b. Proof. apply flat_map_app. Qed.
Lemma flat_nil {A B} (f : A -> list B) l : (forall x, In x l -> f x = []) -> flat_map f l = [].
Proof. induction l as [|x l IH]; intros H; auto. cbn. rewrite H, IH by (auto with datatypes). reflexivity. Qed.
Lemma room_reads size : (length size = 2 \/ length size = 3)%nat ->
  legend (draw_room size) = [] /\ paths (draw_room size) = [] /\ markers (draw_room size) = [] /\ indices (draw_room size) = [] /\
  limits (draw_room size) = map (fun i => (i, (0, nth i size 0))) (seq 0 (length size)).
Proof.
  intros [L|L].
  - destruct size as [|x [|y [|]]]; try discriminate. repeat split; reflexivity.
  - destruct size as [|x [|y [|z [|]]]]; try discriminate. repeat split; reflexivity.
Qed.
Lemma room_size_ok size : (length size = 2 \/ length size = 3)%nat -> room_size size = Ok size.
Proof. unfold room_size. intros [-> | ->]; reflexivity. Qed.

Definition dots (p : postab) (label : string) (color : option string) (marker : string) : cmd :=
  CScatter (map (p_row p) (seq 0 (p_n p))) label color marker.
Lemma scatter_ok dim p label color marker : (dim = 2 \/ dim = 3)%nat -> pos_ok dim p -> (0 < p_n p)%nat ->
  scatter p label color marker = Ok [dots p label color marker].
Proof.
  intros Hd [Ed Hl] H0. unfold scatter. rewrite Ed. destruct (Nat.eqb_spec (p_n p * dim) 0) as [E|_].
  { exfalso. apply Nat.mul_eq_0 in E. lia. }
  rewrite (mapM_Ok_map _ (p_row p)); [reflexivity|]. intros i Hi. apply in_seq in Hi. apply coords_id; auto. apply Hl. lia.
Qed.
Lemma annotate_ok dim p : (dim = 2 \/ dim = 3)%nat -> pos_ok dim p -> (0 < p_n p)%nat ->
  annotate p = Ok (map (fun i => CIndex (p_row p i) i) (seq 0 (p_n p))).
Proof.
  intros Hd [Ed Hl] H0. unfold annotate. rewrite Ed. destruct (Nat.eqb_spec (p_n p * dim) 0) as [E|_].
  { exfalso. apply Nat.mul_eq_0 in E. lia. }
  apply mapM_Ok_map. intros i Hi. apply in_seq in Hi. rewrite coords_id; auto. apply Hl. lia.
Qed.
Lemma index_reads p l : let d := map (fun i => CIndex (p_row p i) i) l in
  legend d = [] /\ paths d = [] /\ markers d = [] /\ outline d = [] /\ limits d = [] /\ indices d = map (fun i => (p_row p i, i)) l.
Proof.
  cbn zeta. induction l as [|i l (A & B & C & D & E & F)]; [repeat split; reflexivity|].
  cbn [map]. unfold legend, paths, markers, outline, limits, indices in *. cbn [flat_map app].
  rewrite A, B, C, D, E, F. repeat split.
Qed.

(** What a group contributes to a drawing. *)
Record group_reads (t : trajectory) (p : postab) (step : Z) (label : string) (d : list cmd) : Prop := {
  gr_legend : legend d = [label];
  gr_paths : exists ls, visited (t_steps t) (Z.to_nat step) ls /\
    (moves t p /\ paths d = map (fun i => map (fun s => t_at t s i) ls) (seq 0 (t_n t)) \/ ~ moves t p /\ paths d = []);
  gr_markers : forall q, In q (markers d) <-> exists i, (i < t_n t)%nat /\ q = p_row p i;
  gr_other : indices d = [] /\ outline d = [] /\ limits d = [] }.
Lemma seq_first n : (0 < n)%nat -> seq 0 n = 0%nat :: seq 1 (n - 1).
Proof. destruct n; [lia|]. cbn. rewrite Nat.sub_0_r. reflexivity. Qed.
Lemma entity_reads pal dim t p step label marker color uniform :
  (dim = 2 \/ dim = 3)%nat -> traj_ok dim t -> pos_ok dim p -> p_n p = t_n t -> (0 < t_steps t)%nat -> (0 < t_n t)%nat -> (0 < step)%Z ->
  hidden label = false ->
  exists d, plot_entity pal t p step label marker color uniform = Ok d /\ group_reads t p step label d.
Proof.
  intros Hd Ht Hp Hn T0 N0 Hs Hl. rewrite (plot_entity_ok pal dim) by auto. eexists. split; [reflexivity|].
  pose proof (is_moving_iff t p) as M.
  set (P := path pal t step label marker color uniform). set (D := dot pal p marker color uniform).
  assert (R1 : forall l, markers (map D l) = map (p_row p) l /\ legend (map D l) = [] /\ paths (map D l) = [] /\
                         indices (map D l) = [] /\ outline (map D l) = [] /\ limits (map D l) = []).
  { induction l as [|i l (A & B & C & D' & E & F)]; [repeat split; reflexivity|]. cbn [map].
    unfold legend, paths, markers, outline, limits, indices in *. subst D. cbn [dot flat_map app hidden]. rewrite A, B, C, D', E, F. repeat split. }
  assert (R2 : forall l, let d := flat_map (fun i => [P i; D i]) l in
     markers d = map (p_row p) l /\ legend d = flat_map (fun i => if (i =? 0)%nat then [label] else []) l /\
     paths d = map (fun i => map (fun s => t_at t s i) (strides (t_steps t) (Z.to_nat step))) l /\
     indices d = [] /\ outline d = [] /\ limits d = []).
  { induction l as [|i l (A & B & C & D' & E & F)]; [repeat split; reflexivity|]. cbn zeta. cbn [flat_map].
    unfold legend, paths, markers, outline, limits, indices in *. rewrite !flat_map_app, A, B, C, D', E, F.
    subst P D. cbn [path dot flat_map app hidden map existsb]. repeat split.
    destruct i as [|i]; cbn [Nat.eqb app]; [rewrite Hl|]; reflexivity. }
  destruct (is_moving t p).
  - destruct (R2 (seq 0 (t_n t))) as (A & B & C & D' & E & F). constructor; auto.
    + fold P D. rewrite B. rewrite seq_first by auto. cbn [Nat.eqb flat_map]. cbn [app]. f_equal. apply flat_nil.
      intros x Hx. apply in_seq in Hx. destruct (Nat.eqb_spec x 0); [lia|auto].
    + exists (strides (t_steps t) (Z.to_nat step)). split; [apply strides_visited; lia|]. left. split; [apply M; auto|exact C].
    + intros q. fold P D. rewrite A, in_map_iff. split.
      * intros (i & <- & Hi). apply in_seq in Hi. exists i. split; [lia|auto].
      * intros (i & Hi & ->). exists i. split; auto. apply in_seq. lia.
  - destruct (R1 (seq 0 (t_n t))) as (A & B & C & D' & E & F). constructor; fold D.
    + rewrite legend_app, B. cbn. rewrite Hl. reflexivity.
    + exists (strides (t_steps t) (Z.to_nat step)). split; [apply strides_visited; lia|]. right. split; [intros Q; apply M in Q; discriminate|].
      rewrite paths_app, C. reflexivity.
    + intros q. rewrite markers_app, A. cbn [markers flat_map app]. rewrite in_app_iff, in_map_iff. split.
      * intros [(i & <- & Hi)|[<-|[]]]; [apply in_seq in Hi; exists i; split; [lia|auto]|exists 0%nat; auto].
      * intros (i & Hi & ->). left. exists i. split; auto. apply in_seq. lia.
    + rewrite indices_app, outline_app, limits_app, D', E, F. repeat split.
Qed.

(** ** Colours *)
Lemma painted_app a b : painted (a ++ b) = painted a ++ painted b. Proof. apply flat_map_app. Qed.
Lemma entity_painted pal dim t p step label marker color uniform :
  (dim = 2 \/ dim = 3)%nat -> traj_ok dim t -> pos_ok dim p -> p_n p = t_n t -> (0 < t_steps t)%nat -> (0 < t_n t)%nat -> (0 < step)%Z ->
  exists d, plot_entity pal t p step label marker color uniform = Ok d /\
    (forall q c, In (q, c) (painted d) -> exists i, spot t p i q /\ c = entity_color pal color uniform i) /\
    (forall i, (i < t_n t)%nat -> In (p_row p i, entity_color pal color uniform i) (painted d)).
Proof.
  intros Hd Ht Hp Hn T0 N0 Hs. rewrite (plot_entity_ok pal dim) by auto. eexists. split; [reflexivity|].
  assert (Hdot : forall l q c, In (q, c) (painted (map (dot pal p marker color uniform) l)) <-> exists i, In i l /\ q = p_row p i /\ c = entity_color pal color uniform i).
  { intros l q c. unfold painted. rewrite in_flat_map. split.
    - intros (x & Hx & H). apply in_map_iff in Hx as (i & <- & Hi). cbn in H. destruct H as [H|[]]. exists i. injection H as <- <-. auto.
    - intros (i & Hi & -> & ->). exists (dot pal p marker color uniform i). split; [apply in_map; auto|]. cbn. auto. }
  assert (Hboth : forall l q c, In (q, c) (painted (flat_map (fun i => [path pal t step label marker color uniform i; dot pal p marker color uniform i]) l)) <->
     exists i, In i l /\ c = entity_color pal color uniform i /\ (q = p_row p i \/ exists s, In s (strides (t_steps t) (Z.to_nat step)) /\ q = t_at t s i)).
  { intros l q c. unfold painted. rewrite in_flat_map. split.
    - intros (x & Hx & H). apply in_flat_map in Hx as (i & Hi & [<-|[<-|[]]]).
      + cbn in H. apply in_map_iff in H as (r & E & Hr). injection E as -> <-. apply in_map_iff in Hr as (s & <- & Hr). exists i. eauto 6.
      + cbn in H. destruct H as [H|[]]. injection H as <- <-. exists i. auto.
    - intros (i & Hi & -> & [-> | (s & Hs' & ->)]).
      + exists (dot pal p marker color uniform i). split; [apply in_flat_map; exists i; cbn; auto|]. cbn. auto.
      + exists (path pal t step label marker color uniform i). split; [apply in_flat_map; exists i; cbn; auto|].
        cbn [path]. apply in_map_iff. exists (t_at t s i). split; auto. apply in_map_iff. eauto. }
  destruct (is_moving t p); split.
  - intros q c H. apply Hboth in H as (i & Hi & -> & H). apply in_seq in Hi. exists i. split; auto. split; [lia|].
    destruct H as [H|(s & Hs' & H)]; auto. right. exists s. apply strides_in in Hs' as [Hs' _]; [auto|lia].
  - intros i Hi. apply Hboth. exists i. rewrite in_seq. repeat split; auto; lia.
  - intros q c H. rewrite painted_app in H. apply in_app_iff in H as [H|H].
    + apply Hdot in H as (i & Hi & -> & ->). apply in_seq in Hi. exists i. repeat split; auto; lia.
    + cbn in H. destruct H as [H|[]]. injection H as <- <-. exists 0%nat. repeat split; auto.
  - intros i Hi. rewrite painted_app. apply in_app_iff. left. apply Hdot. exists i. rewrite in_seq. repeat split; auto; lia.
Qed.

(** ** The box *)
Lemma differ3 a b c a' b' c' : differ [a; b; c] [a'; b'; c'] =
  ((if Req_EM_T a a' then 0 else 1) + ((if Req_EM_T b b' then 0 else 1) + ((if Req_EM_T c c' then 0 else 1) + 0)))%nat.
Proof. reflexivity. Qed.
Lemma box_edges x y z : 0 < x -> 0 < y -> 0 < z ->
  let o := outline (draw_room [x; y; z]) in
  length o = 12%nat /\ forall a b, In (a, b) o \/ In (b, a) o <-> corner [x; y; z] a /\ corner [x; y; z] b /\ differ a b = 1%nat.
Proof.
  intros Hx Hy Hz o. split; [reflexivity|]. intros a b.
  assert (Cn : forall u v w, (u = 0 \/ u = x) -> (v = 0 \/ v = y) -> (w = 0 \/ w = z) -> corner [x; y; z] [u; v; w]).
  { intros. unfold corner. repeat (apply Forall2_cons; [assumption|]). apply Forall2_nil. }
  split.
  - intros [H|H]; cbn in H; repeat (destruct H as [H|H]); try contradiction; injection H as <- <-;
      (split; [apply Cn; auto|split; [apply Cn; auto|]]); rewrite differ3;
      repeat match goal with |- context [Req_EM_T ?u ?v] => destruct (Req_EM_T u v); try (exfalso; lra) end; reflexivity.
  - intros (Ca & Cb & D). inversion Ca as [|? a0 ? la A0 Ca1]; subst. inversion Ca1 as [|? a1 ? la1 A1 Ca2]; subst.
    inversion Ca2 as [|? a2 ? la2 A2 Ca3]; subst. inversion Ca3; subst.
    inversion Cb as [|? b0 ? lb B0 Cb1]; subst. inversion Cb1 as [|? b1 ? lb1 B1 Cb2]; subst.
    inversion Cb2 as [|? b2 ? lb2 B2 Cb3]; subst. inversion Cb3; subst.
    rewrite differ3 in D. clear Ca Ca1 Ca2 Ca3 Cb Cb1 Cb2 Cb3.
    destruct A0 as [->| ->], A1 as [->| ->], A2 as [->| ->], B0 as [->| ->], B1 as [->| ->], B2 as [->| ->];
      repeat match type of D with context [Req_EM_T ?u ?v] => destruct (Req_EM_T u v); try (exfalso; lra) end;
      try discriminate D; subst o; cbn; clear; tauto.
Qed.
Lemma rectangles_app a b : rectangles (a ++ b) = rectangles a ++ rectangles b. Proof. apply flat_map_app. Qed.
(** Drawings without parts of the room. *)
Definition roomless (d : list cmd) : Prop := outline d = [] /\ limits d = [] /\ rectangles d = [].
Lemma roomless_app a b : roomless a -> roomless b -> roomless (a ++ b).
Proof. intros (A & B & C) (D & E & F). unfold roomless. rewrite outline_app, limits_app, rectangles_app, A, B, C, D, E, F. auto. Qed.
Lemma draw_room_shows size rest : (length size = 2 \/ length size = 3)%nat -> Forall (fun l => 0 < l) size -> roomless rest ->
  shows_room size (draw_room size ++ rest).
Proof.
  intros L Hp (A & B & C). unfold shows_room. rewrite outline_app, limits_app, rectangles_app, A, B, C, !app_nil_r.
  split; [apply room_reads; auto|]. destruct L as [L|L].
  - destruct size as [|x [|y [|]]]; try discriminate. split; reflexivity.
  - destruct size as [|x [|y [|z [|]]]]; try discriminate. split; [reflexivity|].
    inversion Hp; subst. inversion H2; subst. inversion H4; subst. apply box_edges; auto.
Qed.
Lemma roomless_scatter p label color marker d : scatter p label color marker = Ok d -> roomless d.
Proof.
  unfold scatter. destruct (_ =? 0)%nat; [intros H; injection H as <-; repeat split; reflexivity|].
  destruct (mapM _ _); [|discriminate]. intros H. injection H as <-. repeat split; reflexivity.
Qed.
Lemma roomless_all l : Forall (fun c => match c with CRect _ _ | CEdge _ _ | CLim _ _ _ => False | _ => True end) l -> roomless l.
Proof.
  induction l as [|c l IH]; intros H; [repeat split; reflexivity|]. inversion H; subst. apply (roomless_app [c]); auto.
  destruct c; try contradiction; repeat split; reflexivity.
Qed.
Lemma roomless_index p : forall l d, mapM (fun i => do c <- coords (p_dim p) (p_row p i); Ok (CIndex c i)) l = Ok d -> roomless d.
Proof.
  induction l as [|i l IH]; intros d H; cbn [mapM] in H; [injection H as <-; repeat split; reflexivity|].
  destruct (coords _ _) as [c|]; [|discriminate]. cbn [bind] in H. destruct (mapM _ l) as [m|]; [|discriminate]. injection H as <-.
  apply (roomless_app [CIndex c i]); [repeat split; reflexivity|]. apply IH. reflexivity.
Qed.
Lemma roomless_annotate p d : annotate p = Ok d -> roomless d.
Proof.
  unfold annotate. destruct (_ =? 0)%nat; [intros H; injection H as <-; repeat split; reflexivity|]. apply roomless_index.
Qed.
Lemma roomless_item t p mv step label marker color i d : plot_item t p mv step label marker color i = Ok d -> roomless d.
Proof.
  unfold plot_item. destruct mv.
  - destruct (strided _ _); [|discriminate]. cbn [bind]. destruct (mapM _ _); [|discriminate]. cbn [bind].
    destruct (scatter _ _ _ _) eqn:E; [|discriminate]. intros H. injection H as <-. eapply (roomless_app [_]); [repeat split; reflexivity|].
    eapply roomless_scatter; eauto.
  - cbn [bind]. destruct (scatter _ _ _ _) eqn:E; [|discriminate]. intros H. injection H as <-. eapply roomless_scatter; eauto.
Qed.
Lemma roomless_entity pal t p step label marker color uniform d :
  plot_entity pal t p step label marker color uniform = Ok d -> roomless d.
Proof.
  unfold plot_entity. destruct (_ =? 0)%nat; [intros H; injection H as <-; repeat split; reflexivity|].
  set (q := if ((p_n p =? t_n t) && (p_dim p =? t_dim t))%nat then p else mkPos (t_n t) (t_dim t) (t_at t 0)). set (mv := is_moving t q). clearbody mv.
  destruct (mapM _ _) as [items|] eqn:E; [|discriminate]. cbn [bind]. intros H.
  assert (A : forall l its, mapM (fun i => plot_item t q mv step label marker (entity_color pal color uniform i) i) l = Ok its -> roomless (concat its)).
  { induction l as [|i l IH]; intros its F; cbn [mapM] in F; [injection F as <-; repeat split; reflexivity|].
    destruct (plot_item _ _ _ _ _ _ _ i) eqn:G; [|discriminate]. cbn [bind] in F. destruct (mapM _ l) eqn:K; [|discriminate].
    injection F as <-. cbn [concat]. apply roomless_app; [eapply roomless_item; eauto|eauto]. }
  apply A in E. destruct mv.
  - injection H as <-. rewrite app_nil_r. auto.
  - destruct (scatter _ _ _ _) eqn:S; [|discriminate]. injection H as <-. apply roomless_app; auto. eapply roomless_scatter; eauto.
Qed.

(** ** Steps *)
Lemma increasing_ext : forall a b : list nat,
  (forall i j, (i < j < length a)%nat -> (nth i a 0 < nth j a 0)%nat) -> (forall i j, (i < j < length b)%nat -> (nth i b 0 < nth j b 0)%nat) ->
  (forall x, In x a <-> In x b) -> a = b.
Proof.
  assert (HD : forall x (l : list nat), (forall i j, (i < j < length (x :: l))%nat -> (nth i (x :: l) 0 < nth j (x :: l) 0)%nat) ->
     (forall y, In y l -> (x < y)%nat) /\ forall i j, (i < j < length l)%nat -> (nth i l 0 < nth j l 0)%nat).
  { intros x l H. split.
    - intros y Hy. apply (In_nth _ _ 0%nat) in Hy as (k & Hk & <-). apply (H 0%nat (S k)). cbn. lia.
    - intros i j Hij. apply (H (S i) (S j)). cbn. lia. }
  induction a as [|x a IH]; intros [|y b] A B E; auto.
  - exfalso. apply (E y). left. reflexivity.
  - exfalso. apply (E x). left. reflexivity.
  - apply HD in A as [A1 A2]. apply HD in B as [B1 B2].
    assert (x = y).
    { destruct (proj1 (E x) (or_introl eq_refl)) as [K|K]; auto. destruct (proj2 (E y) (or_introl eq_refl)) as [K'|K']; auto.
      apply B1 in K. apply A1 in K'. lia. }
    subst y. f_equal. apply IH; auto. intros z. split; intros Hz.
    + destruct (proj1 (E z) (or_intror Hz)) as [K|K]; auto. apply A1 in Hz. lia.
    + destruct (proj2 (E z) (or_intror Hz)) as [K|K]; auto. apply B1 in Hz. lia.
Qed.
Lemma visited_one n ls : visited n 1 ls -> ls = seq 0 n.
Proof.
  intros [A B]. apply increasing_ext; auto.
  - intros i j. rewrite seq_length. intros H. rewrite !seq_nth by lia. lia.
  - intros x. rewrite A, in_seq. split; [lia|]. intros H. split; [lia|apply Nat.divide_1_l].
Qed.
Lemma mapM_first_err {A B} (f : A -> result B) x l e : f x = Err e -> mapM f (x :: l) = Err e.
Proof. intros H. cbn [mapM]. rewrite H. reflexivity. Qed.

(** ** Files *)
Lemma saved_app a b : saved (a ++ b) = saved a ++ saved b. Proof. apply flat_map_app. Qed.
Lemma logged_app a b : logged (a ++ b) = logged a ++ logged b. Proof. apply flat_map_app. Qed.
Lemma in_logged l f : In f (logged l) <-> In (EInfo f) l.
Proof.
  unfold logged. rewrite in_flat_map. split.
  - intros ([| | g |] & H & K); cbn in K; try contradiction. destruct K as [<-|[]]. auto.
  - intros H. exists (EInfo f). split; auto. left. reflexivity.
Qed.
Lemma logged_map l : logged (map EInfo l) = l.
Proof. unfold logged. induction l; cbn; congruence. Qed.
Lemma saved_map l : saved (map EInfo l) = [].
Proof. unfold saved. induction l; cbn; auto. Qed.
(** Traces that end without warning and log nothing. *)
Definition quiet (l : list ev) : Prop := logged l = [] /\ ~ In EWarn l.
Lemma quiet_app a b : quiet a -> quiet b -> quiet (a ++ b).
Proof. intros [A B] [C D]. split; [rewrite logged_app, A, C; reflexivity|]. rewrite in_app_iff. tauto. Qed.
Lemma quiet_nil : quiet []. Proof. split; auto. Qed.
Lemma quiet_bind {A B} (m : traced A) (f : A -> traced B) : quiet (fst m) -> (forall a, snd m = Ok a -> quiet (fst (f a))) -> quiet (fst (tbind m f)).
Proof.
  destruct m as [t [a|e]]; cbn; intros H K; auto. specialize (K a eq_refl). destruct (f a) as [t' r]. cbn in *. apply quiet_app; auto.
Qed.
Lemma quiet_lift {A} (r : result A) : quiet (fst (lift r)). Proof. apply quiet_nil. Qed.
Lemma quiet_save disk f c : quiet (fst (save_axes disk f c)).
Proof. unfold save_axes. destruct (disk f); [apply quiet_nil|]. split; [reflexivity|]. cbn. intros [H|[]]. discriminate H. Qed.
(** A bind that succeeds. *)
Lemma tbind_Ok {A B} (m : traced A) (f : A -> traced B) t b : tbind m f = (t, Ok b) ->
  exists t1 a t2, m = (t1, Ok a) /\ f a = (t2, Ok b) /\ t = t1 ++ t2.
Proof.
  destruct m as [t1 [a|e]]; cbn; [|discriminate]. destruct (f a) as [t2 r] eqn:E. intros H. injection H as <- ->. eauto 6.
Qed.
Lemma lift_Ok {A} (r : result A) t a : lift r = (t, Ok a) -> t = [] /\ r = Ok a.
Proof. unfold lift. intros H. injection H as <- ->. auto. Qed.
Lemma save_Ok disk f c t : save_axes disk f c = (t, Ok tt) -> t = [ESaved f c] /\ disk f = None.
Proof. unfold save_axes. destruct (disk f); intros H; [discriminate|]. injection H as <-. auto. Qed.
(** One view that succeeds. *)
Lemma render_view_Ok pal disk other room sp mp prefix step idx v src mic t st' a b :
  render_view pal disk other room sp mp prefix step idx v (src, mic) = (t, Ok (st', (a, b))) ->
  exists d, plot_scene_static (firstn v room) (cut_pos v sp) (cut_pos v mp) idx = Ok d /\ a = [view_file prefix "static" v] /\
  (given src || given mic = false /\ st' = (src, mic) /\ b = [] /\ t = [ESaved (view_file prefix "static" v) d] \/
   given src || given mic = true /\ exists ts tm d',
     let steps := traj_steps src mic (arg_len other) in
     trajectory_to_cpu src sp steps = Ok ts /\ trajectory_to_cpu mic mp steps = Ok tm /\
     plot_scene_dynamic pal (firstn v room) (TTraj (cut_traj v ts)) (TTraj (cut_traj v tm)) step (Some (cut_pos v sp)) (Some (cut_pos v mp)) idx = Ok d' /\
     st' = (Some (TTraj ts), Some (TTraj tm)) /\ b = [view_file prefix "dynamic" v] /\
     t = [ESaved (view_file prefix "static" v) d; ESaved (view_file prefix "dynamic" v) d']).
Proof.
  unfold render_view. intros H. apply tbind_Ok in H as (t1 & d & t2 & H1 & H & ->). apply lift_Ok in H1 as [-> E1].
  apply tbind_Ok in H as (t3 & [] & t4 & H2 & H & ->). apply save_Ok in H2 as [-> _]. exists d. split; auto.
  assert (G : forall X : traced ((option traj_arg * option traj_arg) * (list string * list string)),
    (match src, mic with None, None => tret ((src, mic), ([view_file prefix "static" v], [])) | _, _ => X end) = (t4, Ok (st', (a, b))) ->
    given src || given mic = false /\ t4 = [] /\ st' = (src, mic) /\ a = [view_file prefix "static" v] /\ b = [] \/ given src || given mic = true /\ X = (t4, Ok (st', (a, b)))).
  { intros X. destruct src, mic; cbn; intros K; try (right; split; [reflexivity|exact K]). left. unfold tret in K. injection K as <- <- <- <-. auto. }
  destruct (G (let steps := traj_steps src mic (arg_len other) in
      tbind (lift (trajectory_to_cpu src sp steps)) (fun ts =>
      tbind (lift (trajectory_to_cpu mic mp steps)) (fun tm =>
      tbind (lift (plot_scene_dynamic pal (firstn v room) (TTraj (cut_traj v ts)) (TTraj (cut_traj v tm)) step
                     (Some (cut_pos v sp)) (Some (cut_pos v mp)) idx)) (fun drawing' =>
      tbind (save_axes disk (view_file prefix "dynamic" v) drawing') (fun _ =>
      tret ((Some (TTraj ts), Some (TTraj tm)), ([view_file prefix "static" v], [view_file prefix "dynamic" v])))))))) as [(E & -> & -> & -> & ->)|[E K]].
  - destruct src, mic; exact H.
  - split; auto.
  - clear G H. cbn zeta in K. apply tbind_Ok in K as (t5 & ts & t6 & K1 & K & ->). apply lift_Ok in K1 as [-> K1].
    apply tbind_Ok in K as (t7 & tm & t8 & K2 & K & ->). apply lift_Ok in K2 as [-> K2].
    apply tbind_Ok in K as (t9 & d' & t10 & K3 & K & ->). apply lift_Ok in K3 as [-> K3].
    apply tbind_Ok in K as (t11 & [] & t12 & K4 & K & ->). apply save_Ok in K4 as [-> _].
    unfold tret in K. injection K as <- <- <- <-. split; auto. right. split; auto. exists ts, tm, d'. auto 10.
Qed.
(** Conversely: a view of a valid scene succeeds. *)
Lemma render_view_go pal disk other room sp mp prefix step idx v src mic d :
  disk (view_file prefix "static" v) = None -> disk (view_file prefix "dynamic" v) = None ->
  plot_scene_static (firstn v room) (cut_pos v sp) (cut_pos v mp) idx = Ok d ->
  (given src || given mic = false ->
     render_view pal disk other room sp mp prefix step idx v (src, mic) =
     ([ESaved (view_file prefix "static" v) d], Ok ((src, mic), ([view_file prefix "static" v], [])))) /\
  (given src || given mic = true -> forall ts tm d',
     trajectory_to_cpu src sp (traj_steps src mic (arg_len other)) = Ok ts ->
     trajectory_to_cpu mic mp (traj_steps src mic (arg_len other)) = Ok tm ->
     plot_scene_dynamic pal (firstn v room) (TTraj (cut_traj v ts)) (TTraj (cut_traj v tm)) step (Some (cut_pos v sp)) (Some (cut_pos v mp)) idx = Ok d' ->
     render_view pal disk other room sp mp prefix step idx v (src, mic) =
     ([ESaved (view_file prefix "static" v) d; ESaved (view_file prefix "dynamic" v) d'],
      Ok ((Some (TTraj ts), Some (TTraj tm)), ([view_file prefix "static" v], [view_file prefix "dynamic" v])))).
Proof.
  intros D1 D2 E1. unfold render_view, save_axes, lift, tret. rewrite E1, D1, D2. split.
  - intros G. destruct src, mic; try discriminate. reflexivity.
  - intros G ts tm d' A B C. destruct src, mic; try discriminate; cbn [tbind app]; rewrite A; cbn [tbind app]; rewrite B; cbn [tbind app];
      rewrite C; reflexivity.
Qed.
Definition get (r : result (list cmd)) : list cmd := match r with Ok d => d | Err _ => [] end.
Section Views.
Variables (pal : list string) (disk : string -> option exn) (other : nat) (room : list R) (sp mp : postab) (prefix : string) (step : Z) (idx : bool).
Variables (dyn : bool) (ts tm : trajectory).
Definition pic (v : nat) := plot_scene_static (firstn v room) (cut_pos v sp) (cut_pos v mp) idx.
Definition pic' (v : nat) := plot_scene_dynamic pal (firstn v room) (TTraj (cut_traj v ts)) (TTraj (cut_traj v tm)) step (Some (cut_pos v sp)) (Some (cut_pos v mp)) idx.
Definition traces (v : nat) : list ev :=
  ESaved (view_file prefix "static" v) (get (pic v)) :: (if dyn then [ESaved (view_file prefix "dynamic" v) (get (pic' v))] else []).
Lemma render_views_go vs : forall src mic,
  (forall f, disk f = None) ->
  given src || given mic = dyn ->
  (dyn = true -> trajectory_to_cpu src sp (traj_steps src mic (arg_len other)) = Ok ts /\ trajectory_to_cpu mic mp (traj_steps src mic (arg_len other)) = Ok tm) ->
  (forall v, In v vs -> (exists d, pic v = Ok d) /\ (dyn = true -> exists d, pic' v = Ok d)) ->
  render_views pal disk other room sp mp prefix step idx vs (src, mic) =
  (flat_map traces vs, Ok (map (view_file prefix "static") vs, if dyn then map (view_file prefix "dynamic") vs else [])).
Proof.
  induction vs as [|v vs IH]; intros src mic Hd G HT HP; cbn [render_views flat_map map].
  { unfold tret. destruct dyn; reflexivity. }
  destruct (HP v (or_introl eq_refl)) as [(d & E) E'].
  destruct (render_view_go pal disk other room sp mp prefix step idx v src mic d (Hd _) (Hd _) E) as [R1 R2].
  unfold traces at 1. destruct dyn eqn:Dy.
  - destruct (HT eq_refl) as [T1 T2]. destruct (E' eq_refl) as (d' & E2). rewrite (R2 G ts tm d' T1 T2 E2). cbn [tbind].
    rewrite IH; auto.
    + unfold tret. cbn [tbind fst snd app]. rewrite E, E2. cbn [get]. rewrite app_nil_r. reflexivity.
    + intros w Hw. apply HP. right. exact Hw.
  - rewrite (R1 G). cbn [tbind]. rewrite IH; auto.
    + unfold tret. cbn [tbind fst snd app]. rewrite E. cbn [get]. rewrite app_nil_r. reflexivity.
    + intros w Hw. apply HP. right. exact Hw.
Qed.
End Views.
Lemma quiet_view pal disk other room sp mp prefix step idx v st : quiet (fst (render_view pal disk other room sp mp prefix step idx v st)).
Proof.
  unfold render_view. apply quiet_bind; [apply quiet_lift|]. intros d _. apply quiet_bind; [apply quiet_save|]. intros [] _.
  destruct st as [[s|] [m|]]; try apply quiet_nil;
  (apply quiet_bind; [apply quiet_lift|]; intros ts _; apply quiet_bind; [apply quiet_lift|]; intros tm _;
   apply quiet_bind; [apply quiet_lift|]; intros d' _; apply quiet_bind; [apply quiet_save|]; intros [] _; apply quiet_nil).
Qed.
Lemma quiet_views pal disk other room sp mp prefix step idx vs : forall st, quiet (fst (render_views pal disk other room sp mp prefix step idx vs st)).
Proof.
  induction vs as [|v vs IH]; intros st; cbn [render_views]; [apply quiet_nil|].
  apply quiet_bind; [apply quiet_view|]. intros [st' [a b]] _. apply quiet_bind; [apply IH|]. intros r _. apply quiet_nil.
Qed.
(** What is returned was saved. *)
Lemma render_views_saved pal disk other room sp mp prefix step idx vs : forall st t a b,
  render_views pal disk other room sp mp prefix step idx vs st = (t, Ok (a, b)) -> Permutation (map fst (saved t)) (a ++ b).
Proof.
  induction vs as [|v vs IH]; intros [src mic] t a b H; cbn [render_views] in H.
  { unfold tret in H. injection H as <- <- <-. constructor. }
  apply tbind_Ok in H as (t1 & [st' [a1 b1]] & t2 & H1 & H & ->).
  apply tbind_Ok in H as (t3 & [a2 b2] & t4 & H2 & H & ->). unfold tret in H. injection H as <- <- <-. cbn [fst snd].
  apply IH in H2. rewrite app_nil_r, saved_app, map_app.
  apply render_view_Ok in H1 as (d & _ & -> & [(_ & _ & -> & ->)|(_ & ts & tm & d' & _ & _ & _ & _ & -> & ->)]);
    cbn [saved flat_map map fst app].
  - apply perm_skip. exact H2.
  - apply perm_skip. apply Permutation_cons_app. exact H2.
Qed.
(** Views of a valid scene. *)
Lemma cut_pos_ok dim v p : (v <= dim)%nat -> pos_ok dim p -> pos_ok v (cut_pos v p).
Proof. intros H [A B]. split; cbn; [lia|]. intros i Hi. rewrite firstn_length, B by auto. lia. Qed.
Lemma cut_traj_ok dim v t : (v <= dim)%nat -> traj_ok dim t -> traj_ok v (cut_traj v t).
Proof. intros H [A B]. split; cbn; [lia|]. intros s i Hs Hi. rewrite firstn_length, B by auto. lia. Qed.
Lemma cut_group_ok dim v t p : (v <= dim)%nat -> group_ok dim t p -> group_ok v (cut_traj v t) (cut_pos v p).
Proof. intros H (A & B & C & D & E). split; [eapply cut_traj_ok; eauto|]. split; [eapply cut_pos_ok; eauto|]. cbn. auto. Qed.
Lemma cut_room_ok room v : (v = 2 \/ v = 3)%nat -> (v <= length room)%nat -> room_ok room -> room_ok (firstn v room) /\ length (firstn v room) = v.
Proof.
  intros Hv L [A B]. assert (length (firstn v room) = v) by (rewrite firstn_length; lia). split; auto. split; [lia|].
  rewrite Forall_forall in *. intros x Hx. apply B. rewrite <- (firstn_skipn v room). apply in_or_app. auto.
Qed.
Lemma motion_ok dim p a steps : pos_ok dim p -> (0 < p_n p)%nat -> (0 < steps)%nat -> given_ok dim p a ->
  exists t, trajectory_to_cpu a p steps = Ok t /\ group_ok dim t p /\ motion a p t.
Proof.
  intros Hp N S. destruct a as [[t|]|]; cbn; [|tauto|].
  - intros G. exists t. auto.
  - intros _. eexists. split; [reflexivity|]. destruct Hp as [A B]. split; [|cbn; auto].
    repeat split; cbn; auto.
Qed.
Lemma in_bind_l {A B} (m : traced A) (f : A -> traced B) e : In e (fst m) -> In e (fst (tbind m f)).
Proof. destruct m as [t [a|x]]; cbn; auto. destruct (f a). cbn. intros H. apply in_or_app. auto. Qed.
Lemma in_bind_r {A B} t (a : A) (f : A -> traced B) e : In e (fst (f a)) -> In e (fst (tbind (t, Ok a) f)).
Proof. cbn. destruct (f a). cbn. intros H. apply in_or_app. auto. Qed.
Lemma in_saved l f d : In (f, d) (saved l) <-> In (ESaved f d) l.
Proof.
  unfold saved. rewrite in_flat_map. split.
  - intros ([| g c| |] & H & K); cbn in K; try contradiction. destruct K as [K|[]]. injection K as -> ->. auto.
  - intros H. exists (ESaved f d). split; auto. left. reflexivity.
Qed.
