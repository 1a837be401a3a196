(** C88: the geometry of the scenes of the example programs. *)
From Coq Require Import String List ZArith Reals Lia Lra Psatz Bool Sorting.
From Verif Require Import Prelude PreludeFacts FloatModel DirModel DirSpec RoomModel GeoModel GeoSpec GeoSampling GeoProps ExModel ExSpec ExProofs.
Import ListNotations.
Local Open Scope R_scope.
Local Notation length := List.length.

(** A static scene is drawn as described, or the retries of the sampler are used up. *)
Theorem C88_static nrm e g room fs n m : random_draws g -> usual_room room -> (0 < fs)%Z -> 0 <= e -> (forall v, nrm v <= (1 + e) * norm v) -> (1 <= m)%Z ->
  static_scene nrm g room fs n m = Err RuntimeError \/
  exists c srcs mics, static_scene nrm g room fs n m = Ok (c, srcs, mics) /\ kept room c /\ length srcs = Z.to_nat n /\
    (forall p, In p srcs -> source_place room e c p) /\ row_at room c (Z.to_nat m) mics.
Proof. apply static_spec. Qed.
(** Moving sources: of the command (all move, two microphones) and of the script. *)
Theorem C88_moving_sources nrm e room fs n steps : usual_room room -> (0 < fs)%Z -> 0 <= e -> (forall v, nrm v <= (1 + e) * norm v) -> (1 <= n)%Z ->
  (forall g, random_draws g -> cli_moving_sources nrm g room fs n steps = Err RuntimeError \/
    exists d, cli_moving_sources nrm g room fs n steps = Ok d /\
      moving_sources_scene e room false (fun _ => true) (Z.to_nat n) 2 (steps_of steps) d) /\
  (forall dr n_moving m, random_draws (d_uniform dr) -> fair_pick dr -> (1 <= m)%Z ->
    script_moving_sources nrm dr room fs n n_moving m steps = Err RuntimeError \/
    exists d moves, script_moving_sources nrm dr room fs n n_moving m steps = Ok d /\
      moving_sources_scene e room true moves (Z.to_nat n) (Z.to_nat m) (steps_of steps) d /\
      length (filter moves (seq 0 (Z.to_nat n))) = Z.to_nat (Z.min n (Z.max 1 n_moving))).
Proof.
  intros U F He Hn H1. split.
  - intros g Hg. exact (moving_sources_spec nrm e g false (fun _ => true) room fs n 2 steps Hg U F He Hn H1 ltac:(lia)).
  - intros dr n_moving m Hg Fp Hm. unfold script_moving_sources.
    set (k := Z.to_nat (Z.min n (Z.max 1 n_moving))).
    destruct (moving_sources_spec nrm e (d_uniform dr) true (picked dr (Z.to_nat n) k) room fs n m steps Hg U F He Hn H1 Hm) as [E|(d & E & S)]; [left; auto|].
    right. exists d. eexists. split; [exact E|]. split; [exact S|]. apply picked_count; auto. unfold k. lia.
Qed.
(** Moving microphones: of the command (two microphones) and of the script. *)
Theorem C88_moving_mics nrm e g room fs n steps : random_draws g -> usual_room room -> (0 < fs)%Z -> 0 <= e -> (forall v, nrm v <= (1 + e) * norm v) ->
  (cli_moving_mics nrm g room fs n steps = Err RuntimeError \/
    exists d, cli_moving_mics nrm g room fs n steps = Ok d /\ moving_mics_scene e room false (Z.to_nat n) 2 (steps_of steps) d) /\
  (forall m, (1 <= m)%Z -> script_moving_mics nrm g room fs n m steps = Err RuntimeError \/
    exists d, script_moving_mics nrm g room fs n m steps = Ok d /\ moving_mics_scene e room true (Z.to_nat n) (Z.to_nat m) (steps_of steps) d).
Proof.
  intros Hg U F He Hn. split.
  - exact (moving_mics_spec nrm e g false room fs n 2 steps Hg U F He Hn ltac:(lia)).
  - intros m Hm. exact (moving_mics_spec nrm e g true room fs n m steps Hg U F He Hn Hm).
Qed.
(** Trajectories of a scene of the data set. *)
Theorem C88_trajectories nrm e d n n_moving room c steps : random_draws (d_uniform d) -> fair_pick d -> usual_room room -> 0 <= e ->
  (forall v, nrm v <= (1 + e) * norm v) -> kept room c -> Forall single c -> (1 <= n)%Z -> (2 <= steps)%Z ->
  source_trajectories nrm d n n_moving (room_size room) c steps = Err RuntimeError \/
  exists rows modes moving starts, source_trajectories nrm d n n_moving (room_size room) c steps = Ok (rows, modes, moving) /\
    source_motions e room c (Z.to_nat n) (Z.to_nat (Z.min n n_moving)) (Z.to_nat steps) rows modes moving starts.
Proof. apply trajectories_spec. Qed.
(** A run of the builder: every scene has the same row of microphones. *)
Lemma row_fun room c n a b : row_at room c n a -> row_at room c n b -> a = b.
Proof.
  intros [La A] [Lb B]. apply nth_ext with (d := []) (d' := []); [congruence|]. intros j Hj. rewrite La in Hj.
  destruct (A j Hj) as (A1 & A2 & A3). destruct (B j Hj) as (B1 & B2 & B3).
  apply nth_ext with (d := 0) (d' := 0); [congruence|]. intros i Hi. rewrite A1 in Hi. destruct i as [|i]; [congruence|]. rewrite A3, B3 by lia. auto.
Qed.
Theorem C88_dataset nrm e fresh loaded room seed n_scenes n n_moving m steps :
  (forall s, random_draws (fresh s)) -> (forall s, random_draws (d_uniform (loaded s)) /\ fair_pick (loaded s)) -> usual_room room -> 0 <= e ->
  (forall v, nrm v <= (1 + e) * norm v) -> (1 <= n)%Z -> (1 <= m)%Z ->
  dataset_scenes nrm fresh loaded room seed n_scenes n n_moving m steps = Err RuntimeError \/
  exists c scenes, dataset_scenes nrm fresh loaded room seed n_scenes n n_moving m steps = Ok scenes /\ length scenes = Z.to_nat n_scenes /\
    Forall (dataset_scene e room c (Z.to_nat n) (Z.to_nat m) (steps_of steps)) scenes /\
    forall d d', In d scenes -> In d' scenes -> dy_mics d = dy_mics d'.
Proof.
  intros Hf Hl U He Hn H1 Hm.
  destruct (dataset_spec nrm e fresh loaded room seed n_scenes n n_moving m steps Hf Hl U He Hn H1 Hm) as [E|(c & sc & E & L & F)]; [left; auto|].
  right. exists c, sc. split; auto. split; auto. split; auto. rewrite Forall_forall in F. intros d d' Hd Hd'.
  destruct (F d Hd) as [(_ & A & _) _ _ _ _ _]. destruct (F d' Hd') as [(_ & B & _) _ _ _ _ _]. exact (row_fun _ _ _ _ _ A B).
Qed.

(** ** Inside the room *)

(** Sources stay half a metre, microphones ten centimetres away from the walls at every step. *)
Lemma row_inside room c n mics : usual_room room -> kept room c -> row_at room c n mics -> forall p, In p mics -> inside room (1 / 10) p.
Proof.
  intros U [Lc K] [L A] p Hp. destruct (In_nth _ _ [] Hp) as (j & Hj & <-). rewrite L in Hj. destruct (A j Hj) as (A1 & A2 & A3).
  split; [auto|]. intros i Hi. pose proof (K i Hi) as Ki. destruct i as [|i]; [|rewrite A3 by lia; lra]. rewrite A2.
  split; [apply Rmin_glb; [apply Rmax_r|lra]|apply Rmin_r].
Qed.
Theorem C88_inside_sources e room level moves n m T d : usual_room room -> (2 <= T)%nat -> moving_sources_scene e room level moves n m T d ->
  (forall i t, (i < n)%nat -> (t < T)%nat -> exists p, track_of (dy_src d) i t = Some p /\ kept room p /\ mouth_height room p) /\
  (forall i, (i < n)%nat -> track_of (dy_src d) i 0 = Some (nth i (dy_sources d) [])) /\
  forall row x, In row (dy_mic d) -> In x row -> exists p, x = Some p /\ inside room (1 / 10) p.
Proof.
  intros U HT [(c & Kc & Rc & P) Lc Em Ls Lr Tr].
  assert (S : forall i, (i < n)%nat -> source_place room e c (nth i (dy_sources d) [])) by (intros i Hi; apply P, nth_In; lia).
  split; [|split].
  - intros i t Hi Ht. destruct (S i Hi) as (S1 & S2 & _). specialize (Tr i Hi). cbv zeta in Tr. destruct (moves i).
    + destruct Tr as (b & Kb & Mb & _ & St). destruct (St t Ht) as (p & Ep & W). exists p. split; auto.
      assert (Fr : 0 <= INR t / (INR T - 1) <= 1) by (apply fraction; auto).
      split; [exact (on_way_kept room _ _ _ _ Fr S1 Kb W)|exact (on_way_height room _ _ _ _ Fr (proj1 S1) S2 Mb W)].
    + exists (nth i (dy_sources d) []). auto.
  - intros i Hi. specialize (Tr i Hi). cbv zeta in Tr. destruct (moves i); [|apply Tr; lia].
    destruct Tr as (b & _ & _ & _ & St). destruct (St 0%nat ltac:(lia)) as (p & Ep & W). rewrite Ep. f_equal. exact (on_way_zero _ _ _ _ W).
  - intros row x Hr Hx. rewrite Em in Hr. apply repeat_spec in Hr. subst row. apply in_map_iff in Hx as (p & <- & Hp). exists p. split; auto.
    exact (row_inside room c m _ U Kc Rc p Hp).
Qed.
Theorem C88_inside_mics e room level n m T d : usual_room room -> (2 <= T)%nat -> moving_mics_scene e room level n m T d ->
  (forall row x, In row (dy_src d) -> In x row -> exists p, x = Some p /\ kept room p /\ mouth_height room p) /\
  forall row x, In row (dy_mic d) -> In x row -> exists p, x = Some p /\ inside room (1 / 10) p.
Proof.
  intros U HT [Lc Es Ls _ (c0 & c1 & K0 & K1 & _ & P & Tr)]. split.
  - intros row x Hr Hx. rewrite Es in Hr. apply repeat_spec in Hr. subst row. apply in_map_iff in Hx as (p & <- & Hp). exists p. destruct (P p Hp) as (A & B & _). auto.
  - intros row x Hr Hx. destruct (In_nth _ _ [] Hr) as (t & Ht & <-). rewrite Ls in Ht. destruct (Tr t Ht) as (c & mics & W & Rc & E). rewrite E in Hx.
    apply in_map_iff in Hx as (p & <- & Hp). exists p. split; auto.
    refine (row_inside room c m _ U _ Rc p Hp). exact (on_way_kept room _ _ _ _ (fraction t T HT Ht) K0 K1 W).
Qed.
(** In the data set too, but for the end of a zigzag of two steps, which is no number. *)
Theorem C88_inside_dataset e room c n m T d : usual_room room -> (2 <= T)%nat -> dataset_scene e room c n m T d ->
  (forall i t, (i < n)%nat -> (t < T)%nat ->
     (exists p, track_of (dy_src d) i t = Some p /\ kept room p) \/
     (T = 2%nat /\ t = 1%nat /\ track_of (dy_src d) i t = None /\ motion room T (nth i (dy_sources d) []) (track_of (dy_src d) i) "zigzag")) /\
  (forall i, (i < n)%nat -> track_of (dy_src d) i 0 = Some (nth i (dy_sources d) [])) /\
  forall row x, In row (dy_mic d) -> In x row -> exists p, x = Some p /\ inside room (1 / 10) p.
Proof.
  intros U HT [(Kc & Rc & P) Lc Em Ls Lr Mo]. split; [|split].
  - intros i t Hi Ht. destruct (Mo i Hi) as (mode & M). assert (S1 : kept room (nth i (dy_sources d) [])) by (apply P, nth_In; lia).
    destruct (track_of (dy_src d) i t) as [p|] eqn:E.
    + left. exists p. split; auto. exact (motion_kept room T _ _ mode t p HT S1 M Ht E).
    + right. assert (Q : mode = "zigzag"%string /\ T = 2%nat /\ t = 1%nat).
      { destruct M as [H|b K Mb S|mm b s K1 M1 K2 M2 Es A B C].
        - rewrite H in E by auto. discriminate.
        - destruct (S t Ht) as (p & Ep & _). congruence.
        - split; auto. assert (s <= T)%nat by (rewrite Es; apply Nat.max_lub; auto; apply Nat.div_le_upper_bound; lia).
          destruct (Nat.lt_ge_cases (t + 1) s) as [Q|Q]; [destruct (A t Q) as (p & Ep & _); congruence|].
          destruct (Nat.eq_dec T s) as [Q2|Q2]; [|destruct (B ltac:(lia) t ltac:(lia)) as (p & Ep & _); congruence].
          assert (T / 2 < T)%nat by (apply Nat.div_lt; lia). lia. }
      destruct Q as (-> & Q1 & Q2). auto.
  - intros i Hi. destruct (Mo i Hi) as (mode & M). exact (motion_first _ _ _ _ _ HT M).
  - intros row x Hr Hx. rewrite Em in Hr. apply repeat_spec in Hr. subst row. apply in_map_iff in Hx as (p & <- & Hp). exists p. split; auto.
    exact (row_inside room c m _ U Kc Rc p Hp).
Qed.

(** ** What cannot be drawn *)

(** A room that is not sound, or no microphone, is a ValueError. *)
Theorem C88_rejected nrm g d fresh loaded room fs n k m steps seed scenes : ~ sound_room room fs ->
  static_scene nrm g room fs n m = Err ValueError /\ cli_moving_sources nrm g room fs n steps = Err ValueError /\
  script_moving_sources nrm d room fs n k m steps = Err ValueError /\ cli_moving_mics nrm g room fs n steps = Err ValueError /\
  script_moving_mics nrm g room fs n m steps = Err ValueError /\
  (~ sound_room room 16000 -> dataset_scenes nrm fresh loaded room seed scenes n k m steps = Err ValueError).
Proof.
  intros H. assert (E : example_room room fs = Err ValueError) by (destruct (example_room_cases room fs) as [[X _]|[_ X]]; [contradiction|exact X]).
  unfold static_scene, cli_moving_sources, script_moving_sources, moving_sources, cli_moving_mics, script_moving_mics, moving_mics. rewrite !E.
  repeat (split; [reflexivity|]). intros H'. unfold dataset_scenes. destruct (example_room_cases room 16000) as [[X _]|[_ ->]]; [contradiction|reflexivity].
Qed.
Theorem C88_no_microphone nrm g d fresh loaded room fs n k m steps seed scenes : (m <= 0)%Z ->
  (exists x, static_scene nrm g room fs n m = Err x) /\
  script_moving_sources nrm d room fs n k m steps = Err ValueError /\ (exists x, script_moving_mics nrm g room fs n m steps = Err x) /\
  dataset_scenes nrm fresh loaded room seed scenes n k m steps = Err ValueError.
Proof.
  intros H. assert (M : forall c, mics_at m c = Err ValueError) by (intros c; unfold mics_at; rewrite (proj2 (Z.leb_le m 0) H); auto).
  split; [|split; [|split]].
  - unfold static_scene. destruct (example_room room fs); cbn [bind]; [|eauto]. cbv zeta. destruct (one_point g 0 (room_size room)) as [c k0].
    destruct (far_points nrm g k0 n (room_size room) c); cbn [bind]; [|eauto]. rewrite M. cbn [bind]. eauto.
  - unfold script_moving_sources, moving_sources. destruct (example_room_cases room fs) as [[_ [r ->]]|[_ ->]]; cbn [bind]; [|auto]. cbv zeta.
    destruct (one_point (d_uniform d) 0 (room_size room)) as [c k0]. rewrite M. auto.
  - unfold script_moving_mics, moving_mics. destruct (example_room room fs); cbn [bind]; [|eauto]. cbv zeta. destruct (one_point g 0 (room_size room)) as [c k0].
    destruct (one_point g k0 (room_size room)) as [c1 k1]. destruct (far_points nrm g k1 n (room_size room) c); cbn [bind]; [|eauto].
    rewrite (proj2 (Z.leb_le m 0) H). eauto.
  - unfold dataset_scenes. destruct (example_room_cases room 16000) as [[_ [r ->]]|[_ ->]]; cbn [bind]; [|auto]. cbv zeta.
    destruct (one_point (fresh seed) 0 (room_size room)) as [c k0]. rewrite M. auto.
Qed.
(** Without a source there is no moving scene: the tracks cannot be stacked. *)
Theorem C88_no_source nrm g d fresh loaded room fs n k m steps seed scenes : (n <= 0)%Z -> (0 < scenes)%Z ->
  (exists x, cli_moving_sources nrm g room fs n steps = Err x) /\
  (exists x, script_moving_sources nrm d room fs n k m steps = Err x) /\
  (exists x, dataset_scenes nrm fresh loaded room seed scenes n k m steps = Err x).
Proof.
  intros H Hs. assert (Z0 : Z.to_nat n = O) by lia.
  assert (M : forall g level moves m, exists x, moving_sources nrm g level moves room fs n m steps = Err x).
  { clear - Z0. intros g level moves m. unfold moving_sources. destruct (example_room room fs); cbn [bind]; [|eauto]. cbv zeta.
    destruct (one_point g 0 (room_size room)) as [c k0]. destruct (mics_at m c); cbn [bind]; [|eauto].
    destruct (far_points nrm g k0 n (room_size room) c) as [[p k1]|]; cbn [bind]; [|eauto].
    destruct (end_points g k1 n (room_size room)); cbn [bind]; [|eauto]. rewrite Z0. cbn. eauto. }
  split; [apply M|split; [apply M|]]. unfold dataset_scenes. destruct (example_room room 16000); cbn [bind]; [|eauto]. cbv zeta.
  destruct (one_point (fresh seed) 0 (room_size room)) as [c k0]. destruct (mics_at m c); cbn [bind]; [|eauto].
  replace (Z.to_nat scenes) with (S (Z.to_nat scenes - 1)) by lia. cbn [seq mapM]. unfold source_trajectories at 1.
  destruct (far_points nrm (d_uniform (loaded (seed + Z.of_nat 0)%Z)) 0 n (room_size room) c) as [[p k1]|]; cbn [bind]; [|eauto]. rewrite Z0. cbn. eauto.
Qed.
(** A room whose inner diagonal is shorter than a metre and a half holds no scene, whatever is
    drawn. *)
Lemma dot_le (u v : list R) : length u = length v -> (forall i, (i < length u)%nat -> Rabs (nth i u 0) <= nth i v 0) -> dot u u <= dot v v.
Proof.
  revert v. induction u as [|x u IH]; intros [|y v] L H; try discriminate L; cbn; [lra|].
  specialize (IH v ltac:(cbn in L; lia)). assert (dot u u <= dot v v) by (apply IH; intros i Hi; apply (H (S i)); cbn; lia).
  pose proof (H 0%nat ltac:(cbn; lia)) as Hxy. cbn in Hxy. assert (x * x <= y * y); [|lra].
  assert (0 <= Rabs x) by apply Rabs_pos. replace (x * x) with (Rabs x * Rabs x); [nra|]. unfold Rabs. destruct (Rcase_abs x); ring.
Qed.
Lemma length_disp a b : length a = length b -> length (disp a b) = length a.
Proof. revert b. induction a as [|x a IH]; intros [|y b] L; try discriminate L; cbn in *; auto. Qed.
Lemma nth_disp a b i : length a = length b -> (i < length a)%nat -> nth i (disp a b) 0 = nth i b 0 - nth i a 0.
Proof. revert b i. induction a as [|x a IH]; intros [|y b] [|i] L H; try discriminate L; cbn in *; try lia; auto. apply IH; lia. Qed.
Lemma way_bound room a b : kept room a -> kept room b -> distance a b <= longest_way room.
Proof.
  intros [La A] [Lb B]. unfold distance, longest_way, norm. apply sqrt_le_1_alt, dot_le.
  - rewrite length_disp, map_length; congruence.
  - intros i Hi. rewrite length_disp in Hi by congruence. rewrite nth_disp by (try congruence; lia).
    specialize (A i ltac:(lia)). specialize (B i ltac:(lia)).
    assert (E : nth i (map (fun s => rnd32 s - 1) room) 0 = rnd32 (nth i room 0) - 1).
    { rewrite (nth_indep _ 0 ((fun s => rnd32 s - 1) 0)) by (rewrite map_length; lia). apply (map_nth (fun s => rnd32 s - 1)). }
    rewrite E. apply Rabs_le. lra.
Qed.
Theorem C88_too_small nrm e room fs n steps : usual_room room -> (0 < fs)%Z -> 0 <= e -> (forall v, nrm v <= (1 + e) * norm v) -> (1 <= n)%Z ->
  (1 + e) * (1 + / 2 ^ 24) * longest_way room < 3 / 2 ->
  (forall g m, random_draws g -> (1 <= m)%Z -> static_scene nrm g room fs n m = Err RuntimeError /\ script_moving_mics nrm g room fs n m steps = Err RuntimeError) /\
  (forall g, random_draws g -> cli_moving_sources nrm g room fs n steps = Err RuntimeError /\ cli_moving_mics nrm g room fs n steps = Err RuntimeError) /\
  (forall d k m, random_draws (d_uniform d) -> fair_pick d -> (1 <= m)%Z -> script_moving_sources nrm d room fs n k m steps = Err RuntimeError) /\
  (forall fresh loaded seed scenes k m, (forall s, random_draws (fresh s)) -> (forall s, random_draws (d_uniform (loaded s)) /\ fair_pick (loaded s)) -> (1 <= m)%Z ->
     (1 <= scenes)%Z -> dataset_scenes nrm fresh loaded room seed scenes n k m steps = Err RuntimeError).
Proof.
  intros U F He Hn H1 Hw.
  assert (X : forall c p, kept room c -> source_place room e c p -> False).
  { intros c p Kc (Kp & _ & Hf). unfold far in Hf. pose proof (way_bound room c p Kc Kp) as W.
    assert (0 <= (1 + e) * (1 + / 2 ^ 24)) by (assert (0 < / 2 ^ 24) by (apply Rinv_0_lt_compat; lra); nra). nra. }
  assert (N : (0 < Z.to_nat n)%nat) by lia.
  split; [|split; [|split]].
  - intros g m Hg Hm. split.
    + destruct (C88_static nrm e g room fs n m Hg U F He Hn Hm) as [E|(c & srcs & mics & E & Kc & L & P & _)]; auto.
      exfalso. apply (X c (nth 0 srcs [])); auto. apply P, nth_In. lia.
    + destruct (proj2 (C88_moving_mics nrm e g room fs n steps Hg U F He Hn) m Hm) as [E|(d & _ & [L _ _ _ (c0 & c1 & K0 & _ & _ & P & _)])]; auto.
      exfalso. apply (X c0 (nth 0 (dy_sources d) [])); auto. apply P, nth_In. lia.
  - intros g Hg. split.
    + destruct (proj1 (C88_moving_sources nrm e room fs n steps U F He Hn H1) g Hg) as [E|(d & _ & [(c & Kc & _ & P) L _ _ _ _])]; auto.
      exfalso. apply (X c (nth 0 (dy_sources d) [])); auto. apply P, nth_In. lia.
    + destruct (proj1 (C88_moving_mics nrm e g room fs n steps Hg U F He Hn)) as [E|(d & _ & [L _ _ _ (c0 & c1 & K0 & _ & _ & P & _)])]; auto.
      exfalso. apply (X c0 (nth 0 (dy_sources d) [])); auto. apply P, nth_In. lia.
  - intros dr k m Hg Fp Hm. destruct (proj2 (C88_moving_sources nrm e room fs n steps U F He Hn H1) dr k m Hg Fp Hm) as [E|(d & moves & _ & [(c & Kc & _ & P) L _ _ _ _] & _)]; auto.
    exfalso. apply (X c (nth 0 (dy_sources d) [])); auto. apply P, nth_In. lia.
  - intros fresh loaded seed scenes k m Hf Hl Hm Hs.
    destruct (C88_dataset nrm e fresh loaded room seed scenes n k m steps Hf Hl U He Hn H1 Hm) as [E|(c & sc & _ & L & Fa & _)]; auto.
    destruct sc as [|d sc]; [cbn in L; lia|]. inversion Fa as [|? ? [(Kc & _ & P) Lc _ _ _ _] _]; subst.
    exfalso. apply (X c (nth 0 (dy_sources d) [])); auto. apply P, nth_In. lia.
Qed.

(** ** The row of microphones *)

(** Up to eleven microphones the row is whole: equal spaces, in the order of the x axis, centred. *)
Theorem C88_whole_row room c n mics : usual_room room -> kept room c -> row_at room c n mics -> (n <= 11)%nat ->
  (forall j, (S j < n)%nat -> spacing mics j = gap n) /\ ((0 < n)%nat -> centred c mics).
Proof.
  intros U [Lc K] [L A] Hn. assert (Hr : (0 < length room)%nat) by (destruct U as [[->| ->] _]; lia).
  assert (X : forall j, (j < n)%nat -> nth 0 (nth j mics []) 0 = nth 0 c 0 + (INR j - (INR n - 1) / 2) * gap n).
  { intros j Hj. destruct (A j Hj) as (_ & -> & _). specialize (K 0%nat Hr).
    assert (B : -(4/10) <= (INR j - (INR n - 1) / 2) * gap n <= 4/10).
    { assert (INR j <= INR n - 1) by (pose proof (le_INR (j + 1) n ltac:(lia)) as Q; rewrite plus_INR in Q; change (INR 1) with 1 in Q; lra).
      pose proof (pos_INR j). apply le_INR in Hn. assert (E : INR 11 = 11) by (cbn; lra). rewrite E in Hn. unfold gap.
      destruct (Nat.eq_dec n 2) as [->|_]; [cbn [INR] in *; lra|lra]. }
    rewrite Rmax_left, Rmin_left by (try apply Rmax_lub; lra). auto. }
  split.
  - intros j Hj. unfold spacing. rewrite !X by lia. rewrite S_INR. ring.
  - intros Hp i Hi. rewrite Lc in Hi. rewrite L. destruct i as [|i].
    + rewrite (rsum_ext n _ (fun j => nth 0 c 0 + (INR j - (INR n - 1) / 2) * gap n)) by (intros j Hj; apply X; auto).
      clear. assert (Q : forall k, rsum k (fun j => nth 0 c 0 + (INR j - (INR n - 1) / 2) * gap n) = INR k * nth 0 c 0 + (INR k * (INR k - 1) / 2 - INR k * (INR n - 1) / 2) * gap n).
      { induction k as [|k IH]; [cbn; lra|]. cbn [rsum]; rewrite IH, S_INR. field. }
      rewrite Q. ring.
    + rewrite (rsum_ext n _ (fun _ => nth (S i) c 0)) by (intros j Hj; destruct (A j Hj) as (_ & _ & Q); apply Q; lia).
      clear. induction n as [|k IH]; [cbn; lra|]. cbn [rsum]; rewrite IH, S_INR. ring.
Qed.
(** A row that is longer than the room between the margins has neighbours that are too close,
    wherever its center is. *)
Theorem C88_squeezed_row room c n mics : usual_room room -> kept room c -> row_at room c n mics -> (2 <= n)%nat ->
  rnd32 (nth 0 room 0) - 2 / 10 < (INR n - 1) * gap n -> exists j, (S j < n)%nat /\ 0 <= spacing mics j < gap n.
Proof.
  intros U Kc Rw Hn Hl. assert (Hr : (0 < length room)%nat) by (destruct U as [[Q|Q] _]; lia).
  assert (Ge : 0 < gap n) by (unfold gap; destruct (Nat.eq_dec n 2); lra).
  assert (In_ : forall j, (j < n)%nat -> 1 / 10 <= nth 0 (nth j mics []) 0 <= rnd32 (nth 0 room 0) - 1 / 10).
  { intros j Hj. apply (row_inside room c n mics U Kc Rw); auto. apply nth_In. destruct Rw as [-> _]. auto. }
  assert (Po : forall j, (S j < n)%nat -> 0 <= spacing mics j).
  { intros j Hj. unfold spacing. destruct Rw as [_ A]. destruct (A j ltac:(lia)) as (_ & -> & _). destruct (A (S j) Hj) as (_ & -> & _).
    assert (Q : (INR j - (INR n - 1) / 2) * gap n <= (INR (S j) - (INR n - 1) / 2) * gap n) by (rewrite S_INR; nra).
    match goal with |- 0 <= Rmin (Rmax ?a ?l) ?h - Rmin (Rmax ?b _) _ => assert (Rmin (Rmax b l) h <= Rmin (Rmax a l) h) by (apply Rle_min_compat_r, Rle_max_compat_r; lra) end. lra. }
  assert (D : (exists j, (S j < n)%nat /\ spacing mics j < gap n) \/ forall j, (S j < n)%nat -> gap n <= spacing mics j).
  { clear - Hn. induction n as [|k IH] using nat_ind; [right; intros; lia|].
    assert (G : forall q, (exists j, (S j < q)%nat /\ spacing mics j < gap (S k)) \/ forall j, (S j < q)%nat -> gap (S k) <= spacing mics j).
    { clear. induction q as [|q IHq]; [right; intros; lia|]. destruct IHq as [(j & Hj & Q)|Q]; [left; exists j; split; auto; lia|].
      destruct q as [|q]; [right; intros; lia|]. destruct (Rlt_le_dec (spacing mics q) (gap (S k))) as [X|X]; [left; exists q; split; auto|].
      right. intros j Hj. destruct (Nat.eq_dec j q) as [->|]; auto. apply Q. lia. }
    apply G. }
  destruct D as [(j & Hj & Q)|Q]; [exists j; split; auto|]. exfalso.
  assert (Sum : forall k, (k < n)%nat -> INR k * gap n <= nth 0 (nth k mics []) 0 - nth 0 (nth 0 mics []) 0).
  { induction k as [|k IH]; intros Hk; [cbn; lra|]. specialize (IH ltac:(lia)). specialize (Q k Hk). unfold spacing in Q. rewrite S_INR. lra. }
  specialize (Sum (n - 1)%nat ltac:(lia)). rewrite minus_INR in Sum by lia. change (INR 1) with 1 in Sum.
  pose proof (In_ 0%nat ltac:(lia)). pose proof (In_ (n - 1)%nat ltac:(lia)). lra.
Qed.

(** ** Examples *)

Lemma quarter z : (Z.abs z <= 100)%Z -> rnd64 (IZR z * / 4) = IZR z * / 4 /\ rnd32 (IZR z * / 4) = IZR z * / 4.
Proof.
  intros Hz. split; (apply Generic_fmt.round_generic; [apply Generic_fmt.valid_rnd_N|]); apply FLT.generic_format_FLT; exists (Defs.Float Zaux.radix2 z (-2)); unfold Defs.F2R; cbn; auto; try lia; lra.
Qed.
Lemma quarter64 x z : x = IZR z * / 4 -> (Z.abs z <= 100)%Z -> rnd64 x = x.
Proof. intros -> H. apply quarter. auto. Qed.
Lemma quarter32 x z : x = IZR z * / 4 -> (Z.abs z <= 100)%Z -> rnd32 x = x.
Proof. intros -> H. apply quarter. auto. Qed.
(** The center from two zeros, then every coordinate in the middle. *)
Definition two_corners (k : nat) : R := if (k <? 2)%nat then 0 else 1 / 2.
Lemma corners_draw : random_draws two_corners.
Proof. intros k. assert (0 < / 2 ^ 53 < 1 / 2) by (split; [apply Rinv_0_lt_compat; lra|lra]). unfold two_corners. destruct (k <? 2)%nat; lra. Qed.
Lemma plane_room : room_size [4; 4] = [4; 4].
Proof. cbn. rewrite (quarter32 4 16%Z) by (lra || lia). auto. Qed.
Lemma plane_draw g k : (g k = 0 \/ g k = 1 / 2) -> g (k + 1)%nat = g k -> draw_point g k [4; 4] (1 / 2) = repeat (1 / 2 + 3 * g k) 2.
Proof.
  intros H E. unfold draw_point, highs. cbn [length seq map nth repeat]. rewrite Nat.add_0_r, E.
  rewrite (quarter64 (4 - 1 / 2) 14%Z) by (lra || lia). unfold uniform. rewrite (quarter64 (4 - 1 / 2 - 1 / 2) 12%Z) by (lra || lia).
  destruct H as [-> | ->].
  - rewrite (quarter64 ((4 - 1 / 2 - 1 / 2) * 0) 0%Z) by (lra || lia). rewrite (quarter64 (1 / 2 + (4 - 1 / 2 - 1 / 2) * 0) 2%Z) by (lra || lia). leq.
  - rewrite (quarter64 ((4 - 1 / 2 - 1 / 2) * (1 / 2)) 6%Z) by (lra || lia). rewrite (quarter64 (1 / 2 + (4 - 1 / 2 - 1 / 2) * (1 / 2)) 8%Z) by (lra || lia). leq.
Qed.
Lemma plane_center : one_point two_corners 0 [4; 4] = ([1 / 2; 1 / 2], 2%nat).
Proof.
  unfold one_point, sample_positions, draw_points. change (Z.to_nat 1) with 1%nat. cbn [seq map length fst snd nth Nat.mul Nat.add].
  rewrite plane_draw by (cbn; auto). change (two_corners 0) with 0. cbn [repeat map]. rewrite (quarter32 (1 / 2 + 3 * 0) 2%Z) by (lra || lia). f_equal. leq.
Qed.
Lemma plane_attempt k : (2 <= k)%nat -> attempt two_corners k [4; 4] (Some heights) (1 / 2) = ([1 / 2 + 3 * (1 / 2); 1 / 2 + 3 * (1 / 2)], (k + 2)%nat).
Proof.
  intros H. unfold attempt. cbn [length Nat.leb]. assert (E : forall j, (2 <= j)%nat -> two_corners j = 1 / 2).
  { intros j Hj. unfold two_corners. destruct (Nat.ltb_spec j 2); [lia|auto]. }
  rewrite plane_draw by (rewrite !E by lia; auto). rewrite E by lia. auto.
Qed.
Lemma attempts_done nrm g f k num size c md z mg coords made : (num <= Z.of_nat (length coords))%Z ->
  attempts nrm g f k num size c md z mg coords made = (coords, made).
Proof. intros H. destruct f as [|f]; cbn [attempts]; auto. rewrite (proj2 (Z.ltb_ge _ _) H). auto. Qed.
(** A static scene in a plane room of four metres: one source a good two metres away. *)
Example C88_static_example : static_scene norm two_corners [4; 4] 16000 1 2 = Ok ([1 / 2; 1 / 2], [[2; 2]], [[42 / 100; 1 / 2]; [58 / 100; 1 / 2]]).
Proof.
  unfold static_scene. destruct (example_room_cases [4; 4] 16000) as [[_ (r & ->)]|[X _]].
  2: { exfalso. apply X. split; [left; auto|]. split; [repeat constructor; lra|lia]. }
  cbn [bind]. cbv zeta. rewrite plane_room, plane_center. unfold far_points, sample_positions_min_distance.
  cbn [map length Nat.eqb negb]. rewrite (quarter32 (1 / 2) 2%Z) by (lra || lia).
  destruct (Z.to_nat 1000) as [|f] eqn:Ef; [discriminate Ef|]. clear Ef. cbn [attempts]. change (Z.of_nat (length (@nil (list R))) <? 1)%Z with true. cbn iota.
  rewrite plane_attempt by lia. unfold map2. cbn [combine map fst snd].
  rewrite (quarter32 (1 / 2 + 3 * (1 / 2)) 8%Z) by (lra || lia). rewrite (quarter32 (1 / 2 + 3 * (1 / 2) - 1 / 2) 6%Z) by (lra || lia).
  replace (Rleb (3 / 2) (norm [1 / 2 + 3 * (1 / 2) - 1 / 2; 1 / 2 + 3 * (1 / 2) - 1 / 2])) with true.
  2: { symmetry. unfold Rleb. destruct (Rle_dec _ _) as [|Q]; auto. exfalso. apply Q. unfold norm, dot.
       replace (3 / 2) with (sqrt (9 / 4)) by (replace (9 / 4) with ((3 / 2) * (3 / 2)) by lra; apply sqrt_square; lra). apply sqrt_le_1_alt. lra. }
  cbn [app]. rewrite attempts_done by (cbn; lia). cbn [length]. change (Z.of_nat 1 <? 1)%Z with false. cbn iota. cbn [bind fst snd map].
  rewrite !(quarter32 (1 / 2 + 3 * (1 / 2)) 8%Z) by (lra || lia).
  unfold mics_at. cbn [Z.leb Z.eqb Z.compare Pos.eqb].
  unfold binaural_array. cbn [v_data length v_dtype repeat to_dtype bind map]. unfold map2. cbn [combine map fst snd].
  unfold clamp, clamp_positions, map2. cbn [v_data v_dtype to_dtype combine map fst snd].
  apply f_equal, f_equal2; [apply f_equal2; [reflexivity|]|].
  - repeat (apply f_equal2; [|reflexivity]). leq.
  - repeat rewrite Rmin_left by lra. repeat rewrite Rmax_left by lra. repeat (apply f_equal2; [|first [reflexivity|idtac]]); leq.
Qed.
Lemma plane_ok fs : (0 < fs)%Z -> exists r, example_room [4; 4] fs = Ok r.
Proof.
  intros H. destruct (example_room_cases [4; 4] fs) as [[_ E]|[X _]]; auto. exfalso. apply X. split; [left; auto|]. split; [repeat constructor; lra|lia].
Qed.
Lemma plane_usual : usual_room [4; 4].
Proof. split; [left; auto|]. repeat constructor; lra. Qed.
(** Streams that are zero, or one half, at both coordinates of a point. *)
Lemma plane_far g k c : g k = 1 / 2 -> g (k + 1)%nat = 1 / 2 -> c = [1 / 2; 1 / 2] ->
  far_points norm g k 1 [4; 4] c = Ok ([[2; 2]], (k + 2)%nat).
Proof.
  intros E1 E2 ->. unfold far_points, sample_positions_min_distance. cbn [map length Nat.eqb negb]. rewrite (quarter32 (1 / 2) 2%Z) by (lra || lia).
  destruct (Z.to_nat 1000) as [|f] eqn:Ef; [discriminate Ef|]. clear Ef. cbn [attempts]. change (Z.of_nat (length (@nil (list R))) <? 1)%Z with true. cbn iota.
  assert (A : attempt g k [4; 4] (Some heights) (1 / 2) = ([1 / 2 + 3 * (1 / 2); 1 / 2 + 3 * (1 / 2)], (k + 2)%nat)).
  { unfold attempt. cbn [length Nat.leb]. rewrite plane_draw by (rewrite ?E1, ?E2; auto). rewrite E1. auto. }
  rewrite A. unfold map2. cbn [combine map fst snd].
  rewrite (quarter32 (1 / 2 + 3 * (1 / 2)) 8%Z) by (lra || lia). rewrite (quarter32 (1 / 2 + 3 * (1 / 2) - 1 / 2) 6%Z) by (lra || lia).
  replace (Rleb (3 / 2) (norm [1 / 2 + 3 * (1 / 2) - 1 / 2; 1 / 2 + 3 * (1 / 2) - 1 / 2])) with true.
  2: { symmetry. unfold Rleb. destruct (Rle_dec _ _) as [|Q]; auto. exfalso. apply Q. unfold norm, dot.
       replace (3 / 2) with (sqrt (9 / 4)) by (replace (9 / 4) with ((3 / 2) * (3 / 2)) by lra; apply sqrt_square; lra). apply sqrt_le_1_alt. lra. }
  cbn [app]. rewrite attempts_done by (cbn; lia). cbn [length]. change (Z.of_nat 1 <? 1)%Z with false. cbn iota. cbn [bind fst snd map].
  rewrite !(quarter32 (1 / 2 + 3 * (1 / 2)) 8%Z) by (lra || lia). unfold attempt. cbn [length Nat.leb snd].
  apply f_equal, f_equal2; [repeat (apply f_equal2; [|reflexivity]); leq|lia].
Qed.
Lemma plane_one g k x : (g k = 0 \/ g k = 1 / 2) -> g (k + 1)%nat = g k -> x = 1 / 2 + 3 * g k -> one_point g k [4; 4] = ([x; x], (k + 2)%nat).
Proof.
  intros H E ->. unfold one_point, sample_positions, draw_points. change (Z.to_nat 1) with 1%nat. cbn [seq map length fst snd nth Nat.mul Nat.add].
  rewrite Nat.add_0_r, plane_draw by auto. cbn [repeat map]. apply f_equal2; [|reflexivity].
  destruct H as [-> | ->]; [rewrite (quarter32 (1 / 2 + 3 * 0) 2%Z) by (lra || lia)|rewrite (quarter32 (1 / 2 + 3 * (1 / 2)) 8%Z) by (lra || lia)]; reflexivity.
Qed.
Lemma plane_end g k x : (g k = 0 \/ g k = 1 / 2) -> g (k + 1)%nat = g k -> x = 1 / 2 + 3 * g k -> end_points g k 1 [4; 4] = Ok ([[x; x]], (k + 2)%nat).
Proof.
  intros H E Hx. pose proof (plane_one g k x H E Hx) as P. unfold one_point, sample_positions in P. cbn [fst snd] in P.
  unfold end_points, sample_positions_with_z_range, sample_positions. cbn [length Nat.ltb Nat.leb bind].
  unfold draw_points in *. change (Z.to_nat 1) with 1%nat in *. cbn [seq map nth Nat.mul Nat.add length negb andb] in *. apply (f_equal fst) in P. cbn [fst] in P. rewrite P.
  destruct (z_bounds [4; 4] (1 / 2) heights). apply f_equal, f_equal2; [reflexivity|lia].
Qed.
Lemma plane_mics : exists m, mics_at 2 [1 / 2; 1 / 2] = Ok m /\ map (clamp [4; 4]) m = [[42 / 100; 1 / 2]; [58 / 100; 1 / 2]].
Proof.
  eexists. split; [reflexivity|]. unfold map2. cbn [combine map fst snd v_data v_dtype to_dtype length repeat].
  unfold clamp, clamp_positions, map2. cbn [v_data v_dtype to_dtype combine map fst snd].
  repeat rewrite Rmin_left by lra. repeat rewrite Rmax_left by lra. repeat (apply f_equal2; [|first [reflexivity|idtac]]); leq.
Qed.
Lemma plane_clamp x y : 1 / 10 <= x <= 39 / 10 -> 1 / 10 <= y <= 39 / 10 -> clamp [4; 4] [x; y] = [x; y].
Proof.
  intros A B. unfold clamp, clamp_positions, map2. cbn [v_data v_dtype to_dtype combine map fst snd]. repeat rewrite Rmin_left by lra. repeat rewrite Rmax_left by lra. auto.
Qed.
Lemma plane_path a b : path [a; a] [b; b] 3 = Ok [Some [a; a]; Some [(a + b) / 2; (a + b) / 2]; Some [b; b]].
Proof.
  unfold path, linear_trajectory. cbn [Z.leb Z.compare Z.eqb Pos.eqb bind]. change (Z.to_nat 3) with 3%nat. cbn [seq map]. unfold map2. cbn [combine map fst snd INR].
  apply f_equal. repeat (apply f_equal2; [apply f_equal; leq|]). reflexivity.
Qed.
(** One source goes from the middle to a corner in three steps. *)
Definition there_and_back (k : nat) : R := if (k =? 2)%nat || (k =? 3)%nat then 1 / 2 else 0.
Example C88_moving_sources_example : cli_moving_sources norm there_and_back [4; 4] 16000 1 3 =
  Ok (mkDyn [[2; 2]] [[42 / 100; 1 / 2]; [58 / 100; 1 / 2]] [[Some [2; 2]]; [Some [5 / 4; 5 / 4]]; [Some [1 / 2; 1 / 2]]]
        (repeat [Some [42 / 100; 1 / 2]; Some [58 / 100; 1 / 2]] 3)).
Proof.
  unfold cli_moving_sources, moving_sources. destruct (plane_ok 16000) as (r & ->); [lia|]. cbn [bind]. cbv zeta. rewrite plane_room.
  rewrite (plane_one there_and_back 0 (1 / 2)) by (cbn; auto; lra). destruct plane_mics as (m & -> & Em). cbn [bind]. rewrite Em. change (0 + 2)%nat with 2%nat.
  rewrite plane_far by reflexivity. cbn [bind]. rewrite (plane_end there_and_back (2 + 2) (1 / 2)) by (cbn; auto; lra). cbn [bind fst andb].
  change (Z.to_nat 1) with 1%nat. change (Z.max 2 3) with 3%Z. cbn [seq mapM nth]. rewrite plane_path. cbn [bind stack_tracks forallb length Nat.eqb andb seq map nth].
  unfold clamp_rows. cbn [map option_map]. rewrite !plane_clamp by lra. apply f_equal. unfold still. change (Z.to_nat 3) with 3%nat. cbn [map].
  f_equal. repeat (apply f_equal2; [|try reflexivity]); try reflexivity. apply f_equal. leq.
Qed.
(** The row of microphones goes from a corner to the middle. *)
Example C88_moving_mics_example : exists d, cli_moving_mics norm two_corners [4; 4] 16000 1 3 = Ok d /\ dy_sources d = [[2; 2]] /\ length (dy_mic d) = 3%nat.
Proof.
  destruct (proj1 (C88_moving_mics norm 0 two_corners [4; 4] 16000 1 3 corners_draw plane_usual ltac:(lia) ltac:(lra) ltac:(intros; lra))) as [E|(d & E & S)].
  - exfalso. revert E. unfold cli_moving_mics, moving_mics. destruct (plane_ok 16000) as (r & ->); [lia|]. cbn [bind]. cbv zeta. rewrite plane_room.
    rewrite (plane_one two_corners 0 (1 / 2)) by (cbn; auto; lra). change (0 + 2)%nat with 2%nat.
    rewrite (plane_one two_corners 2 2) by (cbn; auto; lra). change (2 + 2)%nat with 4%nat. cbn [andb]. rewrite plane_far by reflexivity. cbn [bind fst].
    change (Z.max 2 3) with 3%Z. rewrite plane_path. cbn [bind Z.leb Z.compare mapM mics_at Z.eqb Pos.eqb binaural_array v_data]. discriminate.
  - exists d. split; auto. revert E. unfold cli_moving_mics, moving_mics. destruct (plane_ok 16000) as (r & ->); [lia|]. cbn [bind]. cbv zeta. rewrite plane_room.
    rewrite (plane_one two_corners 0 (1 / 2)) by (cbn; auto; lra). change (0 + 2)%nat with 2%nat.
    rewrite (plane_one two_corners 2 2) by (cbn; auto; lra). change (2 + 2)%nat with 4%nat. cbn [andb]. rewrite plane_far by reflexivity. cbn [bind fst].
    change (Z.max 2 3) with 3%Z. rewrite plane_path. cbn [bind Z.leb Z.compare mapM mics_at Z.eqb Pos.eqb binaural_array v_data].
    intros E. apply Ok_inj in E. subst d. cbn [dy_sources dy_mic length]. auto.
Qed.
(** With two steps (or fewer asked for) a zigzag ends nowhere: the position at the second step is
    not a number; with three it is. *)
Definition zigzags : draws := mkDraws (fun _ => 1 / 2) (fun n k => seq 0 k) (fun _ => true).
Theorem C88_two_steps_unchecked steps : (steps <= 2)%Z ->
  exists d, dataset_scenes norm (fun _ => two_corners) (fun _ => zigzags) [4; 4] 0 1 1 1 2 steps = Ok [d] /\
    dy_src d = [[Some [2; 2]]; [None]].
Proof.
  intros H. unfold dataset_scenes. destruct (plane_ok 16000) as (r & ->); [lia|]. cbn [bind]. cbv zeta. rewrite plane_room, plane_center.
  destruct plane_mics as (m & -> & Em). cbn [bind]. rewrite Em. replace (Z.max 2 steps) with 2%Z by lia. change (Z.to_nat 1) with 1%nat. cbn [seq mapM].
  unfold source_trajectories. rewrite (plane_far (d_uniform zigzags)) by reflexivity. cbn [bind]. cbv zeta.
  change (0 <? Z.max 0 (Z.min 1 1))%Z with true. change (Z.to_nat 1) with 1%nat. change (Z.to_nat (Z.max 0 (Z.min 1 1))) with 1%nat. cbn iota. cbn [seq source_tracks].
  change (picked zigzags 1 1 0) with true. cbn iota. change (d_zigzag zigzags 0) with true. cbn [nth]. unfold random_trajectory. cbn [negb].
  unfold one_end. rewrite (plane_end (d_uniform zigzags) _ 2) by (cbn; auto; lra). cbn [bind fst snd nth]. rewrite (plane_end (d_uniform zigzags) _ 2) by (cbn; auto; lra). cbn [bind fst snd nth].
  change (Z.max 2 (2 / 2)) with 2%Z. change (2 - 2 + 1)%Z with 1%Z. unfold path, linear_trajectory. cbn [Z.leb Z.compare Z.eqb Pos.eqb bind].
  change (Z.to_nat 2) with 2%nat. change (Z.to_nat 1) with 1%nat. cbn [seq map removelast app bind repeat map2 combine fst snd stack_tracks forallb length Nat.eqb andb nth].
  unfold map2. cbn [combine map fst snd INR]. unfold clamp_rows. cbn [map option_map].
  eexists. split; [reflexivity|]. cbn [dy_src fst]. apply f_equal2; [|reflexivity]. apply f_equal2; [|reflexivity]. rewrite plane_clamp by lra. apply f_equal. leq.
Qed.
Example C88_trajectories_example : fair_pick zigzags /\ random_draws (d_uniform zigzags) /\ kept [4; 4] [1 / 2; 1 / 2] /\ Forall single [1 / 2; 1 / 2].
Proof.
  split; [|split; [|split]].
  - intros n k H. cbn [zigzags d_pick]. split; [apply seq_length|]. split; [apply seq_NoDup|]. apply Forall_forall. intros i Hi. apply in_seq in Hi. lia.
  - intros k. cbn. assert (0 < / 2 ^ 53 < 1 / 2) by (split; [apply Rinv_0_lt_compat; lra|lra]). cbn in *. lra.
  - split; auto. intros i Hi. cbn in Hi. assert (R4 : rnd32 4 = 4) by (apply (quarter32 4 16%Z); lra || lia).
    destruct i as [|[|i]]; cbn [nth]; rewrite ?R4; try lra. lia.
  - repeat constructor; apply (quarter32 _ 2%Z); lra || lia.
Qed.
(** A cube of one metre and a half holds no scene. *)
Example C88_too_small_example g : random_draws g -> static_scene norm g [3 / 2; 3 / 2; 3 / 2] 16000 1 2 = Err RuntimeError.
Proof.
  intros Hg. refine (proj1 (proj1 (C88_too_small norm 0 [3 / 2; 3 / 2; 3 / 2] 16000 1 2 _ _ _ _ _ _) g 2%Z Hg _)); try lia; try lra.
  - split; [right; auto|]. repeat constructor; lra.
  - intros; lra.
  - unfold longest_way. cbn [map]. rewrite (quarter32 (3 / 2) 6%Z) by (lra || lia).
    assert (norm [3 / 2 - 1; 3 / 2 - 1; 3 / 2 - 1] <= 1).
    { unfold norm, dot. apply Rle_trans with (sqrt 1); [apply sqrt_le_1_alt; lra|rewrite sqrt_1; lra]. }
    assert (0 < / 2 ^ 24 < 1 / 4) by (split; [apply Rinv_0_lt_compat; lra|lra]). nra.
Qed.
(** Three microphones are 8 centimetres apart, two are 16. *)
Example C88_whole_row_example : gap 3 = 8 / 100 /\ gap 2 = 16 / 100.
Proof. split; reflexivity. Qed.
(** A dozen microphones do not fit into one metre. *)
Example C88_squeezed_row_example : rnd32 (nth 0 [1; 1] 0) - 2 / 10 < (INR 12 - 1) * gap 12.
Proof. cbn [nth]. rewrite (quarter32 1 4%Z) by (lra || lia). unfold gap. cbn [Nat.eq_dec]. destruct (Nat.eq_dec 12 2); [lia|]. cbn; lra. Qed.
Print Assumptions C88_static.
Print Assumptions C88_moving_sources.
Print Assumptions C88_moving_mics.
Print Assumptions C88_trajectories.
Print Assumptions C88_dataset.
Print Assumptions C88_inside_sources.
Print Assumptions C88_inside_mics.
Print Assumptions C88_inside_dataset.
Print Assumptions C88_rejected.
Print Assumptions C88_no_microphone.
Print Assumptions C88_no_source.
Print Assumptions C88_too_small.
Print Assumptions C88_whole_row.
Print Assumptions C88_squeezed_row.
Print Assumptions C88_two_steps_unchecked.
