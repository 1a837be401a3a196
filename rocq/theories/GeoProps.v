(** C41-C46: microphone arrays, sampled positions, clamping and trajectories. *)
From Coq Require Import String List ZArith Reals Lia Lra Psatz Bool.
From Flocq Require Import Core.
From Verif Require Import Prelude PreludeFacts FloatModel FloatProofs DirModel DirSpec DirProofs RoomModel GeoModel GeoSpec GeoProofs GeoSampling GeoSolids.
Import ListNotations.
Local Open Scope R_scope.
Local Notation length := List.length.

Lemma Some_inj {A} (a b : A) : Some a = Some b -> a = b.
Proof. congruence. Qed.
(** Equality of explicit lists of reals. *)
Ltac leq := repeat match goal with |- @eq (list _) _ _ => first [reflexivity | apply f_equal2] end; try lra.

(** ** C41: linear and binaural arrays *)

(** Every array that is returned has [num] points, [spacing] apart along a unit direction
    (the axis, or the given direction normalised), with mean [center]. *)
Theorem C41_linear dt c num spacing axis dir pts :
  linear_array (mkV dt c) num spacing axis dir = Ok (Some pts) ->
  exists u, length u = length c /\ norm u = 1 /\
    match dir with
    | None => (0 <= axis < Z.of_nat (length c))%Z /\
              forall i, (i < length c)%nat -> nth i u 0 = if (Z.of_nat i =? axis)%Z then 1 else 0
    | Some v => exists k, 0 < k /\ multiple k u v
    end /\
    length pts = Z.to_nat num /\ (forall p, In p pts -> length p = length c) /\ centred c pts /\
    forall i, (i + 1 < Z.to_nat num)%nat ->
      multiple spacing u (disp (nth i pts []) (nth (i + 1) pts [])) /\
      distance (nth i pts []) (nth (i + 1) pts []) = spacing.
Proof.
  unfold linear_array. cbn [v_data v_dtype]. destruct (Z.leb_spec num 0) as [|N]; [discriminate|].
  destruct (Rleb spacing 0) eqn:S; [discriminate|]. apply rleb_false in S.
  destruct dir as [v|].
  - destruct (Nat.eqb_spec (length v) (length c)) as [L|]; cbn [negb bind]; [|discriminate]. destruct dt; [|discriminate]. cbn [bind].
    destruct (unit_vec v) as [u|] eqn:U; cbn [option_map]; [|discriminate]. intros H. apply Ok_inj in H. injection H as <-.
    apply unit_vec_some in U as (P & E & D). assert (Lu : length u = length c) by (rewrite E, length_scale; auto).
    exists u. split; auto. split; [apply norm_1; auto|]. split; [|apply line_spec; auto].
    exists (norm v). split; auto. split; [congruence|]. intros i Hi. rewrite E. unfold scale.
    rewrite (nth_indep (map (Rmult (/ norm v)) v) 0 (/ norm v * 0)) by (rewrite map_length; lia). rewrite map_nth. field. lra.
  - destruct ((axis <? 0) || (axis >=? Z.of_nat (length c)))%Z eqn:A; cbn [bind]; [discriminate|]. intros H. apply Ok_inj in H. injection H as <-.
    apply orb_false_iff in A as [A1 A2]. apply Z.ltb_ge in A1. rewrite Z.geb_leb in A2. apply Z.leb_gt in A2.
    destruct (axis_vec_spec (length c) (Z.to_nat axis) ltac:(lia)) as (L & D & E).
    exists (axis_vec (length c) (Z.to_nat axis)). split; auto. split; [apply norm_1; auto|]. split; [|apply line_spec; auto].
    split; [lia|]. intros i Hi. rewrite E by auto. destruct (Nat.eqb_spec i (Z.to_nat axis)), (Z.eqb_spec (Z.of_nat i) axis); auto; lia.
Qed.
(** Exactly the documented arguments are accepted; the others raise. *)
Theorem C41_accepted dt c num spacing axis dir :
  ((exists r, linear_array (mkV dt c) num spacing axis dir = Ok r) <->
   (0 < num)%Z /\ 0 < spacing /\
   match dir with
   | None => (0 <= axis < Z.of_nat (length c))%Z
   | Some v => length v = length c /\ dt = Float
   end) /\
  ((num <= 0)%Z \/ spacing <= 0 \/ (dir = None /\ ~ (0 <= axis < Z.of_nat (length c))%Z) \/
   (exists v, dir = Some v /\ length v <> length c) ->
   linear_array (mkV dt c) num spacing axis dir = Err ValueError).
Proof.
  unfold linear_array. cbn [v_data v_dtype]. destruct (Z.leb_spec num 0) as [N|N].
  { split; [|auto]. split; [intros (r & H); discriminate|intros (H & _); lia]. }
  destruct (Rleb spacing 0) eqn:S; [apply rleb_true in S|apply rleb_false in S].
  { split; [|auto]. split; [intros (r & H); discriminate|intros (_ & H & _); lra]. }
  destruct dir as [v|].
  - destruct (Nat.eqb_spec (length v) (length c)) as [L|L]; cbn [negb].
    + split.
      * destruct dt; cbn [bind]; split; intros H; try (eexists; reflexivity); auto; [destruct H; discriminate|destruct H as (_ & _ & _ & H); discriminate].
      * intros [H|[H|[[H _]|(w & H & H')]]]; try lia; try lra; try discriminate. injection H as <-. contradiction.
    + cbn [bind]. split; auto. split; [intros (r & H); discriminate|intros (_ & _ & H & _); contradiction].
  - destruct ((axis <? 0) || (axis >=? Z.of_nat (length c)))%Z eqn:A; cbn [bind].
    + split; auto. split; [intros (r & H); discriminate|]. intros (_ & _ & H). exfalso. apply orb_true_iff in A as [A|A]; [apply Z.ltb_lt in A|rewrite Z.geb_leb in A; apply Z.leb_le in A]; lia.
    + apply orb_false_iff in A as [A1 A2]. apply Z.ltb_ge in A1. rewrite Z.geb_leb in A2. apply Z.leb_gt in A2. split.
      * split; intros H; [split; [lia|split; [lra|lia]]|eexists; reflexivity].
      * intros [H|[H|[[_ H]|(w & H & H')]]]; try lia; try lra; discriminate.
Qed.
(** The array is undefined (all NaN) exactly for a zero direction: no exception is raised. *)
Theorem C41_zero_direction_refuted dt c num spacing axis dir :
  linear_array (mkV dt c) num spacing axis dir = Ok None <->
  (0 < num)%Z /\ 0 < spacing /\ dt = Float /\ exists v, dir = Some v /\ length v = length c /\ Forall (fun x => x = 0) v.
Proof.
  unfold linear_array. cbn [v_data v_dtype]. destruct (Z.leb_spec num 0) as [N|N].
  { split; [discriminate|intros (H & _); lia]. }
  destruct (Rleb spacing 0) eqn:S; [apply rleb_true in S|apply rleb_false in S].
  { split; [discriminate|intros (_ & H & _); lra]. }
  destruct dir as [v|].
  - destruct (Nat.eqb_spec (length v) (length c)) as [L|L]; cbn [negb].
    + destruct dt; cbn [bind].
      * pose proof (unit_vec_none v) as U. destruct (unit_vec v) as [u|] eqn:Eu; cbn [option_map].
        -- split; [discriminate|]. intros (_ & _ & _ & w & H & _ & F). injection H as <-. apply U in F. discriminate.
        -- split; auto. intros _. repeat split; auto. exists v. repeat split; auto. apply U; auto.
      * split; [discriminate|]. intros (_ & _ & H & _). discriminate.
    + cbn [bind]. split; [discriminate|]. intros (_ & _ & _ & w & H & Lw & _). injection H as <-. contradiction.
  - destruct ((axis <? 0) || (axis >=? Z.of_nat (length c)))%Z; cbn [bind option_map]; split; try discriminate; intros (_ & _ & _ & w & H & _); discriminate.
Qed.
(** Binaural arrays with a floating-point center. *)
Theorem C41_binaural_partial c offset : c <> [] ->
  exists p q, binaural_array (mkV Float c) offset = Ok [p; q] /\ centred c [p; q] /\
    multiple (2 * offset) (1 :: repeat 0 (length c - 1)) (disp p q) /\ distance p q = 2 * Rabs offset.
Proof.
  destruct c as [|x c]; [contradiction|]. intros _. unfold binaural_array. cbn [v_data v_dtype to_dtype length].
  eexists _, _. split; [reflexivity|]. replace (S (length c) - 1)%nat with (length c) by lia.
  assert (E : forall k, disp (map2 Rminus c (repeat 0 k)) (map2 Rplus c (repeat 0 k)) = repeat 0 (min k (length c))).
  { induction c as [|y c IH]; intros [|k]; cbn; auto. f_equal; [lra|]. apply IH. }
  assert (E1 : disp (map2 Rminus (x :: c) (offset :: repeat 0 (length c))) (map2 Rplus (x :: c) (offset :: repeat 0 (length c))) = (2 * offset) :: repeat 0 (length c)).
  { unfold map2. cbn [combine map disp fst snd]. change (map (fun p : R * R => fst p - snd p)) with (map (fun p : R * R => Rminus (fst p) (snd p))).
    fold (map2 Rminus c (repeat 0 (length c))). fold (map2 Rplus c (repeat 0 (length c))). rewrite E, Nat.min_id. f_equal. lra. }
  assert (Z : forall n, dot (repeat 0 n) (repeat 0 n) = 0) by (induction n as [|n IHn]; cbn; auto; rewrite IHn; lra).
  split; [|split].
  - intros i Hi. cbn [length] in Hi. cbn [rsum length nth]. rewrite (nth_map2 _ _ _ _ 0 0 0) by (cbn [length]; rewrite ?repeat_length; lia).
    rewrite (nth_map2 _ _ _ _ 0 0 0) by (cbn [length]; rewrite ?repeat_length; lia). change (INR 2) with 2. destruct i; cbn [nth]; lra.
  - rewrite E1. split; [reflexivity|]. intros [|i] Hi; cbn [nth]; [lra|]. rewrite !nth_repeat. lra.
  - unfold distance, norm. rewrite E1. cbn [dot]. rewrite Z. replace (2 * offset * (2 * offset) + 0) with (Rsqr (2 * offset)) by (unfold Rsqr; lra).
    rewrite sqrt_Rsqr_abs, Rabs_mult, (Rabs_right 2) by lra. auto.
Qed.
Lemma trunc_small x : -1 < x < 1 -> truncZ x = 0%Z.
Proof. intros H. unfold truncZ. destruct (Rle_dec 0 x); [apply floorZ_unique|apply ceilZ_unique]; lra. Qed.
(** With an integer center, every offset below 1 m is lost: both microphones coincide. *)
Theorem C41_binaural_refuted x c offset : -1 < offset < 1 ->
  exists p, binaural_array (mkV Int64 (x :: c)) offset = Ok [p; p].
Proof.
  intros H. unfold binaural_array. cbn [v_data v_dtype to_dtype].
  pose proof (trunc_small offset H) as T.
  rewrite T. assert (E : map2 Rminus (x :: c) (0 :: repeat 0 (length c)) = map2 Rplus (x :: c) (0 :: repeat 0 (length c))).
  { unfold map2. cbn [combine map fst snd]. f_equal; [lra|]. induction c as [|y c IH]; cbn; auto. f_equal; [lra|]. apply IH. }
  rewrite E. eexists. reflexivity.
Qed.
Example C41_example : linear_array (mkV Float [1; 2; 3]) 3 (1/10) 0 None = Ok (Some [[9/10; 2; 3]; [1; 2; 3]; [11/10; 2; 3]]).
Proof.
  unfold linear_array. cbn [v_data v_dtype]. cbn [Z.leb Z.compare]. destruct (Rleb (1/10) 0) eqn:S; [apply rleb_true in S; lra|].
  cbn. unfold shift, scale, map2. cbn. change (Pos.to_nat 3) with 3%nat. cbn. apply f_equal, f_equal. leq.
Qed.
Example C41_example_binaural : binaural_array (mkV Int64 [3; 2; 1]) (8/100) = Ok [[3; 2; 1]; [3; 2; 1]].
Proof.
  unfold binaural_array. cbn [v_data v_dtype to_dtype]. rewrite trunc_small by lra. unfold map2. cbn. apply f_equal. leq.
Qed.

(** ** C42: circular arrays *)

(** Floating-point centers: every array that is returned is a ring in the right plane. *)
Theorem C42_ring_partial c num radius plane normal pts :
  circular_array (mkV Float c) num radius plane normal = Ok (Some pts) ->
  ring c radius (Z.to_nat num) pts /\ ((2 <= num)%Z -> centred c pts) /\
  (length c = 3%nat -> match normal with
   | Some v => in_plane c v pts
   | None => (spells plane "xy" /\ in_plane c [0; 0; 1] pts) \/ (spells plane "xz" /\ in_plane c [0; 1; 0] pts) \/
             (spells plane "yz" /\ in_plane c [1; 0; 0] pts)
   end).
Proof.
  unfold circular_array. cbn [v_data v_dtype]. destruct (Z.leb_spec num 0) as [|N]; [discriminate|].
  destruct (Rleb radius 0) eqn:S; [discriminate|]. apply rleb_false in S.
  destruct (Nat.eqb_spec (length c) 2) as [L|L].
  - intros H. apply Ok_inj, Some_inj in H. subst pts.
    assert (E : map (fun a => shift c (scale radius [cos a; sin a])) (circle_angles Float (Z.to_nat num)) = map (circle_point c [1; 0] [0; 1] radius) (circle_angles Float (Z.to_nat num))).
    { apply map_ext. intros a. unfold circle_point. do 2 f_equal. unfold map2, scale. cbn. leq. }
    rewrite E. destruct (circle_spec c [1; 0] [0; 1] radius (Z.to_nat num)) as (R1 & R2 & R3); try (rewrite L; reflexivity); try (cbn; lra); try lia.
    split; auto. split; [intros; apply R2; lia|]. intros; lia.
  - destruct (Nat.eqb_spec (length c) 3) as [L3|]; cbn [negb]; [|discriminate].
    assert (G : forall u w, length u = 3%nat -> length w = 3%nat -> dot u u = 1 -> dot w w = 1 -> dot u w = 0 ->
      let pts := map (circle_point c u w radius) (circle_angles Float (Z.to_nat num)) in
      ring c radius (Z.to_nat num) pts /\ ((2 <= num)%Z -> centred c pts) /\ forall v, dot v u = 0 -> dot v w = 0 -> in_plane c v pts).
    { intros u w Lu Lw U W O. destruct (circle_spec c u w radius (Z.to_nat num)) as (R1 & R2 & R3); try congruence; try lia.
      split; auto. split; auto. intros; apply R2; lia. }
    destruct normal as [v|].
    + destruct (basis_from_normal Float v) as [b|] eqn:B; cbn [bind]; [|discriminate]. apply basis_spec in B as (Lv & [(_ & ->)|(_ & u & w & -> & Lu & Lw & U & W & O & V1 & V2)]); [discriminate|].
      intros H. apply Ok_inj in H. injection H as <-. destruct (G u w) as (R1 & R2 & R3); auto.
    + unfold plane_basis. cbv zeta.
      assert (Sp : forall s, In s ["xy"; "xz"; "yz"]%string -> String.eqb (lower plane) s = true -> spells plane s).
      { intros s Hs E. apply String.eqb_eq in E. apply lower_spells; auto. repeat destruct Hs as [<-|Hs]; try contradiction; repeat constructor; unfold lower_char; cbn; lia. }
      destruct (String.eqb (lower plane) "xy") eqn:E1; [|destruct (String.eqb (lower plane) "xz") eqn:E2; [|destruct (String.eqb (lower plane) "yz") eqn:E3; [|discriminate]]];
        cbn [bind option_map]; intros H; apply Ok_inj in H; injection H as <-.
      * destruct (G [1; 0; 0] [0; 1; 0]) as (R1 & R2 & R3); auto; try (cbn; lra). split; auto. split; auto. intros _. left. split; [apply Sp; cbn; auto|]. apply R3; cbn; lra.
      * destruct (G [1; 0; 0] [0; 0; 1]) as (R1 & R2 & R3); auto; try (cbn; lra). split; auto. split; auto. intros _. right; left. split; [apply Sp; cbn; auto|]. apply R3; cbn; lra.
      * destruct (G [0; 1; 0] [0; 0; 1]) as (R1 & R2 & R3); auto; try (cbn; lra). split; auto. split; auto. intros _. right; right. split; [apply Sp; cbn; auto|]. apply R3; cbn; lra.
Qed.
(** With a normal, the ring starts at right angles with the x axis, or with the y axis when the
    normal can hardly be told from the x axis. *)
Theorem C42_first c num radius plane v pts : length c = 3%nat ->
  circular_array (mkV Float c) num radius plane (Some v) = Ok (Some pts) ->
  (along_x v -> dot (disp c (nth 0 pts [])) [0; 1; 0] = 0) /\ (~ along_x v -> dot (disp c (nth 0 pts [])) [1; 0; 0] = 0).
Proof.
  intros L. unfold circular_array. cbn [v_data v_dtype]. destruct (Z.leb_spec num 0) as [|N]; [discriminate|].
  destruct (Rleb radius 0); [discriminate|]. rewrite L. cbn [Nat.eqb negb].
  destruct (basis_from_normal Float v) as [b|] eqn:B; cbn [bind]; [|discriminate]. destruct b as [[u w]|]; [|discriminate].
  intros H. apply Ok_inj, Some_inj in H. cbn [fst snd] in H. pose proof (basis_first v u w B) as [F1 F2].
  assert (Lu : length u = 3%nat /\ length w = 3%nat).
  { apply basis_spec in B as (Lv & [(_ & B)|(_ & u' & w' & B & Lu & Lw & _)]); [discriminate|]. injection B as <- <-. auto. }
  assert (E : disp c (nth 0 pts []) = scale radius u).
  { subst pts. unfold circle_angles. replace (Z.to_nat num) with (S (Z.to_nat num - 1)) by lia. cbn [seq map nth].
    change (INR 0) with 0. rewrite Rmult_0_l. fold (circle_point c u w radius 0). rewrite circle_disp by (destruct Lu; congruence).
    f_equal. rewrite cos_0, sin_0. destruct Lu as [Lu Lw]. destruct u as [|u1 [|u2 [|u3 [|]]]]; try discriminate.
    destruct w as [|w1 [|w2 [|w3 [|]]]]; try discriminate. unfold map2, scale. cbn. leq. }
  rewrite E, !dot_scale_l. split; intros A; [rewrite F1 by auto|rewrite F2 by auto]; lra.
Qed.
(** Around the diagonal the first microphone is level with the center along x. *)
Example C42_first_example : ~ along_x [1; 1; 1] /\ along_x [5; 0; 0].
Proof.
  split.
  - intros (_ & H & _). assert (N : norm [1; 1; 1] <= 2).
    { unfold norm. cbn. rewrite <- (sqrt_square 2) by lra. apply sqrt_le_1; lra. }
    rewrite Rabs_R1 in H. cbn in H. lra.
  - assert (N : norm [5; 0; 0] = 5) by (unfold norm; cbn; replace (5 * 5 + (0 * 0 + (0 * 0 + 0))) with (5 * 5) by ring; apply sqrt_square; lra).
    unfold along_x. rewrite N, Rminus_diag_eq, Rabs_R0 by auto. cbn. repeat split; lra.
Qed.
(** With valid arguments the result is a ring, except for the normals that are a
    non-positive multiple of the x axis: these give NaN positions, without an error. *)
Theorem C42_defined_partial c num radius plane v : (0 < num)%Z -> 0 < radius -> length c = 3%nat -> length v = 3%nat ->
  (exists pts, circular_array (mkV Float c) num radius plane (Some v) = Ok (Some pts) /\ ~ exists k, 0 <= k /\ v = [- k; 0; 0]) \/
  (circular_array (mkV Float c) num radius plane (Some v) = Ok None /\ exists k, 0 <= k /\ v = [- k; 0; 0]).
Proof.
  intros N P L Lv. unfold circular_array. cbn [v_data v_dtype]. destruct (Z.leb_spec num 0); [lia|].
  destruct (Rleb radius 0) eqn:S; [apply rleb_true in S; lra|]. rewrite L. cbn [Nat.eqb negb].
  destruct (basis_from_normal Float v) as [b|e] eqn:B; cbn [bind].
  - apply basis_spec in B as (_ & [(Bd & ->)|(Bd & u & w & -> & _)]); [right; split; auto|left; eexists; split; [reflexivity|auto]].
  - exfalso. unfold basis_from_normal in B. rewrite Lv in B. cbn [Nat.eqb negb] in B. discriminate.
Qed.
Theorem C42_rejected dt c num radius plane normal :
  (num <= 0)%Z \/ radius <= 0 \/ (length c <> 2%nat /\ length c <> 3%nat) \/
  (length c = 3%nat /\ normal = None /\ ~ spells plane "xy" /\ ~ spells plane "xz" /\ ~ spells plane "yz") \/
  (length c = 3%nat /\ exists v, normal = Some v /\ length v <> 3%nat) ->
  circular_array (mkV dt c) num radius plane normal = Err ValueError.
Proof.
  intros H. unfold circular_array. cbn [v_data v_dtype]. destruct (Z.leb_spec num 0) as [|N]; auto.
  destruct (Rleb radius 0) eqn:S; auto. apply rleb_false in S.
  destruct H as [H|[H|[[H1 H2]|[(L & -> & H)|(L & v & -> & H)]]]]; [lia|lra| | |].
  - apply Nat.eqb_neq in H1, H2. rewrite H1, H2. auto.
  - rewrite L. cbn [Nat.eqb negb]. unfold plane_basis. cbv zeta.
    assert (Sp : forall s, In s ["xy"; "xz"; "yz"]%string -> ~ spells plane s -> String.eqb (lower plane) s = false).
    { intros s Hs E. apply String.eqb_neq. intros Q. apply E, lower_spells; auto. repeat destruct Hs as [<-|Hs]; try contradiction; repeat constructor; unfold lower_char; cbn; lia. }
    rewrite (Sp "xy"%string), (Sp "xz"%string), (Sp "yz"%string) by (cbn; tauto). reflexivity.
  - rewrite L. cbn [Nat.eqb negb]. unfold basis_from_normal. apply Nat.eqb_neq in H. rewrite H. reflexivity.
Qed.
(** Natural expectation that fails: the plane orthogonal to the x axis, oriented backwards. *)
Theorem C42_backward_normal_refuted : circular_array (mkV Float [0; 0; 0]) 4 1 "xy" (Some [-1; 0; 0]) = Ok None.
Proof.
  destruct (C42_defined_partial [0; 0; 0] 4 1 "xy" [-1; 0; 0]) as [(pts & _ & H)|[H _]]; auto; try lia; try lra; try reflexivity.
  exfalso. apply H. exists 1. split; [lra|]. leq.
Qed.
Lemma trunc_2pi : truncZ (2 * PI) = 6%Z.
Proof.
  pose proof PI2_3_2 as P1. pose proof (PI_ineq 1) as [_ P2]. cbn in P2. unfold tg_alt, PI_tg in P2. cbn in P2.
  unfold truncZ. destruct (Rle_dec 0 (2 * PI)); [|lra]. apply floorZ_unique. lra.
Qed.
(** Integer centers: angles are truncated to integers, so two microphones around an integer
    center are not opposite (their mean is off the center). *)
Theorem C42_integer_refuted : exists pts, circular_array (mkV Int64 [0; 0]) 2 1 "xy" None = Ok (Some pts) /\ ~ centred [0; 0] pts.
Proof.
  unfold circular_array. cbn [v_data v_dtype]. cbn [Z.leb Z.compare]. destruct (Rleb 1 0) eqn:S; [apply rleb_true in S; lra|].
  cbn [length Nat.eqb]. eexists. split; [reflexivity|]. intros C. specialize (C 1%nat ltac:(cbn; lia)).
  change (Z.to_nat 2) with 2%nat in C. unfold circle_angles in C. rewrite trunc_2pi in C. cbn [seq map] in C.
  replace (INR 0 * (6 / INR 2)) with 0 in C by (cbn; lra). replace (INR 1 * (6 / INR 2)) with 3 in C by (cbn; lra).
  assert (T0 : truncZ 0 = 0%Z) by (unfold truncZ; destruct (Rle_dec 0 0); [|lra]; apply floorZ_unique; lra).
  assert (T3 : truncZ 3 = 3%Z) by (unfold truncZ; destruct (Rle_dec 0 3); [|lra]; apply floorZ_unique; lra).
  rewrite T0, T3 in C. unfold shift, scale, map2 in C. cbn [combine map fst snd length rsum nth] in C. rewrite sin_0 in C.
  assert (0 < sin 3) by (apply sin_gt_0; pose proof PI2_3_2; lra). cbn [INR] in C. lra.
Qed.
Example C42_example : exists pts, circular_array (mkV Float [1; 1; 1]) 8 (1/2) "XY" (Some [0; 0; 2]) = Ok (Some pts).
Proof.
  destruct (C42_defined_partial [1; 1; 1] 8 (1/2) "XY" [0; 0; 2]) as [(pts & H & _)|[_ (k & _ & H)]]; try lia; try lra; try reflexivity; eauto.
  exfalso. injection H. lra.
Qed.

(** ** C43: polyhedra and spherical arrays *)

Theorem C43_polyhedra c kind name n k radius : In (name, n, k) solids -> spells kind name -> length c = 3%nat -> 0 < radius ->
  exists pts, polyhedron_array (mkV Float c) kind radius = Ok pts /\
    on_sphere c radius n pts /\ NoDup pts /\ centred c pts /\ separated c radius k pts.
Proof.
  intros I S L P. destruct (polyhedron_vertices_spec kind name n k I S) as (K & s & V & E & Vx & Ln).
  unfold polyhedron_array. cbn [v_data v_dtype]. destruct (Rleb radius 0) eqn:Q; [apply rleb_true in Q; lra|]. rewrite L, E. cbn [Nat.eqb negb bind].
  eexists. split; [reflexivity|]. destruct (vertices_spec s k V c radius Vx L P) as (R1 & R2 & R3). rewrite Ln in R1.
  split; auto. split; auto. apply (separated_nodup c radius k _ n); auto.
Qed.
Theorem C43_rejected dt c kind radius :
  radius <= 0 \/ length c <> 3%nat \/ (forall name n k, In (name, n, k) solids -> ~ spells kind name) ->
  polyhedron_array (mkV dt c) kind radius = Err ValueError.
Proof.
  intros H. unfold polyhedron_array. cbn [v_data v_dtype]. destruct (Rleb radius 0) eqn:Q; auto. apply rleb_false in Q.
  destruct (Nat.eqb_spec (length c) 3) as [L|L]; auto. cbn [negb]. destruct H as [H|[H|H]]; [lra|contradiction|]. rewrite polyhedron_unknown; auto.
Qed.
(** Eigenmikes: 32 and 64 distinct points on the sphere, whatever the azimuth offset; the
    points stay on the sphere for integer centers too. *)
Theorem C43_eigenmike dt c radius az : length c = 3%nat -> 0 < radius ->
  exists p32 p64, eigenmike_em32 (mkV dt c) radius az = Ok p32 /\ eigenmike_em64 (mkV dt c) radius az = Ok p64 /\
    on_sphere c radius 32 p32 /\ on_sphere c radius 64 p64 /\ (dt = Float -> NoDup p32 /\ NoDup p64).
Proof.
  intros L P. destruct tables as (T1 & T2 & T3 & T4 & T5 & T6 & T7 & T8 & T9 & T10).
  unfold eigenmike_em32, eigenmike_em64, eigenmike. cbn [v_data v_dtype]. destruct (Rleb radius 0) eqn:Q; [apply rleb_true in Q; lra|]. rewrite L. cbn [Nat.eqb negb].
  eexists _, _. split; [reflexivity|]. split; [reflexivity|].
  split; [|split].
  - match goal with |- on_sphere _ _ _ (spherical_array _ _ ?th ?ph) => pose proof (spherical_spec c radius th ph L P) as Q1 end. rewrite !map_length, T1, T2 in Q1. auto.
  - match goal with |- on_sphere _ _ _ (spherical_array _ _ ?th ?ph) => pose proof (spherical_spec c radius th ph L P) as Q1 end. rewrite !map_length, T3, T4 in Q1. auto.
  - intros ->. cbn [to_dtype]. split; apply eigen_nodup; auto; try congruence; try lra; eapply Forall_impl; [|eassumption| |eassumption| |eassumption| |eassumption]; cbv beta; intros z [Z1 Z2]; (split; [lia|]); apply IZR_lt in Z2; lra.
Qed.
(** The 32 capsules come in opposite pairs, up to the rounding of the tabulated angles. *)
Definition antipodal_tables : Prop := Forall (fun a : Z * Z => exists b, In b (combine em32_theta em32_phi) /\
  (Z.abs (fst b - (180 - fst a)) <= 1)%Z /\ ((Z.abs (snd b - (snd a + 180)) <= 1)%Z \/ (Z.abs (snd b - (snd a - 180)) <= 1)%Z)) (combine em32_theta em32_phi).
Lemma antipodal_tables_ok : antipodal_tables.
Proof.
  apply Forall_forall. intros a Ha.
  assert (C : forallb (fun a : Z * Z => existsb (fun b : Z * Z => (Z.abs (fst b - (180 - fst a)) <=? 1)%Z &&
     ((Z.abs (snd b - (snd a + 180)) <=? 1) || (Z.abs (snd b - (snd a - 180)) <=? 1))%Z) (combine em32_theta em32_phi)) (combine em32_theta em32_phi) = true) by (vm_compute; reflexivity).
  rewrite forallb_forall in C. apply C in Ha. apply existsb_exists in Ha as (b & Ib & H). exists b. split; auto.
  apply andb_prop in H as [H1 H2]. apply Z.leb_le in H1. split; auto. apply orb_prop in H2 as [H|H]; apply Z.leb_le in H; auto.
Qed.
Theorem C43_em32_opposite c radius az pts : length c = 3%nat -> eigenmike_em32 (mkV Float c) radius az = Ok pts ->
  forall p, In p pts -> exists q, In q pts /\ opposite c radius 1 p q.
Proof.
  intros L H p Hp. unfold eigenmike_em32, eigenmike in H. cbn [v_data v_dtype to_dtype] in H. destruct (Rleb radius 0); [discriminate|]. rewrite L in H. cbn [Nat.eqb negb] in H.
  destruct c as [|c0 [|c1 [|c2 [|]]]]; try discriminate.
  injection H as <-. unfold spherical_array in *. apply in_map_iff in Hp as ([t f] & <- & Hp).
  assert (Q : forall u v, In (u, v) (combine (map (fun z => IZR z * 1) em32_theta) (map (fun z => IZR z * 1 + az) em32_phi)) <->
     exists x y, In (x, y) (combine em32_theta em32_phi) /\ u = IZR x * 1 /\ v = IZR y * 1 + az).
  { generalize em32_theta, em32_phi. induction l as [|x l IH]; intros l0 u v; [cbn; split; [tauto|intros (? & ? & [] & _)]|].
    destruct l0 as [|y l0]; [cbn; split; [tauto|intros (? & ? & [] & _)]|]. cbn [map combine In]. rewrite IH. split.
    - intros [E|(x' & y' & I & -> & ->)]; [injection E as <- <-; exists x, y; auto|exists x', y'; auto].
    - intros (x' & y' & [E|I] & -> & ->); [injection E as -> ->; auto|right; exists x', y'; auto]. }
  apply Q in Hp as (x & y & Hp & -> & ->).
  pose proof antipodal_tables_ok as T. unfold antipodal_tables in T. rewrite Forall_forall in T. destruct (T _ Hp) as ([x' y'] & I & H1 & H2). cbn [fst snd] in *.
  eexists. split; [apply in_map_iff; exists (IZR x' * 1, IZR y' * 1 + az); split; [reflexivity|apply Q; eauto]|].
  assert (A : forall z e, (Z.abs z <= 1)%Z -> e = IZR z -> Rabs e <= 1).
  { intros z e Hz ->. rewrite <- abs_IZR. apply IZR_le. auto. }
  destruct H2 as [H2|H2].
  - exists (IZR x), (IZR y + az), (IZR x'), (IZR y' + az). cbn [fst snd]. unfold at_angles, shift, map2, deg2rad. cbn. rewrite !Rmult_1_r, !Rmult_assoc. split; [auto|]. split; [auto|]. split.
    + apply (A _ _ H1). rewrite !minus_IZR. lra.
    + apply (A _ _ H2). rewrite !minus_IZR, plus_IZR. lra.
  - exists (IZR x), (IZR y + az), (IZR x'), (IZR y' + az + 360). cbn [fst snd]. unfold at_angles, shift, map2, deg2rad. cbn. rewrite !Rmult_1_r, !Rmult_assoc. split; [auto|].
    assert (P : (IZR y' + az + 360) * (PI / 180) = (IZR y' + az) * (PI / 180) + 2 * INR 1 * PI) by (cbn; field).
    rewrite P, cos_period, sin_period. split; [auto|]. split.
    + apply (A _ _ H1). rewrite !minus_IZR. lra.
    + apply (A _ _ H2). rewrite !minus_IZR. lra.
Qed.
Theorem C43_eigenmike_rejected dt c radius az : radius <= 0 \/ length c <> 3%nat ->
  eigenmike_em32 (mkV dt c) radius az = Err ValueError /\ eigenmike_em64 (mkV dt c) radius az = Err ValueError.
Proof.
  intros H. unfold eigenmike_em32, eigenmike_em64, eigenmike. cbn [v_data v_dtype]. destruct (Rleb radius 0) eqn:Q; auto. apply rleb_false in Q.
  destruct H as [H|H]; [lra|]. apply Nat.eqb_neq in H. rewrite H. auto.
Qed.
Example C43_example : exists pts, polyhedron_array (mkV Float [1; 2; 3]) "Cube" 2 = Ok pts /\ length pts = 8%nat /\ NoDup pts.
Proof.
  destruct (C43_polyhedra [1; 2; 3] "Cube" "cube" 8 (1/3) 2) as (pts & H & S & N & _); try (cbn; auto; fail); try lra.
  - cbn. unfold reads. cbn. intuition lia.
  - exists pts. split; auto. split; auto. apply (os_length _ _ _ _ S).
Qed.

(** ** C44: sampled positions *)

(** Every stream, every count: [num] points inside the corners given by the margin (rounded
    to float32). *)
Theorem C44_positions_partial rng k num size margin : random_draws rng -> spacious size margin ->
  length (fst (sample_positions rng k num size margin)) = Z.to_nat num /\
  forall p, In p (fst (sample_positions rng k num size margin)) -> in_box (low_corner size margin) (high_corner size margin) p.
Proof. apply sample_positions_spec. Qed.
Theorem C44_z_range_partial rng k num size zmin zmax margin pts : random_draws rng -> spacious size margin -> double zmin -> double zmax ->
  sample_positions_with_z_range rng k num size (zmin, zmax) margin = Ok pts ->
  length pts = Z.to_nat num /\ forall p, In p pts ->
    in_box (low_corner size margin) (high_corner size margin) p /\
    (z_feasible size margin zmin zmax -> rnd32 zmin <= nth 2 p 0 <= rnd32 zmax).
Proof. apply z_range_spec. Qed.
(** All coordinates are drawn independently: every table of draws, one per point and axis, is
    used by some stream. *)
Theorem C44_reaches_partial : forall num size margin (want : nat -> nat -> R),
  (forall j i, 0 <= want j i <= 1 - / 2 ^ 53) ->
  exists rng, random_draws rng /\
    length (fst (sample_positions rng 0 (Z.of_nat num) size margin)) = num /\
    forall j i, (j < num)%nat -> (i < length size)%nat ->
      nth i (nth j (fst (sample_positions rng 0 (Z.of_nat num) size margin)) []) 0 =
      rnd32 (rnd64 (margin + rnd64 (rnd64 (rnd64 (nth i size 0 - margin) - margin) * want j i))).
Proof.
  intros num size margin want W. exists (fun k => want (k / length size)%nat (k mod length size)%nat).
  split; [intros k; apply W|]. unfold sample_positions, draw_points. cbn [fst]. rewrite Nat2Z.id.
  split; [rewrite !map_length, seq_length; reflexivity|]. intros j i Hj Hi.
  change (@nil R) with (map rnd32 []). rewrite map_nth, nth_map_rnd32.
  rewrite nth_tab by auto. unfold draw_point. rewrite nth_tab by auto. rewrite nth_highs by auto. unfold uniform.
  replace ((0 + j * length size + i) / length size)%nat with j
    by (rewrite Nat.add_0_l, Nat.div_add_l, Nat.div_small by lia; lia).
  replace ((0 + j * length size + i) mod length size)%nat with i
    by (rewrite Nat.add_0_l, Nat.add_comm, Nat.mod_add, Nat.mod_small by lia; reflexivity).
  reflexivity.
Qed.
(** With a range of heights, the heights have draws of their own, independent of the others. *)
Theorem C44_reaches_z_partial : forall num size margin zmin zmax (want : nat -> nat -> R) (wantz : nat -> R),
  (forall j i, 0 <= want j i <= 1 - / 2 ^ 53) -> (forall j, 0 <= wantz j <= 1 - / 2 ^ 53) ->
  (0 < num)%nat -> z_feasible size margin zmin zmax ->
  exists rng pts, random_draws rng /\
    sample_positions_with_z_range rng 0 (Z.of_nat num) size (zmin, zmax) margin = Ok pts /\ length pts = num /\
    forall j, (j < num)%nat ->
      (forall i, (i < length size)%nat -> i <> 2%nat ->
        nth i (nth j pts []) 0 = rnd32 (rnd64 (margin + rnd64 (rnd64 (rnd64 (nth i size 0 - margin) - margin) * want j i)))) /\
      let lo := Rmax margin zmin in let hi := Rmin (rnd64 (nth 2 size 0 - margin)) zmax in
      nth 2 (nth j pts []) 0 = rnd32 (rnd64 (lo + rnd64 (rnd64 (hi - lo) * wantz j))).
Proof.
  intros num size margin zmin zmax want wantz W Wz Hn [L3 Hz].
  set (d := length size) in *.
  set (rng := fun k : nat => if (k <? num * d)%nat then want (k / d)%nat (k mod d)%nat else wantz (k - num * d)%nat).
  exists rng.
  assert (HP : forall j i, (j < num)%nat -> (i < d)%nat ->
    nth i (nth j (fst (sample_positions rng 0 (Z.of_nat num) size margin)) []) 0 =
    rnd32 (rnd64 (margin + rnd64 (rnd64 (rnd64 (nth i size 0 - margin) - margin) * want j i)))).
  { intros j i Hj Hi. unfold sample_positions, draw_points. cbn [fst]. rewrite Nat2Z.id.
    change (@nil R) with (map rnd32 []). rewrite map_nth, nth_map_rnd32.
    rewrite nth_tab by auto. unfold draw_point. rewrite nth_tab by auto. rewrite nth_highs by auto. unfold uniform, rng. fold d.
    replace (0 + j * d + i <? num * d)%nat with true by (symmetry; apply Nat.ltb_lt; nia).
    replace ((0 + j * d + i) / d)%nat with j by (rewrite Nat.add_0_l, Nat.div_add_l, Nat.div_small by lia; lia).
    replace ((0 + j * d + i) mod d)%nat with i by (rewrite Nat.add_0_l, Nat.add_comm, Nat.mod_add, Nat.mod_small by lia; reflexivity).
    reflexivity. }
  assert (HL : forall j, (j < num)%nat -> length (nth j (fst (sample_positions rng 0 (Z.of_nat num) size margin)) []) = d).
  { intros j Hj. unfold sample_positions, draw_points. cbn [fst]. rewrite Nat2Z.id. change (@nil R) with (map rnd32 []).
    rewrite map_nth, map_length, nth_tab by auto. unfold draw_point. rewrite map_length, seq_length. reflexivity. }
  assert (HN : fst (sample_positions rng 0 (Z.of_nat num) size margin) <> []).
  { unfold sample_positions, draw_points. cbn [fst]. rewrite Nat2Z.id. destruct num; [lia|]. discriminate. }
  unfold sample_positions_with_z_range.
  destruct (sample_positions rng 0 (Z.of_nat num) size margin) as [pos k'] eqn:E. cbn [fst] in HP, HL, HN.
  assert (Ek : k' = (num * d)%nat) by (unfold sample_positions in E; rewrite Nat2Z.id in E; injection E as _ <-; reflexivity).
  fold d. replace (d <? 3)%nat with false by (symmetry; apply Nat.ltb_ge; lia).
  unfold z_bounds. cbn [fst snd]. replace (Rleb _ _) with false by (symmetry; apply rleb_false; exact Hz).
  destruct pos as [|p0 pos]; [congruence|]. eexists. split; [|split; [reflexivity|]].
  { intros k. unfold rng. destruct (k <? num * d)%nat; [apply W|apply Wz]. }
  rewrite Nat2Z.id. split; [rewrite map_length, seq_length; reflexivity|]. intros j Hj. rewrite nth_tab by auto. split.
  - intros i Hi H2. rewrite nth_upd_nth_neq by auto. apply HP; auto.
  - cbv zeta. rewrite nth_upd_nth_eq by (rewrite HL by auto; lia). unfold uniform, rng. rewrite Ek.
    replace (num * d + j <? num * d)%nat with false by (symmetry; apply Nat.ltb_ge; lia).
    replace (num * d + j - num * d)%nat with j by lia. reflexivity.
Qed.
(** In a room of 4 x 3 metres: one corner of the region and a point far from the diagonal. *)
Example C44_reaches_example : exists rng, random_draws rng /\
  nth 0 (nth 0 (fst (sample_positions rng 0 1 [4; 3] 0)) []) 0 = 0 /\
  nth 1 (nth 0 (fst (sample_positions rng 0 1 [4; 3] 0)) []) 0 = rnd32 (rnd64 (3 / 2)).
Proof.
  destruct (C44_reaches_partial 1 [4; 3] 0 (fun _ i => if (i =? 0)%nat then 0 else 1 / 2)) as (rng & A & _ & B).
  { intros _ i. assert (/ 2 ^ 53 <= / 2 ^ 1) by (apply Rinv_le_contravar; [lra|apply Rle_pow; [lra|lia]]).
    destruct (i =? 0)%nat; lra. }
  exists rng. split; auto. cbn [Z.of_nat Pos.of_succ_nat] in B. rewrite !B by (cbn; lia). cbn [nth Nat.eqb]. split.
  - rewrite Rmult_0_r, rnd64_0, Rplus_0_r, rnd64_0, rnd32_0. reflexivity.
  - rewrite !Rminus_0_r, !(rnd64_IZR 3) by lia. rewrite Rplus_0_l.
    replace (3 * (1 / 2)) with (3 / 2) by lra. f_equal. apply rnd64_double.
Qed.
(** The float32 corners: exact for float32 margins, within one part in 2^24 otherwise, and
    never outside the room when the room size is a float32 tensor. *)
Lemma single_double x : single x -> double x.
Proof.
  intros H. apply round_generic; [apply valid_rnd_N|]. apply single_format in H. apply generic_inclusion_mag with (fexp1 := FLT_exp (-149) 24); auto.
  intros _. unfold fexp64, FLT_exp. lia.
Qed.
Theorem C44_corners_partial size margin i : (i < length size)%nat ->
  (single margin -> nth i (low_corner size margin) 0 = margin) /\
  (bpow radix2 (-126) <= margin -> margin * (1 - / IZR (2 ^ 24)) <= nth i (low_corner size margin) 0) /\
  (0 <= margin -> single (nth i size 0) -> nth i (high_corner size margin) 0 <= nth i size 0) /\
  (0 <= margin -> 0 <= nth i (low_corner size margin) 0).
Proof.
  intros Hi.
  assert (E1 : nth i (low_corner size margin) 0 = rnd32 margin).
  { unfold low_corner. rewrite (nth_indep _ 0 (rnd32 margin)) by (rewrite map_length; auto). apply (map_nth (fun _ => rnd32 margin) size 0). }
  assert (E2 : nth i (high_corner size margin) 0 = rnd32 (rnd64 (nth i size 0 - margin))).
  { unfold high_corner. rewrite (nth_indep _ 0 (rnd32 (rnd64 (0 - margin)))) by (rewrite map_length; auto). apply (map_nth (fun s => rnd32 (rnd64 (s - margin)))). }
  rewrite E1, E2. split; [auto|]. split; [apply rnd32_lower|]. split.
  - intros Hm Hs. apply Rle_trans with (rnd32 (nth i size 0)); [|rewrite Hs; lra]. apply rnd32_le.
    apply Rle_trans with (rnd64 (nth i size 0)); [apply rnd64_le; lra|]. rewrite (single_double _ Hs). lra.
  - apply rnd32_nonneg.
Qed.
(** The margin itself can be violated: the draw lands on a margin that float32 rounds down. *)
Theorem C44_margin_refuted : exists rng size margin p,
  random_draws rng /\ spacious size margin /\ In p (fst (sample_positions rng 0 1 size margin)) /\ nth 0 p 0 < margin.
Proof.
  set (m := 1/2 + / 2 ^ 30).
  assert (Em : m = IZR (2 ^ 29 + 1) * bpow radix2 (-30)) by (unfold m; cbn; lra).
  assert (Dm : double m).
  { apply round_generic; [apply valid_rnd_N|]. apply generic_format_FLT. exists (Defs.Float radix2 (2 ^ 29 + 1) (-30)); cbn; auto; lia. }
  assert (Rm : rnd32 m = 1 / 2).
  { assert (F : generic_format radix2 (FLT_exp (-149) 24) (1 / 2)).
    { replace (1 / 2) with (bpow radix2 (-1)) by (cbn; lra). apply generic_format_FLT_bpow; [apply p24|lia]. }
    apply Rle_antisym.
    - unfold rnd32. apply round_N_le_midp; [apply FLT_exp_valid; apply p24|exact F|].
      rewrite succ_eq_pos by lra. assert (U : ulp radix2 fexp32 (1 / 2) = bpow radix2 (-24)).
      { replace (1 / 2) with (bpow radix2 (-1)) by (cbn; lra). rewrite ulp_bpow. reflexivity. }
      rewrite U. unfold m. cbn. lra.
    - apply Rle_trans with (rnd32 (1 / 2)); [|apply rnd32_le; unfold m; cbn; lra].
      unfold rnd32. rewrite round_generic; [lra|apply valid_rnd_N|exact F]. }
  assert (D2 : rnd64 (2 - m) = 2 - m).
  { apply round_generic; [apply valid_rnd_N|]. apply generic_format_FLT. exists (Defs.Float radix2 (3 * 2 ^ 29 - 1) (-30)); [unfold m, F2R; cbn; lra|cbn; lia|cbn; lia]. }
  exists (fun _ => 0), [2], m. eexists. split; [intros k; cbn; lra|]. split; [split; [auto|]|split].
  - constructor; [|constructor]. rewrite D2. unfold m. cbn. lra.
  - unfold sample_positions, draw_points, draw_point. cbn [fst]. change (Z.to_nat 1) with 1%nat. cbn [seq map length highs nth]. left. reflexivity.
  - cbn [nth]. unfold uniform. rewrite Rmult_0_r, rnd64_0, Rplus_0_r, Dm, Rm. unfold m. cbn. lra.
Qed.
(** Minimum distance: exactly [num] points or RuntimeError, at most [max_attempts] draws,
    every point in the box, in the height range and, up to the float32 error [e] of the norm
    and one rounding, at the requested distance of the (float32) center. *)
Theorem C44_min_distance_partial nrm e rng k num size center md zr margin mx pts made :
  random_draws rng -> spacious size margin -> 0 <= e -> (forall v, nrm v <= (1 + e) * norm v) ->
  match zr with Some (zmin, zmax) => double zmin /\ double zmax | None => True end ->
  sample_positions_min_distance nrm rng k num size center md zr margin mx = Ok (pts, made) ->
  length pts = Z.to_nat num /\ (Z.of_nat made <= Z.max 0 mx)%Z /\
  forall p, In p pts -> in_box (low_corner size margin) (high_corner size margin) p /\
    md <= (1 + e) * (1 + / 2 ^ 24) * distance (map rnd32 center) p /\
    match zr with Some (zmin, zmax) => z_feasible size margin zmin zmax -> rnd32 zmin <= nth 2 p 0 <= rnd32 zmax | None => True end.
Proof.
  intros Hr Hs He Hn Hz H.
  destruct (Nat.eq_dec (length center) (length size)) as [L|L].
  2:{ unfold sample_positions_min_distance in H. cbv zeta in H. rewrite map_length in H. apply Nat.eqb_neq in L. rewrite L in H. discriminate. }
  destruct (min_distance_spec nrm rng k num size center md zr margin mx L) as [[E _]|(m & E & Hm & Hl)]; [congruence|].
  rewrite E in H. apply Ok_inj in H. injection H as <- <-.
  split; [rewrite map_length, firstn_length; lia|]. split; [lia|].
  intros p Hp. apply in_map_iff in Hp as (q & <- & Hq). apply firstn_subset in Hq. apply filter_In in Hq as [Hq Ha].
  apply in_map_iff in Hq as (i & <- & _).
  destruct (attempt_spec rng (k + i * snd (attempt rng 0 size zr margin)) size zr margin Hr Hs Hz) as (B & Lp & Z).
  set (q := fst (attempt rng (k + i * snd (attempt rng 0 size zr margin)) size zr margin)) in *.
  split; auto. split.
  - unfold accepts in Ha. apply rleb_true in Ha. apply Rle_trans with (1 := Ha). apply Rle_trans with (1 := Hn _). rewrite Rmult_assoc.
    apply Rmult_le_compat_l; [lra|]. apply tested_distance; [rewrite map_length; congruence|]. apply Forall_forall. intros x Hx. apply in_map_iff in Hx as (y & <- & _). apply rnd32_single.
  - destruct zr as [[zmin zmax]|]; auto. intros F. specialize (Z F). rewrite nth_map_rnd32. split; apply rnd32_le; lra.
Qed.
(** Whatever the stream, there is a list of acceptable points such that asking for [num]
    points returns its first [num] elements, and fails exactly when it is too short. *)
Theorem C44_exactly_num nrm rng k size center md zr margin mx : length center = length size ->
  exists good, (length good <= Z.to_nat mx)%nat /\ forall num,
    (sample_positions_min_distance nrm rng k num size center md zr margin mx = Err RuntimeError /\ (Z.of_nat (length good) < num)%Z) \/
    (exists made, sample_positions_min_distance nrm rng k num size center md zr margin mx = Ok (firstn (Z.to_nat num) good, made) /\
       (made <= Z.to_nat mx)%nat /\ (num <= Z.of_nat (length good))%Z).
Proof.
  intros L. exists (map (map rnd32) (filter (accepts nrm (map rnd32 center) md) (candidates rng k size zr margin (Z.to_nat mx)))).
  rewrite map_length. split.
  - apply Nat.le_trans with (length (candidates rng k size zr margin (Z.to_nat mx))); [apply filter_length_le|]. unfold candidates. rewrite map_length, seq_length. auto.
  - intros num. rewrite firstn_map. apply min_distance_spec; auto.
Qed.
(** An empty request with a feasible height range raises IndexError in the z-range sampler. *)
Theorem C44_empty_refuted rng k size zmin zmax margin : z_feasible size margin zmin zmax ->
  sample_positions_with_z_range rng k 0 size (zmin, zmax) margin = Err IndexError.
Proof.
  intros [L F]. unfold sample_positions_with_z_range, sample_positions. cbn [Z.to_nat draw_points seq map].
  destruct (Nat.ltb_spec (length size) 3); [lia|]. unfold z_bounds. cbn [fst snd].
  destruct (Rleb _ _) eqn:Q; auto. apply rleb_true in Q. lra.
Qed.
Example C44_example : spacious [6; 5; 3] (1/2) /\ z_feasible [6; 5; 3] (1/2) (3/2) (7/4) /\
  fst (sample_positions (fun _ => 1/2) 0 1 [6; 5; 3] (1/2)) = [[3; 5/2; 3/2]].
Proof.
  assert (D : forall z, (Z.abs z <= 100)%Z -> rnd64 (IZR z * / 4) = IZR z * / 4 /\ rnd32 (IZR z * / 4) = IZR z * / 4).
  { intros z Hz. split; (apply round_generic; [apply valid_rnd_N|]); apply generic_format_FLT; exists (Defs.Float radix2 z (-2)); unfold F2R; cbn; auto; try lia; lra. }
  pose proof (fun z H => proj1 (D z H)) as D64. pose proof (fun z H => proj2 (D z H)) as D32.
  assert (H6 : rnd64 (6 - 1/2) = 6 - 1/2) by (replace (6 - 1/2) with (22 * / 4) by lra; apply D64; lia).
  assert (H5 : rnd64 (5 - 1/2) = 5 - 1/2) by (replace (5 - 1/2) with (18 * / 4) by lra; apply D64; lia).
  assert (H3 : rnd64 (3 - 1/2) = 3 - 1/2) by (replace (3 - 1/2) with (10 * / 4) by lra; apply D64; lia).
  split; [split|split].
  - unfold double. replace (1/2) with (2 * / 4) by lra. apply D64. lia.
  - repeat constructor; rewrite ?H6, ?H5, ?H3; lra.
  - split; [cbn; lia|]. cbn [nth]. rewrite H3. rewrite Rmax_right, Rmin_right by lra. lra.
  - unfold sample_positions, draw_points, draw_point. cbn [fst]. change (Z.to_nat 1) with 1%nat. cbn [seq map length highs nth].
    assert (U : forall b z w, rnd64 (b - 1/2) = b - 1/2 -> rnd64 (b - 1/2 - 1/2) = b - 1/2 - 1/2 -> (b - 1/2 - 1/2) * (1/2) = IZR z * / 4 -> (Z.abs z <= 90)%Z -> 1/2 + IZR z * / 4 = IZR w * / 4 -> (Z.abs w <= 100)%Z ->
      rnd32 (uniform (1/2) (rnd64 (b - 1/2)) (1/2)) = IZR w * / 4).
    { intros b z w E1 E2 E3 Hz E4 Hw. unfold uniform. rewrite E1, E2, E3, D64, E4, D64 by lia. apply D32; lia. }
    rewrite (U 6 10%Z 12%Z), (U 5 8%Z 10%Z), (U 3 4%Z 6%Z); auto; try lra; try lia.
    + leq.
    + replace (3 - 1/2 - 1/2) with (8 * / 4) by lra. apply D64. lia.
    + replace (5 - 1/2 - 1/2) with (16 * / 4) by lra. apply D64. lia.
    + replace (6 - 1/2 - 1/2) with (20 * / 4) by lra. apply D64. lia.
Qed.

(** ** C45: clamping *)

(** Floating-point room sizes. *)
Theorem C45_inside_partial pos size margin : length pos = length size -> Forall (fun s => 2 * margin <= s) size ->
  in_box (map (fun _ => margin) size) (map (fun s => s - margin) size) (clamp_positions pos (mkV Float size) margin).
Proof.
  intros L F. unfold in_box. rewrite length_clamp by auto. rewrite !map_length. split; auto. split; auto. intros i Hi.
  rewrite nth_clamp by (cbn; lia). cbn [v_data v_dtype to_dtype].
  rewrite (nth_indep (map (fun _ => margin) size) 0 margin) by (rewrite map_length; lia). rewrite (map_nth (fun _ => margin) size 0).
  rewrite (nth_indep (map (fun s => s - margin) size) 0 (0 - margin)) by (rewrite map_length; lia). rewrite (map_nth (fun s => s - margin)).
  rewrite Forall_forall in F. assert (Hi' : (i < length size)%nat) by lia. specialize (F _ (nth_In _ 0 Hi')).
  unfold Rmax, Rmin. destruct (Rle_dec _ _), (Rle_dec _ _); lra.
Qed.
Theorem C45_unchanged_partial pos size margin : in_box (map (fun _ => margin) size) (map (fun s => s - margin) size) pos ->
  clamp_positions pos (mkV Float size) margin = pos.
Proof.
  intros (L1 & L2 & B). rewrite map_length in L1. apply nth_ext with (d := 0) (d' := 0); [apply length_clamp; cbn; auto|].
  intros i Hi. rewrite length_clamp in Hi by (cbn; auto). specialize (B i Hi). rewrite nth_clamp by (cbn; lia). cbn [v_data v_dtype to_dtype].
  rewrite (nth_indep (map (fun _ => margin) size) 0 margin) in B by (rewrite map_length; lia). rewrite (map_nth (fun _ => margin) size 0) in B.
  rewrite (nth_indep (map (fun s => s - margin) size) 0 (0 - margin)) in B by (rewrite map_length; lia). rewrite (map_nth (fun s => s - margin)) in B.
  rewrite Rmin_left, Rmax_left; lra.
Qed.
(** Idempotent for every room, margin and dtype, even when the margins overlap. *)
Theorem C45_idempotent pos size margin : length pos = length (v_data size) ->
  clamp_positions (clamp_positions pos size margin) size margin = clamp_positions pos size margin.
Proof.
  intros L. apply nth_ext with (d := 0) (d' := 0); [rewrite !length_clamp; auto; rewrite length_clamp; auto|].
  intros i Hi. rewrite !length_clamp in Hi; auto; [|rewrite length_clamp; auto]. rewrite !nth_clamp; auto; try lia; [|rewrite length_clamp; auto].
  unfold Rmax, Rmin. repeat destruct (Rle_dec _ _); lra.
Qed.
Theorem C45_overlap_partial pos size margin i : length pos = length size -> (i < length pos)%nat -> nth i size 0 < 2 * margin ->
  nth i (clamp_positions pos (mkV Float size) margin) 0 = margin.
Proof.
  intros L Hi H. rewrite nth_clamp by (cbn; lia). cbn [v_data v_dtype to_dtype]. unfold Rmax, Rmin. destruct (Rle_dec _ _), (Rle_dec _ _); lra.
Qed.
(** Each coordinate moves to the nearest allowed value. *)
Theorem C45_nearest_partial pos size margin i y : length pos = length size -> (i < length pos)%nat ->
  2 * margin <= nth i size 0 -> margin <= y <= nth i size 0 - margin ->
  Rabs (nth i (clamp_positions pos (mkV Float size) margin) 0 - nth i pos 0) <= Rabs (y - nth i pos 0).
Proof.
  intros L Hi H Hy. rewrite nth_clamp by (cbn; lia). cbn [v_data v_dtype to_dtype]. unfold Rmax, Rmin, Rabs.
  repeat destruct (Rle_dec _ _); repeat destruct (Rcase_abs _); lra.
Qed.
(** With an integer room size the lower margin is truncated: a point on the wall stays there. *)
Theorem C45_integer_refuted : clamp_positions [0; 2; 1] (mkV Int64 [6; 4; 3]) (1/10) = [0; 2; 1].
Proof.
  unfold clamp_positions. cbn [v_data v_dtype to_dtype]. rewrite trunc_small by lra. unfold map2. cbn.
  unfold Rmax, Rmin. leq; repeat destruct (Rle_dec _ _); lra.
Qed.
Example C45_example : clamp_positions [-1; 2; 9] (mkV Float [6; 4; 3]) (1/10) = [1/10; 2; 29/10].
Proof. unfold clamp_positions, map2. cbn. unfold Rmax, Rmin. leq; repeat destruct (Rle_dec _ _); lra. Qed.

(** ** C46: linear trajectories *)

Theorem C46_segment start end_ steps : length start = length end_ -> (2 <= steps)%Z ->
  exists pts, linear_trajectory start end_ steps = Ok (Some pts) /\ length pts = Z.to_nat steps /\
    nth 0 pts [] = start /\ nth (Z.to_nat steps - 1) pts [] = end_ /\
    (forall t, (t + 1 < Z.to_nat steps)%nat ->
       multiple (/ (IZR steps - 1)) (disp start end_) (disp (nth t pts []) (nth (t + 1) pts []))) /\
    (forall lo hi, in_box lo hi start -> in_box lo hi end_ -> forall p, In p pts -> in_box lo hi p).
Proof.
  intros L S. unfold linear_trajectory. destruct (Z.leb_spec steps 0); [lia|]. destruct (Z.eqb_spec steps 1); [lia|].
  eexists. split; [reflexivity|]. set (T := IZR steps - 1).
  assert (HT : 1 <= T) by (unfold T; apply IZR_le in S; lra).
  set (pt := fun t => map2 (fun s e => s + (e - s) * INR t / T) start end_).
  assert (Lp : forall t, length (pt t) = length start) by (intros t; unfold pt; rewrite length_map2; lia).
  assert (Np : forall t i, (i < length start)%nat -> nth i (pt t) 0 = nth i start 0 + (nth i end_ 0 - nth i start 0) * INR t / T).
  { intros t i Hi. unfold pt. rewrite (nth_map2 _ _ _ _ 0 0 0) by lia. auto. }
  assert (Tl : INR (Z.to_nat steps - 1) = T).
  { unfold T. rewrite INR_IZR_INZ. rewrite <- minus_IZR. f_equal. lia. }
  assert (Nd : forall a b i, length a = length b -> (i < length a)%nat -> nth i (disp a b) 0 = nth i b 0 - nth i a 0).
  { clear. induction a as [|x a IH]; intros [|y b] [|i] La Hi; cbn in *; try discriminate; try lia; auto. apply IH; lia. }
  assert (Ld : forall a b, length a = length b -> length (disp a b) = length a).
  { clear. induction a as [|x a IH]; intros [|y b] La; cbn in *; try discriminate; auto. }
  split; [rewrite map_length, seq_length; auto|]. split; [|split; [|split]].
  - rewrite nth_tab by lia. apply nth_ext with (d := 0) (d' := 0); [apply Lp|]. intros i Hi. rewrite Lp in Hi. fold (pt 0%nat). rewrite Np by auto. cbn [INR]. unfold Rdiv. lra.
  - rewrite nth_tab by lia. fold (pt (Z.to_nat steps - 1)%nat). apply nth_ext with (d := 0) (d' := 0); [rewrite Lp; auto|]. intros i Hi. rewrite Lp in Hi. rewrite Np, Tl by auto. field. lra.
  - intros t Ht. rewrite !nth_tab by lia. fold (pt t) (pt (t + 1)%nat). split; [rewrite !Ld; auto; rewrite !Lp; auto|].
    intros i Hi. rewrite Ld in Hi by auto. rewrite !Nd by (rewrite ?Lp; auto). rewrite !Np by auto. rewrite plus_INR. change (INR 1) with 1. field. lra.
  - intros lo hi (A1 & A2 & A3) (B1 & B2 & B3) p Hp. apply in_map_iff in Hp as (t & <- & Ht). apply in_seq in Ht. fold (pt t).
    unfold in_box. rewrite Lp. split; [auto|]. split; [auto|]. intros i Hi. rewrite Np by auto. specialize (A3 i Hi). specialize (B3 i ltac:(lia)).
    assert (K : 0 <= INR t / T <= 1).
    { split; [apply Rmult_le_pos; [apply pos_INR|]; apply Rlt_le, Rinv_0_lt_compat; lra|].
      apply Rmult_le_reg_r with T; [lra|]. unfold Rdiv. rewrite Rmult_assoc, Rinv_l by lra. rewrite <- Tl. assert (INR t <= INR (Z.to_nat steps - 1)) by (apply le_INR; lia). lra. }
    unfold Rdiv. rewrite Rmult_assoc. fold (INR t / T). split; nra.
Qed.
(** Fewer steps: an empty request raises, a single step gives NaN positions. *)
Theorem C46_short start end_ steps : ((steps <= 0)%Z -> linear_trajectory start end_ steps = Err RuntimeError) /\ (steps = 1%Z -> linear_trajectory start end_ steps = Ok None).
Proof.
  unfold linear_trajectory. split; intros H.
  - destruct (Z.leb_spec steps 0); [auto|lia].
  - subst steps. reflexivity.
Qed.
Example C46_example : linear_trajectory [0; 2] [1; 0] 3 = Ok (Some [[0; 2]; [1/2; 1]; [1; 0]]).
Proof.
  unfold linear_trajectory. cbn [Z.leb Z.compare Z.eqb Pos.eqb]. change (Z.to_nat 3) with 3%nat. cbn [seq map]. unfold map2. cbn [combine map fst snd].
  apply f_equal, f_equal. cbn [INR]. leq.
Qed.
Print Assumptions C41_linear.
Print Assumptions C41_accepted.
Print Assumptions C41_zero_direction_refuted.
Print Assumptions C41_binaural_partial.
Print Assumptions C41_binaural_refuted.
Print Assumptions C42_ring_partial.
Print Assumptions C42_defined_partial.
Print Assumptions C42_rejected.
Print Assumptions C42_backward_normal_refuted.
Print Assumptions C42_integer_refuted.
Print Assumptions C43_polyhedra.
Print Assumptions C43_rejected.
Print Assumptions C43_eigenmike.
Print Assumptions C43_eigenmike_rejected.
Print Assumptions C44_positions_partial.
Print Assumptions C44_z_range_partial.
Print Assumptions C44_corners_partial.
Print Assumptions C44_margin_refuted.
Print Assumptions C44_min_distance_partial.
Print Assumptions C44_exactly_num.
Print Assumptions C44_empty_refuted.
Print Assumptions C45_inside_partial.
Print Assumptions C45_unchanged_partial.
Print Assumptions C45_idempotent.
Print Assumptions C45_overlap_partial.
Print Assumptions C45_nearest_partial.
Print Assumptions C45_integer_refuted.
Print Assumptions C46_segment.
Print Assumptions C46_short.
Print Assumptions C42_first.
Print Assumptions C43_em32_opposite.
Print Assumptions C44_reaches_partial.
Print Assumptions C44_reaches_z_partial.
