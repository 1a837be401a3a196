(** Proofs about polyhedra and spherical arrays. *)
From Coq Require Import String List ZArith Reals Lia Lra Psatz Bool.
From Verif Require Import Prelude PreludeFacts FloatModel DirModel DirSpec DirProofs RoomModel GeoModel GeoSpec GeoProofs.
Import ListNotations.
Local Open Scope R_scope.
Local Notation length := List.length.

Lemma fop_nth {A} (P : A -> A -> Prop) (l : list A) d : ForallOrdPairs P l -> forall i j, (i < j)%nat -> (j < length l)%nat -> P (nth i l d) (nth j l d).
Proof.
  induction 1 as [|a l F1 F2 IH]; intros i j Hij Hj; cbn in *; [lia|]. destruct j as [|j]; [lia|]. destruct i as [|i].
  - rewrite Forall_forall in F1. apply F1, nth_In. lia.
  - apply IH; lia.
Qed.
Record vertices (s k : R) (V : list (list R)) : Prop := {
  vx_pos : 0 < s; vx_norm : Forall (fun v => length v = 3%nat /\ dot v v = s) V;
  vx_sep : ForallOrdPairs (fun v w => dot v w <= s * k) V;
  vx_sum : forall i, (i < 3)%nat -> rsum (length V) (fun j => nth i (nth j V []) 0) = 0 }.
Lemma vertices_spec s k V c r : vertices s k V -> length c = 3%nat -> 0 < r ->
  let pts := map (fun v => shift c (scale r (map (fun x => x / vnorm v) v))) V in
  on_sphere c r (length V) pts /\ centred c pts /\ separated c r k pts.
Proof.
  intros [Ps N Sp Sm] L Pr pts. rewrite Forall_forall in N.
  assert (Q : 0 < sqrt s) by (apply sqrt_lt_R0; auto).
  assert (E : pts = map (fun v => shift c (scale (r / sqrt s) v)) V).
  { unfold pts. apply map_ext_in. intros v Hv. f_equal. unfold scale. rewrite map_map. apply map_ext. intros x.
    rewrite vnorm_norm. unfold norm. destruct (N v Hv) as [_ ->]. field. lra. }
  assert (D : forall v, In v V -> disp c (shift c (scale (r / sqrt s) v)) = scale (r / sqrt s) v).
  { intros v Hv. apply disp_shift. rewrite length_scale, L. apply N; auto. }
  assert (K : (r / sqrt s) * (r / sqrt s) * s = r ^ 2).
  { rewrite <- (sqrt_sqrt s) at 3 by lra. field. lra. }
  split; [constructor|split].
  - rewrite E, map_length. auto.
  - intros p Hp. rewrite E in Hp. apply in_map_iff in Hp as (v & <- & Hv). apply length_shift. rewrite length_scale, L. apply N; auto.
  - intros p Hp. rewrite E in Hp. apply in_map_iff in Hp as (v & <- & Hv). unfold distance, norm. rewrite D by auto.
    rewrite dot_scale_l, dot_scale_r. destruct (N v Hv) as [_ ->]. rewrite <- Rmult_assoc, K. apply sqrt_pow2. lra.
  - intros i Hi. rewrite E, map_length.
    rewrite (rsum_ext _ _ (fun j => nth i c 0 + (r / sqrt s) * nth i (nth j V []) 0)).
    + rewrite rsum_plus, rsum_const, rsum_scal, Sm by lia. lra.
    + intros j Hj. rewrite (nth_indep _ [] (shift c (scale (r / sqrt s) []))) by (rewrite map_length; auto). rewrite (map_nth (fun v => shift c (scale (r / sqrt s) v))).
      apply nth_shift_scale; auto. rewrite L. apply N, nth_In; auto.
  - intros i j Hi Hj Hij. rewrite E in *. rewrite map_length in Hi, Hj.
    rewrite !(nth_indep _ [] (shift c (scale (r / sqrt s) []))) by (rewrite map_length; auto). rewrite !(map_nth (fun v => shift c (scale (r / sqrt s) v))).
    rewrite !D by (apply nth_In; auto). rewrite dot_scale_l, dot_scale_r, <- Rmult_assoc.
    assert (S : dot (nth i V []) (nth j V []) <= s * k).
    { destruct (Nat.lt_ge_cases i j); [apply (fop_nth _ _ [] Sp); auto|]. rewrite dot_comm. apply (fop_nth _ _ [] Sp); auto; lia. }
    replace (r ^ 2 * k) with ((r / sqrt s) * (r / sqrt s) * (s * k)) by (rewrite <- K; ring).
    apply Rmult_le_compat_l; auto. apply Rle_0_sqr.
Qed.
Lemma separated_nodup c r k pts n : on_sphere c r n pts -> separated c r k pts -> 0 < r -> k < 1 -> NoDup pts.
Proof.
  intros S H Pr Pk. apply NoDup_nth with (d := []). intros i j Hi Hj E. destruct (Nat.eq_dec i j); auto. exfalso.
  specialize (H i j Hi Hj n0). rewrite E in H. pose proof (os_distance _ _ _ _ S (nth j pts []) (nth_In _ _ Hj)) as D.
  unfold distance in D. rewrite <- norm_sq, D in H. assert (0 < r ^ 2) by (apply pow_lt; auto). nra.
Qed.

Ltac fop := repeat (first [apply FOP_nil | apply FOP_cons; [repeat (apply Forall_cons; [cbn [dot]; lra|]); apply Forall_nil|]]).
Ltac vnorms := repeat (apply Forall_cons; [split; [reflexivity|cbn [dot]; lra]|]); apply Forall_nil.
Ltac vsum := intros i Hi; destruct i as [|[|[|i]]]; [| | |lia]; cbn [rsum length nth]; lra.
Ltac solid := constructor; [lra|vnorms|fop|vsum].

Lemma golden_facts : golden * golden = golden + 1 /\ golden * (1 / golden) = 1 /\ (1 / golden) = golden - 1 /\ 1 < golden /\ sqrt 5 = 2 * golden - 1 /\ 2 < sqrt 5 < 3.
Proof.
  assert (S : sqrt 5 * sqrt 5 = 5) by (apply sqrt_sqrt; lra). assert (P : 0 <= sqrt 5) by apply sqrt_pos.
  assert (B : 2 < sqrt 5 < 3) by (split; nra).
  assert (G : 0 < golden) by (unfold golden; lra).
  assert (G2 : golden * golden = golden + 1) by (unfold golden; nra).
  assert (GH : golden * (1 / golden) = 1) by (field; lra).
  repeat split; auto; try (unfold golden; lra); try lra.
  apply Rmult_eq_reg_l with golden; [|lra]. rewrite GH. lra.
Qed.
Lemma tetra_vertices : vertices 3 (- (1 / 3)) [[1; 1; 1]; [1; -1; -1]; [-1; 1; -1]; [-1; -1; 1]].
Proof. solid. Qed.
Lemma cube_vertices : vertices 3 (1 / 3) (flat_map (fun x => flat_map (fun y => map (fun z => [x; y; z]) signs) signs) signs).
Proof. cbn [flat_map map app signs]. solid. Qed.
Lemma octa_vertices : vertices 1 0 [[1; 0; 0]; [-1; 0; 0]; [0; 1; 0]; [0; -1; 0]; [0; 0; 1]; [0; 0; -1]].
Proof. solid. Qed.
Lemma dodeca_vertices : vertices 3 (sqrt 5 / 3) (flat_map (fun a => flat_map (fun b => [[a; b; b]; [a; b; - b]]) signs) signs ++
        flat_map (fun a => flat_map (fun b =>
          [[0; a * (1 / golden); b * golden]; [a * (1 / golden); b * golden; 0];
           [a * golden; 0; b * (1 / golden)]]) signs) signs).
Proof.
  destruct golden_facts as (G2 & GH & H & G1 & S & B). rewrite S, H in *. set (g := golden) in *. clearbody g. clear H GH S B.
  assert (g < 2) by nra. cbn [flat_map map app signs]. solid.
Qed.
Lemma icosa_vertices : vertices (golden + 2) (/ sqrt 5) (flat_map (fun a => flat_map (fun b =>
          [[0; a; b * golden]; [a; b * golden; 0]; [a * golden; 0; b]]) signs) signs).
Proof.
  destruct golden_facts as (G2 & GH & H & G1 & S & B).
  assert (K : (golden + 2) * / sqrt 5 = golden). { apply Rmult_eq_reg_r with (sqrt 5); [|lra]. rewrite Rmult_assoc, Rinv_l, S by lra. lra. }
  set (g := golden) in *. set (k := / sqrt 5) in *. clearbody g k. clear S B H GH.
  cbn [flat_map map app signs]. solid.
Qed.
Lemma solid_names : Forall (fun q => lowercase (fst (fst q))) solids.
Proof. unfold solids. repeat constructor; unfold lower_char; cbn; lia. Qed.
Lemma solid_lower kind name n k : In (name, n, k) solids -> lower kind = name <-> spells kind name.
Proof. intros H. apply lower_spells. pose proof solid_names as F. rewrite Forall_forall in F. apply (F _ H). Qed.
Lemma polyhedron_vertices_spec kind name n k : In (name, n, k) solids -> spells kind name ->
  k < 1 /\ exists s V, polyhedron_vertices kind = Ok V /\ vertices s k V /\ length V = n.
Proof.
  intros H S. apply (solid_lower _ _ _ _ H) in S. unfold polyhedron_vertices. rewrite S.
  destruct golden_facts as (_ & _ & _ & _ & _ & B).
  assert (K5 : / sqrt 5 < 1) by (rewrite <- Rinv_1; apply Rinv_lt_contravar; lra).
  repeat destruct H as [H|H]; try contradiction; injection H as <- <- <-; cbn [String.eqb Ascii.eqb Bool.eqb].
  - split; [lra|]. eexists _, _. split; [reflexivity|]. split; [apply tetra_vertices|reflexivity].
  - split; [lra|]. eexists _, _. split; [reflexivity|]. split; [apply cube_vertices|reflexivity].
  - split; [lra|]. eexists _, _. split; [reflexivity|]. split; [apply octa_vertices|reflexivity].
  - split; [lra|]. eexists _, _. split; [reflexivity|]. split; [apply dodeca_vertices|reflexivity].
  - split; [lra|]. eexists _, _. split; [reflexivity|]. split; [apply icosa_vertices|reflexivity].
Qed.
Lemma polyhedron_unknown kind : (forall name n k, In (name, n, k) solids -> ~ spells kind name) -> polyhedron_vertices kind = Err ValueError.
Proof.
  intros H. unfold polyhedron_vertices.
  assert (G : forall name n k, In (name, n, k) solids -> String.eqb (lower kind) name = false).
  { intros name n k Hi. apply String.eqb_neq. intros E. apply (H name n k Hi), (solid_lower _ _ _ _ Hi). auto. }
  rewrite (G "tetrahedron"%string 4%nat (- (1 / 3))), (G "cube"%string 8%nat (1 / 3)), (G "octahedron"%string 6%nat 0),
    (G "dodecahedron"%string 20%nat (sqrt 5 / 3)), (G "icosahedron"%string 12%nat (/ sqrt 5)) by (unfold solids; cbn [In]; auto 10). reflexivity.
Qed.

(** ** Spherical coordinates *)
Definition sph (r t f : R) : list R := [r * sin t * cos f; r * sin t * sin f; r * cos t].
Lemma sph_norm r t f : 0 < r -> norm (sph r t f) = r.
Proof.
  intros H. unfold norm, sph. cbn [dot].
  pose proof (sin2_cos2 t) as T. pose proof (sin2_cos2 f) as F. unfold Rsqr in T, F.
  replace (r * sin t * cos f * (r * sin t * cos f) + (r * sin t * sin f * (r * sin t * sin f) + (r * cos t * (r * cos t) + 0)))
    with (r * r * (sin t * sin t * (sin f * sin f + cos f * cos f) + cos t * cos t)) by ring.
  rewrite F, Rmult_1_r, T, Rmult_1_r. apply sqrt_square. lra.
Qed.
Lemma cos_one x : - (2 * PI) < x < 2 * PI -> cos x = 1 -> x = 0.
Proof.
  intros Hx H. replace x with (2 * (x / 2)) in H by field. rewrite cos_2a_sin in H.
  assert (S : sin (x / 2) = 0) by nra.
  destruct (Rtotal_order x 0) as [L|[L|L]]; auto; exfalso.
  - assert (0 < sin (- (x / 2))) by (apply sin_gt_0; lra). rewrite sin_neg in *. lra.
  - assert (0 < sin (x / 2)) by (apply sin_gt_0; lra). lra.
Qed.
Lemma cos_inj_0_pi x y : 0 < x < PI -> 0 < y < PI -> cos x = cos y -> x = y.
Proof.
  intros Hx Hy E. destruct (Rtotal_order x y) as [L|[L|L]]; auto; exfalso.
  - pose proof (cos_decreasing_1 x y). lra.
  - pose proof (cos_decreasing_1 y x). lra.
Qed.
Lemma sph_inj r t f t' f' : 0 < r -> 0 < t < PI -> 0 < t' < PI -> - (2 * PI) < f - f' < 2 * PI -> sph r t f = sph r t' f' -> t = t' /\ f = f'.
Proof.
  intros Hr Ht Ht' Hf E. unfold sph in E. injection E as E1 E2 E3.
  assert (Et : t = t'). { apply cos_inj_0_pi; auto. apply Rmult_eq_reg_l with r; lra. } subst t'. split; auto.
  assert (S : 0 < r * sin t) by (apply Rmult_lt_0_compat; auto; apply sin_gt_0; lra).
  apply Rmult_eq_reg_l in E1; [|lra]. apply Rmult_eq_reg_l in E2; [|lra].
  enough (f - f' = 0) by lra. apply cos_one; auto. rewrite cos_minus, E1, E2. pose proof (sin2_cos2 f') as T. unfold Rsqr in T. lra.
Qed.
Lemma shift_inj c p q : length p = length c -> length q = length c -> shift c p = shift c q -> p = q.
Proof. intros Hp Hq E. rewrite <- (disp_shift c p Hp), <- (disp_shift c q Hq), E. auto. Qed.
Lemma spherical_spec c r th ph : length c = 3%nat -> 0 < r -> length th = length ph ->
  on_sphere c r (length th) (spherical_array c r th ph).
Proof.
  intros L Pr Lt. unfold spherical_array. constructor.
  - rewrite map_length, combine_length. lia.
  - intros p Hp. apply in_map_iff in Hp as (q & <- & _). cbv zeta. apply length_shift. rewrite L. reflexivity.
  - intros p Hp. apply in_map_iff in Hp as (q & <- & _). cbv zeta. unfold distance. rewrite disp_shift by (rewrite L; reflexivity). apply (sph_norm r). auto.
Qed.
Lemma nodup_map_in {A B} (f : A -> B) l : (forall x y, In x l -> In y l -> f x = f y -> x = y) -> NoDup l -> NoDup (map f l).
Proof.
  intros H N. induction N as [|a l Na N IH]; cbn; constructor.
  - intros C. apply in_map_iff in C as (b & E & Hb). apply Na. rewrite (H a b); cbn; auto.
  - apply IH. intros x y Hx Hy. apply H; cbn; auto.
Qed.
Lemma eigen_nodup c r az u th ph : length c = 3%nat -> 0 < r -> length th = length ph -> 0 < u ->
  NoDup (combine th ph) -> Forall (fun z => (0 < z)%Z /\ IZR z * u < 180) th -> Forall (fun z => (0 <= z)%Z /\ IZR z * u < 360) ph ->
  NoDup (spherical_array c r (map (fun z => IZR z * u) th) (map (fun z => IZR z * u + az) ph)).
Proof.
  intros L Pr Lt Pu ND Ft Fp. unfold spherical_array.
  assert (E : combine (map (fun z => IZR z * u) th) (map (fun z => IZR z * u + az) ph) = map (fun p => (IZR (fst p) * u, IZR (snd p) * u + az)) (combine th ph)).
  { clear. revert ph. induction th; intros [|b ph]; cbn; auto. f_equal. auto. }
  rewrite E, map_map. apply nodup_map_in; auto.
  intros [a b] [a' b'] I1 I2 H. cbn [fst snd] in H. apply shift_inj in H; try (rewrite L; reflexivity).
  assert (P := PI_RGT_0). rewrite Forall_forall in Ft, Fp.
  destruct (Ft a (in_combine_l _ _ _ _ I1)), (Ft a' (in_combine_l _ _ _ _ I2)), (Fp b (in_combine_r _ _ _ _ I1)), (Fp b' (in_combine_r _ _ _ _ I2)).
  assert (R1 : 0 < IZR a) by (apply IZR_lt; lia). assert (R2 : 0 < IZR a') by (apply IZR_lt; lia).
  assert (R3 : 0 <= IZR b) by (apply IZR_le; lia). assert (R4 : 0 <= IZR b') by (apply IZR_le; lia).
  set (q := PI / 180). assert (Pq : 0 < q) by (unfold q; lra). assert (Eq : PI = 180 * q) by (unfold q; field).
  assert (D : forall x, 0 < x < 180 -> 0 < deg2rad x < PI) by (intros x Hx; unfold deg2rad; fold q; rewrite Eq; split; nra).
  assert (D2 : forall x y, -360 < x - y < 360 -> - (2 * PI) < deg2rad x - deg2rad y < 2 * PI) by (intros x y Hx; unfold deg2rad; fold q; rewrite Eq; split; nra).
  apply sph_inj in H; auto; [|apply D; split; nra|apply D; split; nra|apply D2; assert (0 <= IZR b * u) by nra; assert (0 <= IZR b' * u) by nra; lra].
  destruct H as [U1 U2]. unfold deg2rad in U1, U2.
  apply Rmult_eq_reg_r in U1; [|lra]. apply Rmult_eq_reg_r in U1; [|lra]. apply eq_IZR in U1.
  apply Rmult_eq_reg_r in U2; [|lra]. assert (U3 : IZR b * u = IZR b' * u) by lra. apply Rmult_eq_reg_r in U3; [|lra]. apply eq_IZR in U3. congruence.
Qed.
Fixpoint distinct (l : list (Z * Z)) : bool :=
  match l with [] => true | a :: l' => negb (existsb (fun b => (fst a =? fst b) && (snd a =? snd b))%Z l') && distinct l' end.
Lemma distinct_nodup l : distinct l = true -> NoDup l.
Proof.
  induction l as [|a l IH]; cbn; intros H; constructor; apply andb_prop in H as [H1 H2]; auto.
  intros C. apply negb_true_iff in H1. enough (existsb (fun b => (fst a =? fst b) && (snd a =? snd b))%Z l = true) by congruence.
  apply existsb_exists. exists a. rewrite !Z.eqb_refl. auto.
Qed.
Lemma tables : length em32_theta = 32%nat /\ length em32_phi = 32%nat /\ length em64_theta = 64%nat /\ length em64_phi = 64%nat /\
  NoDup (combine em32_theta em32_phi) /\ NoDup (combine em64_theta em64_phi) /\
  Forall (fun z => (0 < z < 180)%Z) em32_theta /\ Forall (fun z => (0 <= z < 360)%Z) em32_phi /\
  Forall (fun z => (0 < z < 1800000)%Z) em64_theta /\ Forall (fun z => (0 <= z < 3600000)%Z) em64_phi.
Proof.
  repeat split.
  - apply distinct_nodup. reflexivity.
  - apply distinct_nodup. reflexivity.
  - unfold em32_theta. repeat constructor.
  - unfold em32_phi. repeat constructor; discriminate.
  - unfold em64_theta. repeat constructor.
  - unfold em64_phi. repeat constructor; discriminate.
Qed.
