(** Proofs for C98. *)
From Coq Require Import String List ZArith Reals Lia Lra Bool.
From Flocq Require Import Core.
From Verif Require Import Prelude PreludeFacts SignalModel SignalSpec ConvProofs FloatModel FloatProofs DirModel DirSpec IsmModel IsmSpec IsmProofs SimProofs SimLocal SimSteps RoomModel RoomSpec RoomProofs UtlModel CliModel LoopModel ConvMore.
From Verif Require EdsModel EdsScene EdsTotal LoopTotal TotalSpec LoopAudio LoopSpec.
From Verif Require Import BenchModel BenchSpec.
Import ListNotations.
Local Notation length := List.length.
Local Notation app := List.app.
Local Open Scope R_scope.
Local Open Scope list_scope.

(** ** The work *)
Lemma bench_samples : (0 < ceilZ (rnd64 (bench_tmax * 16000)))%Z.
Proof.
  assert (B : bpow radix2 (-1022) <= 8 / 10) by (apply Rle_trans with (bpow radix2 (-1)); [apply bpow_le; lia|cbn; lra]).
  pose proof (rnd64_lower _ B) as T. fold bench_tmax in T. assert (H : / 2 <= bench_tmax).
  { assert (/ IZR (2 ^ 53) <= / 4) by (apply Rinv_le_contravar; [lra|apply IZR_le; lia]). nra. }
  assert (G : 1 <= rnd64 (bench_tmax * 16000)) by (rewrite <- (rnd64_IZR 1) by lia; apply rnd64_le; lra).
  unfold ceilZ. apply lt_IZR. eapply Rlt_le_trans; [|apply Zceil_ub]. lra.
Qed.
Lemma static_runs W d : usual_bench W -> static_work W d = Ok tt.
Proof.
  intros U. unfold static_work. rewrite EdsTotal.tmax_arguments.
  assert (Sc : scene bench_room (EObj (points bench_sources) None) (EObj (points bench_mics) None) 3 (repeat (92 / 100) 6)).
  { constructor; cbn; auto; try lra; try lia; try reflexivity. }
  destruct (nb_images 12 3 None ltac:(lia) I) as (images & Ei). pose proof bench_samples as B.
  destruct (simulate_omni_any (bw_ext W) d _ _ _ 12 None None (Some bench_tmax) default_config_value 3 _ images (Z.to_nat (ceilZ (rnd64 (bench_tmax * 16000)))) Sc LoopTotal.default_valid ltac:(lia)) as (T & -> & _); auto.
  - apply wanted_validate; [lia|lia|]. exists bench_tmax. split; [reflexivity|]. cbn [bench_room r_fs]. lia.
  - change (r_fs bench_room) with (IZR 16000). apply LoopTotal.filter_runs; [lia|]. apply (ub_filter _ U).
Qed.
Lemma still_grid : bench_still = EdsModel.grid 1 3 (repeat [[1; 3 / 2; 12 / 10]] bench_steps).
Proof. reflexivity. Qed.
Lemma concat_single {A} (l : list nat) (f : nat -> list A) : concat (map f l) = concat (map (@concat A) (map (fun t => [f t]) l)).
Proof. rewrite map_map. f_equal. apply map_ext. intros t. cbn. rewrite app_nil_r. reflexivity. Qed.
Lemma moving_grid : bench_moving = EdsModel.grid 1 3 (map (fun t => [bench_mic t]) (seq 0 bench_steps)).
Proof. unfold bench_moving, EdsModel.grid. rewrite map_length, seq_length, concat_single. reflexivity. Qed.
Lemma dynamic_runs W t d : usual_bench W -> dynamic_work W t d = Ok tt.
Proof.
  intros U. unfold dynamic_work. set (L := Z.to_nat (ceilZ (rnd64 (bench_tmax * 16000)))).
  assert (Ls : forall r, In r (repeat [[1; 3 / 2; 12 / 10]] bench_steps) -> r = [[1; 3 / 2; 12 / 10]]) by (intros r Hr; apply repeat_spec in Hr; auto).
  assert (G : exists T, simulate_dynamic_rir (bw_ext W) d bench_room bench_still bench_moving (Some 10%Z) None None (Some bench_tmax) None ONone None = Ok T).
  { rewrite still_grid, moving_grid. apply (static_gives_dynamic (bw_ext W) d _ _ _ _ _ _ _ _ _ _ bench_steps 1 1 3).
    - cbn. lra.
    - apply (ub_length _ U).
    - unfold bench_steps. lia.
    - reflexivity.
    - reflexivity.
    - intros k Hk. rewrite EdsScene.grid_step; [|intros r Hr; rewrite (Ls r Hr); reflexivity|intros r q Hr Hq; rewrite (Ls r Hr) in Hq; destruct Hq as [<-|[]]; reflexivity|rewrite repeat_length; auto].
      rewrite EdsScene.grid_step; [|intros r Hr; apply in_map_iff in Hr as (x & <- & _); reflexivity|intros r q Hr Hq; apply in_map_iff in Hr as (x & <- & _); destruct Hq as [<-|[]]; reflexivity|rewrite map_length, seq_length; auto].
      rewrite EdsTotal.tmax_arguments. rewrite (Ls (nth k (repeat [[1; 3 / 2; 12 / 10]] bench_steps) [])) by (apply nth_In; rewrite repeat_length; auto).
      rewrite (nth_indep _ [] [bench_mic 0]) by (rewrite map_length, seq_length; auto). rewrite (map_nth (fun t => [bench_mic t])), seq_nth by auto. cbn [Nat.add concat]. rewrite !app_nil_r.
      assert (Sc : scene bench_room (ETensor (mkT [1%nat; 3%nat] [1; 3 / 2; 12 / 10])) (ETensor (mkT [1%nat; 3%nat] (bench_mic k))) 3 (repeat (92 / 100) 6)).
      { constructor; cbn; auto; try lra; try lia; try reflexivity. }
      destruct (nb_images 10 3 None ltac:(lia) I) as (images & Ei). pose proof bench_samples as B.
      destruct (simulate_omni_any (bw_ext W) d _ _ _ 10 None None (Some bench_tmax) default_config_value 3 _ images L Sc LoopTotal.default_valid ltac:(lia)) as (T & ET & _); eauto.
      + apply wanted_validate; [lia|unfold L; lia|]. exists bench_tmax. split; [reflexivity|]. cbn [bench_room r_fs]. unfold L. lia.
      + change (r_fs bench_room) with (IZR 16000). apply LoopTotal.filter_runs; [lia|]. apply (ub_filter _ U). }
  assert (Fs : r_fs bench_room <> 0) by (cbn; lra).
  destruct G as (T & ET). rewrite ET. cbn [bind]. destruct (EdsScene.tmax_numbers _ _ _ _ _ _ _ _ Fs ET) as (Nu & Sh & B & _). specialize (Nu (ub_numbers _ U)).
  change (r_fs bench_room) with 16000 in Sh, B. fold L in Sh. cbn [bench_still bench_moving unsqueeze_traj ndim shape length Nat.eqb nth] in Sh.
  pose proof (LoopAudio.all_numbers_ok T Nu) as En. rewrite En. rewrite Sh.
  destruct (dynamic_is_static _ _ _ _ _ _ _ _ _ _ _ _ _ Fs (ub_length _ U) ET) as (Tn & S0 & M & n & _ & Sh' & Ld & _).
  rewrite Sh in Sh'. injection Sh' as <- <- <- <-. set (sg := mkT [1%nat; _] _). set (h := mkT _ _).
  assert (Lx : length (data h) = (bench_steps * (1 * 1 * L))%nat) by (transitivity (length (xdata T)); [apply map_length|exact Ld]).
  destruct (traj_default d sg h None) as (w & y & _ & _ & _ & Ey & _).
  { unfold traj_ok, dyn_ranks_ok, sig_rank_ok, dyn_rank_ok, ndim, sig_rows, sig_len, dyn_steps, dyn_srcs, rir_len. unfold h, sg. cbn [shape length nth].
    split; [repeat split; auto; discriminate|]. split; [unfold wf, prodn; cbn [shape data fold_right]; lia|].
    split; [change (wf h); unfold wf; rewrite Lx; unfold h, prodn; cbn [shape fold_right]; ring|]. split; [cbn [last]; unfold L; lia|]. split; [left; reflexivity|]. split; [apply Nat.ltb_lt; reflexivity|].
    apply Z.le_trans with (2 ^ 22)%Z; [cbn; lia|apply Z.pow_le_mono_r; [lia|destruct d; cbn; lia]]. }
  unfold convolver_convolve. cbn [cv_mode cv_timestamps cv_fs]. cbn [String.eqb Ascii.eqb Bool.eqb orb negb]. rewrite Ey. reflexivity.
Qed.
Lemma work_runs W dyn t d : usual_bench W -> device_of t = Some d -> work W dyn t = Ok tt.
Proof. intros U E. unfold work. rewrite E. destruct dyn; [apply dynamic_runs|apply static_runs]; auto. Qed.

(** ** Events *)
Lemma worked_app a b : worked (a ++ b) = worked a ++ worked b.
Proof. induction a as [|[] a IH]; cbn; congruence. Qed.
Lemma readings_app a b : readings (a ++ b) = readings a ++ readings b.
Proof. induction a as [|[] a IH]; cbn; congruence. Qed.
Lemma told_app a b : told (a ++ b) = told a ++ told b.
Proof. induction a as [|[] a IH]; cbn; congruence. Qed.
Lemma one_run_eq W dyn d : one_run W dyn d = match work W dyn d with Ok _ => ([Worked d], Ok tt) | Err e => ([], Err e) end.
Proof. reflexivity. Qed.
Lemma runs_ok W dyn d n : work W dyn d = Ok tt -> runs W dyn d n = (repeat (Worked d) n, Ok tt).
Proof. intros H. induction n as [|n IH]; [reflexivity|]. cbn [runs]. unfold one_run. rewrite H, IH. reflexivity. Qed.
(** The events of waiting. *)
Definition waits (d : tdev) : list event :=
  if String.eqb (UtlModel.kind d) "cuda" then [Waited (mkDev "cuda" (Some 0%nat))] else if String.eqb (UtlModel.kind d) "mps" then [Waited (mkDev "mps" None)] else [].
Lemma wait_eq d : wait d = (waits d, Ok tt).
Proof.
  unfold wait, waits. destruct (String.eqb_spec (UtlModel.kind d) "cuda") as [E|]; [rewrite E; reflexivity|].
  destruct (String.eqb_spec (UtlModel.kind d) "mps"); reflexivity.
Qed.
Definition first_of_kind (d : tdev) : Prop := UtlModel.kind d = "cuda"%string -> number d = 0%nat.
Lemma waits_queued d : queued d -> first_of_kind d -> exists w, waits d = [Waited w] /\ covers w d.
Proof.
  intros [H|H] F; unfold waits; rewrite H; eexists; (split; [reflexivity|]); split; rewrite ?H; auto. right. rewrite (F H). reflexivity.
Qed.
Lemma waits_plain d : worked (waits d) = [] /\ readings (waits d) = [] /\ told (waits d) = [].
Proof. unfold waits. repeat destruct (String.eqb _ _); auto. Qed.
Lemma repeat_plain d n : worked (repeat (Worked d) n) = repeat d n /\ readings (repeat (Worked d) n) = [] /\ told (repeat (Worked d) n) = [].
Proof. induction n as [|n (A & B & C)]; cbn; auto. rewrite A. auto. Qed.
(** The events of a benchmark that is carried out. *)
Definition bench_events (W : bench_world) (d : tdev) (n k : nat) : list event :=
  [Worked d] ++ waits d ++ [Clock (bw_clock W k)] ++ repeat (Worked d) n ++ waits d ++ [Clock (bw_clock W (S k))].
Lemma bench_ok W dyn d r k : work W dyn d = Ok tt ->
  bench W dyn d r k = (bench_events W d (Z.to_nat r) k, divide (bw_clock W (S k) - bw_clock W k) (IZR r)).
Proof.
  intros H. unfold bench, one_run. rewrite H, !wait_eq, (runs_ok _ _ _ _ H). unfold clock, bret, bbind, bench_events.
  destruct (divide _ _); rewrite ?app_nil_r; repeat rewrite <- app_assoc; reflexivity.
Qed.
Lemma bench_err W dyn d r k e : work W dyn d = Err e -> bench W dyn d r k = ([], Err e).
Proof. intros H. unfold bench, one_run. rewrite H. reflexivity. Qed.
Lemma bench_measured W d n k : measured (bench_events W d n k) d n (bw_clock W k) (bw_clock W (S k)).
Proof.
  destruct (waits_plain d) as (A & B & C). destruct (repeat_plain d n) as (D & E & F).
  exists ([Worked d] ++ waits d), (repeat (Worked d) n ++ waits d), []. unfold bench_events. rewrite !worked_app, !readings_app, A, B, D, E.
  split; [rewrite <- !app_assoc; reflexivity|]. cbn [worked readings app]. rewrite !app_nil_r. auto 10.
Qed.
Lemma bench_told W d n k : told (bench_events W d n k) = [].
Proof. destruct (waits_plain d) as (_ & _ & C). destruct (repeat_plain d n) as (_ & _ & F). unfold bench_events. rewrite !told_app, C, F. reflexivity. Qed.
Lemma bench_worked W d n k : worked (bench_events W d n k) = repeat d (S n).
Proof.
  destruct (waits_plain d) as (A & _). destruct (repeat_plain d n) as (D & _). unfold bench_events. rewrite !worked_app, A, D. cbn. rewrite app_nil_r. reflexivity.
Qed.
Lemma bench_readings W d n k : readings (bench_events W d n k) = [bw_clock W k; bw_clock W (S k)].
Proof.
  destruct (waits_plain d) as (_ & A & _). destruct (repeat_plain d n) as (_ & D & _). unfold bench_events. rewrite !readings_app, A, D. reflexivity.
Qed.

(** ** A whole run *)
Lemma IZR_zero r : IZR r = 0 <-> r = 0%Z.
Proof. split; [apply eq_IZR|intros ->; auto]. Qed.
Definition average (W : bench_world) (r : Z) (k : nat) : R := (bw_clock W (S k) - bw_clock W k) / IZR r.
Definition main_closed (W : bench_world) (r : Z) (gpu : string) (dyn : bool) (level : string) : brun unit :=
  match resolve_level (LStr level) with
  | Err e => ([], Err e)
  | Ok _ =>
    match work W dyn cpu with
    | Err e => ([], Err e)
    | Ok _ =>
      let B := bench_events W cpu (Z.to_nat r) 0 in
      if (r =? 0)%Z then (B, Err ZeroDivisionError) else
      let l := B ++ [Average dyn "cpu" (average W r 0 * 1000)] in
      match resolve_device (bw_machine W) default_prefer (RStr gpu) with
      | Err e => (l, Err e)
      | Ok (d, _) =>
        if String.eqb (UtlModel.kind d) "cpu" then (l ++ [Skipped], Ok tt) else
        match work W dyn d with
        | Err e => (l, Err e)
        | Ok _ =>
          let l' := l ++ bench_events W d (Z.to_nat r) 2 ++ [Average dyn (UtlModel.kind d) (average W r 2 * 1000)] in
          if Req_EM_T (average W r 2) 0 then (l', Err ZeroDivisionError) else (l' ++ [Speedup (average W r 0 / average W r 2)], Ok tt)
        end
      end
    end
  end.
Lemma main_eq W r gpu dyn level : bench_main W r gpu dyn level = main_closed W r gpu dyn level.
Proof.
  unfold bench_main, main_closed. destruct (resolve_level _) as [z|e]; [|reflexivity]. cbn [bbind].
  change (resolve_device (bw_machine W) default_prefer (RStr "cpu")) with (Ok (cpu, false)). cbn [bbind fst].
  destruct (work W dyn cpu) as [[]|e] eqn:Ew; [|rewrite (bench_err _ _ _ _ _ _ Ew); reflexivity].
  rewrite (bench_ok _ _ _ _ _ Ew). unfold divide at 1. cbv zeta. fold (average W r 0).
  destruct (Z.eqb_spec r 0) as [->|N]; [destruct (Req_EM_T 0 0); [reflexivity|lra]|].
  assert (Nr : IZR r <> 0) by (rewrite IZR_zero; auto). destruct (Req_EM_T (IZR r) 0) as [|_]; [contradiction|]. unfold bret at 1. cbn [bbind].
  destruct (resolve_device _ _ (RStr gpu)) as [[d w]|e]; [|cbn [bbind]; reflexivity]. cbn [bbind fst].
  destruct (String.eqb (UtlModel.kind d) "cpu"); [cbn [bret app]; f_equal; rewrite <- app_assoc; reflexivity|].
  destruct (work W dyn d) as [[]|e] eqn:Ed; [|rewrite (bench_err _ _ _ _ _ _ Ed); reflexivity].
  rewrite (bench_ok _ _ _ _ _ Ed). unfold divide. fold (average W r 2). destruct (Req_EM_T (IZR r) 0) as [|_]; [contradiction|]. unfold bret. cbn [bbind].
  destruct (Req_EM_T (average W r 2) 0); cbn [bbind]; f_equal; cbn [app]; rewrite <- ?app_assoc; cbn [app]; rewrite <- ?app_assoc; reflexivity.
Qed.

(** ** Readings of the clock find the work done *)
Definition quiet (a : list event) : Prop := forall d, queued d -> In (Worked d) a -> exists x w y, a = x ++ Waited w :: y /\ covers w d /\ ~ In (Worked d) y.
Lemma dev_dec (d d' : tdev) : {d = d'} + {d <> d'}.
Proof. decide equality; [decide equality; apply Nat.eq_dec|apply string_dec]. Qed.
Lemma worked_in d l : In (Worked d) l <-> In d (worked l).
Proof.
  induction l as [|e l IH]; cbn; [tauto|]. destruct e; cbn; rewrite IH; try (split; [intros [H|H]; [discriminate|auto]|auto]).
  split; intros [H|H]; auto; left; congruence.
Qed.
Lemma quiet_more a b : quiet a -> worked b = [] -> quiet (a ++ b).
Proof.
  intros Q H d D I. apply in_app_or in I as [I|I]; [|apply worked_in in I; rewrite H in I; contradiction].
  destruct (Q d D I) as (x & w & y & -> & V & N). exists x, w, (y ++ b). split; [rewrite <- app_assoc; reflexivity|]. split; [auto|].
  rewrite in_app_iff. intros [K|K]; [contradiction|]. apply worked_in in K. rewrite H in K. contradiction.
Qed.
Lemma quiet_work a d n : first_of_kind d -> quiet a -> quiet (a ++ repeat (Worked d) n ++ waits d).
Proof.
  intros F Q d' D I. destruct (dev_dec d' d) as [->|N].
  - destruct (waits_queued d D F) as (w & -> & V). rewrite app_assoc. exists (a ++ repeat (Worked d) n), w, []. split; auto.
  - assert (K : ~ In (Worked d') (repeat (Worked d) n ++ waits d)).
    { rewrite worked_in, worked_app. destruct (repeat_plain d n) as (-> & _). destruct (waits_plain d) as (-> & _). rewrite app_nil_r. intros J. apply repeat_spec in J. contradiction. }
    apply in_app_or in I as [I|I]; [|contradiction]. destruct (Q d' D I) as (x & w & y & -> & V & M). exists x, w, (y ++ repeat (Worked d) n ++ waits d).
    split; [rewrite <- app_assoc; reflexivity|]. split; [auto|]. rewrite in_app_iff. tauto.
Qed.
Lemma settled_prefix a b : settled (a ++ b) -> settled a.
Proof. intros S x t y d E. apply (S x t (y ++ b) d). rewrite E, <- app_assoc. reflexivity. Qed.
Lemma split_at {A} (l m : list A) : forall x y e, l ++ m = x ++ e :: y -> (exists z, l = x ++ e :: z /\ y = z ++ m) \/ (exists z, x = l ++ z /\ m = z ++ e :: y).
Proof.
  induction l as [|h l IH]; intros x y e E; [right; exists x; auto|]. destruct x as [|h' x]; cbn in E; injection E as -> E.
  - left. exists l. auto.
  - destruct (IH _ _ _ E) as [(z & -> & ->)|(z & -> & ->)]; [left|right]; exists z; auto.
Qed.
Lemma readings_in t l : In (Clock t) l -> In t (readings l).
Proof. induction l as [|e l IH]; cbn; [tauto|]. intros [->|I]; [left; auto|]. destruct e; cbn; auto. Qed.
Lemma settled_more a b : settled a -> readings b = [] -> settled (a ++ b).
Proof.
  intros S H x t y d E. apply split_at in E as [(z & -> & _)|(z & _ & ->)]; [eapply S; eauto|].
  rewrite readings_app in H. cbn in H. destruct (readings z); discriminate.
Qed.
Lemma settled_clock a t : settled a -> quiet a -> settled (a ++ [Clock t]).
Proof.
  intros S Q x t' y d E. apply split_at in E as [(z & -> & _)|(z & -> & E)]; [eapply S; eauto|].
  destruct z as [|h z]; [|destruct z; discriminate]. rewrite app_nil_r. apply Q.
Qed.
Lemma settled_bench W a d n k : first_of_kind d -> settled a -> quiet a -> settled (a ++ bench_events W d n k) /\ quiet (a ++ bench_events W d n k).
Proof.
  intros F S Q. unfold bench_events. destruct (waits_plain d) as (W1 & W2 & _). destruct (repeat_plain d n) as (_ & R2 & _).
  set (a1 := a ++ repeat (Worked d) 1 ++ waits d). assert (Q1 : quiet a1) by (apply quiet_work; auto).
  assert (S1 : settled a1) by (apply settled_more; auto; rewrite readings_app, W2; reflexivity).
  assert (S2 : settled (a1 ++ [Clock (bw_clock W k)])) by (apply settled_clock; auto). assert (Q2 : quiet (a1 ++ [Clock (bw_clock W k)])) by (apply quiet_more; auto).
  set (a2 := a1 ++ [Clock (bw_clock W k)]) in *. set (a3 := a2 ++ repeat (Worked d) n ++ waits d). assert (Q3 : quiet a3) by (apply quiet_work; auto).
  assert (S3 : settled a3) by (apply settled_more; auto; rewrite readings_app, R2, W2; reflexivity).
  assert (E : a ++ [Worked d] ++ waits d ++ [Clock (bw_clock W k)] ++ repeat (Worked d) n ++ waits d ++ [Clock (bw_clock W (Datatypes.S k))] = a3 ++ [Clock (bw_clock W (Datatypes.S k))]).
  { unfold a3, a2, a1. cbn [repeat]. repeat (rewrite <- app_assoc; cbn [app]). reflexivity. }
  rewrite E. split; [apply settled_clock; auto|apply quiet_more; auto].
Qed.
Lemma settled_nil : settled []. Proof. intros [|] ? ? ? E; discriminate. Qed.
Lemma quiet_nil : quiet []. Proof. intros d _ []. Qed.
Lemma main_settled W r gpu dyn level : (forall d w, resolve_device (bw_machine W) default_prefer (RStr gpu) = Ok (d, w) -> first_of_kind d) -> settled (fst (bench_main W r gpu dyn level)).
Proof.
  intros F. rewrite main_eq. unfold main_closed. destruct (resolve_level _); [|apply settled_nil]. destruct (work W dyn cpu); [|apply settled_nil]. cbv zeta.
  destruct (settled_bench W [] cpu (Z.to_nat r) 0 ltac:(intros K; discriminate) settled_nil quiet_nil) as [S1 Q1]. cbn [app] in S1, Q1. destruct (r =? 0)%Z; [exact S1|].
  set (l := _ ++ [Average dyn "cpu" _]). assert (S2 : settled l) by (apply settled_more; auto). assert (Q2 : quiet l) by (apply quiet_more; auto).
  destruct (resolve_device _ _ (RStr gpu)) as [[d w]|]; [|exact S2]. destruct (String.eqb _ _); [apply settled_more; auto|]. destruct (work W dyn d); [|exact S2].
  destruct (settled_bench W l d (Z.to_nat r) 2 (F d w eq_refl) S2 Q2) as [S3 Q3]. destruct (Req_EM_T _ _); cbn [fst].
  - rewrite app_assoc. apply settled_more; auto.
  - rewrite app_assoc. rewrite <- app_assoc. apply settled_more; auto.
Qed.
