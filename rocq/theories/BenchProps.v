(** C98: the benchmark measures what it reports. *)
From Coq Require Import String List ZArith Reals Lia Lra Bool.
From Verif Require Import Prelude PreludeFacts SignalModel FloatModel DirModel IsmModel RoomModel UtlModel UtlProofs CliModel LoopModel.
From Verif Require Import BenchModel BenchSpec BenchProofs.
Import ListNotations.
Local Notation length := List.length.
Local Notation app := List.app.
Local Open Scope string_scope.
Local Open Scope list_scope.
Local Open Scope R_scope.

Lemma known_device d : In (UtlModel.kind d) ["cpu"; "cuda"; "mps"] -> device_of d <> None.
Proof. unfold device_of. cbn [In]. intros [<-|[<-|[<-|[]]]]; discriminate. Qed.
(** ** The clock *)
(** Whatever happens, the clock is only read when all work queued before is done, provided the CUDA
    device, if one is taken, is the first one. *)
Theorem C98_settled W r gpu dyn level :
  (forall d w, resolve_device (bw_machine W) default_prefer (RStr gpu) = Ok (d, w) -> UtlModel.kind d = "cuda" -> number d = 0%nat) ->
  settled (fst (bench_main W r gpu dyn level)).
Proof. apply main_settled. Qed.
(** Another CUDA device is never waited for. *)
Theorem C98_second_gpu_unchecked W r gpu dyn level d w : usual_bench W -> level_known level -> r <> 0%Z ->
  resolve_device (bw_machine W) default_prefer (RStr gpu) = Ok (d, w) -> UtlModel.kind d = "cuda" -> number d <> 0%nat ->
  let l := fst (bench_main W r gpu dyn level) in
  (forall v, In (Waited v) l -> ~ covers v d) /\ In (Worked d) l /\ ~ settled l.
Proof.
  intros U (z & Lv) Nr E K N. rewrite main_eq. unfold main_closed. rewrite Lv, (work_runs W dyn cpu Cpu U eq_refl), E, K.
  assert (D : device_of d = Some Cuda) by (unfold device_of; rewrite K; reflexivity). rewrite (work_runs W dyn d _ U D).
  replace (r =? 0)%Z with false by (symmetry; apply Z.eqb_neq; auto). change (String.eqb "cuda" "cpu") with false. cbv iota zeta.
  set (l0 := bench_events W cpu _ 0 ++ _). set (a0 := Average dyn "cuda" _).
  assert (L0 : forall v, ~ In (Waited v) l0).
  { intros v. unfold l0, bench_events. cbn [waits UtlModel.kind cpu]. change (waits cpu) with (@nil event). rewrite !in_app_iff. cbn [In].
    intros [[[H|[]]|[[]|[[H|[]]|[H|[[]|[H|[]]]]]]]|[H|[]]]; try discriminate. apply repeat_spec in H. discriminate. }
  assert (Wd : waits d = [Waited (mkDev "cuda" (Some 0%nat))]) by (unfold waits; rewrite K; reflexivity).
  assert (L1 : forall v, In (Waited v) (bench_events W d (Z.to_nat r) 2) -> v = mkDev "cuda" (Some 0%nat)).
  { intros v. unfold bench_events. rewrite Wd, !in_app_iff. cbn [In].
    intros [[H|[]]|[[H|[]]|[[H|[]]|[H|[[H|[]]|[H|[]]]]]]]; try discriminate; try congruence. apply repeat_spec in H. discriminate. }
  assert (Cv : ~ covers (mkDev "cuda" (Some 0%nat)) d).
  { intros (_ & [H|H]); [rewrite K in H; discriminate|]. apply N. rewrite <- H. reflexivity. }
  assert (G : forall tl, (forall v, ~ In (Waited v) tl) -> let l := l0 ++ bench_events W d (Z.to_nat r) 2 ++ tl in
    (forall v, In (Waited v) l -> ~ covers v d) /\ In (Worked d) l /\ ~ settled l).
  { intros tl Ht l. assert (A : forall v, In (Waited v) l -> ~ covers v d).
    { intros v H. unfold l in H. rewrite !in_app_iff in H. destruct H as [H|[H|H]]; [apply L0 in H; tauto|rewrite (L1 v H); auto|apply Ht in H; tauto]. }
    split; [exact A|]. split; [unfold l; rewrite !in_app_iff; right; left; left; reflexivity|].
    intros S. destruct (S (l0 ++ [Worked d] ++ waits d) (bw_clock W 2) (repeat (Worked d) (Z.to_nat r) ++ waits d ++ [Clock (bw_clock W 3)] ++ tl) d) as (x & v & y & Ev & Cv' & _).
    - unfold l, bench_events. repeat (rewrite <- app_assoc; cbn [app]). reflexivity.
    - left. exact K.
    - rewrite in_app_iff. right. left. reflexivity.
    - apply (A v); [|exact Cv']. assert (I : In (Waited v) (l0 ++ [Worked d] ++ waits d)) by (rewrite Ev, in_app_iff; right; left; reflexivity).
      unfold l, bench_events. rewrite !in_app_iff in *. tauto. }
  destruct (Req_EM_T _ _); cbn [fst].
  - apply G. intros v [H|[]]. discriminate.
  - rewrite <- !app_assoc. apply (G [a0; Speedup _]). intros v [H|[H|[]]]; discriminate.
Qed.

(** ** The report *)
Theorem C98_report W r gpu dyn level l : (1 <= r)%Z -> bench_main W r gpu dyn level = (l, Ok tt) ->
  exists m a d w, measured m cpu (Z.to_nat r) (bw_clock W 0) (bw_clock W 1) /\ told m = [] /\ IZR r * a = 1000 * (bw_clock W 1 - bw_clock W 0) /\
  resolve_device (bw_machine W) default_prefer (RStr gpu) = Ok (d, w) /\
  ((UtlModel.kind d = "cpu" /\ l = m ++ [Average dyn "cpu" a; Skipped]) \/
   (UtlModel.kind d <> "cpu" /\ exists m' b x, measured m' d (Z.to_nat r) (bw_clock W 2) (bw_clock W 3) /\ told m' = [] /\
    IZR r * b = 1000 * (bw_clock W 3 - bw_clock W 2) /\ b <> 0 /\ b * x = a /\
    l = m ++ [Average dyn "cpu" a] ++ m' ++ [Average dyn (UtlModel.kind d) b; Speedup x] /\
    (bw_clock W 2 < bw_clock W 3 -> (1 < x <-> bw_clock W 3 - bw_clock W 2 < bw_clock W 1 - bw_clock W 0)))).
Proof.
  intros Hr. rewrite main_eq. unfold main_closed. destruct (resolve_level _); [|discriminate]. destruct (work W dyn cpu); [|discriminate]. cbv zeta.
  destruct (Z.eqb_spec r 0); [lia|]. assert (Pr : 0 < IZR r) by (apply IZR_lt; lia).
  destruct (resolve_device _ _ (RStr gpu)) as [[d w]|] eqn:Ed; [|discriminate].
  assert (Av : forall k, IZR r * (average W r k * 1000) = 1000 * (bw_clock W (S k) - bw_clock W k)) by (intros k; unfold average; field; lra).
  intros H. exists (bench_events W cpu (Z.to_nat r) 0), (average W r 0 * 1000), d, w. split; [apply bench_measured|]. split; [apply bench_told|]. split; [apply Av|]. split; [reflexivity|].
  destruct (String.eqb_spec (UtlModel.kind d) "cpu") as [K|K].
  - left. split; [exact K|]. apply (f_equal fst) in H. cbn [fst] in H. subst l. rewrite <- app_assoc. reflexivity.
  - right. split; [exact K|]. destruct (work W dyn d); [|discriminate]. destruct (Req_EM_T _ 0) as [|Nb]; [discriminate|]. apply (f_equal fst) in H. cbn [fst] in H. subst l.
    exists (bench_events W d (Z.to_nat r) 2), (average W r 2 * 1000), (average W r 0 / average W r 2). split; [apply bench_measured|]. split; [apply bench_told|]. split; [apply Av|].
    split; [lra|]. split; [field; exact Nb|]. split; [repeat (rewrite <- app_assoc; cbn [app]); reflexivity|].
    intros Hc. assert (P2 : 0 < average W r 2) by (unfold average; apply Rdiv_lt_0_compat; lra).
    assert (A0 : IZR r * average W r 0 = bw_clock W 1 - bw_clock W 0) by (unfold average; field; lra).
    assert (A2 : IZR r * average W r 2 = bw_clock W 3 - bw_clock W 2) by (unfold average; field; lra). rewrite <- A0, <- A2.
    assert (X : average W r 2 * (average W r 0 / average W r 2) = average W r 0) by (field; lra). split; intros G.
    + apply Rmult_lt_compat_l; [exact Pr|]. rewrite <- X. rewrite <- (Rmult_1_r (average W r 2)) at 1. apply Rmult_lt_compat_l; auto.
    + apply (Rmult_lt_reg_l _ _ _ Pr) in G. apply (Rmult_lt_reg_l (average W r 2)); auto. rewrite X. lra.
Qed.
Lemma average_zero W r k : r <> 0%Z -> average W r k = 0 <-> bw_clock W (S k) = bw_clock W k.
Proof.
  intros N. assert (Nr : IZR r <> 0) by (rewrite IZR_zero; auto). unfold average. split; intros H.
  - assert (IZR r * ((bw_clock W (S k) - bw_clock W k) / IZR r) = 0) by (rewrite H; ring). replace (IZR r * ((bw_clock W (S k) - bw_clock W k) / IZR r)) with (bw_clock W (S k) - bw_clock W k) in H0 by (field; auto). lra.
  - rewrite H. field. auto.
Qed.
(** When a run comes to its end. *)
Theorem C98_completes W r gpu dyn level d w : usual_bench W -> resolve_device (bw_machine W) default_prefer (RStr gpu) = Ok (d, w) -> In (UtlModel.kind d) ["cpu"; "cuda"; "mps"] ->
  (snd (bench_main W r gpu dyn level) = Ok tt <-> level_known level /\ r <> 0%Z /\ (UtlModel.kind d = "cpu" \/ bw_clock W 3 <> bw_clock W 2)).
Proof.
  intros U E D. apply known_device in D. rewrite main_eq. unfold main_closed, level_known. destruct (resolve_level (LStr level)) as [z|e]; [|split; [discriminate|intros ((z & H) & _); discriminate]].
  rewrite (work_runs W dyn cpu Cpu U eq_refl), E. cbv zeta. destruct (device_of d) as [dt|] eqn:Ed; [|contradiction]. rewrite (work_runs W dyn d dt U Ed).
  destruct (Z.eqb_spec r 0) as [->|N]; [split; [discriminate|intros (_ & H & _); contradiction]|].
  destruct (String.eqb_spec (UtlModel.kind d) "cpu") as [K|K].
  - split; [|reflexivity]. intros _. split; [eauto|]. auto.
  - destruct (Req_EM_T (average W r 2) 0) as [Z0|Z0]; rewrite average_zero in Z0 by auto; cbn [snd].
    + split; [discriminate|]. intros (_ & _ & [H|H]); contradiction.
    + split; [|reflexivity]. intros _. split; [eauto|]. auto.
Qed.
(** No run is asked for: one run, then an error; nothing is told. *)
Theorem C98_zero W gpu dyn level : usual_bench W -> level_known level ->
  let '(l, o) := bench_main W 0 gpu dyn level in worked l = [cpu] /\ told l = [] /\ o = Err ZeroDivisionError.
Proof.
  intros U (z & Lv). rewrite main_eq. unfold main_closed. rewrite Lv, (work_runs W dyn cpu Cpu U eq_refl). cbn [Z.eqb]. cbv zeta iota.
  rewrite bench_worked, bench_told. auto.
Qed.
(** A negative number is taken: nothing but the runs to warm up is done, and no reported time is positive. *)
Theorem C98_negative_unchecked W r gpu dyn level d w : usual_bench W -> level_known level -> (r < 0)%Z ->
  resolve_device (bw_machine W) default_prefer (RStr gpu) = Ok (d, w) -> In (UtlModel.kind d) ["cpu"; "cuda"; "mps"] -> (forall k, bw_clock W k <= bw_clock W (S k)) ->
  let l := fst (bench_main W r gpu dyn level) in
  (worked l = if String.eqb (UtlModel.kind d) "cpu" then [cpu] else [cpu; d]) /\ forall y k a, In (Average y k a) (told l) -> a <= 0.
Proof.
  intros U (z & Lv) Hr E D Mono. apply known_device in D. rewrite main_eq. unfold main_closed. rewrite Lv, (work_runs W dyn cpu Cpu U eq_refl), E. cbv zeta.
  destruct (device_of d) as [dt|] eqn:Ed; [|contradiction]. rewrite (work_runs W dyn d dt U Ed). destruct (Z.eqb_spec r 0); [lia|].
  assert (Av : forall k, average W r k * 1000 <= 0).
  { intros k. unfold average. pose proof (Mono k). assert (Pr : IZR r < 0) by (apply IZR_lt; lia). assert (/ IZR r < 0) by (apply Rinv_lt_0_compat; auto). unfold Rdiv. nra. }
  replace (Z.to_nat r) with 0%nat by lia. destruct (String.eqb _ "cpu").
  - cbn [fst]. rewrite !worked_app, !told_app, bench_worked, bench_told. split; [reflexivity|]. intros y k a H. cbn in H. destruct H as [H|[H|[]]]; [injection H as <- <- <-; apply Av|discriminate].
  - destruct (Req_EM_T _ 0); cbn [fst]; rewrite !worked_app, !told_app, !bench_worked, !bench_told; (split; [reflexivity|]); intros y k a H; cbn in H;
      repeat (destruct H as [H|H]; [try discriminate; injection H as <- <- <-; apply Av|]); contradiction.
Qed.
(** Without a GPU the usual requests end well after the benchmark of the processor. *)
Theorem C98_no_gpu W r gpu dyn level : usual_bench W -> level_known level -> r <> 0%Z -> bw_machine W "cuda" = false -> bw_machine W "mps" = false ->
  lower gpu = "auto" \/ String.prefix "cuda" (lower gpu) = true \/ lower gpu = "mps" \/ lower gpu = "cpu" ->
  let '(l, o) := bench_main W r gpu dyn level in
  o = Ok tt /\ worked l = repeat cpu (S (Z.to_nat r)) /\ exists a, told l = [Average dyn "cpu" a; Skipped].
Proof.
  intros U (z & Lv) N Mc Mm G.
  assert (E : exists w, resolve_device (bw_machine W) default_prefer (RStr gpu) = Ok (cpu, w)).
  { cbn [resolve_device]. destruct G as [G|[G|[G|G]]]; cbv zeta.
    - exists false. rewrite G. cbn. rewrite Mc, Mm. reflexivity.
    - rewrite G, Mc. destruct (String.eqb_spec (lower gpu) "auto") as [A|]; [rewrite A in G; discriminate|]. eauto.
    - rewrite G. cbn. rewrite Mm. eauto.
    - rewrite G. cbn. eauto. }
  destruct E as (w & E). rewrite main_eq. unfold main_closed. rewrite Lv, (work_runs W dyn cpu Cpu U eq_refl), E. cbv zeta. destruct (Z.eqb_spec r 0); [contradiction|].
  change (String.eqb (UtlModel.kind cpu) "cpu") with true. cbv iota. rewrite !worked_app, !told_app, bench_worked, bench_told. split; [reflexivity|].
  split; [cbn [worked]; rewrite !app_nil_r; reflexivity|]. eexists. reflexivity.
Qed.

(** ** The scene *)
(** A point strictly inside the room of the benchmark. *)
Definition inside (p : list R) : Prop := exists x y z, p = [x; y; z] /\ 0 < x < 8 /\ 0 < y < 6 /\ 0 < z < 7 / 2.
Theorem C98_scene :
  NoDup bench_mics /\ length bench_mics = 16%nat /\ (forall p, In p bench_sources \/ In p bench_mics -> inside p) /\ (forall p, In p bench_sources -> ~ In p bench_mics) /\
  bench_mic 0 = [2; 1; 12 / 10] /\ bench_mic (bench_steps - 1) = [4; 3; 12 / 10] /\
  (forall t, (t < bench_steps)%nat -> inside (bench_mic t)) /\
  (forall t, (t < bench_steps)%nat -> exists x y, bench_mic t = [x; y; 12 / 10] /\ 1 <= (x - 1) ^ 2 + (y - 3 / 2) ^ 2) /\
  (forall t, (S t < bench_steps)%nat -> map2 Rminus (bench_mic (S t)) (bench_mic t) = [2 / 23; 2 / 23; 0]).
Proof.
  assert (Bm : forall t, bench_mic t = [2 + 2 * INR t / 23; 1 + 2 * INR t / 23; 12 / 10]).
  { intros t. unfold bench_mic. unfold map2; cbn [combine map fst snd]. change (bench_steps - 1)%nat with 23%nat. replace (INR 23) with 23 by (cbn; lra). apply (f_equal2 cons); [field|]. apply (f_equal2 cons); [field|]. apply (f_equal2 cons); [field|reflexivity]. }
  assert (Ti : forall t, (t < bench_steps)%nat -> 0 <= INR t <= 23).
  { intros t Ht. split; [apply pos_INR|]. replace 23 with (INR 23) by (cbn; lra). apply le_INR. unfold bench_steps in Ht. lia. }
  split.
  - unfold bench_mics. cbn [flat_map map app]. repeat (constructor; [cbn [In]; intros H; repeat (destruct H as [H|H]; [injection H; intros; lra|]); exact H|]). constructor.
  - split; [reflexivity|]. split.
    { intros p H. unfold bench_sources, bench_mics in H. cbn [flat_map map app In] in H.
      destruct H as [H|H]; repeat (destruct H as [<-|H]; [eexists _, _, _; split; [reflexivity|]; lra|]); contradiction. }
    split.
    { intros p [<-|[<-|[]]]; unfold bench_mics; cbn [flat_map map app In]; intros H; repeat (destruct H as [H|H]; [injection H; intros; lra|]); exact H. }
    split; [rewrite Bm; cbn [INR]; apply (f_equal2 cons); [field|apply (f_equal2 cons); [field|reflexivity]]|]. split; [rewrite Bm; change (bench_steps - 1)%nat with 23%nat; replace (INR 23) with 23 by (cbn; lra); apply (f_equal2 cons); [field|apply (f_equal2 cons); [field|reflexivity]]|].
    split; [intros t Ht; pose proof (Ti t Ht); rewrite Bm; eexists _, _, _; split; [reflexivity|]; lra|].
    split; [intros t Ht; pose proof (Ti t Ht); rewrite Bm; eexists _, _; split; [reflexivity|]; nra|].
    intros t Ht. rewrite !Bm, S_INR. unfold map2; cbn [combine map fst snd]. apply (f_equal2 cons); [field|]. apply (f_equal2 cons); [field|]. apply (f_equal2 cons); [field|reflexivity].
Qed.

(** ** The command and examples *)
(** What is asked for on the command line is what is run; five static runs on the first GPU at hand if
    nothing is. *)
Theorem C98_command X W : forall repeats z gpu level, read_int X repeats = Some z ->
  bench_command X W [] = inr (bench_main W 5 "auto" false "INFO") /\
  bench_command X W ["--dynamic"] = inr (bench_main W 5 "auto" true "INFO") /\
  bench_command X W [String.append "--repeats=" repeats] = inr (bench_main W z "auto" false "INFO") /\
  bench_command X W [String.append "--gpu=" gpu] = inr (bench_main W 5 gpu false "INFO") /\
  bench_command X W [String.append "--log-level=" level] = inr (bench_main W 5 "auto" false level) /\
  bench_command X W [String.append "--log-level=" level; String.append "--gpu=" gpu; "--dynamic"; String.append "--repeats=" repeats] = inr (bench_main W z gpu true level) /\
  (forall other, read_int X other = None -> bench_command X W [String.append "--repeats=" other] = inl 2%Z) /\
  bench_command X W ["-h"] = inl 0%Z /\ bench_command X W ["--help"] = inl 0%Z /\ bench_command X W ["--gpu"] = inl 2%Z.
Proof.
  intros repeats z gpu level Hz.
  assert (B : forall r g d l, inr (bench_main W r g d l) = inr (bbind ([], Ok (r, g, d, l)) (fun x => let '(r, g, d, l) := x in bench_main W r g d l)) :> Z + brun unit)
    by (intros; unfold bbind; cbv iota beta; destruct (bench_main W r g d l); reflexivity).
  rewrite !B. clear B. repeat split; intros; lazy -[bench_main IZR Rdiv pow bbind read_int]; rewrite ?Hz, ?H; reflexivity.
Qed.
(** Without arguments five static runs are made on the best device; the words of a command are understood. *)
Example C98_example_command : forall X W,
  bench_command X W [] = inr (bbind ([], Ok (5%Z, "auto", false, "INFO")) (fun x => let '(r, g, d, l) := x in bench_main W r g d l)) /\
  bench_command X W ["--repeats"; "3"; "--dynamic"; "--gpu=cuda:1"] = inr (bbind ([], Ok (3%Z, "cuda:1", true, "INFO")) (fun x => let '(r, g, d, l) := x in bench_main W r g d l)) /\
  bench_command X W ["--static"] = inl 2%Z /\ bench_command X W ["-h"] = inl 0%Z.
Proof. intros X W. repeat split; lazy -[bench_main IZR Rdiv pow bbind]; reflexivity. Qed.
(** The processor takes 2 seconds for 4 runs, the GPU 1/2: 500 and 125 milliseconds, four times as fast. *)
Example C98_example : forall W, usual_bench W -> (bw_machine W "cuda" = true) -> bw_clock W 0 = 10 -> bw_clock W 1 = 12 -> bw_clock W 2 = 15 -> bw_clock W 3 = 31 / 2 ->
  let '(l, o) := bench_main W 4 "auto" false "info" in
  o = Ok tt /\ told l = [Average false "cpu" 500; Average false "cuda" 125; Speedup 4] /\
  worked l = repeat cpu 5 ++ repeat (mkDev "cuda" None) 5 /\ readings l = [10; 12; 15; 31 / 2] /\ settled l.
Proof.
  intros W U Mc C0 C1 C2 C3.
  assert (E : resolve_device (bw_machine W) default_prefer (RStr "auto") = Ok (mkDev "cuda" None, false)) by (cbn; rewrite Mc; reflexivity).
  pose proof (C98_settled W 4 "auto" false "info") as S. rewrite E in S. specialize (S ltac:(intros d w H _; injection H as <- _; reflexivity)).
  rewrite main_eq in *. unfold main_closed in *. change (resolve_level (LStr "info")) with (Ok 20%Z) in *.
  rewrite (work_runs W false cpu Cpu U eq_refl), E, (work_runs W false (mkDev "cuda" None) Cuda U eq_refl) in *. cbv zeta in *. change (4 =? 0)%Z with false in *. change (String.eqb (UtlModel.kind (mkDev "cuda" None)) "cpu") with false in *. cbv iota in *.
  assert (A0 : average W 4 0 = / 2) by (unfold average; rewrite C0, C1; field). assert (A2 : average W 4 2 = / 8) by (unfold average; rewrite C2, C3; field).
  destruct (Req_EM_T _ 0) as [Z0|_]; [lra|]. cbn [fst] in S. split; [reflexivity|]. split; [|split; [|split; [|exact S]]].
  - rewrite !told_app, !bench_told, A0, A2. cbn [told app UtlModel.kind]. repeat (f_equal; try lra).
  - rewrite !worked_app, !bench_worked. reflexivity.
  - rewrite !readings_app, !bench_readings, C0, C1, C2, C3. reflexivity.
Qed.
Print Assumptions C98_settled.
Print Assumptions C98_second_gpu_unchecked.
Print Assumptions C98_report.
Print Assumptions C98_completes.
Print Assumptions C98_command.
Print Assumptions C98_zero.
Print Assumptions C98_negative_unchecked.
Print Assumptions C98_no_gpu.
Print Assumptions C98_scene.
