(** C64 (devices) and C65 (logging). *)
From Coq Require Import Ascii String List ZArith Lia Bool.
From Verif Require Import Prelude DirModel DirSpec DirProofs UtlModel UtlSpec UtlProofs.
Import ListNotations.
Local Notation length := List.length.

(** ** C64 *)

(** Requests for "auto", the CPU, MPS or CUDA (any case, CUDA with any suffix) never give an
    unavailable accelerator; a warning is issued exactly when the accelerator asked for is
    missing, and the CPU is used then.  The only exception possible comes from an available
    CUDA with a malformed string. *)
Theorem C64_partial : forall m prefer s, checked_request s ->
  match resolve_device m prefer (RStr s) with
  | Ok (d, warned) =>
      (kind d = "cpu"%string \/ m (kind d) = true) /\
      (warned = true <-> (asks_cuda s /\ m "cuda"%string = false) \/ (asks_mps s /\ m "mps"%string = false)) /\
      (warned = true -> d = cpu) /\
      (warned = false -> (asks_cuda s -> kind d = "cuda"%string) /\ (asks_mps s -> d = mkDev "mps" None) /\ (spells s "cpu" -> d = cpu))
  | Err e => e = RuntimeError /\ asks_cuda s /\ m "cuda"%string = true
  end.
Proof.
  intros m prefer s Hs. destruct lowercase_names as (La & Lc & Lm & _). cbn [resolve_device].
  assert (X : forall n, lowercase n -> spells s n -> lower s = n) by (intros; apply lower_spells; auto).
  destruct (String.eqb (lower s) "auto") eqn:E1.
  { apply String.eqb_eq in E1. assert (N : ~ asks_cuda s) by (rewrite <- prefix_cuda, E1; discriminate).
    assert (N2 : ~ asks_mps s) by (intros H; apply X in H; auto; congruence).
    assert (N3 : ~ spells s "cpu") by (intros H; apply X in H; auto; congruence).
    split; [|split; [split; [discriminate|tauto]|split; [discriminate|tauto]]].
    destruct (auto_first m prefer) as [(l1 & b & l2 & _ & _ & U & ->)|[_ ->]]; [|auto].
    cbn. destruct U as [->|[_ U]]; auto. }
  destruct (String.prefix "cuda" (lower s)) eqn:E2.
  { assert (C : asks_cuda s) by (apply prefix_cuda; auto).
    assert (N2 : ~ asks_mps s) by (intros H; apply X in H; auto; rewrite H in E2; discriminate).
    assert (N3 : ~ spells s "cpu") by (intros H; apply X in H; auto; rewrite H in E2; discriminate).
    destruct (m "cuda"%string) eqn:M.
    - destruct (torch_device s) as [d|e] eqn:T; cbn [bind].
      + pose proof (torch_device_cuda s d T C) as K. rewrite K.
        split; [auto|]. split; [split; [discriminate|]|split; [discriminate|tauto]]. intros [[_ ?]|[? _]]; [discriminate|tauto].
      + apply torch_device_err in T. auto.
    - cbn. split; [auto|]. split; [tauto|]. split; [auto|discriminate]. }
  assert (N : ~ asks_cuda s) by (rewrite <- prefix_cuda, E2; discriminate).
  destruct (String.eqb (lower s) "mps") eqn:E3.
  { assert (M : asks_mps s) by (apply (proj1 (eqb_lower s "mps" Lm)); auto).
    assert (N3 : ~ spells s "cpu") by (intros H; apply X in H; auto; rewrite H in E3; discriminate).
    destruct (m "mps"%string) eqn:V; cbn.
    - split; [auto|]. split; [split; [discriminate|]|split; [discriminate|tauto]]. intros [[? _]|[_ ?]]; [tauto|discriminate].
    - split; [auto|]. split; [tauto|]. split; [auto|discriminate]. }
  assert (N2 : ~ asks_mps s) by (intros H; apply (proj2 (eqb_lower s "mps" Lm)) in H; congruence).
  destruct (String.eqb (lower s) "cpu") eqn:E4.
  { cbn. split; [auto|]. split; [split; [discriminate|tauto]|]. split; [discriminate|tauto]. }
  exfalso. destruct Hs as [H|[H|[H|H]]]; try contradiction.
  - apply (proj2 (eqb_lower s "auto" La)) in H. congruence.
  - apply (proj2 (eqb_lower s "cpu" Lc)) in H. congruence.
Qed.
Example C64_partial_ex :
  let none : machine := fun _ => false in let all : machine := fun _ => true in
  resolve_device none default_prefer (RStr "cuda:1") = Ok (cpu, true) /\
  resolve_device all default_prefer (RStr "cuda:1") = Ok (mkDev "cuda" (Some 1), false) /\
  resolve_device none default_prefer (RStr "Mps") = Ok (cpu, true) /\
  resolve_device all default_prefer (RStr "cuda:") = Err RuntimeError.
Proof. repeat split. Qed.

(** "auto" is the first usable backend of the preference list; unknown names are skipped. *)
Theorem C64_auto : forall m prefer s d, spells s "auto" ->
  (exists w, resolve_device m prefer (RStr s) = Ok (d, w)) <-> first_choice m prefer d.
Proof.
  intros m prefer s d H. destruct lowercase_names as (La & _).
  assert (E : resolve_device m prefer (RStr s) = Ok (auto_device m prefer, false)).
  { cbn [resolve_device]. rewrite (proj2 (eqb_lower s "auto" La) H). auto. }
  split.
  - intros (w & Hw). rewrite E in Hw. injection Hw as <- <-. apply auto_first.
  - intros F. exists false. rewrite E. do 2 f_equal. eapply first_choice_unique; eauto. apply auto_first.
Qed.
Example C64_auto_ex :
  let mac : machine := fun b => String.eqb b "mps" in
  resolve_device mac default_prefer (RStr "AUTO") = Ok (mkDev "mps" None, false) /\
  resolve_device mac ["tpu"; "cuda"]%string (RStr "auto") = Ok (cpu, false) /\
  first_choice mac ["cuda"; "mps"; "cpu"]%string (mkDev "mps" None).
Proof.
  cbn. repeat split. left. exists ["cuda"%string], "mps"%string, ["cpu"%string]. repeat split; auto.
  - constructor; auto. intros [?|[_ ?]]; discriminate.
  - right. auto.
Qed.

(** Case does not matter for the names without index, nor for CUDA when it is missing. *)
Theorem C64_case_partial : forall m prefer s s' n, spells s n -> spells s' n ->
  In n ["auto"; "cpu"; "mps"]%string \/ (asks_cuda n /\ lowercase n /\ m "cuda"%string = false) ->
  resolve_device m prefer (RStr s) = resolve_device m prefer (RStr s').
Proof.
  intros m prefer s s' n H H' Hn. destruct lowercase_names as (La & Lc & Lm & _).
  assert (L : lowercase n) by (cbn in Hn; decompose [or and] Hn; subst; tauto).
  apply lower_spells in H, H'; auto. cbn [resolve_device]. rewrite H, H'. clear H H'. destruct Hn as [Hn|(C & _ & M)].
  - cbn in Hn. destruct Hn as [<-|[<-|[<-|[]]]]; reflexivity.
  - assert (C' : String.prefix "cuda" n = true).
    { rewrite <- (proj2 (lower_spells n L n)); [apply prefix_cuda; auto|]. clear. induction n; cbn; auto. split; auto. left. auto. }
    rewrite C', M. destruct (String.eqb n "auto") eqn:E; auto.
Qed.
Example C64_case_ex : forall m, resolve_device m default_prefer (RStr "CPU") = Ok (cpu, false) /\
  resolve_device m default_prefer (RStr "cPu") = Ok (cpu, false).
Proof. auto. Qed.

(** Case matters otherwise: with CUDA present, "CUDA" raises although "cuda" works. *)
Theorem C64_case_refuted : exists m prefer s s', spells s s' /\ resolve_device m prefer (RStr s) = Err RuntimeError /\
  resolve_device m prefer (RStr s') = Ok (mkDev "cuda" None, false).
Proof.
  exists (fun _ => true), default_prefer, "CUDA"%string, "cuda"%string. split; [|split; reflexivity].
  cbn. unfold reads. cbn. repeat split; right; lia.
Qed.
(** Strings with an index other than CUDA, and other backends, are not checked: an unavailable
    MPS or XPU device is returned without warning. *)
Theorem C64_refuted : exists m prefer s d, resolve_device m prefer (RStr s) = Ok (d, false) /\
  kind d = "mps"%string /\ m (kind d) = false.
Proof. exists (fun _ => false), default_prefer, "mps:0"%string, (mkDev "mps" (Some 0)). repeat split. Qed.
Example C64_refuted_ex : resolve_device (fun _ => false) default_prefer (RStr "xpu") = Ok (mkDev "xpu" None, false) /\
  resolve_device (fun _ => false) default_prefer (RStr "CPU:0") = Err RuntimeError /\
  resolve_device (fun _ => false) default_prefer (RStr "cudaXYZ") = Ok (cpu, true).
Proof. repeat split. Qed.

(** CUDA devices by number: exactly the decimal numerals without superfluous zeros are accepted,
    and the device has that number. *)
Theorem C64_index : forall m prefer t d w, m "cuda"%string = true ->
  resolve_device m prefer (RStr ("cuda:" ++ t)) = Ok (d, w) <->
  exists ds n, t = written ds /\ numeral_of ds n /\ d = mkDev "cuda" (Some n) /\ w = false.
Proof.
  intros m prefer t d w M. cbn [resolve_device]. rewrite M. change (lower ("cuda:" ++ t)) with ("cuda:" ++ lower t)%string.
  change (String.eqb ("cuda:" ++ lower t) "auto") with false. cbn iota.
  assert (P : String.prefix "cuda" ("cuda:" ++ lower t) = true) by (cbn; destruct (lower t); reflexivity). rewrite P.
  change (torch_device ("cuda:" ++ t)) with (match parse_index t with Some n => Ok (mkDev "cuda" (Some n)) | None => Err RuntimeError end).
  split.
  - destruct (parse_index t) as [n|] eqn:E; [|discriminate]. cbn [bind]. intros H. injection H as <- <-.
    apply parse_index_iff in E as (ds & -> & N). eauto 6.
  - intros (ds & n & -> & N & -> & ->). rewrite (proj2 (parse_index_iff (written ds) n)) by eauto. reflexivity.
Qed.
Example C64_index_ex : resolve_device (fun _ => true) [] (RStr "cuda:12") = Ok (mkDev "cuda" (Some 12), false) /\
  resolve_device (fun _ => true) [] (RStr "cuda:012") = Err RuntimeError /\ resolve_device (fun _ => true) [] (RStr "cuda:") = Err RuntimeError /\
  numeral_of [1; 2] 12 /\ written [1; 2] = "12"%string.
Proof. repeat split; try reflexivity; [repeat constructor|]. exists 1, [2]. split; [auto|lia]. Qed.

(** Explicit device and dtype win; otherwise those of the first tensor; otherwise CPU (or the
    automatic choice) and float32. *)
Theorem C64_spec : forall D (f32 : D) m device dtype prefer values t, leading values t ->
  (forall y, dtype = Some y -> forall d z, spec_resolve f32 m device dtype prefer values = Ok (d, z) -> z = y) /\
  (dtype = None -> forall d z, spec_resolve f32 m device dtype prefer values = Ok (d, z) -> z = match t with Some p => snd p | None => f32 end) /\
  (forall e, device = RDev e -> exists z, spec_resolve f32 m device dtype prefer values = Ok (e, z)) /\
  (forall s, device = RStr s -> ~ spells s "auto" ->
     forall d z, spec_resolve f32 m device dtype prefer values = Ok (d, z) -> exists w, resolve_device m prefer device = Ok (d, w)) /\
  (forall p, t = Some p -> (device = RNone \/ exists s, device = RStr s /\ spells s "auto") ->
     exists z, spec_resolve f32 m device dtype prefer values = Ok (fst p, z)) /\
  (t = None -> device = RNone -> exists z, spec_resolve f32 m device dtype prefer values = Ok (cpu, z)) /\
  (t = None -> forall s, device = RStr s -> spells s "auto" ->
     exists d z, spec_resolve f32 m device dtype prefer values = Ok (d, z) /\ first_choice m prefer d).
Proof.
  intros D f32 m device dtype prefer values t Ht. destruct lowercase_names as (La & _).
  assert (Ft : first_tensor values = t).
  { destruct (first_tensor_leading values) as [[E F]|(l1 & l2 & N & E & F)], Ht as [[E' F']|(l1' & l2' & N' & E' & F')].
    - congruence.
    - exfalso. subst values. apply Forall_app in F. destruct F as [_ F]. inversion F; subst. congruence.
    - exfalso. rewrite E in F'. apply Forall_app in F'. destruct F' as [_ F']. inversion F'; subst. congruence.
    - generalize dependent (first_tensor values). intros u N E. rewrite E in E'. clear E.
      revert l1' E' F'. induction l1 as [|a l1 IH]; intros [|b l1'] E' F'; cbn in E'.
      + congruence.
      + injection E' as Ea Eb. inversion F'; subst. congruence.
      + injection E' as Ea Eb. inversion F; subst. congruence.
      + injection E' as Ea Eb. inversion F; inversion F'; subst. eauto. }
  unfold spec_resolve. rewrite Ft. clear Ft Ht.
  assert (A : forall s, spells s "auto" -> String.eqb (lower s) "auto" = true) by (intros; apply eqb_lower; auto).
  assert (A' : forall s, ~ spells s "auto" -> String.eqb (lower s) "auto" = false).
  { intros s H. destruct (String.eqb (lower s) "auto") eqn:E; auto. apply eqb_lower in E; auto. contradiction. }
  match goal with |- context [bind ?x _] => set (dv := x) end.
  repeat split.
  - intros y -> d z. destruct dv; cbn; congruence.
  - intros -> d z. destruct dv; cbn; [|congruence]. destruct t as [[? ?]|]; cbn; congruence.
  - intros e ->. cbn. eauto.
  - intros s -> N d z. subst dv. cbn iota. rewrite (A' s N). destruct (resolve_device m prefer (RStr s)) as [[x w]|]; cbn; [|discriminate].
    intros H. injection H as <- <-. eauto.
  - intros [d y] -> [->|(s & -> & S)]; subst dv; [|rewrite (A s S)]; cbn; eauto.
  - intros -> ->. cbn. eauto.
  - intros -> s -> S. subst dv. rewrite (A s S). cbn. do 2 eexists. split; [reflexivity|]. apply auto_first.
Qed.
Example C64_spec_ex : let m : machine := fun _ => true in
  spec_resolve 32 m (RStr "Auto") None default_prefer [None; Some (mkDev "cuda" (Some 2), 64); Some (cpu, 16)] = Ok (mkDev "cuda" (Some 2), 64) /\
  spec_resolve 32 m (RStr "auto") (Some 16) default_prefer [None] = Ok (mkDev "cuda" None, 16) /\
  spec_resolve 32 m (RDev cpu) None default_prefer [Some (mkDev "cuda" (Some 2), 64)] = Ok (cpu, 64).
Proof. repeat split. Qed.

(** [as_tensor] keeps what is not asked for, but its "auto" moves an existing tensor. *)
Theorem C64_as_tensor : forall D m (d : tdev) (t guess : D) dtype,
  as_tensor_place m (Some (d, t)) guess RNone dtype = Ok (d, match dtype with Some x => x | None => t end) /\
  (forall e, as_tensor_place m (Some (d, t)) guess (RDev e) dtype = Ok (e, match dtype with Some x => x | None => t end)) /\
  (forall s, spells s "auto" -> exists e, first_choice m ["cuda"; "mps"; "cpu"]%string e /\
     as_tensor_place m (Some (d, t)) guess (RStr s) dtype = Ok (e, match dtype with Some x => x | None => t end)).
Proof.
  intros. split; [reflexivity|]. split; [reflexivity|]. intros s H. destruct lowercase_names as (La & _).
  exists (auto_device m default_prefer). split; [apply auto_first|].
  unfold as_tensor_place. cbn [resolve_device]. rewrite (proj2 (eqb_lower s "auto" La) H). reflexivity.
Qed.
Example C64_as_tensor_ex : as_tensor_place (fun _ => true) (Some (cpu, 64)) 32 (RStr "auto") None = Ok (mkDev "cuda" None, 64) /\
  spec_resolve 32 (fun _ => true) (RStr "auto") None default_prefer [Some (cpu, 64)] = Ok (cpu, 64).
Proof. split; reflexivity. Qed.

(** ** C65 *)

(** After any history with at least one valid request for a logger that had no handler, the
    logger has exactly one handler, of the package, with the level first asked for; its own
    level and propagation are those asked for last.  Without propagation (and for a level
    other than NOTSET) a message is emitted once if it reaches both levels, else not at all. *)
Theorem C65_partial : forall p h st first rest, asks p h (first :: rest) -> handlers (st p) = [] ->
  let st' := lrun h st in let final := last (first :: rest) first in
  handlers (st' p) = [mkH true (fst first)] /\ level (st' p) = fst final /\ propagate (st' p) = snd final /\
  (p <> [] -> fst final <> 0%Z -> snd final = false -> forall l,
     ((fst final <= l)%Z -> (fst first <= l)%Z -> emitted st' p l = [mkH true (fst first)]) /\
     ((l < fst final)%Z \/ (l < fst first)%Z -> emitted st' p l = [])).
Proof.
  intros p h st first rest H Hh st' final. pose proof (lrun_after p h _ H st) as E. fold st' in E.
  unfold after in E. fold final in E. rewrite Hh in E.
  split; [rewrite E; auto|]. split; [rewrite E; auto|]. split; [rewrite E; auto|].
  intros Np N0 Np2 l. pose proof (emitted_one st' p l (mkH true (fst first)) Np) as F. rewrite E in F. cbn [level handlers propagate hlevel] in F.
  rewrite F by auto. split.
  - intros A B. apply Z.leb_le in A, B. rewrite A, B. auto.
  - intros [A|A]; apply Z.leb_gt in A; rewrite A; rewrite ?andb_false_r; auto.
Qed.
Example C65_partial_ex :
  let st' := lrun [Setup (mkSetup (LStr "warning") false "torchrir"); Get (Some "x"%string);
                   Setup (mkSetup (LStr "nonsense") false "torchrir"); Setup (mkSetup (LInt 35) false "torchrir")] fresh_loggers in
  emitted st' (path_of "torchrir") 40 = [mkH true 30] /\ emitted st' (path_of "torchrir") 30 = [] /\
  emitted st' (get_logger (Some "examples.static"%string)) 40 = [mkH true 30].
Proof. repeat split. Qed.

(** Every history has such a list of requests; no valid request leaves the logger alone. *)
Theorem C65_history : forall p h, (exists l, asks p h l) /\ (asks p h [] -> forall st, lrun h st p = st p).
Proof. intros p h. split; [apply asks_total|]. intros H st. apply (lrun_after p h [] H). Qed.
Example C65_history_ex : asks ["torchrir"%string] [Get None; Setup (mkSetup (LStr "loud") true "torchrir"); Setup (mkSetup (LInt 5) true "other")] [].
Proof.
  apply A_get. apply A_bad; [reflexivity| |apply A_other; [discriminate|constructor]].
  intros z M. apply resolve_level_means in M. discriminate.
Qed.

(** Handlers that are already there stay, and the package adds none. *)
Theorem C65_existing_handlers : forall p h st l, asks p h l -> handlers (st p) <> [] -> handlers (lrun h st p) = handlers (st p).
Proof.
  intros p h st l H N. rewrite (lrun_after p h l H st). destruct l; auto. cbn. destruct (handlers (st p)); congruence.
Qed.
Example C65_existing_handlers_ex :
  let st := set_lg (path_of "torchrir") (mkL 0 [mkH false 40] true) fresh_loggers in
  handlers (lrun [Setup (mkSetup (LStr "DEBUG") false "torchrir")] st (path_of "torchrir")) = [mkH false 40].
Proof. reflexivity. Qed.

(** Loggers from [get_logger]: the name is put under [torchrir] unless it starts with it, and
    they emit what the package logger emits as long as nobody configures them. *)
Theorem C65_children : forall n st l, n <> ""%string -> String.prefix "torchrir" n = false ->
  let q := get_logger (Some n) in
  (exists ext, ext <> [] /\ q = "torchrir"%string :: ext) /\
  ((forall ext, ext <> [] -> untouched (st ("torchrir"%string :: ext))) ->
   emitted st q l = emitted st (get_logger None) l).
Proof.
  intros n st l Hn Hp q.
  assert (Q : q = "torchrir"%string :: split_dots n).
  { unfold q, get_logger. destruct n as [|c n]; [congruence|]. rewrite Hp.
    unfold path_of. cbn [append String.eqb]. cbn [orb Ascii.eqb Bool.eqb].
    change (split_dots (String "t" (String "o" (String "r" (String "c" (String "h" (String "r" (String "i" (String "r" (String "." (String c n))))))))))) with
      (split_dots ("torchrir" ++ String "." (String c n))). rewrite split_app. reflexivity. }
  assert (S0 : split_dots n <> []).
  { destruct n; [congruence|]. cbn. destruct (Ascii.eqb a "."); [discriminate|]. destruct (split_dots n); discriminate. }
  split; [exists (split_dots n); auto|].
  intros U. rewrite Q. change ("torchrir"%string :: split_dots n) with (["torchrir"%string] ++ split_dots n).
  change (get_logger None) with ["torchrir"%string]. apply emitted_below. intros e1 e2 N _. apply (U e1 N).
Qed.
Example C65_children_ex : get_logger (Some "examples.static"%string) = ["torchrir"; "examples"; "static"]%string /\
  get_logger (Some "torchrirfoo"%string) = ["torchrirfoo"%string].
Proof. split; reflexivity. Qed.

(** As long as nobody configures anything, warnings and worse are shown once, by the handler of
    last resort, and nothing else is. *)
Theorem C65_unconfigured : forall st name l, handlers (st []) = [] -> level (st []) = 30%Z -> (forall p, p <> [] -> untouched (st p)) ->
  emitted st (get_logger name) l = if (30 <=? l)%Z then [mkH false 30] else [].
Proof.
  intros st name l H0 L0 U.
  assert (E : forall r, effective st (chain r) = 30%Z).
  { induction r as [|x r IH]; [cbn; rewrite L0; reflexivity|]. cbn [chain effective]. destruct (U (rev (x :: r))) as (A & _ & _).
    - intros Z. apply (f_equal (@length _)) in Z. rewrite rev_length in Z. discriminate.
    - rewrite A. exact IH. }
  assert (R : forall r, reached st (chain r) = []).
  { induction r as [|x r IH]; [cbn; rewrite H0; cbn; destruct (propagate (st [])); reflexivity|]. cbn [chain reached]. destruct (U (rev (x :: r))) as (_ & A & B).
    - intros Z. apply (f_equal (@length _)) in Z. rewrite rev_length in Z. discriminate.
    - rewrite A, B. exact IH. }
  unfold emitted. rewrite E, R. cbn [filter hlevel]. destruct (Z.ltb_spec l 30), (Z.leb_spec 30 l); try lia; reflexivity.
Qed.
Example C65_unconfigured_ex : emitted fresh_loggers (get_logger (Some "io"%string)) 40 = [mkH false 30] /\ emitted fresh_loggers (get_logger None) 20 = [].
Proof. split; reflexivity. Qed.
(** The names "" and "root" configure the root logger: with propagation below, every logger that
    nobody configured then emits through it. *)
Theorem C65_root : forall name lv z pr st q l, name = ""%string \/ name = "root"%string -> means lv z -> z <> 0%Z -> handlers (st []) = [] ->
  (forall p, p <> [] -> untouched (st p)) ->
  emitted (lrun [Setup (mkSetup lv pr name)] st) q l = if (z <=? l)%Z then [mkH true z] else [].
Proof.
  intros name lv z pr st q l Hn Hm Hz H0 U.
  assert (P : path_of name = []) by (destruct Hn as [-> | ->]; reflexivity).
  apply resolve_level_means in Hm. unfold lrun. cbn [fold_left lact]. unfold setup_logging. cbn [s_level s_name s_propagate]. rewrite Hm, P, H0. cbn [fst].
  set (st' := set_lg [] (mkL z [mkH true z] pr) st).
  assert (S0 : st' [] = mkL z [mkH true z] pr) by reflexivity.
  assert (S1 : forall p, p <> [] -> st' p = st p).
  { intros p Np. unfold st', set_lg, path_eqb. destruct (list_eq_dec string_dec p []); [contradiction|reflexivity]. }
  assert (E : forall r, effective st' (chain r) = z).
  { induction r as [|x r IH]; [cbn [chain effective]; rewrite S0; cbn [level]; apply Z.eqb_neq in Hz; rewrite Hz; reflexivity|]. cbn [chain effective].
    assert (N : rev (x :: r) <> []) by (intros Z; apply (f_equal (@length _)) in Z; rewrite rev_length in Z; discriminate).
    rewrite (S1 _ N). destruct (U _ N) as (A & _ & _). rewrite A. exact IH. }
  assert (R : forall r, reached st' (chain r) = [mkH true z]).
  { induction r as [|x r IH]; [cbn [chain reached]; rewrite S0; cbn; destruct pr; reflexivity|]. cbn [chain reached].
    assert (N : rev (x :: r) <> []) by (intros Z; apply (f_equal (@length _)) in Z; rewrite rev_length in Z; discriminate).
    rewrite (S1 _ N). destruct (U _ N) as (_ & A & B). rewrite A, B. exact IH. }
  unfold emitted. rewrite E, R. cbn [filter hlevel]. destruct (Z.ltb_spec l z), (Z.leb_spec z l); try lia; reflexivity.
Qed.
Example C65_root_ex : let st := lrun [Setup (mkSetup (LStr "Info") false "root")] fresh_loggers in
  emitted st (get_logger (Some "io"%string)) 20 = [mkH true 20] /\ emitted st ["elsewhere"%string] 10 = [].
Proof. split; reflexivity. Qed.

(** False as stated: a later, more verbose level is not honoured, because the handler keeps
    the first one. *)
Theorem C65_refuted : exists h first final l, asks (path_of "torchrir") h [first; final] /\ snd final = false /\
  (fst final <= l)%Z /\ emitted (lrun h fresh_loggers) (path_of "torchrir") l = [].
Proof.
  exists [Setup (mkSetup (LStr "INFO") false "torchrir"); Setup (mkSetup (LStr "DEBUG") false "torchrir")], (20%Z, false), (10%Z, false), 10%Z.
  split; [|repeat split; auto; cbn; lia].
  apply (A_ok _ (mkSetup (LStr "INFO") false "torchrir") _ _ 20%Z); [reflexivity|apply resolve_level_means; reflexivity|].
  apply (A_ok _ (mkSetup (LStr "DEBUG") false "torchrir") _ _ 10%Z); [reflexivity|apply resolve_level_means; reflexivity|constructor].
Qed.
(** The level NOTSET (0) does not mean "everything": the level of the root logger applies. *)
Theorem C65_notset_refuted : exists h l, asks (path_of "torchrir") h [(0%Z, false)] /\ (0 < l)%Z /\
  emitted (lrun h fresh_loggers) (path_of "torchrir") l = [].
Proof.
  exists [Setup (mkSetup (LStr "NOTSET") false "torchrir")], 20%Z. split; [|split; [lia|reflexivity]].
  apply (A_ok _ (mkSetup (LStr "NOTSET") false "torchrir") _ _ 0%Z); [reflexivity|apply resolve_level_means; reflexivity|constructor].
Qed.
(** With propagation, a configured root logger emits the message a second time. *)
Theorem C65_propagate_refuted : exists st h l, handlers (st (path_of "torchrir")) = [] /\ asks (path_of "torchrir") h [(20%Z, true)] /\
  (20 <= l)%Z /\ length (emitted (lrun h st) (path_of "torchrir") l) = 2.
Proof.
  exists (set_lg [] (mkL 30 [mkH false 0] true) fresh_loggers), [Setup (mkSetup (LStr "info") true "torchrir")], 20%Z.
  split; [reflexivity|]. split; [|split; [lia|reflexivity]].
  apply (A_ok _ (mkSetup (LStr "info") true "torchrir") _ _ 20%Z); [reflexivity|apply resolve_level_means; reflexivity|constructor].
Qed.

Print Assumptions C64_partial.
Print Assumptions C64_auto.
Print Assumptions C64_case_partial.
Print Assumptions C64_case_refuted.
Print Assumptions C64_refuted.
Print Assumptions C64_index.
Print Assumptions C64_spec.
Print Assumptions C64_as_tensor.
Print Assumptions C65_partial.
Print Assumptions C65_history.
Print Assumptions C65_existing_handlers.
Print Assumptions C65_children.
Print Assumptions C65_unconfigured.
Print Assumptions C65_root.
Print Assumptions C65_refuted.
Print Assumptions C65_notset_refuted.
Print Assumptions C65_propagate_refuted.
