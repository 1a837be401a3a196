(** Specification for C98: what a benchmark should measure.  Only the events of BenchModel.v are used. *)
From Coq Require Import String List ZArith Reals Bool.
From Verif Require Import Prelude UtlModel CliModel BenchModel.
From Verif Require IsmModel TotalSpec LoopSpec SimLocal.
Import ListNotations.
Local Notation length := List.length.
Local Open Scope R_scope.

(** Work on such a device is only queued: it is done when the program has waited for it. *)
Definition queued (d : tdev) : Prop := UtlModel.kind d = "cuda"%string \/ UtlModel.kind d = "mps"%string.
(** The devices of the runs, in order. *)
Fixpoint worked (l : list event) : list tdev :=
  match l with [] => [] | Worked d :: l => d :: worked l | _ :: l => worked l end.
(** The readings of the clock, in order. *)
Fixpoint readings (l : list event) : list R :=
  match l with [] => [] | Clock t :: l => t :: readings l | _ :: l => readings l end.
(** What is told to the user, in order. *)
Fixpoint told (l : list event) : list event :=
  match l with [] => [] | Worked _ :: l | Waited _ :: l | Clock _ :: l => told l | e :: l => e :: told l end.
(** The number of a device; without one torch takes the first. *)
Definition number (d : tdev) : nat := match index d with Some n => n | None => 0 end.
(** Waiting for [w] is waiting for [d]; there is only one device of MPS. *)
Definition covers (w d : tdev) : Prop := UtlModel.kind w = UtlModel.kind d /\ (UtlModel.kind d = "mps"%string \/ number w = number d).
(** Whenever the clock is read, all work is done. *)
Definition settled (l : list event) : Prop :=
  forall a t b d, l = a ++ Clock t :: b -> queued d -> In (Worked d) a -> exists x w y, a = x ++ Waited w :: y /\ covers w d /\ ~ In (Worked d) y.
(** Between the two readings [t0] and [t1] there are exactly [n] runs, all on [d], after one run to
    warm up. *)
Definition measured (l : list event) (d : tdev) (n : nat) (t0 t1 : R) : Prop :=
  exists a b c, l = a ++ Clock t0 :: b ++ Clock t1 :: c /\ worked a = [d] /\ worked b = repeat d n /\ worked c = [] /\ readings a = [] /\ readings b = [] /\ readings c = [].

(** The filter works for every length and keeps numbers, and the signal has the asked length. *)
Record usual_bench (W : bench_world) : Prop := {
  ub_filter : forall L, TotalSpec.filter_works (bw_ext W) 16000 L;
  ub_length : SimLocal.filt_length (bw_ext W); ub_numbers : LoopSpec.keeps_numbers (bw_ext W);
  ub_signal : forall d, length (bw_signal W d) = 16000%nat }.
(** A name of a level of the logging library in any case. *)
Definition level_known (s : string) : Prop := exists z, UtlModel.resolve_level (LStr s) = Ok z.
