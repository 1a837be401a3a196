(** Specification vocabulary for devices and logging. *)
From Coq Require Import Ascii String List ZArith Bool.
From Verif Require Import Prelude DirSpec UtlModel.
Import ListNotations.
Local Notation length := List.length.

(** ** Devices *)
(** The string asks for an accelerator by name: CUDA with anything after it, or MPS. *)
Definition asks_cuda (s : string) : Prop := exists a b, s = (a ++ b)%string /\ spells a "cuda".
Definition asks_mps (s : string) : Prop := spells s "mps".
(** Strings whose availability is looked at. *)
Definition checked_request (s : string) : Prop :=
  spells s "auto" \/ spells s "cpu" \/ asks_mps s \/ asks_cuda s.
(** Backends that ["auto"] may choose on a machine. *)
Definition usable (m : machine) (b : string) : Prop :=
  b = "cpu"%string \/ ((b = "cuda"%string \/ b = "mps"%string) /\ m b = true).
(** [d] is the first usable backend of a preference list, CPU if there is none. *)
Definition first_choice (m : machine) (prefer : list string) (d : tdev) : Prop :=
  (exists l1 b l2, prefer = l1 ++ b :: l2 /\ Forall (fun x => ~ usable m x) l1 /\ usable m b /\ d = mkDev b None) \/
  (Forall (fun x => ~ usable m x) prefer /\ d = cpu).
(** Decimal numerals: digits written left to right, no superfluous zero in front. *)
Fixpoint written (ds : list nat) : string :=
  match ds with [] => EmptyString | d :: ds' => String (ascii_of_nat (48 + d)) (written ds') end.
Definition numeral_of (ds : list nat) (n : nat) : Prop :=
  Forall (fun d => d <= 9) ds /\ (exists d ds', ds = d :: ds' /\ (d = 0 -> ds' = [])) /\
  n = fold_left (fun acc d => 10 * acc + d) ds 0.
(** The first tensor among the arguments. *)
Definition leading {D} (values : list (option (tdev * D))) (t : option (tdev * D)) : Prop :=
  (t = None /\ Forall (fun v => v = None) values) \/
  (exists l1 l2, t <> None /\ values = l1 ++ t :: l2 /\ Forall (fun v => v = None) l1).

(** ** Logging *)
(** Standard level names, any case. *)
Definition standard_levels : list (string * Z) :=
  [("critical", 50); ("fatal", 50); ("error", 40); ("warn", 30); ("warning", 30); ("info", 20); ("debug", 10);
   ("notset", 0)]%string%Z.
Inductive means : level_arg -> Z -> Prop :=
| M_int z : means (LInt z) z
| M_str s n z : In (n, z) standard_levels -> spells s n -> means (LStr s) z.
(** Valid requests made for one logger by a history: level and propagation, in order. *)
Inductive asks (p : list string) : list lcall -> list (Z * bool) -> Prop :=
| A_nil : asks p [] []
| A_get n h l : asks p h l -> asks p (Get n :: h) l
| A_other c h l : path_of (s_name c) <> p -> asks p h l -> asks p (Setup c :: h) l
| A_bad c h l : path_of (s_name c) = p -> (forall z, ~ means (s_level c) z) -> asks p h l -> asks p (Setup c :: h) l
| A_ok c h l z : path_of (s_name c) = p -> means (s_level c) z -> asks p h l -> asks p (Setup c :: h) ((z, s_propagate c) :: l).
(** A logger nobody configured. *)
Definition untouched (x : lg) : Prop := level x = 0%Z /\ handlers x = [] /\ propagate x = true.
