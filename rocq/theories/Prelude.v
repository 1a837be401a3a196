(** Shared vocabulary: results with Python exceptions as values, Python slices,
    finite sums over [R], and flat row-major tensors.

    These definitions model the Python/torch language level that every function of
    /repo/src/torchrir uses, not one particular file. *)
From Coq Require Import String List ZArith Reals Lia Lra Bool.
Import ListNotations.
Local Open Scope R_scope.

(** ** Exceptions as values *)

(** Python exception classes raised by the code in /repo/src/torchrir (the builtin
    classes; messages are not modelled), language level, used for exceptions raised in e.g. sim/ism/validate.py:15-140. *)
Inductive exn :=
| ValueError | TypeError | IndexError | RuntimeError | KeyError
| ZeroDivisionError | FileExistsError | FileNotFoundError | OSError
| NotImplementedError | AssertionError | OverflowError.

(** Outcome of a Python call: a value or a raised exception, language level, used for exceptions raised in e.g. sim/ism/validate.py:15-140. *)
Inductive result (A : Type) :=
| Ok (a : A)
| Err (e : exn).
Arguments Ok {A} a.
Arguments Err {A} e.

(** Sequencing of statements that may raise, language level, used for exceptions raised in e.g. sim/ism/validate.py:15-140. *)
Definition bind {A B} (r : result A) (f : A -> result B) : result B :=
  match r with Ok a => f a | Err e => Err e end.
Notation "'do' x <- r ; k" := (bind r (fun x => k))
  (at level 200, x pattern, r at level 100, k at level 200).

(** [for x in l: state = f(state, x)] where the body may raise, language level, used for loops such as signal/dynamic.py:86-94. *)
Fixpoint foldM {A B} (f : B -> A -> result B) (l : list A) (b : B) : result B :=
  match l with
  | [] => Ok b
  | x :: l' => do b' <- f b x; foldM f l' b'
  end.

(** [[f(x) for x in l]] where [f] may raise, language level, used for loops such as signal/dynamic.py:86-94. *)
Fixpoint mapM {A B} (f : A -> result B) (l : list A) : result (list B) :=
  match l with
  | [] => Ok []
  | x :: l' => do y <- f x; do ys <- mapM f l'; Ok (y :: ys)
  end.

(** language level, used for exceptions raised in e.g. sim/ism/validate.py:15-140. *)
Definition is_ok {A} (r : result A) : bool :=
  match r with Ok _ => true | Err _ => false end.

(** ** Python slices [l[a:b]] with possibly negative bounds *)

(** Python's clipping of one slice bound for a sequence of length [n], language level, used for slices such as signal/dynamic.py:89, 94. *)
Definition slice_bound (n : nat) (i : Z) : nat :=
  Z.to_nat (if (i <? 0)%Z then Z.max 0 (i + Z.of_nat n) else Z.min i (Z.of_nat n)).

(** language level, used for slices such as signal/dynamic.py:89, 94. *)
Definition pyslice {A} (a b : Z) (l : list A) : list A :=
  let a' := slice_bound (length l) a in
  let b' := slice_bound (length l) b in
  firstn (b' - a') (skipn a' l).

(** Contiguous block of [len] entries from [off] (row of a row-major tensor), language level, used for rows such as signal/dynamic.py:94. *)
Definition block {A} (off len : nat) (l : list A) : list A :=
  firstn len (skipn off l).

(** ** Finite sums *)

(** language level, used for sums such as sim/ism/helpers.py:80. *)
Fixpoint rsum (n : nat) (f : nat -> R) : R :=
  match n with
  | O => 0
  | S k => rsum k f + f k
  end.

(** language level, used for sums such as sim/ism/helpers.py:80. *)
Fixpoint lsum (l : list R) : R :=
  match l with [] => 0 | x :: l' => x + lsum l' end.

(** ** Tensors: shape plus row-major data *)

(** language level, used for torch tensors, e.g. signal/internal.py:8-40. *)
Record tensor := mkT { shape : list nat; data : list R }.

(** language level, used for torch tensors, e.g. signal/internal.py:8-40. *)
Definition prodn (l : list nat) : nat := fold_right Nat.mul 1%nat l.
(** language level, used for torch tensors, e.g. signal/internal.py:8-40. *)
Definition ndim (t : tensor) : nat := length (shape t).
(** language level, used for torch tensors, e.g. signal/internal.py:8-40. *)
Definition numel (t : tensor) : nat := prodn (shape t).
(** A tensor is well formed when its buffer has as many entries as its shape says, language level, used for torch tensors, e.g. signal/internal.py:8-40. *)
Definition wf (t : tensor) : Prop := length (data t) = prodn (shape t).

(** Row-major position of a multi-index, language level, used for torch tensors, e.g. signal/internal.py:8-40. *)
Fixpoint ravel (sh idx : list nat) : nat :=
  match sh, idx with
  | _ :: sh', i :: idx' => (i * prodn sh' + ravel sh' idx')%nat
  | _, _ => 0%nat
  end.

(** [t[i0, i1, ...]], language level, used for torch tensors, e.g. signal/internal.py:8-40. *)
Definition tget (t : tensor) (idx : list nat) : R := nth (ravel (shape t) idx) (data t) 0.

(** ** Boolean comparisons on reals *)

(** language level, used for comparisons such as models/room.py:30-57. *)
Definition Rleb (x y : R) : bool := if Rle_dec x y then true else false.
(** language level, used for comparisons such as models/room.py:30-57. *)
Definition Rltb (x y : R) : bool := if Rlt_dec x y then true else false.
(** language level, used for comparisons such as models/room.py:30-57. *)
Definition Reqb (x y : R) : bool := if Req_EM_T x y then true else false.

(** [math.floor] / [torch.floor] and [math.ceil] / [torch.ceil] on exact reals, language level, used for rounding such as sim/ism/accumulate.py:39, 71. *)
Definition floorZ (x : R) : Z := (up x - 1)%Z.
(** language level, used for rounding such as sim/ism/accumulate.py:39, 71. *)
Definition ceilZ (x : R) : Z := (- floorZ (- x))%Z.
(** Truncation toward zero: [int(x)], [.to(torch.long)], language level, used for rounding such as sim/ism/accumulate.py:39, 71. *)
Definition truncZ (x : R) : Z := if Rle_dec 0 x then floorZ x else ceilZ x.

(** ** Lists *)

(** [out[i] = f(out[i])], language level, used for item assignment such as signal/dynamic.py:94. *)
Fixpoint upd_nth {A} (i : nat) (f : A -> A) (l : list A) : list A :=
  match l, i with
  | [], _ => []
  | x :: l', O => f x :: l'
  | x :: l', S i' => x :: upd_nth i' f l'
  end.

(** language level, used for elementwise operations such as signal/dynamic.py:94. *)
Definition map2 {A B C} (f : A -> B -> C) (l1 : list A) (l2 : list B) : list C :=
  map (fun p => f (fst p) (snd p)) (combine l1 l2).

(** Elements [0 .. n-1] of a function, language level, used for tensor construction such as sim/ism/api.py:94. *)
Definition tabulate {A} (n : nat) (f : nat -> A) : list A := map f (seq 0 n).
