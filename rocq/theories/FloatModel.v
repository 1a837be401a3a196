(** Floating-point rounding used where it decides an index (Flocq).

    Python floats and torch.float64 are binary64, torch.float32 is binary32; every
    elementary operation is the exact real result rounded to nearest, ties to even.
    Simplification: overflow to infinity is not modelled (all uses stay far below). *)
From Coq Require Import ZArith Reals.
From Flocq Require Import Core.
From Verif Require Import Prelude.
Local Open Scope R_scope.

(** IEEE binary64 (Python float): precision 53, minimal exponent -1074. *)
Definition fexp64 : Z -> Z := FLT_exp (-1074) 53.
(** IEEE binary32 (torch.float32): precision 24, minimal exponent -149. *)
Definition fexp32 : Z -> Z := FLT_exp (-149) 24.

(** Python floats, e.g. geometry/sampling.py:22-25. *)
Definition rnd64 (x : R) : R := round radix2 fexp64 ZnearestE x.
(** float32 tensors, e.g. geometry/sampling.py:27, sim/ism/accumulate.py:39-40. *)
Definition rnd32 (x : R) : R := round radix2 fexp32 ZnearestE x.
