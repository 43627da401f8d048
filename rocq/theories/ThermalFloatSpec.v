(** Vocabulary for C139, independent of the model: ranges of doubles and where the C library's functions overflow. *)
From Verif Require Import MemFloatModel ThermalFloatModel.
From Verif Require ThermalModel.
From Flocq Require Import Core BinarySingleNaN.
From Coq Require Import Reals ZArith.
Open Scope R_scope.

(** a finite double between two powers of two *)
Definition pw (a : float64) (m n : Z) : Prop := is_finite a = true /\ bpow radix2 m <= B2R a <= bpow radix2 n.
(** exp, sinh and cosh overflow from 711 on (ln of the largest double is 709.8, and 710.5 for twice it); the logarithm of infinity is infinity *)
Definition overflowing (L : libm) : Prop :=
  (forall x, is_finite x = true -> 711 <= B2R x -> exp64 L x = infinity /\ sinh64 L x = infinity /\ cosh64 L x = infinity) /\ log64 L infinity = infinity.
(** a temperature (K), a frequency (THz) and a density of states of any ordinary size, with h f above some 1437 k T *)
Definition cold (T f d : float64) : Prop := pw T (-60) 60 /\ pw f (-60) 60 /\ pw d (-60) 60 /\ 30 * B2R T <= B2R f.
(** the values at zero *)
Definition exact_at_zero (L : libm) : Prop :=
  exp64 L (literal 0 0) = literal 1 0 /\ sinh64 L (literal 0 0) = literal 0 0 /\ cosh64 L (literal 0 0) = literal 1 0 /\ log64 L (literal 0 0) = B754_infinity true.
(** real exp, sinh, cosh, log and the decimal constants *)
Definition exact_kernels : kernels R := MkKernels exp sinh cosh ln ThermalModel.h_bar ThermalModel.k_b (1 / 2).
