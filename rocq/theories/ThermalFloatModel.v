(** dynaphopy/analysis/thermal_properties.py in IEEE binary64 doubles, where exp, sinh and cosh overflow (ThermalModel is the same
    code in exact arithmetic).  numpy's scalar operations are the correctly rounded ones of MemFloatModel.ieee, to nearest even;
    exp, sinh, cosh and log are the C library's, here arbitrary functions on doubles about which the theorems assume only where they overflow.
    Simplified: pow(x, -1) is 1/x and pow(x, 2) is x*x; the warnings (raised and filtered out, lines 15) are not modelled; scipy's simps is an arbitrary
    function on lists of doubles; a dos shorter than the frequencies (an IndexError) is left out, as in ThermalModel. *)
From Verif Require Import MemFloatModel.
From Flocq Require Import Core BinarySingleNaN.
From Coq Require Import Reals ZArith List.
Import ListNotations.

Record libm := MkLibm { exp64 : float64 -> float64; sinh64 : float64 -> float64; cosh64 : float64 -> float64; log64 : float64 -> float64 }.

Notation infinity := (B754_infinity false : float64).
(** the literals 6.022140857e23, 1.38064852e-23, 6.626070040e-22 (thermal_properties.py:11-13), 0.5, 1000 and the largest double *)
Definition Na64 : float64 := literal 8973689164221287 26.
Definition k64 : float64 := literal 4698103462714906 (-128).
Definition h64 : float64 := literal 7046046239359742 (-123).
Definition half64 : float64 := literal 1 (-1).
Definition thousand64 : float64 := literal 1000 0.
Definition max64 : float64 := literal 9007199254740991 971.

(** np.nan_to_num: nan to 0, the infinities to the largest doubles *)
Definition nan_to_num (x : float64) : float64 :=
  match x with
  | B754_nan => literal 0 0
  | B754_infinity s => if s then Bopp max64 else max64
  | _ => x
  end.

(** ---------- the summands over an arbitrary arithmetic (to be run with doubles and with the exact reals) ---------- *)
Record kernels (T : Type) := MkKernels { c_exp : T -> T; c_sinh : T -> T; c_cosh : T -> T; c_log : T -> T; c_h : T; c_k : T; c_half : T }.
Arguments MkKernels {T}. Arguments c_exp {T}. Arguments c_sinh {T}. Arguments c_cosh {T}. Arguments c_log {T}. Arguments c_h {T}. Arguments c_k {T}. Arguments c_half {T}.
Section Generic.
Context {T : Type} (A : arith T) (K : kernels T).
Local Notation "x *! y" := (mul A x y) (at level 40, left associativity).
Local Notation "x /! y" := (div A x y) (at level 40, left associativity).
Local Notation "x +! y" := (add A x y) (at level 50, left associativity).
Local Notation "x -! y" := (sub A x y) (at level 50, left associativity).
Local Notation h := (c_h K). Local Notation k := (c_k K). Local Notation half := (c_half K).
(** dynaphopy/analysis/thermal_properties.py:41-42 n(temp, freq) = pow(np.exp(freq*h_bar/(k_b*temp))-1, -1) *)
Definition g_n (temp freq : T) : T := one A /! (c_exp K (freq *! h /! (k *! temp)) -! one A).
(** dynaphopy/analysis/thermal_properties.py:44 dos[i] * h_bar * freq * (0.5 + n(temperature, freq)) *)
Definition g_energy (temp freq dos : T) : T := dos *! h *! freq *! (half +! g_n temp freq).
(** dynaphopy/analysis/thermal_properties.py:53, 94-95: h_bar * freq / (2 * k_b * temperature) *)
Definition g_x (temp freq : T) : T := h *! freq /! (two A *! k *! temp).
(** dynaphopy/analysis/thermal_properties.py:53 dos[i] * k_b * temperature * np.log(2 * np.sinh(...)) *)
Definition g_free (temp freq dos : T) : T := dos *! k *! temp *! c_log K (two A *! c_sinh K (g_x temp freq)).
(** dynaphopy/analysis/thermal_properties.py:91-92 coth *)
Definition g_coth (x : T) : T := c_cosh K x /! c_sinh K x.
(** dynaphopy/analysis/thermal_properties.py:94-95 dos[i]*(1.0 / (2. * temperature) * h_bar * freq * coth(...) - k_b * np.log(2 * np.sinh(...))) *)
Definition g_entropy (temp freq dos : T) : T :=
  dos *! (one A /! (two A *! temp) *! h *! freq *! g_coth (g_x temp freq) -! k *! c_log K (two A *! c_sinh K (g_x temp freq))).
(** dynaphopy/analysis/thermal_properties.py:116-117 z *)
Definition g_z (temp freq : T) : T := h *! freq /! (k *! temp).
(** dynaphopy/analysis/thermal_properties.py:119 dos[i] * k_b * pow(z, 2) * np.exp(z) / pow(np.exp(z) - 1, 2) *)
Definition g_cv (temp freq dos : T) : T :=
  let z := g_z temp freq in let e := c_exp K z -! one A in
  dos *! k *! (z *! z) *! c_exp K z /! (e *! e).
End Generic.

(** in doubles: the code *)
Section Kernels.
Context (L : libm).
Definition kernels64 : kernels float64 := MkKernels (exp64 L) (sinh64 L) (cosh64 L) (log64 L) h64 k64 half64.
(** dynaphopy/analysis/thermal_properties.py:44 *)
Definition energy64 : float64 -> float64 -> float64 -> float64 := g_energy ieee kernels64.
(** dynaphopy/analysis/thermal_properties.py:53 *)
Definition free64 : float64 -> float64 -> float64 -> float64 := g_free ieee kernels64.
(** dynaphopy/analysis/thermal_properties.py:94-95 *)
Definition entropy64 : float64 -> float64 -> float64 -> float64 := g_entropy ieee kernels64.
(** dynaphopy/analysis/thermal_properties.py:119 *)
Definition cv64 : float64 -> float64 -> float64 -> float64 := g_cv ieee kernels64.

(** np.nan_to_num([term for i, freq in enumerate(frequency)]): thermal_properties.py:44, 53, 94, 119 *)
Definition samples64 (term : float64 -> float64 -> float64 -> float64) (temp : float64) (frequency dos : list float64) : list float64 :=
  map (fun p => nan_to_num (term temp (fst p) (snd p))) (combine frequency dos).
(** thermal_properties.py:56 free_energy[0] = 0 (an IndexError on an empty list: left out) *)
Definition zero_first64 (l : list float64) : list float64 := match l with [] => [] | _ :: t => literal 0 0 :: t end.

Context (simps64 : list float64 -> list float64 -> float64).
(** thermal_properties.py:39-48 *)
Definition get_total_energy64 (temp : float64) (frequency dos : list float64) : float64 :=
  div ieee (mul ieee (simps64 (samples64 energy64 temp frequency dos) frequency) Na64) thousand64.
(** thermal_properties.py:51-58 *)
Definition get_free_energy64 (temp : float64) (frequency dos : list float64) : float64 :=
  div ieee (mul ieee (simps64 (zero_first64 (samples64 free64 temp frequency dos)) frequency) Na64) thousand64.
(** thermal_properties.py:89-98 *)
Definition get_entropy64 (temp : float64) (frequency dos : list float64) : float64 :=
  mul ieee (simps64 (samples64 entropy64 temp frequency dos) frequency) Na64.
(** thermal_properties.py:112-122 *)
Definition get_cv64 (temp : float64) (frequency dos : list float64) : float64 :=
  mul ieee (simps64 (samples64 cv64 temp frequency dos) frequency) Na64.
End Kernels.
