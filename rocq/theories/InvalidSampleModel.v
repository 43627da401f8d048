(** c/correlation.c over an arbitrary arithmetic, complex product and conjugate, to be run with the exact complex numbers (the model
    CorrelationModel) and with IEEE doubles.  c/mem.c is in MemFloatModel. *)
From Verif Require Export CMem MemFloatModel.
From Coq Require Import ZArith List.

Section Generic.
Context {T : Type} (A : arith T).
(** complex product and conj of the platform *)
Context (times : T * T -> T * T -> T * T) (conj : T * T -> T * T).
(** [phase m] is what cexp(_Cbuild(Frequency * (m * TimeStep), 1)) returns, [phase' m] what cexp(_Cbuild(Frequency * m, 1)) returns *)
Context (phase phase' : Z -> T * T).
(** Velocity[k]: [None] outside the buffer *)
Definition g_vread (v : list (T * T)) (k : Z) : option (T * T) := if (0 <=? k)%Z then nth_error v (Z.to_nat k) else None.
(** conj(Velocity[j]) * Velocity[k] * cexp(...) *)
Definition g_term (v : list (T * T)) (j k : Z) (e : T * T) : option (T * T) :=
  bind (g_vread v j) (fun a => bind (g_vread v k) (fun b => Some (times (times (conj a) b) e))).
(** _Cbuild(creal(x) + creal(y), cimag(x) + cimag(y)) *)
Definition g_plus (x y : T * T) : T * T := (add A (fst x) (fst y), add A (snd x) (snd y)).
(** c/correlation.c:157-175; [method] true is case 1, rectangular *)
Definition g_inner (v : list (T * T)) (inc : Z) (method : bool) (i j : Z) (acc : T * T) : option (T * T) :=
  bind (g_term v j (j + i) (phase i)) (fun ci =>
  let acc := g_plus acc ci in
  if method
  then bind (g_term v j (j + i) (phase i)) (fun ci => Some (g_plus acc ci))
  else bind (g_term v j (j + i + inc) (phase (i + inc))) (fun ci =>
       bind (g_term v j (j + i) (phase' (i + inc))) (fun cj => Some (g_plus (g_plus acc ci) cj)))).
Inductive g_loop := GFinished (c : T * T) | GUndefined | GRunning.
(** c/correlation.c:156 *)
Fixpoint g_outer (fuel : nat) (v : list (T * T)) (inc : Z) (method : bool) (i : Z) (acc : T * T) : g_loop :=
  match fuel with
  | O => GRunning
  | S f =>
    if (i <? Z.of_nat (length v))%Z then
      match for_ 0 (Z.to_nat (Z.of_nat (length v) - i - inc)) (fun j => g_inner v inc method i (Z.of_nat j)) acc with
      | None => GUndefined
      | Some acc' => g_outer f v inc method (i + inc) acc'
      end
    else GFinished acc
  end.
(** c/correlation.c:153-178 EvaluateCorrelation: creal(Correl) * TimeStep / (NumberOfData/Increment); [None]: undefined behaviour or more
    than [fuel] iterations *)
Definition g_correlation (fuel : nat) (v : list (T * T)) (dt : T) (inc : Z) (method : bool) : option T :=
  match g_outer fuel v inc method 0 (zero A, zero A) with
  | GFinished c => Some (div A (mul A (fst c) dt) (of_int A (Z.to_nat (Z.quot (Z.of_nat (length v)) inc))))
  | _ => None
  end.
End Generic.
Arguments GFinished {T}. Arguments GUndefined {T}. Arguments GRunning {T}.

(** double _Complex product of C99 annex G (gcc's __muldc3): the plain product, and when both parts come out NaN possibly infinity times
    something ([rescue] decides and gives the factors). *)
Definition is_nan64 (x : float64) : bool := is_nan x.
Definition infinity64 : float64 := B754_infinity false.
Definition complex_times (rescue : float64 * float64 -> float64 * float64 -> option (float64 * float64)) (x y : float64 * float64) : float64 * float64 :=
  let p := g_times ieee x y in
  if andb (is_nan64 (fst p)) (is_nan64 (snd p)) then
    match rescue x y with Some r => (mul ieee infinity64 (fst r), mul ieee infinity64 (snd r)) | None => p end
  else p.
(** conj flips the sign bit of the imaginary part *)
Definition complex_conj (x : float64 * float64) : float64 * float64 := (fst x, Bopp (snd x)).
