(** Model of c/correlation.c.  double is R, double _Complex is Coquelicot's C = R*R, int is Z
    (no overflow). *)
From Verif Require Export CMem.
From Coq Require Export Reals.
From Coquelicot Require Export Complex.
Open Scope R_scope.

(** cexp *)
Definition cexp (z : C) : C := (exp (fst z) * cos (snd z), exp (fst z) * sin (snd z)).
(** c/correlation.c:23-25: _Cbuild(real, imag) *)
Definition Cbuild (re im : R) : C := (re, im).

(** Velocity[k]: [None] outside the buffer *)
Definition vread (v : list C) (k : Z) : option C := if (0 <=? k)%Z then nth_error v (Z.to_nat k) else None.

(** conj(Velocity[j]) * Velocity[k] * cexp(_Cbuild(x, 1)) *)
Definition corr_term (v : list C) (j k : Z) (x : R) : option C :=
  bind (vread v j) (fun a => bind (vread v k) (fun b => Some (Cmult (Cmult (Cconj a) b) (cexp (Cbuild x 1))))).

(** c/correlation.c:157-175: body of the inner loop; IntMethod 0 or 1 *)
Definition corr_inner (v : list C) (freq dt : R) (inc : Z) (method : bool) (i j : Z) (acc : C) : option C :=
  bind (corr_term v j (j + i) (freq * (IZR i * dt))) (fun ci =>
  let acc := Cplus acc ci in
  if method (* case 1: rectangular *)
  then bind (corr_term v j (j + i) (freq * (IZR i * dt))) (fun ci => Some (Cplus acc ci))
  else bind (corr_term v j (j + i + inc) (freq * (IZR (i + inc) * dt))) (fun ci =>
       bind (corr_term v j (j + i) (freq * IZR (i + inc))) (fun cj => Some (Cplus (Cplus acc ci) cj)))).

Inductive loop_result := Finished (c : C) | Undefined | Running.
(** c/correlation.c:156: for (i = 0; i < NumberOfData; i += Increment), [fuel] iterations at most *)
Fixpoint corr_outer (fuel : nat) (v : list C) (freq dt : R) (inc : Z) (method : bool) (i : Z) (acc : C) : loop_result :=
  match fuel with
  | O => Running
  | S f =>
    if (i <? Z.of_nat (length v))%Z then
      match for_ 0 (Z.to_nat (Z.of_nat (length v) - i - inc)) (fun j => corr_inner v freq dt inc method i (Z.of_nat j)) acc with
      | None => Undefined
      | Some acc' => corr_outer f v freq dt inc method (i + inc) acc'
      end
    else Finished acc
  end.

Inductive corr_result := Number (x : R) | NotANumber | UB | StillRunning.
(** c/correlation.c:153-178 EvaluateCorrelation.  NumberOfData/Increment is an integer division;
    when it is 0 the inner loops were empty and 0.0/0 is NaN (division by Increment = 0 is never
    reached). *)
Definition EvaluateCorrelation (fuel : nat) (freq : R) (v : list C) (dt : R) (inc : Z) (method : bool) : corr_result :=
  match corr_outer fuel v freq dt inc method 0 (RtoC 0) with
  | Running => StillRunning
  | Undefined => UB
  | Finished c =>
    let q := Z.quot (Z.of_nat (length v)) inc in
    if (q =? 0)%Z then NotANumber else Number (Re c * dt / IZR q)
  end.

(** c/correlation.c:100-150 correlation_par: one cell per frequency; see CMem for the parallel loop *)
Definition correlation_par (fuel : nat) (freqs : list R) (v : list C) (dt : R) (inc : Z) (method : bool) : list corr_result :=
  map (fun f => EvaluateCorrelation fuel (f * 2 * PI) v dt inc method) freqs.
