(** Model of the projection exports and of the time axes of the time plots (dynaphopy/__init__.py:648-694, 943-982).
    Exact reals.  np.savetxt is modelled by the numbers it prints; the text around them is fixed. *)
From Verif Require Export Rounding.
From Coq Require Export Reals List ZArith.
From Coquelicot Require Export Complex.
Export ListNotations.
Open Scope R_scope.

(** One number printed by the format %+.8e: sign, the nine digits read as an integer, decimal exponent *)
Record printed := MkP { p_neg : bool; p_digits : Z; p_exp : Z }.
(** the decimal exponent of |x| *)
Definition exponent (x : R) : Z := rfloor (ln (Rabs x) / ln 10).
(** %+.8e: the digits are rounded to nearest, ties to even; nine nines round up to the next power of ten *)
Definition print8 (x : R) : printed :=
  if Req_EM_T x 0 then MkP false 0 0 else
  let e := exponent x in
  let m := around (Rabs x / powerRZ 10 (e - 8)) in
  let neg := if Rlt_dec x 0 then true else false in
  if (m =? 10 ^ 9)%Z then MkP neg (10 ^ 8) (e + 1) else MkP neg m e.

(** a line of the file: the pairs %+.8e%+.8ej, one per column *)
Definition line := list (printed * printed).
(** np.savetxt(file, array, fmt = '%+.8e%+.8ej    ' * k) for a complex array of [columns] columns; None: ValueError, the number of
    formats is not twice the number of columns *)
Definition savetxt (k rows columns : nat) (a : nat -> nat -> C) : option (list line) :=
  if Nat.eqb (2 * k) (2 * columns) then Some (map (fun t => map (fun c => (print8 (fst (a t c)), print8 (snd (a t c)))) (seq 0 columns)) (seq 0 rows)) else None.

(** what is left of the file: unchanged, or new contents *)
Inductive result := Written (l : list line) | Refused (* Exception before the file is opened *) | FormatError.
Definition of_savetxt (r : option (list line)) : result := match r with Some l => Written l | None => FormatError end.
(** dynaphopy/__init__.py:683-688 save_vc; vc is indexed [step][atom][coordinate]; the atom number is any Python integer *)
Definition save_vc (steps atoms ndim : nat) (vc : nat -> nat -> nat -> C) (atom : Z) : result :=
  if ((0 <? atom) && (atom <=? Z.of_nat atoms))%Z%bool then of_savetxt (savetxt 3 steps ndim (fun t c => vc t (Z.to_nat (atom - 1)) c)) else Refused.
(** dynaphopy/__init__.py:690-694 save_vq; vq is indexed [step][mode] *)
Definition save_vq (steps modes : nat) (vq : nat -> nat -> C) : result := of_savetxt (savetxt modes steps modes vq).

(** np.linspace(start, stop, num) *)
Definition linspace (start stop : R) (num : nat) : list R :=
  match num with O => [] | S O => [start] | _ => map (fun k => start + INR k * ((stop - start) / INR (num - 1))) (seq 0 num) end.
(** dynaphopy/__init__.py:655-656, 668-669, 948-949, 965-966: the abscissae of plot_vq, plot_vc, plot_trajectory and plot_velocity for [n] frames and average time step [dt] *)
Definition time_axis (n : nat) (dt : R) : list R := linspace 0 (INR n * dt) n.
(** index into an array axis of [len] entries; negative numbers count from the end; None: IndexError *)
Definition py_index (len : nat) (i : Z) : option nat :=
  if ((0 <=? i) && (i <? Z.of_nat len))%Z%bool then Some (Z.to_nat i)
  else if ((- Z.of_nat len <=? i) && (i <? 0))%Z%bool then Some (Z.to_nat (i + Z.of_nat len)) else None.
(** dynaphopy/__init__.py:648-661 plot_vq: one curve (points (time, value)) per mode; [if not modes: modes = [0]] *)
Fixpoint curves (f : Z -> option (list (R * R))) (l : list Z) : option (list (list (R * R))) :=
  match l with [] => Some [] | i :: l => match f i, curves f l with Some c, Some r => Some (c :: r) | _, _ => None end end.
Definition plot_vq (steps modes : nat) (dt : R) (vq : nat -> nat -> C) (wanted : list Z) : option (list (list (R * R))) :=
  let wanted := match wanted with [] => [0%Z] | l => l end in
  curves (fun i => option_map (fun m => combine (time_axis steps dt) (map (fun t => fst (vq t m)) (seq 0 steps))) (py_index modes i)) wanted.
(** dynaphopy/__init__.py:663-681 plot_vc, and 943-976 plot_trajectory, plot_velocity (same loops over atoms and coordinates; simplified: plot_trajectory draws nothing for empty lists, 944-945) *)
Definition plot_vc (steps atoms ndim : nat) (dt : R) (vc : nat -> nat -> nat -> C) (wanted : list Z) (coordinates : list Z) : option (list (list (R * R))) :=
  let wanted := match wanted with [] => [0%Z] | l => l end in
  let coordinates := match coordinates with [] => [0%Z] | l => l end in
  option_map (@concat _)
   ((fix go (l : list Z) := match l with
     | [] => Some []
     | a :: l => match curves (fun k => match py_index atoms a, py_index ndim k with
                    | Some a, Some k => Some (combine (time_axis steps dt) (map (fun t => fst (vc t a k)) (seq 0 steps))) | _, _ => None end) coordinates, go l with
                 | Some c, Some r => Some (c :: r) | _, _ => None end
     end) wanted).
(** dynaphopy/__init__.py:978-982 plot_energy: the recorded times *)
Definition plot_energy (times energy : list R) : list (R * R) := combine times energy.
