(** Model of the caches of dynaphopy/__init__.py under failures: the statements of
    get_power_spectrum_full (781-831), get_power_spectrum_partials (833-854), get_power_spectrum_phonon
    without symmetry (721-746) and get_temperature (1086-1092), one statement at a time, each of which may be
    the last one executed.
    Simplifications: no projection onto an atom type or coordinate (FullSpectrumModel has it); the phonon
    projection get_vq() is given by its columns; the value of the temperature fit is a parameter. *)
From Verif Require Export FullSpectrumModel.
From Coq Require Export Bool.

Section Model.
Context (col : Type) (nf : nat) (power : col -> list R).
(** When things go wrong: [fails t], the analysis routine called at time t raises (exit() of
    dynaphopy/power_spectrum/__init__.py:85-87, ImportError of 277/322/369, MemoryError, ...); [interrupts t], the
    user interrupts the program just before the assignment made at time t. *)
Context (fails interrupts : nat -> bool).

(** a numpy array of one or two axes *)
Inductive array := Vec (l : list R) | Mat (m : list (list R)).
Inductive answer := Spectrum (a : array) | Temp (t : R).
Record st := MkSt { silent : bool; direct : option array; partials : option (list (list R)); phonon : option (list (list R));
  temperature : option R; clock : nat }.
Definition fresh (sil : bool) : st := MkSt sil None None None None 0.
Definition tick (s : st) : st := MkSt (silent s) (direct s) (partials s) (phonon s) (temperature s) (S (clock s)).
Definition put_silent b s := MkSt b (direct s) (partials s) (phonon s) (temperature s) (clock s).
Definition put_direct x s := MkSt (silent s) (Some x) (partials s) (phonon s) (temperature s) (clock s).
Definition put_partials x s := MkSt (silent s) (direct s) (Some x) (phonon s) (temperature s) (clock s).
Definition put_phonon x s := MkSt (silent s) (direct s) (partials s) (Some x) (temperature s) (clock s).
Definition put_temperature x s := MkSt (silent s) (direct s) (partials s) (phonon s) (Some x) (clock s).

Definition M (A : Type) := st -> option A * st.
Definition ret {A} (a : A) : M A := fun s => (Some a, s).
Definition raise {A} : M A := fun s => (None, s).
Definition bind {A B} (m : M A) (f : A -> M B) : M B := fun s => match m s with (Some a, s') => f a s' | (None, s') => (None, s') end.
Definition gets {A} (f : st -> A) : M A := fun s => (Some (f s), s).
(** a call of an analysis routine *)
Definition kernel {A} (x : A) : M A := fun s => (if fails (clock s) then None else Some x, tick s).
(** an assignment to an attribute *)
Definition assign (f : st -> st) : M unit := fun s => if interrupts (clock s) then (None, tick s) else (Some tt, tick (f s)).
Fixpoint for_each {A} (f : A -> M unit) (l : list A) : M unit := match l with [] => ret tt | a :: l => bind (f a) (fun _ => for_each f l) end.

(** __init__.py:815-820 self._power_spectrum_direct += spectrum of one column *)
Definition add_direct (m : list (list R)) (s : st) : st :=
  match direct s with Some (Mat d) => put_direct (Mat (add_matrix d m)) s | _ => s end.
(** __init__.py:830 self._power_spectrum_direct = np.sum(self._power_spectrum_direct, axis=1) *)
Definition sum_direct (s : st) : st := match direct s with Some (Mat d) => put_direct (Vec (sum_axis1 d)) s | _ => s end.
Definition add_partials (m : list (list R)) (s : st) : st :=
  match partials s with Some d => put_partials (add_matrix d m) s | _ => s end.
Definition cached {A} (c : option A) : M A := match c with Some x => ret x | None => raise end.

(** __init__.py:781-831 get_power_spectrum_full *)
Definition get_full (v : varray col) : M array :=
  bind (gets direct) (fun c => match c with Some x => ret x | None =>
  bind (gets silent) (fun sil : bool =>
  bind (if sil then
          bind (assign (put_direct (Mat (repeat [0] nf)))) (fun _ =>
          for_each (fun ij => bind (kernel (spectra col nf power [at_ v (fst ij) (snd ij)])) (fun x => assign (add_direct x)))
                   (list_prod (seq 0 (natoms v)) (seq 0 (ndims v))))
        else bind (kernel (spectra col nf power (reshaped col v))) (fun x => assign (put_direct (Mat x)))) (fun _ =>
  bind (assign sum_direct) (fun _ => bind (gets direct) cached))) end).
(** v[:, :, j]; IndexError unless j is a coordinate *)
Definition coordinate (v : varray col) (j : nat) : M (list col) :=
  if (j <? ndims v)%nat then ret (map (fun i => at_ v i j) (seq 0 (natoms v))) else raise.
(** __init__.py:833-854 get_power_spectrum_partials *)
Definition get_partials (v : varray col) : M (list (list R)) :=
  bind (gets partials) (fun c => match c with Some x => ret x | None =>
  bind (bind (coordinate v 0) (fun cols => bind (kernel (spectra col nf power cols)) (fun x => assign (put_partials x)))) (fun _ =>
  bind (for_each (fun j => bind (coordinate v j) (fun cols => bind (kernel (spectra col nf power cols)) (fun x => assign (add_partials x)))) [1; 2]%nat) (fun _ =>
  bind (gets partials) cached)) end).
(** __init__.py:721-746 get_power_spectrum_phonon, use_symmetry off *)
Definition get_phonon (vq : list col) : M (list (list R)) :=
  bind (gets phonon) (fun c => match c with Some x => ret x | None =>
  bind (kernel (spectra col nf power vq)) (fun x => bind (assign (put_phonon x)) (fun _ => ret x)) end).
(** __init__.py:1086-1092 get_temperature ("not x" also holds for 0) *)
Definition get_temp (fit : R) : M R :=
  bind (gets temperature) (fun c =>
  match match c with Some t => if Req_EM_T t 0 then None else Some t | None => None end with Some t => ret t | None =>
  bind (gets silent) (fun save =>
  bind (assign (put_silent true)) (fun _ =>
  bind (kernel fit) (fun t =>
  bind (assign (put_temperature t)) (fun _ =>
  bind (assign (put_silent save)) (fun _ => bind (gets temperature) cached))))) end).

Inductive request := Full | Partials | Phonon | Temperature.
Definition ask (v : varray col) (vq : list col) (fit : R) (r : request) : M answer :=
  match r with
  | Full => bind (get_full v) (fun a => ret (Spectrum a))
  | Partials => bind (get_partials v) (fun m => ret (Spectrum (Mat m)))
  | Phonon => bind (get_phonon vq) (fun m => ret (Spectrum (Mat m)))
  | Temperature => bind (get_temp fit) (fun t => ret (Temp t))
  end.
(** a session: requests one after the other, failed ones included *)
Definition session (v : varray col) (vq : list col) (fit : R) (h : list request) (s : st) : st :=
  fold_left (fun s r => snd (ask v vq fit r s)) h s.
End Model.
