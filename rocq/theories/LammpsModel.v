(** Model of the in-memory LAMMPS runs of dynaphopy/interface/lammps_link.py: the commands sent, the samples taken and the
    trajectory returned.  LAMMPS itself is a parameter: what one MD step does, what replicating and creating velocities does,
    and what can be read out of it. *)
From Coq Require Import Ascii.
From Verif Require Export OutputModel ArithModel.
Open Scope Z_scope.

(** what a fix of the LAMMPS script does: the thermostat the program itself sets ([Nvt] start stop damping), or some other
    style, which moves the atoms ([Other _ true]: nve, npt, langevin runs, ...) or does not *)
Inductive style (N : Type) := Nvt (start stop damping : N) | Other (name : string) (moves : bool).
Arguments Nvt {N}. Arguments Other {N}.
Record fix_ (N : Type) := Fix { fix_id : string; fix_style : style N }.
Arguments Fix {N}. Arguments fix_id {N}. Arguments fix_style {N}.
(** the box of LAMMPS: limits and tilt factors *)
Record lbox := Box { xlo : R; xhi : R; ylo : R; yhi : R; zlo : R; zhi : R; xy : R; xz : R; yz : R }.
(** dynaphopy/interface/lammps_link.py:8-20: the arguments (the log, the progress bar and memmap are left out) *)
Record request (N : Type) := Request { total_time : N; time_step : N; relaxation_time : N; supercell : nat * nat * nat;
  velocity_only : bool; temperature : option N; thermostat_mass : N; sampling_interval : Z }.
Arguments Request {N}. Arguments total_time {N}. Arguments time_step {N}. Arguments relaxation_time {N}. Arguments supercell {N}.
Arguments velocity_only {N}. Arguments temperature {N}. Arguments thermostat_mass {N}. Arguments sampling_interval {N}.
(** dynaphopy/interface/lammps_link.py:149-155: what the Dynamics object is made of *)
Record md_result (N : Type) := MdResult { md_time : list N; md_positions : option (list (list vec)); md_velocity : list (list vec);
  md_energy : list R; md_cell : mat }.
Arguments MdResult {N}. Arguments md_time {N}. Arguments md_positions {N}. Arguments md_velocity {N}. Arguments md_energy {N}. Arguments md_cell {N}.

Section Run.
Context (A : arith) {S : Type}.
Context (advance : num A -> list (fix_ (num A)) -> S -> S)   (* one MD step of the given length under the given fixes *)
        (atoms : S -> list (nat * (vec * vec)))              (* in internal order: id, (position, velocity) *)
        (pe : S -> R) (box : S -> lbox)
        (replicate : nat * nat * nat -> S -> S)
        (create scale : num A -> S -> S)                     (* velocity all create/scale *)
        (arrange : list vec -> list nat).                    (* argsort(get_correct_arrangement(reference, structure)) *)

(** a LAMMPS instance: its system, its fixes in order and its time step *)
Record lmp := Lmp { sys : S; fixes : list (fix_ (num A)); dt : num A }.
(** the LAMMPS command "timestep x" *)
Definition c_timestep (x : num A) (l : lmp) := Lmp (sys l) (fixes l) x.
(** the LAMMPS command "fix ID all nvt temp t t m": a fix of the same name is replaced if it has the same style, and is an
    error otherwise *)
Fixpoint put_fix (f : fix_ (num A)) (fs : list (fix_ (num A))) : option (list (fix_ (num A))) :=
  match fs with
  | [] => Some [f]
  | g :: fs => if String.eqb (fix_id g) (fix_id f)
               then match fix_style g with Nvt _ _ _ => Some (f :: fs) | Other _ _ => None end
               else option_map (cons g) (put_fix f fs)
  end.
(** the LAMMPS command "run n" (the set-up at the beginning of each run is left out); a negative n is an error *)
Definition c_run (n : Z) (l : lmp) : option lmp :=
  if n <? 0 then None else Some (Lmp (Nat.iter (Z.to_nat n) (advance (dt l) (fixes l)) (sys l)) (fixes l) (dt l)).

(** dynaphopy/interface/lammps_link.py:33-38 *)
Definition force_temperature (q : request (num A)) (l : lmp) : option lmp :=
  match temperature q with
  | None => Some l
  | Some t => option_map (fun fs => Lmp (sys l) fs (dt l)) (put_fix (Fix "int"%string (Nvt t t (thermostat_mass q))) (fixes l))
  end.
(** dynaphopy/interface/lammps_link.py:45: np.array(lmp.gather_atoms("v", 1, 3)).any() *)
Definition nonzero (x : R) : bool := if Req_EM_T x 0 then false else true.
Definition any_velocity (s : S) : bool :=
  existsb (fun a => let v := snd (snd a) in nonzero (vx v) || nonzero (vy v) || nonzero (vz v)) (atoms s).
(** dynaphopy/interface/lammps_link.py:44-49 *)
Definition initial_velocities (q : request (num A)) (l : lmp) : lmp :=
  if any_velocity (sys l) then l
  else let t := match temperature q with Some t => t | None => of_int 100 end in
       Lmp (scale t (create t (sys l))) (fixes l) (dt l).
(** dynaphopy/interface/lammps_link.py:60-89 (the three ways of asking for the box give the same numbers) *)
Definition simulation_cell (b : lbox) : mat :=
  mT (M3 (V3 (xhi b - xlo b) (xy b) (xz b)) (V3 0 (yhi b - ylo b) (yz b)) (V3 0 0 (zhi b - zlo b)))%R.
Definition position_snapshot (s : S) : list (nat * vec) := map (fun a => (fst a, fst (snd a))) (atoms s).
Definition velocity_snapshot (s : S) : list (nat * vec) := map (fun a => (fst a, snd (snd a))) (atoms s).
Definition vzero : vec := V3 0 0 0.
(** dynaphopy/interface/lammps_link.py:119-134: one turn of the loop *)
Definition sample (indexing : list nat) (s : S) : R * list vec * list vec :=
  (pe s, frame vzero indexing (velocity_snapshot s), frame vzero indexing (position_snapshot s)).
(** dynaphopy/interface/lammps_link.py:115-134 *)
Fixpoint loop (n : nat) (interval : Z) (indexing : list nat) (l : lmp) : option (list (R * list vec * list vec)) :=
  match n with
  | O => Some []
  | Datatypes.S n => obind (c_run interval l) (fun l => option_map (cons (sample indexing (sys l))) (loop n interval indexing l))
  end.
(** dynaphopy/interface/lammps_link.py:26-155 generate_lammps_trajectory, from the state [l] LAMMPS is in after reading the
    script.  None: no trajectory (an error of LAMMPS, fewer than two atoms, or a division by zero: in the exact arithmetic
    only the one by the sampling interval is caught here). *)
Definition generate (q : request (num A)) (l : lmp) : option (md_result (num A)) :=
  let l := c_timestep (time_step q) l in
  let l := Lmp (replicate (supercell q) (sys l)) (fixes l) (dt l) in
  obind (force_temperature q l) (fun l =>
  if (List.length (atoms (sys l)) <? 2)%nat then None else
  let l := initial_velocities q l in
  obind (c_run 0 l) (fun l =>
  let cell := simulation_cell (box (sys l)) in
  let indexing := arrange (gather vzero (position_snapshot (sys l))) in
  obind (trunc (div (relaxation_time q) (time_step q))) (fun relax =>
  obind (c_run relax l) (fun l =>
  if sampling_interval q =? 0 then None else
  obind (trunc (div (div (total_time q) (time_step q)) (of_int (sampling_interval q)))) (fun loops =>
  obind (loop (Z.to_nat loops) (sampling_interval q) indexing l) (fun samples =>
  Some (MdResult (map (fun i => mul (mul (of_int i) (time_step q)) (of_int (sampling_interval q))) (zrange loops))
                 (if velocity_only q then None else Some (map snd samples))
                 (map (fun x => snd (fst x)) samples) (map (fun x => fst (fst x)) samples) cell))))))).
End Run.
Arguments Lmp {A S}. Arguments sys {A S}. Arguments fixes {A S}. Arguments dt {A S}.
