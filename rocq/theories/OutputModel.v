(** Model of the progress bar, of the curve files, of the script fitdata that reads them, of the anisotropic displacement
    parameters and of the atom order of in-memory LAMMPS runs. *)
From Verif Require Export Base Rounding.
From Coq Require Export Reals ZArith String List Lra Lia Bool Arith.
Export ListNotations.
Open Scope R_scope.

(** * Progress bar *)
(** the argument of _progress_bar: a Python int, a float (a real, an infinity or nan) or something else *)
Inductive pynum := PInt (z : Z) | PFloat (x : R) | PInf (positive : bool) | PNan | POther.
Inductive status := SNone | SError | SHalt | SDone.
(** dynaphopy/power_spectrum/__init__.py:12-30 _progress_bar: filled cells, empty cells, percentage shown and status.
    '#'*k is empty for negative k.  None: round(nan) raises ValueError.  The label and the terminal output are left out. *)
Definition progress_bar (p : pynum) : option (nat * nat * R * status) :=
  let draw (x : R) (s : status) :=
    let block := around (30 * x) in Some (Z.to_nat block, Z.to_nat (30 - block), x * 100, s) in
  let value (x : R) (s : status) :=
    let '(x, s) := if Rlt_dec x 0 then (0, SHalt) else (x, s) in
    let '(x, s) := if Rle_dec 1 x then (1, SDone) else (x, s) in draw x s in
  match p with
  | PInt z => value (IZR z) SNone
  | PFloat x => value x SNone
  | PInf true => draw 1 SDone
  | PInf false => draw 0 SHalt
  | PNan => None
  | POther => value 0 SError
  end.

(** * Curve files *)
Definition tab : string := String (Ascii.ascii_of_nat 9) EmptyString.
Definition newline : string := String (Ascii.ascii_of_nat 10) EmptyString.
Section Curves.
(** "{0:10.4f}".format and "{0:.10e}".format *)
Context (fmt_frequency fmt_value : R -> string).
Open Scope string_scope.
(** dynaphopy/interface/iofile/__init__.py:524-534 write_curve_to_file; None: IndexError when there are fewer frequencies than rows *)
Fixpoint write_rows (frequencies : list R) (rows : list (list R)) {struct rows} : option string :=
  match rows with
  | [] => Some ""
  | row :: rows =>
      match frequencies with
      | [] => None
      | f :: frequencies =>
          match write_rows frequencies rows with
          | Some rest => Some ((fmt_frequency f ++ tab) ++ fold_right (fun v s => (fmt_value v ++ tab) ++ s) "" row ++ newline ++ rest)
          | None => None
          end
      end
  end.
End Curves.

(** * fitdata *)
(** scripts/fitdata:62-83.  The file is its table of numbers.  Without -bi the first line is read to count the columns and the
    following loop starts at the second line; with -bi every line is read.  The result is the frequencies and one curve per band
    group.  None: a column that the table does not have (IndexError), no rows at all, or (without -bi) a single row:
    initial_data[:,0] of an empty array raises IndexError.  Rows all have the same number of columns (np.array of floats);
    negative column numbers, which numpy counts from the right, are left out. *)
Definition column (rows : list (list R)) (c : nat) : option (list R) :=
  if forallb (fun r => Nat.ltb c (List.length r)) rows then Some (map (fun r => nth c r 0) rows) else None.
Fixpoint add_lists (a b : list R) : list R := match a, b with x :: a, y :: b => (x + y) :: add_lists a b | _, _ => [] end.
Definition group_curve (rows : list (list R)) (group : list nat) : option (list R) :=
  fold_left (fun acc c => match acc, column rows c with
                          | Some a, Some col => Some (add_lists a (map (fun v => v / INR (List.length group)) col))
                          | _, _ => None end) group (Some (map (fun _ => 0) rows)).
Fixpoint collect {A} (l : list (option A)) : option (list A) :=
  match l with [] => Some [] | None :: _ => None | Some x :: l => match collect l with Some l => Some (x :: l) | None => None end end.
Definition fitdata (table : list (list R)) (bands : option (list (list nat))) : option (list R * list (list R)) :=
  let '(degeneracy, rows) := match bands with
                             | None => (map (fun i => [i]) (seq 1 (match table with r :: _ => List.length r - 1 | [] => 0 end)), tl table)
                             | Some b => (b, table) end in
  match rows with
  | [] => None
  | _ => match column rows 0, collect (map (group_curve rows) degeneracy) with
         | Some f, Some curves => Some (f, curves)
         | _, _ => None
         end
  end.

(** * Anisotropic displacement parameters *)
Inductive coordinate_type := Cart | Crys | Uvrs.
(** dynaphopy/__init__.py:1403-1417, one tensor of get_anisotropic_displacement_parameters.  [cell_inv] is
    np.linalg.inv(cell), exact; n is diagonal with positive entries, so its numpy inverse is the diagonal of reciprocals. *)
Definition adp (cell_inv u_cart : mat) (c : coordinate_type) : mat :=
  let t := mT cell_inv in
  let n_inv := mdiag (/ vnorm (r0 t)) (/ vnorm (r1 t)) (/ vnorm (r2 t)) in
  let u_crys := mmul (mmul t u_cart) cell_inv in
  let u_uvrs := mmul (mmul n_inv u_crys) (mT n_inv) in
  match c with Cart => u_cart | Crys => u_crys | Uvrs => u_uvrs end.
(** the numbers printed for one tensor (lines 1420-1428): U11 U22 U33 U23 U13 U12 *)
Definition adp_row (u : mat) : list R := [vx (r0 u); vy (r1 u); vz (r2 u); vz (r1 u); vz (r0 u); vy (r0 u)].

(** * In-memory LAMMPS runs *)
Section Lammps.
Context {X : Type} (d : X).
(** what LAMMPS holds at one moment: its atoms in internal order, each with its id (1..n) and its vector *)
Definition snapshot := list (nat * X).
(** dynaphopy/interface/lammps_link.py:97-101 and 126-134: id = ids - 1; np.array(values)[id, :] *)
Definition gather (s : snapshot) : list X := map (fun i => nth (fst i - 1) (map snd s) d) s.
(** lines 133-134: ...[indexing, :] *)
Definition frame (indexing : list nat) (s : snapshot) : list X := map (fun k => nth k (gather s) d) indexing.
(** lines 118-140: one frame per loop *)
Definition frames (indexing : list nat) (run : list snapshot) : list (list X) := map (frame indexing) run.
End Lammps.
(** line 115: int(total_time / time_step / sampling_interval); non-negative arguments, so truncation is the floor *)
Definition n_loops (total_time time_step : R) (sampling : nat) : nat := Z.to_nat (rfloor (total_time / time_step / INR sampling)).
(** line 148 *)
Definition run_times (time_step : R) (sampling n : nat) : list R := map (fun i => INR i * time_step * INR sampling) (seq 0 n).
