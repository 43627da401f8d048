(** Model of dynaphopy/generate_cell.py and of read_from_file_structure_poscar
    (dynaphopy/interface/iofile/__init__.py:268-328).  Element symbols are of any type with a decidable
    equality and an order (np.unique sorts by it); exact real arithmetic.  The values that
    structure.get_cell/get_positions/get_atomic_elements/get_masses return are arguments. *)
From Verif Require Export Base.
From Coq Require Export Ascii String.
Open Scope R_scope.

Section Unique.
Context {A : Type} (eq_dec : forall x y : A, {x = y} + {x <> y}) (leb : A -> A -> bool).
Fixpoint insert {X} (le : X -> X -> bool) (x : X) (l : list X) : list X :=
  match l with [] => [x] | y :: t => if le x y then x :: l else y :: insert le x t end.
Fixpoint isort {X} (le : X -> X -> bool) (l : list X) : list X := match l with [] => [] | x :: t => insert le x (isort le t) end.
(** values not seen before, with their index *)
Fixpoint firsts (seen : list A) (k : nat) (l : list A) : list (A * nat) :=
  match l with
  | [] => []
  | x :: t => if in_dec eq_dec x seen then firsts seen (S k) t else (x, k) :: firsts (x :: seen) (S k) t
  end.
(** np.unique(l, return_index=True): the distinct values in increasing order, with the index of their first occurrence *)
Definition np_unique (l : list A) : list (A * nat) := isort (fun p q => leb (fst p) (fst q)) (firsts [] 0 l).
(** dynaphopy/generate_cell.py:10-14 and 46-50: the same pairs in the order of argsort(index) *)
Definition unsorted_unique (l : list A) : list (A * nat) := isort (fun p q => Nat.leb (snd p) (snd q)) (np_unique l).
(** np.diff; the indices increase, so the difference of nat is the difference of int *)
Fixpoint diff (l : list nat) : list nat :=
  match l with x :: (y :: _) as t => (y - x)%nat :: diff t | _ => [] end.
(** dynaphopy/generate_cell.py:14-15 elements, elements_count *)
Definition vasp_elements (types : list A) : list A := map fst (unsorted_unique types).
Definition vasp_counts (types : list A) : list nat := diff (map snd (unsorted_unique types) ++ [List.length types]).

(** dynaphopy/generate_cell.py:54-56 atom_index *)
Definition atom_index (types : list A) : list nat :=
  List.concat (map (fun p => repeat (fst p) (snd p)) (combine (seq 0 (List.length (vasp_counts types))) (vasp_counts types))).
End Unique.
(** dynaphopy/generate_cell.py:58 np.unique(atom_index, return_index=True)[1] *)
Definition atom_index_unique {A} eq_dec leb (types : list A) : list nat := map snd (np_unique Nat.eq_dec Nat.leb (atom_index eq_dec leb types)).
(** dynaphopy/generate_cell.py:60-62 index_dict as an association list, latest assignment first; a subscript out of range raises (not modelled: def) *)
Definition index_dict {A} eq_dec leb (def : A) (types : list A) : list (A * nat) :=
  fold_left (fun d p => (nth (snd p) types def, S (fst p)) :: d) (combine (seq 0 (List.length (atom_index_unique eq_dec leb types))) (atom_index_unique eq_dec leb types)) [].
Fixpoint lookup {A} (eq_dec : forall x y : A, {x = y} + {x <> y}) (d : list (A * nat)) (x : A) : option nat :=
  match d with [] => None | (k, v) :: t => if eq_dec k x then Some v else lookup eq_dec t x end.
(** dynaphopy/generate_cell.py:117-123 the "Masses" table: one mass per type; 127-133 the type number written for atom i (KeyError: None) *)
Definition lammps_masses {A} eq_dec leb (types : list A) (masses : list R) : list R := map (fun k => nth k masses 0) (atom_index_unique eq_dec leb types).
Definition lammps_type {A} eq_dec leb (def : A) (types : list A) (i : nat) : option nat :=
  lookup eq_dec (index_dict eq_dec leb def types) (nth i types def).
Definition lammps_ntypes {A} eq_dec leb (types : list A) : nat := List.length (atom_index_unique eq_dec leb types).

(** cross product *)
Definition cross (a b : vec) : vec := V3 (vy a * vz b - vz a * vy b) (vz a * vx b - vx a * vz b) (vx a * vy b - vy a * vx b).
Definition vdiv (a : vec) (k : R) : vec := V3 (vx a / k) (vy a / k) (vz a / k).
(** dynaphopy/generate_cell.py:73-79 lammps oriented vectors (rows of lammps_cell.T) *)
Definition lammps_cell (cell : mat) : mat :=
  let u := vdiv (r0 cell) (vnorm (r0 cell)) in
  let ax := vnorm (r0 cell) in
  let bx := vdot (r1 cell) u in
  let by_ := vnorm (cross u (r1 cell)) in
  let cx := vdot (r2 cell) u in
  let cy := (vdot (r1 cell) (r2 cell) - bx * cx) / by_ in
  let cz := sqrt (vdot (r2 cell) (r2 cell) - cx^2 - cy^2) in
  M3 (V3 ax 0 0) (V3 bx by_ 0) (V3 cx cy cz).
(** dynaphopy/generate_cell.py:82-83, 86 trans_cell and the rotated positions; inv is numpy.linalg.inv *)
Definition trans_cell (inv : mat -> mat) (cell : mat) : mat := mmul (inv cell) (lammps_cell cell).
Definition lammps_positions (inv : mat -> mat) (cell : mat) (positions : list vec) : list vec := map (fun x => vmul x (trans_cell inv cell)) positions.
(** dynaphopy/atoms.py:319-334 get_cell_parameters *)
Definition cell_parameters (cell : mat) : R * R * R * R * R * R :=
  let a := vnorm (r0 cell) in let b := vnorm (r1 cell) in let c := vnorm (r2 cell) in
  (a, b, c, acos (vdot (r1 cell) (r2 cell) / (c * b)), acos (vdot (r2 cell) (r0 cell) / (a * c)), acos (vdot (r1 cell) (r0 cell) / (a * b))).
(** dynaphopy/generate_cell.py:89-114 the numbers written: (xhi, yhi, zhi, xy, xz, yz), the lower bounds being 0 *)
Definition lammps_box (cell : mat) : R * R * R * R * R * R :=
  let '(a, b, c, alpha, beta, gamma) := cell_parameters cell in
  let xhi := a in
  let xy := b * cos gamma in
  let xz := c * cos beta in
  let yhi := sqrt (b^2 - xy^2) in
  let yz := (b * c * cos alpha - xy * xz) / yhi in
  let zhi := sqrt (c^2 - xz^2 - yz^2) in
  let xhi := xhi + Rmax (Rmax (Rmax 0 xy) xz) (xy + xz) in
  let yhi := yhi + Rmax 0 yz in
  let xhi := if Rlt_dec 0 xy then xhi - xy else xhi in
  let xhi := if Rlt_dec 0 xz then xhi - xz else xhi in
  let yhi := if Rlt_dec 0 yz then yhi - yz else yhi in
  (xhi, yhi, zhi, xy, xz, yz).

(** POSCAR text.  A line is the list of its white space separated words (Python's str.split()); show10,
    show15: '{:20.10f}' and '{:15.15f}' without padding; show_nat: str of an int; read_float/read_int: float(), int()
    of a word, None being ValueError.  First letters of the coordinate line are taken from its first word, which
    differs from line[0] only for an indented line. *)
Section Poscar.
Context (show10 show15 : R -> string) (show_nat : nat -> string) (read_float : string -> option R) (read_int : string -> option nat).
Definition line := list string.
Definition row (show : R -> string) (v : vec) : line := [show (vx v); show (vy v); show (vz v)].
(** dynaphopy/generate_cell.py:18-38 generate_VASP_structure; scaled selects the coordinates written *)
Definition generate_VASP (leb : string -> string -> bool) (cell : mat) (types : list string) (positions scaled_positions : list vec) (scaled : bool) : list line :=
  [ ["Generated"; "using"; "dynaphopy"]; ["1.0"]; row show10 (r0 cell); row show10 (r1 cell); row show10 (r2 cell);
    vasp_elements string_dec leb types; map show_nat (vasp_counts string_dec leb types) ]%string ++
  (if scaled then ["Direct"%string] :: map (row show15) scaled_positions else ["Cartesian"%string] :: map (row show10) positions) ++ [[]].

Fixpoint read_all {X} (f : string -> option X) (l : line) : option (list X) :=
  match l with [] => Some [] | w :: t => match f w, read_all f t with Some x, Some xs => Some (x :: xs) | _, _ => None end end.
(** a row of the cell, or words [0:3] of a position line; anything but three numbers raises *)
Definition read_vec (l : line) : option vec := match read_all read_float l with Some [x; y; z] => Some (V3 x y z) | _ => None end.
Fixpoint read_vecs (ls : list line) : option (list vec) :=
  match ls with [] => Some [] | l :: t => match read_vec (firstn 3 l), read_vecs t with Some x, Some xs => Some (x :: xs) | _, _ => None end end.
Definition first_letter (l : line) : option Ascii.ascii := match l with String c _ :: _ => Some c | _ => None end.
Definition is_direct (l : line) : bool := match first_letter l with Some c => if Ascii.ascii_dec c "D"%char then true else if Ascii.ascii_dec c "d"%char then true else false | None => false end.
(** [[j]*number_of_types[i] for i, j in enumerate(names)] flattened; more names than counts raises IndexError *)
Fixpoint expand {X} (names : list X) (counts : list nat) : option (list X) :=
  match names, counts with
  | [], _ => Some []
  | j :: ns, c :: cs => match expand ns cs with Some r => Some (repeat j c ++ r) | None => None end
  | _, [] => None
  end.
Record poscar := MkPoscar { p_cell : mat; p_scaled : option (list vec); p_positions : option (list vec); p_types : list string }.
(** lines skip..skip+sum-1 of the file; past the end raises *)
Definition body (ls : list line) (skip n : nat) : option (list vec) := if Nat.leb (skip + n) (List.length ls) then read_vecs (firstn n (skipn skip ls)) else None.
Definition coordinates (ls : list line) (skip : nat) (mode : line) (counts : list nat) : option (option (list vec) * option (list vec)) :=
  match body ls skip (list_sum counts) with
  | None => None
  | Some xs => Some (if is_direct mode then (Some xs, None) else (None, Some xs))
  end.
(** dynaphopy/interface/iofile/__init__.py:276-328 for number_of_dimensions = 3.  np.array(words, dtype=int) raising ValueError sends it to the
    old style branch; other ValueErrors in the try block (a word that is not a number) would too, the model fails there *)
Definition read_poscar (ls : list line) : option poscar :=
  match nth 1 ls [], read_vec (nth 2 ls []), read_vec (nth 3 ls []), read_vec (nth 4 ls []) with
  | [w], Some a, Some b, Some c =>
    match read_float w with
    | None => None
    | Some multiply =>
      let direct_cell := mscale multiply (M3 a b c) in
      match read_all read_int (nth 6 ls []) with
      | Some counts =>
        match coordinates ls 8 (nth 7 ls []) counts, expand (nth 5 ls []) counts with
        | Some (s, p), Some types => Some (MkPoscar direct_cell s p types)
        | _, _ => None
        end
      | None =>
        match read_all read_int (nth 5 ls []) with
        | None => None
        | Some counts =>
          match coordinates ls 7 (nth 6 ls []) counts, expand (nth 0 ls []) counts with
          | Some (s, p), Some types => Some (MkPoscar direct_cell s p types)
          | _, _ => None
          end
        end
      end
    end
  | _, _, _, _ => None
  end.
End Poscar.
