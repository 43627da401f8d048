(** Model of the cached state of dynaphopy/atoms.py:Structure. *)
From Verif Require Export SupercellModel Rounding.
Open Scope nat_scope.

(** dynaphopy/atoms.py:32-53: the attributes of a Structure that the modelled methods use.
    [None] is Python's None.  Simplification: three dimensions; force constants, elements and
    charges are not part of this record. *)
Record structure := MkStructure {
  s_cell : mat;                       (* self._cell *)
  s_masses : list R;                  (* self._masses *)
  s_positions : option (list vec);    (* self._positions *)
  s_scaled : option (list vec);       (* self._scaled_positions *)
  s_pmat : option mat;                (* self._primitive_matrix *)
  s_pcell : option mat;               (* self._primitive_cell *)
  s_types : option (list nat);        (* self._atom_type_index *)
  s_ncell : option nat;               (* self._number_of_cell_atoms *)
  s_ntypes : option nat;              (* self._number_of_atom_types *)
  s_nprim : option nat                (* self._number_of_primitive_atoms *)
}.

Definition with_positions s v := MkStructure (s_cell s) (s_masses s) v (s_scaled s) (s_pmat s) (s_pcell s) (s_types s) (s_ncell s) (s_ntypes s) (s_nprim s).
Definition with_scaled s v := MkStructure (s_cell s) (s_masses s) (s_positions s) v (s_pmat s) (s_pcell s) (s_types s) (s_ncell s) (s_ntypes s) (s_nprim s).
Definition with_pmat s v := MkStructure (s_cell s) (s_masses s) (s_positions s) (s_scaled s) v (s_pcell s) (s_types s) (s_ncell s) (s_ntypes s) (s_nprim s).
Definition with_pcell s v := MkStructure (s_cell s) (s_masses s) (s_positions s) (s_scaled s) (s_pmat s) v (s_types s) (s_ncell s) (s_ntypes s) (s_nprim s).
Definition with_types s v := MkStructure (s_cell s) (s_masses s) (s_positions s) (s_scaled s) (s_pmat s) (s_pcell s) v (s_ncell s) (s_ntypes s) (s_nprim s).
Definition with_ncell s v := MkStructure (s_cell s) (s_masses s) (s_positions s) (s_scaled s) (s_pmat s) (s_pcell s) (s_types s) v (s_ntypes s) (s_nprim s).
Definition with_ntypes s v := MkStructure (s_cell s) (s_masses s) (s_positions s) (s_scaled s) (s_pmat s) (s_pcell s) (s_types s) (s_ncell s) v (s_nprim s).
Definition with_nprim s v := MkStructure (s_cell s) (s_masses s) (s_positions s) (s_scaled s) (s_pmat s) (s_pcell s) (s_types s) (s_ncell s) (s_ntypes s) v.
Definition with_cell s v := MkStructure v (s_masses s) (s_positions s) (s_scaled s) (s_pmat s) (s_pcell s) (s_types s) (s_ncell s) (s_ntypes s) (s_nprim s).
Definition with_masses s v := MkStructure (s_cell s) v (s_positions s) (s_scaled s) (s_pmat s) (s_pcell s) (s_types s) (s_ncell s) (s_ntypes s) (s_nprim s).

(** A method call returns a value and a new object state, or terminates the program (exit() or
    an uncaught exception): [None]. *)
Definition method A := structure -> option (A * structure).
Definition bind {A B} (m : method A) (f : A -> method B) : method B :=
  fun s => match m s with None => None | Some (a, s') => f a s' end.
Notation "x <- m ;; f" := (bind m (fun x => f)) (at level 61, m at next level, right associativity).

Section WithInverse.
(** numpy.linalg.inv; theorems assume of it only what they need. *)
Variable inv : mat -> mat.

(** dynaphopy/atoms.py:136-137 set_positions *)
Definition set_positions (x : list vec) : method unit := fun s =>
  Some (tt, with_scaled s (Some (map (fun p => vmul p (inv (s_cell s))) x))).

(** dynaphopy/atoms.py:139-156 get_positions(); the supercell=None case expands with [1,1,1]. *)
Definition fill_positions : method (list vec) := fun s =>
  match s_positions s with
  | Some p => Some (p, s)
  | None => match s_scaled s with
            | None => None                                   (* exit() *)
            | Some sc => let p := map (fun v => vmul v (s_cell s)) sc in
                         Some (p, with_positions s (Some p))
            end
  end.
Definition get_positions_of (supercell : option (nat * nat * nat)) : method (list vec) :=
  p <- fill_positions ;;
  fun s => Some (let '(nx, ny, nz) := match supercell with None => (1, 1, 1) | Some t => t end in
                 get_positions (s_cell s) p [nx; ny; nz], s).

(** dynaphopy/atoms.py:158-168 get_scaled_positions() (supercell=None) *)
Definition get_scaled : method (list vec) := fun s =>
  match s_scaled s with
  | Some sc => Some (sc, s)
  | None => (p <- get_positions_of None ;;
             fun s' => let sc := map (fun v => vmul v (inv (s_cell s'))) p in
                       Some (sc, with_scaled s' (Some sc))) s
  end.

(** dynaphopy/atoms.py:224-227 get_number_of_cell_atoms *)
Definition get_ncell : method nat := fun s =>
  match s_ncell s with
  | Some n => Some (n, s)
  | None => (p <- get_positions_of None ;; fun s' => Some (length p, with_ncell s' (Some (length p)))) s
  end.

(** dynaphopy/atoms.py:126-133 get_primitive_matrix *)
Definition get_pmat : method mat := fun s =>
  match s_pmat s with
  | Some m => Some (m, s)
  | None => let m := match s_pcell s with
                     | None => mid
                     | Some pc => mmul (inv (s_cell s)) pc
                     end in Some (m, with_pmat s (Some m))
  end.

(** dynaphopy/atoms.py:113-116 get_primitive_cell *)
Definition get_pcell : method mat := fun s =>
  match s_pcell s with
  | Some m => Some (m, s)
  | None => (pm <- get_pmat ;;
             fun s' => let m := mT (mmul (mT (s_cell s')) pm) in Some (m, with_pcell s' (Some m))) s
  end.

(** dynaphopy/atoms.py:119-124 set_primitive_matrix *)
Definition set_pmat (m : mat) : method unit := fun s =>
  Some (tt, with_pcell (with_types (with_nprim (with_ntypes (with_pmat s (Some m)) None) None) None) None).

(** dynaphopy/atoms.py:85-86 set_cell, 198-199 set_masses *)
Definition set_cell (c : mat) : method unit := fun s => Some (tt, with_cell s c).
Definition set_masses (m : list R) : method unit := fun s => Some (tt, with_masses s m).

(** dynaphopy/atoms.py:201-208 get_masses(supercell) *)
Definition get_masses (supercell : option (nat * nat * nat)) : method (list R) :=
  n <- get_ncell ;;
  fun s => let '(nx, ny, nz) := match supercell with None => (1, 1, 1) | Some t => t end in
           match get_attribute n (s_masses s) [nx; ny; nz] with
           | None => None
           | Some l => Some (l, s)
           end.

(** dynaphopy/atoms.py:300-306: the geometric part of the equivalence test.
    primitive_cell_inverse.T . (xj - xi) rounded, xj folded back, squared distance < 0.001. *)
Definition same_site (pcell : mat) (xi xj : vec) : bool :=
  let d := mulv (mT (inv pcell)) (vsub xj xi) in
  let n := V3 (IZR (around (vx d))) (IZR (around (vy d))) (IZR (around (vz d))) in
  let projected := vsub xj (mulv (mT pcell) n) in
  if Rlt_dec (vnorm2 (vsub projected xi)) (1 / 1000) then true else false.

(** replace element j of a list *)
Fixpoint upd {A} (l : list A) (j : nat) (v : A) : list A :=
  match l, j with
  | [], _ => []
  | _ :: t, 0 => v :: t
  | h :: t, S j' => h :: upd t j' v
  end.

(** dynaphopy/atoms.py:292-310: the assignment loops over an equivalence test [equiv i j]
    ("separation < tolerance and masses[i] == masses[j]"). *)
Definition inner_loop (equiv : nat -> nat -> bool) (i n : nat) (T : list (option nat)) : list (option nat) :=
  fold_left (fun T j => if equiv i j then upd T j (nth i T None) else T) (seq (S i) (n - S i)) T.
Definition outer_step (equiv : nat -> nat -> bool) (n : nat) (st : list (option nat) * nat) (i : nat) :=
  let '(T, counter) := st in
  let '(T, counter) := match nth i T None with
                       | None => (upd T i (Some counter), S counter)
                       | Some _ => (T, counter)
                       end in
  (inner_loop equiv i n T, counter).
Definition type_loop (equiv : nat -> nat -> bool) (n : nat) : list (option nat) * nat :=
  fold_left (outer_step equiv n) (seq 0 n) (repeat None n, 0).

(** np.array(self._atom_type_index, dtype=int): raises on a remaining None *)
Fixpoint all_some {A} (l : list (option A)) : option (list A) :=
  match l with
  | [] => Some []
  | None :: _ => None
  | Some a :: t => match all_some t with None => None | Some r => Some (a :: r) end
  end.

(** "masses[i] == masses[j]" with masses a Python list; both indices are in range because
    the list has at least number_of_cell_atoms elements. *)
Definition masses_equal (masses : list R) (i j : nat) : bool :=
  if Req_EM_T (nth i masses 0%R) (nth j masses 0%R) then true else false.
Definition equiv_test (pcell : mat) (positions : list vec) (masses : list R) (i j : nat) : bool :=
  same_site pcell (nth i positions vzero) (nth j positions vzero) && masses_equal masses i j.

(** dynaphopy/atoms.py:285-317 get_atom_type_index(supercell) *)
Definition get_types (supercell : option (nat * nat * nat)) : method (list nat) :=
  masses <- get_masses supercell ;;
  _ <- (fun s => match s_types s with
                 | Some _ => Some (tt, s)
                 | None =>
                   (pc <- get_pcell ;;
                    n <- get_ncell ;;
                    pos <- get_positions_of None ;;
                    fun s' => match all_some (fst (type_loop (equiv_test pc pos masses) n)) with
                              | None => None
                              | Some t => Some (tt, with_types s' (Some t))
                              end) s
                 end) ;;
  n <- get_ncell ;;
  fun s => match s_types s with
           | None => None
           | Some t => let '(nx, ny, nz) := match supercell with None => (1, 1, 1) | Some t => t end in
                       match get_attribute n t [nx; ny; nz] with None => None | Some l => Some (l, s) end
           end.

(** len(set(l)) *)
Definition count_distinct (l : list nat) : nat := length (nodup Nat.eq_dec l).

(** dynaphopy/atoms.py:250-259 get_number_of_atom_types / get_number_of_primitive_atoms *)
Definition get_ntypes : method nat := fun s =>
  match s_ntypes s with
  | Some n => Some (n, s)
  | None => (t <- get_types None ;; fun s' => Some (count_distinct t, with_ntypes s' (Some (count_distinct t)))) s
  end.
Definition get_nprim : method nat := fun s =>
  match s_nprim s with
  | Some n => Some (n, s)
  | None => (t <- get_types None ;; fun s' => Some (count_distinct t, with_nprim s' (Some (count_distinct t)))) s
  end.

(** The API operations of this model and one step of a history. *)
Inductive sop :=
| SetPositions (x : list vec) | SetCell (c : mat) | SetMasses (m : list R) | SetPrimitive (m : mat)
| GetPositions (sc : option (nat * nat * nat)) | GetScaled | GetMasses (sc : option (nat * nat * nat))
| GetPrimitiveMatrix | GetPrimitiveCell | GetTypes (sc : option (nat * nat * nat))
| GetNumberOfTypes | GetNumberOfPrimitive | GetNumberOfCellAtoms.

Definition sstep (o : sop) (s : structure) : option structure :=
  let r {A} (m : method A) := match m s with None => None | Some (_, s') => Some s' end in
  match o with
  | SetPositions x => r (set_positions x) | SetCell c => r (set_cell c) | SetMasses m => r (set_masses m)
  | SetPrimitive m => r (set_pmat m) | GetPositions sc => r (get_positions_of sc) | GetScaled => r get_scaled
  | GetMasses sc => r (get_masses sc) | GetPrimitiveMatrix => r get_pmat | GetPrimitiveCell => r get_pcell
  | GetTypes sc => r (get_types sc) | GetNumberOfTypes => r get_ntypes | GetNumberOfPrimitive => r get_nprim
  | GetNumberOfCellAtoms => r get_ncell
  end.
Fixpoint srun (h : list sop) (s : structure) : option structure :=
  match h with
  | [] => Some s
  | o :: h' => match sstep o s with None => None | Some s' => srun h' s' end
  end.
End WithInverse.

(** A new Structure object (constructor arguments), dynaphopy/atoms.py:32-53. *)
Definition new_structure (cell : mat) (masses : list R) (positions scaled : option (list vec)) (pmat : option mat) : structure :=
  MkStructure cell masses positions scaled pmat None None None None None.
