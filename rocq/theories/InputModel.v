(** Model of read_parameters_from_input_file and get_trajectory_parser (dynaphopy/interface/iofile/__init__.py:537-606, 139-165).
    A text file is the list of its lines without the newline characters (every use of a line removes them, or looks for
    a key that has none).  Characters are 7-bit.  float() and int() of a word are parameters; None is ValueError. *)
From Coq Require Export Ascii String Reals ZArith Bool Arith List.
Export ListNotations.
Open Scope string_scope.

(** white space of str.split() and str.strip() *)
Definition is_space (c : ascii) : bool :=
  let n := nat_of_ascii c in (Nat.leb 9 n && Nat.leb n 13) || (Nat.leb 28 n && Nat.leb n 32).
(** "sub in s" *)
Fixpoint contains (s sub : string) : bool :=
  prefix sub s || match s with EmptyString => false | String _ t => contains t sub end.
(** s.split(sep) for a one character separator; never empty *)
Fixpoint pieces (sep : ascii -> bool) (s : string) : list string :=
  match s with
  | EmptyString => [""]
  | String c t => if sep c then "" :: pieces sep t
                  else match pieces sep t with p :: r => String c p :: r | [] => [String c ""] end
  end.
Definition nonempty (s : string) : bool := match s with EmptyString => false | _ => true end.
(** s.split() *)
Definition words (s : string) : list string := filter nonempty (pieces is_space s).
(** s.strip() *)
Fixpoint lstrip (s : string) : string := match s with String c t => if is_space c then lstrip t else s | EmptyString => s end.
Fixpoint rstrip (s : string) : string :=
  match s with
  | EmptyString => ""
  | String c t => match rstrip t with EmptyString => if is_space c then "" else String c "" | r => String c r end
  end.
Definition strip (s : string) : string := rstrip (lstrip s).
Definition is (c d : ascii) : bool := Ascii.eqb c d.
(** s.replace(',', ' ') and s.replace(' ', '') *)
Fixpoint comma_to_space (s : string) : string :=
  match s with EmptyString => "" | String c t => String (if is c "," then " "%char else c) (comma_to_space t) end.
Fixpoint no_spaces (s : string) : string :=
  match s with EmptyString => "" | String c t => if is c " " then no_spaces t else String c (no_spaces t) end.
Definition is_comment (s : string) : bool := match s with String c _ => is c "#" | EmptyString => false end.
Fixpoint all_some {A} (l : list (option A)) : option (list A) :=
  match l with
  | [] => Some []
  | None :: _ => None
  | Some x :: l => match all_some l with Some l => Some (x :: l) | None => None end
  end.

(** the dictionary returned; band_ranges holds the rows of six numbers and the labels if there are any *)
Record input := MkInput { i_outcar : option string; i_poscar : option string; i_force_sets : option string; i_force_constants : option string;
                          i_primitive : option (list (list R)); i_supercell : option (list (list Z));
                          i_bands : option (list (list R) * option (list (string * string))); i_mesh : option (list Z) }.
Definition set_outcar x d := MkInput (Some x) (i_poscar d) (i_force_sets d) (i_force_constants d) (i_primitive d) (i_supercell d) (i_bands d) (i_mesh d).
Definition set_poscar x d := MkInput (i_outcar d) (Some x) (i_force_sets d) (i_force_constants d) (i_primitive d) (i_supercell d) (i_bands d) (i_mesh d).
Definition set_force_sets x d := MkInput (i_outcar d) (i_poscar d) (Some x) (i_force_constants d) (i_primitive d) (i_supercell d) (i_bands d) (i_mesh d).
Definition set_force_constants x d := MkInput (i_outcar d) (i_poscar d) (i_force_sets d) (Some x) (i_primitive d) (i_supercell d) (i_bands d) (i_mesh d).
Definition set_primitive x d := MkInput (i_outcar d) (i_poscar d) (i_force_sets d) (i_force_constants d) (Some x) (i_supercell d) (i_bands d) (i_mesh d).
Definition set_supercell x d := MkInput (i_outcar d) (i_poscar d) (i_force_sets d) (i_force_constants d) (i_primitive d) (Some x) (i_bands d) (i_mesh d).
Definition set_bands x d := MkInput (i_outcar d) (i_poscar d) (i_force_sets d) (i_force_constants d) (i_primitive d) (i_supercell d) (Some x) (i_mesh d).
Definition set_mesh x d := MkInput (i_outcar d) (i_poscar d) (i_force_sets d) (i_force_constants d) (i_primitive d) (i_supercell d) (i_bands d) (Some x).

Section Read.
Context (num : string -> option R) (int : string -> option Z).
(** np.array([line.split() for three lines], dtype=...): ragged rows or words that are no numbers raise.  [n] is number_of_dimensions *)
Definition read_matrix {X} (f : string -> option X) (n : nat) (rest : list string) : option (list (list X)) :=
  if Nat.leb n (List.length rest) then
    match all_some (map (fun l => all_some (map f (words l))) (firstn n rest)) with
    | Some rows => if forallb (fun r => Nat.eqb (List.length r) (List.length (hd [] rows))) rows then Some rows else None
    | None => None
    end
  else None.
(** dynaphopy/interface/iofile/__init__.py:573-590, the while loop: band rows, label lists, the last value of the variable line, and the lines after the last row used.
    A line that gives no 2x3 array of numbers ends the loop, but its label has been kept and line holds it. *)
Fixpoint bands_loop (line : string) (rest : list string) : list (list R) * list (list string) * string * list string :=
  match rest with
  | [] => ([], [], line, rest)
  | l :: rest' =>
      let '(label, line) := match pieces (fun c => is c ":") l with
                            | p0 :: p1 :: _ => ([pieces (fun c => is c ",") p1], p0)
                            | _ => ([], l)
                            end in
      match all_some (map num (words (comma_to_space line))) with
      | Some [a; b; c; d; e; f] => let '(bs, ls, line, at_) := bands_loop line rest' in ([a; b; c; d; e; f] :: bs, (label ++ ls)%list, line, at_)
      | _ => ([], label, line, rest)
      end
  end.
(** dynaphopy/interface/iofile/__init__.py:591: an entry with fewer than two parts raises IndexError *)
Definition read_labels (ls : list (list string)) : option (list (string * string)) :=
  all_some (map (fun l => match l with a :: b :: _ => Some (no_spaces a, no_spaces b) | _ => None end) ls).
(** one turn of the for loop 550-604; [rest] are the lines after [line]; None: an exception *)
Definition file_entry (line key : string) (rest : list string) (set : string -> input -> input) (d : input) : option input :=
  if contains line key then match rest with v :: _ => Some (set (strip v) d) | [] => None end else Some d.
Definition obind {A B} (x : option A) (f : A -> option B) : option B := match x with Some a => f a | None => None end.
Definition one_line (line : string) (rest : list string) (d : input) : option input :=
  if is_comment line then Some d else
  obind (file_entry line "STRUCTURE FILE OUTCAR" rest set_outcar d) (fun d =>
  obind (file_entry line "STRUCTURE FILE POSCAR" rest set_poscar d) (fun d =>
  obind (file_entry line "FORCE SETS" rest set_force_sets d) (fun d =>
  obind (file_entry line "FORCE CONSTANTS" rest set_force_constants d) (fun d =>
  obind (if contains line "PRIMITIVE MATRIX" then option_map (fun m => set_primitive m d) (read_matrix num 3 rest) else Some d) (fun d =>
  obind (if contains line "SUPERCELL MATRIX" then option_map (fun m => set_supercell m d) (read_matrix int 3 rest) else Some d) (fun d =>
  obind (if contains line "BANDS" then
           let '(bs, ls, line, at_) := bands_loop line rest in
           match read_labels ls with
           | None => None
           | Some [] => Some (set_bands (bs, None) d, line, at_)
           | Some labels => Some (set_bands (bs, Some labels) d, line, at_)
           end
         else Some (d, line, rest)) (fun '(d, line, at_) =>
  if contains line "MESH PHONOPY" then
    match at_ with
    | v :: _ => option_map (fun m => set_mesh m d) (all_some (map int (words v)))
    | [] => None
    end
  else Some d))))))).
Fixpoint read_from (lines : list string) (d : input) : option input :=
  match lines with [] => Some d | line :: rest => obind (one_line line rest d) (read_from rest) end.
(** dynaphopy/interface/iofile/__init__.py:539: the default *)
Definition empty_input : input := MkInput None (Some "POSCAR") None None None None None None.
Definition read_parameters (lines : list string) : option input := read_from lines empty_input.
End Read.

(** dynaphopy/interface/iofile/__init__.py:142-148 the parsers in the order of the dictionary *)
Inductive parser := OutcarParser | LammpsParser | XdatcarParser.
Definition parsers_keywords : list (parser * list string) :=
  [(OutcarParser, ["NIONS"; "POMASS"; "direct lattice vectors"]);
   (LammpsParser, ["ITEM: TIMESTEP"; "ITEM: NUMBER OF ATOMS"; "ITEM: BOX BOUNDS"]);
   (XdatcarParser, ["Direct configuration"; "Direct configuration"; "="])].
(** 139-165; the file is the string of its bytes.  Outer None: mmap of an empty file raises ValueError *)
Definition get_trajectory_parser (bytes : string) (bytes_to_check : nat) : option (option parser) :=
  let map_ := substring 0 (Nat.min bytes_to_check (String.length bytes)) bytes in
  match bytes with
  | EmptyString => None
  | _ => Some (option_map fst (find (fun p => forallb (contains map_) (snd p)) parsers_keywords))
  end.
