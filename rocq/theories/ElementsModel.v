(** Model of the element tables and of the part of Structure.__init__ that completes elements, atomic numbers and masses from
    each other (dynaphopy/atoms.py), of set_atom_type_index_by_element, of the FORCE_SETS check and of write_xsf_file.
    A mass of the table is the integer m standing for the literal m * 10^-8 (every literal has at most eight decimals); masses
    given by the user are reals. *)
From Verif Require Export Rounding.
From Coq Require Export Reals ZArith String List Lra Lia Bool Arith.
Export ListNotations.
Open Scope string_scope.

(** dynaphopy/atoms.py:383-503  atom_data, rows [number, symbol, name, mass] *)
Definition atom_data : list (nat * string * string * Z) :=
  [(0, "X", "X", 0%Z); (1, "H", "Hydrogen", 100794000%Z); (2, "He", "Helium", 400260200%Z); (3, "Li", "Lithium", 694100000%Z);
   (4, "Be", "Beryllium", 901218200%Z); (5, "B", "Boron", 1081100000%Z); (6, "C", "Carbon", 1201070000%Z); (7, "N", "Nitrogen", 1400670000%Z);
   (8, "O", "Oxygen", 1599940000%Z); (9, "F", "Fluorine", 1899840320%Z); (10, "Ne", "Neon", 2017970000%Z); (11, "Na", "Sodium", 2298976928%Z);
   (12, "Mg", "Magnesium", 2430500000%Z); (13, "Al", "Aluminium", 2698153860%Z); (14, "Si", "Silicon", 2808550000%Z); (15, "P", "Phosphorus", 3097376200%Z);
   (16, "S", "Sulfur", 3206500000%Z); (17, "Cl", "Chlorine", 3545300000%Z); (18, "Ar", "Argon", 3994800000%Z); (19, "K", "Potassium", 3909830000%Z);
   (20, "Ca", "Calcium", 4007800000%Z); (21, "Sc", "Scandium", 4495591200%Z); (22, "Ti", "Titanium", 4786700000%Z); (23, "V", "Vanadium", 5094150000%Z);
   (24, "Cr", "Chromium", 5199610000%Z); (25, "Mn", "Manganese", 5493804500%Z); (26, "Fe", "Iron", 5584500000%Z); (27, "Co", "Cobalt", 5893319500%Z);
   (28, "Ni", "Nickel", 5869340000%Z); (29, "Cu", "Copper", 6354600000%Z); (30, "Zn", "Zinc", 6538000000%Z); (31, "Ga", "Gallium", 6972300000%Z);
   (32, "Ge", "Germanium", 7264000000%Z); (33, "As", "Arsenic", 7492160000%Z); (34, "Se", "Selenium", 7896000000%Z); (35, "Br", "Bromine", 7990400000%Z);
   (36, "Kr", "Krypton", 8379800000%Z); (37, "Rb", "Rubidium", 8546780000%Z); (38, "Sr", "Strontium", 8762000000%Z); (39, "Y", "Yttrium", 8890585000%Z);
   (40, "Zr", "Zirconium", 9122400000%Z); (41, "Nb", "Niobium", 9290638000%Z); (42, "Mo", "Molybdenum", 9596000000%Z); (43, "Tc", "Technetium", 0%Z);
   (44, "Ru", "Ruthenium", 10107000000%Z); (45, "Rh", "Rhodium", 10290550000%Z); (46, "Pd", "Palladium", 10642000000%Z); (47, "Ag", "Silver", 10786820000%Z);
   (48, "Cd", "Cadmium", 11241100000%Z); (49, "In", "Indium", 11481800000%Z); (50, "Sn", "Tin", 11871000000%Z); (51, "Sb", "Antimony", 12176000000%Z);
   (52, "Te", "Tellurium", 12760000000%Z); (53, "I", "Iodine", 12690447000%Z); (54, "Xe", "Xenon", 13129300000%Z); (55, "Cs", "Caesium", 13290545190%Z);
   (56, "Ba", "Barium", 13732700000%Z); (57, "La", "Lanthanum", 13890547000%Z); (58, "Ce", "Cerium", 14011600000%Z); (59, "Pr", "Praseodymium", 14090765000%Z);
   (60, "Nd", "Neodymium", 14424200000%Z); (61, "Pm", "Promethium", 0%Z); (62, "Sm", "Samarium", 15036000000%Z); (63, "Eu", "Europium", 15196400000%Z);
   (64, "Gd", "Gadolinium", 15725000000%Z); (65, "Tb", "Terbium", 15892535000%Z); (66, "Dy", "Dysprosium", 16250000000%Z); (67, "Ho", "Holmium", 16493032000%Z);
   (68, "Er", "Erbium", 16725900000%Z); (69, "Tm", "Thulium", 16893421000%Z); (70, "Yb", "Ytterbium", 17305400000%Z); (71, "Lu", "Lutetium", 17496680000%Z);
   (72, "Hf", "Hafnium", 17849000000%Z); (73, "Ta", "Tantalum", 18094788000%Z); (74, "W", "Tungsten", 18384000000%Z); (75, "Re", "Rhenium", 18620700000%Z);
   (76, "Os", "Osmium", 19023000000%Z); (77, "Ir", "Iridium", 19221700000%Z); (78, "Pt", "Platinum", 19508400000%Z); (79, "Au", "Gold", 19696656900%Z);
   (80, "Hg", "Mercury", 20059000000%Z); (81, "Tl", "Thallium", 20438330000%Z); (82, "Pb", "Lead", 20720000000%Z); (83, "Bi", "Bismuth", 20898040000%Z);
   (84, "Po", "Polonium", 0%Z); (85, "At", "Astatine", 0%Z); (86, "Rn", "Radon", 0%Z); (87, "Fr", "Francium", 0%Z);
   (88, "Ra", "Radium", 0%Z); (89, "Ac", "Actinium", 0%Z); (90, "Th", "Thorium", 23203806000%Z); (91, "Pa", "Protactinium", 23103588000%Z);
   (92, "U", "Uranium", 23802891000%Z); (93, "Np", "Neptunium", 0%Z); (94, "Pu", "Plutonium", 0%Z); (95, "Am", "Americium", 0%Z);
   (96, "Cm", "Curium", 0%Z); (97, "Bk", "Berkelium", 0%Z); (98, "Cf", "Californium", 0%Z); (99, "Es", "Einsteinium", 0%Z);
   (100, "Fm", "Fermium", 0%Z); (101, "Md", "Mendelevium", 0%Z); (102, "No", "Nobelium", 0%Z); (103, "Lr", "Lawrencium", 0%Z);
   (104, "Rf", "Rutherfordium", 0%Z); (105, "Db", "Dubnium", 0%Z); (106, "Sg", "Seaborgium", 0%Z); (107, "Bh", "Bohrium", 0%Z);
   (108, "Hs", "Hassium", 0%Z); (109, "Mt", "Meitnerium", 0%Z); (110, "Ds", "Darmstadtium", 0%Z); (111, "Rg", "Roentgenium", 0%Z);
   (112, "Cn", "Copernicium", 0%Z); (113, "Uut", "Ununtrium", 0%Z); (114, "Uuq", "Ununquadium", 0%Z); (115, "Uup", "Ununpentium", 0%Z);
   (116, "Uuh", "Ununhexium", 0%Z); (117, "Uus", "Ununseptium", 0%Z); (118, "Uuo", "Ununoctium", 0%Z)]%nat.
(** dynaphopy/atoms.py:505-624  symbol_map *)
Definition symbol_map : list (string * nat) :=
  [("H", 1); ("He", 2); ("Li", 3); ("Be", 4); ("B", 5); ("C", 6); ("N", 7); ("O", 8); ("F", 9); ("Ne", 10);
   ("Na", 11); ("Mg", 12); ("Al", 13); ("Si", 14); ("P", 15); ("S", 16); ("Cl", 17); ("Ar", 18); ("K", 19); ("Ca", 20);
   ("Sc", 21); ("Ti", 22); ("V", 23); ("Cr", 24); ("Mn", 25); ("Fe", 26); ("Co", 27); ("Ni", 28); ("Cu", 29); ("Zn", 30);
   ("Ga", 31); ("Ge", 32); ("As", 33); ("Se", 34); ("Br", 35); ("Kr", 36); ("Rb", 37); ("Sr", 38); ("Y", 39); ("Zr", 40);
   ("Nb", 41); ("Mo", 42); ("Tc", 43); ("Ru", 44); ("Rh", 45); ("Pd", 46); ("Ag", 47); ("Cd", 48); ("In", 49); ("Sn", 50);
   ("Sb", 51); ("Te", 52); ("I", 53); ("Xe", 54); ("Cs", 55); ("Ba", 56); ("La", 57); ("Ce", 58); ("Pr", 59); ("Nd", 60);
   ("Pm", 61); ("Sm", 62); ("Eu", 63); ("Gd", 64); ("Tb", 65); ("Dy", 66); ("Ho", 67); ("Er", 68); ("Tm", 69); ("Yb", 70);
   ("Lu", 71); ("Hf", 72); ("Ta", 73); ("W", 74); ("Re", 75); ("Os", 76); ("Ir", 77); ("Pt", 78); ("Au", 79); ("Hg", 80);
   ("Tl", 81); ("Pb", 82); ("Bi", 83); ("Po", 84); ("At", 85); ("Rn", 86); ("Fr", 87); ("Ra", 88); ("Ac", 89); ("Th", 90);
   ("Pa", 91); ("U", 92); ("Np", 93); ("Pu", 94); ("Am", 95); ("Cm", 96); ("Bk", 97); ("Cf", 98); ("Es", 99); ("Fm", 100);
   ("Md", 101); ("No", 102); ("Lr", 103); ("Rf", 104); ("Db", 105); ("Sg", 106); ("Bh", 107); ("Hs", 108); ("Mt", 109); ("Ds", 110);
   ("Rg", 111); ("Cn", 112); ("Uut", 113); ("Uuq", 114); ("Uup", 115); ("Uuh", 116); ("Uus", 117); ("Uuo", 118)]%nat.
Open Scope R_scope.
Definition row_symbol (r : nat * string * string * Z) : string := snd (fst (fst r)).
Definition row_number (r : nat * string * string * Z) : nat := fst (fst (fst r)).
Definition row_mass (r : nat * string * string * Z) : R := IZR (snd r) / 100000000.
(** symbol_map[s]; None: KeyError *)
Fixpoint symbol_number (m : list (string * nat)) (s : string) : option nat :=
  match m with [] => None | (t, n) :: m => if String.eqb t s then Some n else symbol_number m s end.
(** "{0:.1f}".format(x): the nearest multiple of 0.1, ties to the even digit, shown by its tenths (masses are not negative, so
    there is no "-0.0") *)
Definition tenths (x : R) : Z := around (10 * x).
(** dynaphopy/atoms.py:58-62  for i in masses: for j in atom_data: if the texts agree append *)
Definition elements_of_masses (masses : list R) : list string :=
  flat_map (fun i => flat_map (fun j => if Z.eqb (tenths i) (tenths (row_mass j)) then [row_symbol j] else []) atom_data) masses.
Fixpoint all_defined {A} (l : list (option A)) : option (list A) :=
  match l with
  | [] => Some []
  | None :: _ => None
  | Some x :: l => match all_defined l with Some l => Some (x :: l) | None => None end
  end.
(** dynaphopy/atoms.py:54-73  the attributes _atomic_elements, _atomic_numbers, _masses after the constructor.  None: the constructor
    raises (unknown symbol: KeyError; number out of the table: IndexError; nothing given: np.array(None) cannot be iterated,
    TypeError).  The entry of atom_data taken is the one at position atomic number. *)
Record species := MkSpecies { sp_elements : option (list string); sp_numbers : option (list nat); sp_masses : list R }.
Definition init_species (masses : option (list R)) (numbers : option (list nat)) (elements : option (list string)) : option species :=
  let elements := match elements, masses with None, Some m => Some (elements_of_masses m) | e, _ => e end in
  let numbers' := match numbers, elements with
                  | None, Some e => match all_defined (map (symbol_number symbol_map) e) with Some n => Some (Some n) | None => None end
                  | n, _ => Some n end in
  match numbers' with
  | None => None
  | Some numbers' =>
      match masses with
      | Some m => Some (MkSpecies elements numbers' m)
      | None => match numbers' with
                | None => None
                | Some n => match all_defined (map (fun i => option_map row_mass (nth_error atom_data i)) n) with
                            | Some m => Some (MkSpecies elements numbers' m)
                            | None => None
                            end
                end
      end
  end.

(** dynaphopy/atoms.py:277-284 set_atom_type_index_by_element on a structure without types.  get_number_of_atom_types() is called with
    _atom_type_index = a copy of the atomic numbers and its answer is kept, so it is the number of different elements.
    An atomic number beyond the last atom cannot be read: range(ntypes) never exceeds the atoms. *)
Definition types_by_element (numbers : list nat) : list nat :=
  let ntypes := List.length (nodup Nat.eq_dec numbers) in
  map (fun ni => fold_left (fun t index => if Nat.eqb (nth index numbers O) ni then index else t) (seq 0 ntypes) ni) numbers.

(** dynaphopy/atoms.py:186-196 get_force_sets: whether the force sets are returned (true) or the program exits (false); the supercell
    matrix is integer, natom the number of atoms the file declares *)
Definition force_sets_accepted (natom : Z) (supercell : Z * Z * Z * (Z * Z * Z) * (Z * Z * Z)) (number_of_atoms : Z) : bool :=
  let '((m00, _, _), (_, m11, _), (_, _, m22)) := supercell in Z.eqb natom (m00 * m11 * m22 * number_of_atoms).

(** dynaphopy/interface/iofile/__init__.py:626-633, the while loop of write_xsf_file: the atoms whose coordinates are written.
    One turn of the while loop looks for the first atom of type counter; when there is none the turn changes nothing and the
    loop runs for ever.  [fuel] bounds the number of turns; None: not finished yet. *)
Fixpoint first_of_type (types : list nat) (i counter : nat) : option nat :=
  match types with [] => None | t :: types => if Nat.eqb t counter then Some i else first_of_type types (S i) counter end.
Fixpoint xsf_loop (types : list nat) (ntypes fuel counter : nat) (written : list nat) : option (list nat) :=
  if Nat.ltb counter ntypes
  then match fuel with
       | O => None
       | S fuel => match first_of_type types 0 counter with
                   | Some i => xsf_loop types ntypes fuel (S counter) (written ++ [i])
                   | None => xsf_loop types ntypes fuel counter written
                   end
       end
  else Some written.
(** write_xsf_file: the declared number of atoms (line 624) and the atoms written *)
Definition write_xsf (types : list nat) (fuel : nat) : option (nat * list nat) :=
  let n := List.length (nodup Nat.eq_dec types) in
  match xsf_loop types n fuel 0 [] with Some w => Some (n, w) | None => None end.
