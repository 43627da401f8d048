(** Model of how the settings of an input file reach the objects that compute: scripts/dynaphopy, scripts/qha_quasiparticle.py, scripts/rfc_calc and the two
    get_data_from_dict methods.  The input file is read by InputModel.read_parameters. *)
From Verif Require Import InputModel.
Open Scope string_scope. Open Scope list_scope.

(** the Python values met here; [VOther n]: any other default, distinguished by a number *)
Inductive value :=
| VNone | VText (s : string) | VReals (m : list (list R)) | VInts (m : list (list Z)) | VBands (ranges : list (list R)) (labels : option (list (string * string)))
| VMesh (m : list Z) | VVector (v : list R) | VBool (b : bool) | VOther (n : nat).
(** a dictionary (also an object's __dict__): keys with their values, in order *)
Definition dict := list (string * value).
Fixpoint lookup (k : string) (d : dict) : option value := match d with [] => None | (k', v) :: r => if string_dec k k' then Some v else lookup k r end.
(** d.update({k: v}) of a key that may be present *)
Fixpoint update (k : string) (v : value) (d : dict) : dict :=
  match d with [] => [(k, v)] | (k', w) :: r => if string_dec k k' then (k', v) :: r else (k', w) :: update k v r end.

(** the keys under which read_parameters_from_input_file stores what it has read: dynaphopy/interface/iofile/__init__.py:539, 554, 557, 560, 563, 569, 575, 598-601, 604 *)
Definition entry_of {X} (k : string) (f : X -> value) (o : option X) : dict := match o with Some x => [(k, f x)] | None => [] end.
Definition dictionary (d : input) : dict :=
  entry_of "structure_file_name_poscar" VText (i_poscar d) ++ entry_of "structure_file_name_outcar" VText (i_outcar d) ++
  entry_of "force_sets_file_name" VText (i_force_sets d) ++ entry_of "force_constants_file_name" VText (i_force_constants d) ++
  entry_of "_primitive_matrix" VReals (i_primitive d) ++ entry_of "supercell_phonon" VInts (i_supercell d) ++
  entry_of "_band_ranges" (fun x => VBands (fst x) (snd x)) (i_bands d) ++ entry_of "_mesh_phonopy" VMesh (i_mesh d).

(** dynaphopy/parameters.py:104-109 and dynaphopy/atoms.py:77-82 get_data_from_dict: every attribute the object has and the dictionary names *)
Definition get_data_from_dict (object data : dict) : dict := map (fun kv => match lookup (fst kv) data with Some v => (fst kv, v) | None => kv end) object.

(** dynaphopy/atoms.py:33-75: the attributes of a Structure made by the structure readers (no primitive matrix); the values that matter here are None *)
Definition structure_attributes : dict :=
  [("_cell", VOther 0); ("_masses", VOther 1); ("_atomic_numbers", VOther 2); ("_force_constants", VNone); ("_force_sets", VNone); ("_atomic_elements", VOther 3);
   ("_atom_type_index", VNone); ("_scaled_positions", VOther 4); ("_positions", VOther 5); ("_primitive_matrix", VNone); ("_charges", VNone); ("_primitive_cell", VNone);
   ("_supercell_matrix", VNone); ("_supercell_phonon", VNone); ("_supercell_phonon_renormalized", VNone); ("_number_of_cell_atoms", VNone);
   ("_number_of_atoms", VNone); ("_number_of_atom_types", VNone); ("_number_of_primitive_atoms", VNone)].
(** dynaphopy/parameters.py:75-102: the attributes of Parameters; those whose default matters here (lines 57, 74: band_ranges=None, mesh_phonopy=(40, 40, 40); lines 24, 61) *)
Definition parameter_defaults : dict :=
  [("_silent", VBool false); ("_number_of_coefficients_mem", VOther 10); ("_mem_scan_range", VOther 11); ("_correlation_function_step", VOther 12);
   ("_integration_method", VOther 13); ("_power_spectra_algorithm", VOther 14); ("_fitting_function", VOther 15); ("_zero_padding", VOther 16);
   ("_frequency_range", VOther 17); ("_spectrum_resolution", VOther 18); ("_reduced_q_vector", VVector [0%R; 0%R; 0%R]); ("_use_NAC", VBool false);
   ("_band_ranges", VNone); ("_number_of_bins_histogram", VOther 19); ("_band_resolution", VOther 20); ("_symmetrize", VBool false); ("_use_symmetry", VBool true);
   ("_symprec", VOther 21); ("_save_renormalized_frequencies", VBool false); ("_modes_vectors_scale", VOther 22); ("_mesh_phonopy", VMesh [40%Z; 40%Z; 40%Z]);
   ("_use_MD_cell_commensurate", VBool false); ("_project_on_atom", VOther 23)].

Section Programs.
(** phonopy's parsers of the two force files; None: not readable, an exception (dynaphopy/interface/phonopy_link.py:94-96, 111-113) *)
Context {FS FC : Type} (parse_sets : string -> option FS) (parse_constants : string -> option FC).
Definition identity3 : list (list Z) := [[1; 0; 0]; [0; 1; 0]; [0; 0; 1]]%Z.
(** a Structure: where it was read from, its attributes, and the force data with the supercell attached to it *)
Record structure := MkS { s_file : bool * value; s_attributes : dict; s_sets : option (FS * list (list Z)); s_constants : option (FC * list (list Z)) }.

(** dynaphopy/interface/phonopy_link.py:92-122 get_force_sets_from_file, get_force_constants_from_file with the supercell given *)
Definition from_file {F} (parse : string -> option F) (file : string) (supercell : list (list Z)) : option (F * list (list Z)) :=
  match parse file with Some f => Some (f, supercell) | None => None end.
(** input_parameters['supercell_phonon'] if present, otherwise np.identity(3) *)
Definition supercell_or_identity (data : dict) : list (list Z) := match lookup "supercell_phonon" data with Some (VInts m) => m | _ => identity3 end.
(** the structure file: true for an OUTCAR.  Without either key: KeyError *)
Definition structure_file (data : dict) : option (bool * value) :=
  match lookup "structure_file_name_outcar" data with
  | Some v => Some (true, v)
  | None => match lookup "structure_file_name_poscar" data with Some v => Some (false, v) | None => None end
  end.
(** scripts/dynaphopy:198-223: None: exit or exception *)
Definition dynaphopy_structure (data : dict) : option structure :=
  match structure_file data with
  | None => None
  | Some file =>
    let attributes := get_data_from_dict structure_attributes data in
    let supercell := supercell_or_identity data in
    match (match lookup "force_sets_file_name" data with Some (VText f) => match from_file parse_sets f supercell with Some x => Some (Some x) | None => None end | _ => Some None end) with
    | None => None
    | Some sets =>
      match (match lookup "force_constants_file_name" data with Some (VText f) => match from_file parse_constants f supercell with Some x => Some (Some x) | None => None end | _ => Some None end) with
      | None => None
      | Some constants => match sets, constants with Some _, Some _ => None | _, _ => Some (MkS file attributes sets constants) end
      end
    end
  end.
(** scripts/dynaphopy:288-297: [projected]: a file of projected velocities was loaded, with its wave vector; [parameters]: the attributes of the (only) Parameters object *)
Definition dynaphopy_parameters (projected : option (list R)) (parameters data : dict) : dict :=
  get_data_from_dict parameters (match projected with Some q => update "_use_symmetry" (VBool false) (update "_reduced_q_vector" (VVector q) data) | None => data end).

(** dynaphopy/atoms.py:126-134 get_primitive_matrix of a structure without a primitive cell *)
Definition get_primitive_matrix (attributes : dict) : list (list R) :=
  match lookup "_primitive_matrix" attributes with Some (VReals m) => m | _ => [[1; 0; 0]; [0; 1; 0]; [0; 0; 1]]%R end.
(** dynaphopy/atoms.py:95-103 get_supercell_phonon (the check of the number of atoms in get_force_sets is in C66) *)
Definition get_supercell_phonon (s : structure) : list (list Z) :=
  match s_constants s with Some (_, m) => m | None => match s_sets s with Some (_, m) => m | None => identity3 end end.

(** scripts/qha_quasiparticle.py:502-529 the beginning of QuasiparticlesQHA: the structure, the mesh and the bands; "'bands' in input_parameters is None" is
    ('bands' in input_parameters) and (input_parameters is None); [seek]: structure.get_path_using_seek_path() *)
Definition qha_setup (seek : value) (data : dict) : option (structure * value * value) :=
  match structure_file data with
  | None => None
  | Some file =>
    let attributes := get_data_from_dict structure_attributes data in
    match lookup "force_constants_file_name" data with
    | Some (VText f) =>
      match from_file parse_constants f (supercell_or_identity data) with
      | None => None
      | Some constants =>
        let mesh := match lookup "_mesh_phonopy" data with Some v => v | None => VMesh [20; 20; 20]%Z end in
        let is_none := false in
        if (match lookup "bands" data with Some _ => true | None => false end) && is_none then Some (MkS file attributes None (Some constants), mesh, seek)
        else match lookup "_band_ranges" data with Some b => Some (MkS file attributes None (Some constants), mesh, b) | None => None end
      end
    | _ => None
    end
  end.

(** scripts/rfc_calc:84-87 band_ranges, then dynaphopy/interface/phonopy_link.py:311-315, "for q_start, q_end in bands_ranges".  Iterating over a dictionary gives
    its keys; a key of other than two characters cannot be unpacked (ValueError).  A row of six numbers is a pair of points. *)
Definition unpack_key (k : string) : option (string * string) := match k with String a (String b EmptyString) => Some (String a "", String b "") | _ => None end.
Inductive bands_argument := Dictionary (keys : list string) | Ranges (r : list (list R)).
Definition bands_walked (a : bands_argument) : option (list (list R)) :=
  match a with
  | Ranges r => Some r
  | Dictionary keys => match all_some (map unpack_key keys) with Some [] => Some [] | _ => None end   (* the keys are not empty, and letters are not points *)
  end.
Definition rfc_bands (seek_ranges : list (list R)) (data : dict) : option (list (list R)) :=
  bands_walked (match lookup "_band_ranges" data with
                | Some (VBands r (Some _)) => Dictionary ["ranges"; "labels"]
                | Some (VBands r None) => Dictionary ["ranges"]
                | _ => Ranges seek_ranges
                end).
(** scripts/rfc_calc:36-41: the force data; input_parameters['supercell_phonon'] raises KeyError when it is missing; both kinds may be given *)
Definition rfc_forces (data : dict) : option (option (FS * list (list Z)) * option (FC * list (list Z))) :=
  let required {F} (parse : string -> option F) (k : string) : option (option (F * list (list Z))) :=
    match lookup k data with
    | Some (VText f) => match lookup "supercell_phonon" data with
                        | Some (VInts m) => match from_file parse f m with Some x => Some (Some x) | None => None end
                        | _ => None
                        end
    | _ => Some None
    end in
  match required parse_sets "force_sets_file_name" with
  | None => None
  | Some sets => match required parse_constants "force_constants_file_name" with None => None | Some constants => Some (sets, constants) end
  end.
End Programs.
