(** Model of dynaphopy/parameters.py: the attribute dictionary of the Parameters object. *)
From Coq Require Export List String Bool.
Export ListNotations.
Open Scope string_scope.

Section Model.
Context {V : Type}.
(** instance __dict__, in insertion order *)
Definition dict := list (string * V).
Fixpoint lookup (k : string) (d : dict) : option V :=
  match d with [] => None | (k', v) :: d => if String.eqb k k' then Some v else lookup k d end.
(** d[k] = v : keeps the position of an existing key, appends a new one *)
Fixpoint store (k : string) (v : V) (d : dict) : dict :=
  match d with [] => [(k, v)] | (k', w) :: d => if String.eqb k k' then (k', v) :: d else (k', w) :: store k v d end.

(** dynaphopy/parameters.py:112-297, one entry per property: name, attribute read by the getter, attribute
    written by the setter (as they are in the file, including line 271) *)
Definition properties : list (string * (string * string)) := [
  ("silent", ("_silent", "_silent"));
  ("reduced_q_vector", ("_reduced_q_vector", "_reduced_q_vector"));
  ("number_of_coefficients_mem", ("_number_of_coefficients_mem", "_number_of_coefficients_mem"));
  ("mem_scan_range", ("_mem_scan_range", "_mem_scan_range"));
  ("correlation_function_step", ("_correlation_function_step", "_correlation_function_step"));
  ("integration_method", ("_integration_method", "_integration_method"));
  ("frequency_range", ("_frequency_range", "_frequency_range"));
  ("spectrum_resolution", ("_spectrum_resolution", "_spectrum_resolution"));
  ("power_spectra_algorithm", ("_power_spectra_algorithm", "_power_spectra_algorithm"));
  ("use_NAC", ("_use_NAC", "_use_NAC"));
  ("band_ranges", ("_band_ranges", "_band_ranges"));
  ("number_of_bins_histogram", ("_number_of_bins_histogram", "_number_of_bins_histogram"));
  ("band_resolution", ("_band_resolution", "_band_resolution"));
  ("modes_vectors_scale", ("_modes_vectors_scale", "_modes_vectors_scale"));
  ("fitting_function", ("_fitting_function", "_fitting_function"));
  ("zero_padding", ("_zero_padding", "_zero_padding"));
  ("use_symmetry", ("_use_symmetry", "_use_symmetry"));
  ("symprec", ("_symprec", "_symprec"));
  ("symmetrize", ("_symmetrize", "_symmetrize"));
  ("save_renormalized_frequencies", ("_save_renormalized_frequencies", "_save_renormalized_frequenciese"));
  ("mesh_phonopy", ("_mesh_phonopy", "_mesh_phonopy"));
  ("use_MD_cell_commensurate", ("_use_MD_cell_commensurate", "_use_MD_cell_commensurate"));
  ("project_on_atom", ("_project_on_atom", "_project_on_atom"))].

Fixpoint find_property (n : string) (l : list (string * (string * string))) : option (string * string) :=
  match l with [] => None | (m, gs) :: l => if String.eqb n m then Some gs else find_property n l end.
(** parameters.name (None: AttributeError) *)
Definition read (n : string) (d : dict) : option V :=
  match find_property n properties with Some (g, _) => lookup g d | None => lookup n d end.
(** parameters.name = v *)
Definition assign (n : string) (v : V) (d : dict) : dict :=
  match find_property n properties with Some (_, s) => store s v d | None => store n v d end.

(** dynaphopy/parameters.py:16-72: constructor arguments (default values as a function of the argument name) and
    76-102: the attribute each one initialises *)
Definition init_table : list (string * string) := [
  ("_silent", "silent"); ("_number_of_coefficients_mem", "number_of_coefficients_mem"); ("_mem_scan_range", "mem_scan_range");
  ("_correlation_function_step", "correlation_function_step"); ("_integration_method", "integration_method");
  ("_power_spectra_algorithm", "power_spectra_algorithm"); ("_fitting_function", "fitting_function"); ("_zero_padding", "zero_padding");
  ("_frequency_range", "frequency_range"); ("_spectrum_resolution", "spectrum_resolution"); ("_reduced_q_vector", "reduced_q_vector");
  ("_use_NAC", "use_NAC"); ("_band_ranges", "band_ranges"); ("_number_of_bins_histogram", "number_of_bins_histogram");
  ("_band_resolution", "band_resolution"); ("_symmetrize", "symmetrize"); ("_use_symmetry", "use_symmetry"); ("_symprec", "symmprec");
  ("_save_renormalized_frequencies", "save_renormalized_frequencies"); ("_modes_vectors_scale", "modes_vectors_scale");
  ("_mesh_phonopy", "mesh_phonopy"); ("_use_MD_cell_commensurate", "use_MD_cell_commensurate"); ("_project_on_atom", "project_on_atom")].
Definition init (args : string -> V) : dict := map (fun p => (fst p, args (snd p))) init_table.
(** dynaphopy/parameters.py:4-10 Singleton.__call__: the registry holds the only instance *)
Definition construct (args : string -> V) (registry : option dict) : dict * option dict :=
  match registry with Some d => (d, Some d) | None => (init args, Some (init args)) end.

(** dynaphopy/parameters.py:104-109 get_data_from_dict: for data in self.__dict__: overwrite if the key is in
    the given dictionary *)
Definition get_data_from_dict (data : dict) (d : dict) : dict :=
  map (fun kv => (fst kv, match lookup (fst kv) data with Some v => v | None => snd kv end)) d.

(** a history of attribute assignments and dictionary loads *)
Inductive step := Assign (n : string) (v : V) | Load (data : dict).
Definition do_step (s : step) (d : dict) : dict := match s with Assign n v => assign n v d | Load data => get_data_from_dict data d end.
Definition run (l : list step) (d : dict) : dict := fold_left (fun d s => do_step s d) l d.
End Model.
Arguments dict : clear implicits.
