(** What a user of Parameters expects: the documented settings and last-write-wins. *)
From Verif Require Export ParametersModel.
Open Scope string_scope.
Definition names : list string := [
  "silent"; "reduced_q_vector"; "number_of_coefficients_mem"; "mem_scan_range"; "correlation_function_step"; "integration_method";
  "frequency_range"; "spectrum_resolution"; "power_spectra_algorithm"; "use_NAC"; "band_ranges"; "number_of_bins_histogram"; "band_resolution";
  "modes_vectors_scale"; "fitting_function"; "zero_padding"; "use_symmetry"; "symprec"; "symmetrize"; "save_renormalized_frequencies";
  "mesh_phonopy"; "use_MD_cell_commensurate"; "project_on_atom"].
(** value of setting n after a history, starting from v; a loaded dictionary gives n under "_n" *)
Fixpoint last_value {V} (n : string) (l : list (step (V:=V))) (v : option V) : option V :=
  match l with
  | [] => v
  | Assign m w :: l => last_value n l (if String.eqb n m then Some w else v)
  | Load data :: l => last_value n l (match v, lookup ("_" ++ n) data with Some _, Some w => Some w | _, _ => v end)
  end.
Definition known {V} (s : step (V:=V)) : Prop := match s with Assign m _ => In m names | Load _ => True end.
