(** Model of obtain_phonopy_dos, obtain_phonopy_thermal_properties and obtain_phonopy_group_velocity (dynaphopy/interface/phonopy_link.py:131-284) and of the
    curves drawn by plot_power_spectrum_full and plot_dos_phonopy (dynaphopy/__init__.py:585-608, 875-919).  phonopy is a parameter: its densities of
    states, thermal properties and group velocities are arbitrary functions of the force constants, the supercell, the NAC choice and the options.  Floats are reals. *)
From Verif Require Export CommensurateModel.
From Coq Require Export String.
Open Scope R_scope.

Section Phonopy.
Context {FC S Mesh V : Type}.   (* force constant arrays, supercell matrices, meshes, group velocities *)
(** the phonopy object prepared by get_phonon and, for given force constants, set_force_constants: what it computes with *)
Record phonon := MkPhonon { ph_array : FC; ph_supercell : S; ph_nac : bool }.
Record constants := MkFC { fc_array : FC; fc_supercell : S }.
(** the structure: force constants (None: no force data), atoms of the unit cell, atoms of the primitive cell *)
Record structure := MkStruct { forces : option constants; number_of_atoms : nat; number_of_primitive_atoms : nat }.
(** phonopy: run_mesh + run_total_dos(freq_min, freq_max, freq_pitch); run_mesh + run_projected_dos(freq_min, freq_max): one density per atom of the primitive cell;
    run_mesh + run_thermal_properties: (free energy, entropy, heat capacity) at a temperature; get_group_velocity_at_q *)
Context (total_dos : phonon -> Mesh -> option R -> option R -> option R -> list R * list R)
        (projected_dos : phonon -> Mesh -> option R -> option R -> list R * list (list R))
        (thermal : phonon -> Mesh -> R -> R * R * R)
        (group_velocity : phonon -> list R -> V).
(** lines 131-169 and the repeated head of the three functions (204-215, 241-251, 272-282); None: exit() when there are no force data *)
Definition prepare (s : structure) (force_constants : option constants) (nac : bool) : option phonon :=
  match force_constants with
  | None => match forces s with Some f => Some (MkPhonon (fc_array f) (fc_supercell f) nac) | None => None end
  | Some f => Some (MkPhonon (fc_array f) (fc_supercell f) nac)
  end.
(** line 234: total_dos[1, :] *= float(number_of_atoms)/number_of_primitive_atoms *)
Definition relation (s : structure) : R := INR (number_of_atoms s) / INR (number_of_primitive_atoms s).
(** lines 201-236; None: exit().  A projection number below zero means none. *)
Definition obtain_phonopy_dos (s : structure) (mesh : Mesh) (force_constants : option constants) (freq_min freq_max freq_pitch : option R) (projected_on_atom : Z) (nac : bool) : option (list R * list R) :=
  match prepare s force_constants nac with
  | None => None
  | Some ph =>
    match (if (projected_on_atom <? 0)%Z then Some (total_dos ph mesh freq_min freq_max freq_pitch)
           else let (f, p) := projected_dos ph mesh freq_min freq_max in
             match nth_error p (Z.to_nat projected_on_atom) with Some d => Some (f, d) | None => None end) with
    | Some (f, d) => Some (f, map (fun x => x * relation s) d)
    | None => None
    end
  end.
(** phonopy's run_thermal_properties(t_step, t_min, t_max): temperatures numpy.arange(t_min, t_max + t_step/2, t_step) *)
Definition temperatures (t_min t_max t_step : R) : list R := arange t_min (t_max + t_step / 2) t_step.
Definition rsum (l : list R) : R := fold_right Rplus 0 l.
(** lines 239-267 *)
Definition obtain_phonopy_thermal_properties (s : structure) (temperature : R) (mesh : Mesh) (force_constants : option constants) (nac : bool) : option (R * R * R) :=
  match prepare s force_constants nac with
  | None => None
  | Some ph => let rows := map (thermal ph mesh) (temperatures temperature temperature 1) in
      Some (rsum (map (fun r => fst (fst r)) rows) * relation s, rsum (map (fun r => snd (fst r)) rows) * relation s, rsum (map (fun r => snd r) rows) * relation s)
  end.
(** lines 270-284 *)
Definition obtain_phonopy_group_velocity (s : structure) (q : list R) (force_constants : option constants) (nac : bool) : option V :=
  match prepare s force_constants nac with Some ph => Some (group_velocity ph q) | None => None end.

(** a curve with the label shown in the legend *)
Definition curve : Type := (string * (list R * list R))%type.
(** dynaphopy/__init__.py:875-911: the handles of both axes in drawing order, matched by the legend with its fixed list of three names; None: an exception or exit *)
Definition plot_power_spectrum_full (s : structure) (mesh : Mesh) (renormalized : option constants) (frequency_range spectrum : list R) (resolution : R) (projected_on_atom : Z) (nac : bool) : option (list curve) :=
  match frequency_range with
  | [] => None
  | f0 :: _ => let dos fc := obtain_phonopy_dos s mesh fc (Some f0) (Some (last frequency_range f0)) (Some resolution) projected_on_atom nac in
      let harmonic := match forces s with Some _ => match dos None with Some d => Some [d] | None => None end | None => Some [] end in
      let renorm := match renormalized with Some f => match dos (Some f) with Some d => Some [d] | None => None end | None => Some [] end in
      match harmonic, renorm with
      | Some h, Some r => Some (combine ["Power spectrum (MD)"; "DoS (Harmonic)"; "DoS (Renormalized)"]%string ((frequency_range, spectrum) :: h ++ r))
      | _, _ => None
      end
  end.
(** dynaphopy/__init__.py:585-603 *)
Definition plot_dos_phonopy (s : structure) (mesh : Mesh) (force_constants : option constants) (projected_on_atom : Z) (nac : bool) : option (list curve) :=
  match obtain_phonopy_dos s mesh None None None None projected_on_atom nac with
  | None => None
  | Some h => match force_constants with
      | None => Some [("Harmonic"%string, h)]
      | Some f => match obtain_phonopy_dos s mesh (Some f) None None None projected_on_atom nac with Some r => Some [("Harmonic"%string, h); ("Renormalized"%string, r)] | None => None end
      end
  end.
End Phonopy.
