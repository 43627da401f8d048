(** Model of the choice of the non-analytical correction (NAC) in the results of one calculation: scripts/qha_quasiparticle.py (ForceConstantsFitting
    279-321, 478-497 and QuasiparticlesQHA 542, 665-690) and the renormalized results of Quasiparticle (dynaphopy/__init__.py:445-461, 533-564), on top of
    obtain_phonopy_dos and obtain_phonopy_thermal_properties (PhonopyDosModel) and of the band paths (PhonopyLinkModel).
    phonopy is a parameter; its frequencies at a wave vector depend on the force constants, the supercell and NAC (the direction from which the
    zone centre is approached and the connection of bands are not modelled).  The force constants of a temperature and a volume are a parameter
    (QhaModel models them).  Prints and drawing calls other than the data they are given are not modelled. *)
From Verif Require Export PhonopyDosModel PhonopyLinkModel.
From Verif Require QhaPressureModel.
Open Scope R_scope.

Section Nac.
Context {FC S Mesh : Type}.
Notation phonon := (@phonon FC S).
Notation constants := (@constants FC S).
Notation structure := (@structure FC S).
Context (total_dos : phonon -> Mesh -> option R -> option R -> option R -> list R * list R)
        (projected_dos : phonon -> Mesh -> option R -> option R -> list R * list (list R))
        (thermal : phonon -> Mesh -> R -> R * R * R)
        (frequencies : phonon -> vec -> list R)               (* run_band_structure and run_mesh at one wave vector *)
        (path_distances : list (list vec) -> list (list R))   (* phonopy's distances along the paths *)
        (mesh_points : Mesh -> list (vec * nat)).             (* run_mesh: irreducible points and weights *)
(** what obtain_phonon_dispersion_bands returns, without the eigenvectors *)
Record bands := MkBands { b_points : list (list vec); b_distances : list (list R); b_frequencies : list (list (list R)) }.
(** dynaphopy/interface/phonopy_link.py:301-327 without eigenvectors and band connection; None: exit() *)
Definition obtain_phonon_dispersion_bands (s : structure) (ranges : list (vec * vec)) (force_constants : option constants) (nac : bool) (band_resolution : nat) : option bands :=
  match prepare s force_constants nac with
  | None => None
  | Some ph => let points := map (fun r => band_path (fst r) (snd r) band_resolution) ranges in
               Some (MkBands points (path_distances points) (map (map (frequencies ph)) points))
  end.
(** dynaphopy/interface/phonopy_link.py:287-298: q-points, weights, frequencies *)
Definition obtain_phonopy_mesh_from_force_constants (force_constants : constants) (mesh : Mesh) (nac : bool) : list vec * list nat * list (list R) :=
  let ph := MkPhonon (fc_array force_constants) (fc_supercell force_constants) nac in
  (map fst (mesh_points mesh), map snd (mesh_points mesh), map (fun p => frequencies ph (fst p)) (mesh_points mesh)).

(** the attributes of ForceConstantsFitting these methods use: scripts/qha_quasiparticle.py:43-93 *)
Record fitting := MkFit { f_structure : structure; f_mesh : Mesh; f_volumes : list R; f_range : list R; f_nac : bool }.
Context (total : R -> R -> constants).   (* get_total_force_constants(temperature, volume), 269-277: see QhaModel *)
Fixpoint sequence {A} (l : list (option A)) : option (list A) :=
  match l with [] => Some [] | Some a :: l => option_map (cons a) (sequence l) | None :: _ => None end.
(** scripts/qha_quasiparticle.py:279-302: one row (free energy, entropy, heat capacity) per temperature of get_temperature_range; None: IndexError or exit() *)
Definition get_thermal_properties (f : fitting) (volume : option R) : option (list (R * R * R)) :=
  match (match volume with None => nth_error (f_volumes f) 0 | Some v => Some v end) with
  | None => None
  | Some v => sequence (map (fun t => obtain_phonopy_thermal_properties thermal (f_structure f) t (f_mesh f) (Some (total t v)) (f_nac f)) (f_range f))
  end.
(** scripts/qha_quasiparticle.py:312-321: the temperatures and the rows of the three curves *)
Definition plot_thermal_properties (f : fitting) (volume_index : nat) : option (list R * list (R * R * R)) :=
  match nth_error (f_volumes f) volume_index with
  | None => None
  | Some v => option_map (pair (f_range f)) (get_thermal_properties f (Some v))
  end.
(** scripts/qha_quasiparticle.py:488-491 get_dos, the curve of plot_dos (493-497) *)
Definition get_dos (f : fitting) (temperature volume : R) : option (list R * list R) :=
  obtain_phonopy_dos total_dos projected_dos (f_structure f) (f_mesh f) (Some (total temperature volume)) None None None (-1) (f_nac f).
(** scripts/qha_quasiparticle.py:304-310: the curve of plot_density_of_states; obtain_phonopy_dos is called without NAC (default False) *)
Definition plot_density_of_states (f : fitting) (volume_index : nat) (temperature : R) : option (list R * list R) :=
  match nth_error (f_volumes f) volume_index with
  | None => None
  | Some v => obtain_phonopy_dos total_dos projected_dos (f_structure f) (f_mesh f) (Some (total temperature v)) None None None (-1) false
  end.
(** scripts/qha_quasiparticle.py:478-486; [ranges] given (otherwise those of seek-path) *)
Definition get_band_structure (f : fitting) (temperature volume : R) (ranges : list (vec * vec)) : option bands :=
  obtain_phonon_dispersion_bands (f_structure f) ranges (Some (total temperature volume)) (f_nac f) 30.
(** scripts/qha_quasiparticle.py:677-690 plot_band_structure_gradient: the dispersions drawn, each with the temperature that colours it;
    [analysed], [equilibrium]: the temperatures and volumes of the quasi-harmonic analysis *)
Definition band_gradient (f : fitting) (analysed equilibrium : list R) (ranges : list (vec * vec)) (tmin tmax tstep : R) : option (list (R * bands)) :=
  sequence (map (fun t => match QhaPressureModel.np_interp t analysed equilibrium with
                          | Some v => option_map (pair t) (get_band_structure f t v ranges)
                          | None => None
                          end) (arange tmin tmax tstep)).
(** scripts/qha_quasiparticle.py:531-542 QuasiparticlesQHA builds its fitting object with use_NAC=True *)
Definition qha_fitting (s : structure) (mesh : Mesh) (volumes range : list R) : fitting := MkFit s mesh volumes range true.

(** the settings of a Quasiparticle calculation these methods use: dynaphopy/parameters.py *)
Record settings := MkSet { use_nac : bool; mesh_phonopy : Mesh; band_ranges : list (vec * vec); band_resolution : nat }.
(** dynaphopy/__init__.py:445-461: the harmonic and the renormalized dispersion with band_connection=False *)
Definition dispersions (p : settings) (s : structure) (renormalized : constants) : option bands * option bands :=
  (obtain_phonon_dispersion_bands s (band_ranges p) None (use_nac p) (band_resolution p),
   obtain_phonon_dispersion_bands s (band_ranges p) (Some renormalized) (use_nac p) (band_resolution p)).
(** dynaphopy/__init__.py:541-564: q-points, weights, frequencies and linewidths of the mesh, from the force constants built from the frequencies
    ([renormalized], the same as above) and from the linewidths ([widths]); NAC=None in both calls *)
Definition get_mesh_frequencies_and_linewidths (p : settings) (renormalized widths : constants) : list vec * list nat * list (list R) * list (list R) :=
  let '(_, _, linewidths_mesh) := obtain_phonopy_mesh_from_force_constants widths (mesh_phonopy p) false in
  let '(qpoints, multiplicity, frequencies_mesh) := obtain_phonopy_mesh_from_force_constants renormalized (mesh_phonopy p) false in
  (qpoints, multiplicity, frequencies_mesh, linewidths_mesh).
End Nac.
