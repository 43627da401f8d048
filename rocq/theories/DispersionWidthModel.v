(** Model of the linewidths in the renormalized dispersion relations at the wave vectors commensurate with the supercell, without band
    connection (dynaphopy/__init__.py:396-531 get_renormalized_phonon_dispersion_bands(with_linewidths=True), band_connection=False: what
    plot_renormalized_phonon_dispersion_bands asks for, dynaphopy/__init__.py:249-250).
    As in MeshModel phonopy's Fourier interpolation returns there the dynamical matrix it was given, whose eigenvalues come out in ascending order.
    Wave vectors between the commensurate ones, symmetrization and NAC are not modelled here (NacModel: the correction). *)
From Verif Require Export PhonopyLinkModel MeshModel.
Open Scope R_scope.

(** one phonon mode of a commensurate point: fitted (renormalized) frequency and linewidth *)
Definition mode : Type := (R * R)%type.
(** what one entry of the dispersion data lists at one wave vector *)
Record listed := MkL { l_frequencies : list R; l_minus : list R; l_plus : list R; l_linewidth : list R }.
(** dynaphopy/__init__.py:519-525: renormalized_bands_s[2][i].T - renormalized_bands_i[2][i].T *)
Definition differences (a b : list R) : list R := map (fun p => fst p - snd p) (combine a b).
(** dynaphopy/__init__.py:445-531 at one commensurate wave vector: force constants built from the frequencies (445), from the frequencies plus
    (472-476) and minus (478-482) half the linewidths, each diagonalised on its own (456-461, 485-497) *)
Definition dispersion_entry (unit_conversion : R) (modes : list mode) : listed :=
  let sup := mesh_values unit_conversion (map (fun m => fst m + snd m / 2) modes) in
  let inf := mesh_values unit_conversion (map (fun m => fst m - snd m / 2) modes) in
  MkL (mesh_values unit_conversion (map fst modes)) inf sup (differences sup inf).
