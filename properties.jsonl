{"id": "C01", "title": "Supercell atom order is the documented atom-major, x-fastest order", "statement": "Structure.get_positions(supercell=[nx,ny,nz]) returns exactly natoms*nx*ny*nz positions, and entry i is the position of unit-cell atom k translated by x*a+y*b+z*c where (x,y,z,k) is what dynaphopy_order(i,[nx,ny,nz]) returns; the map i -> (x,y,z,k) is a bijection onto all (x<nx,y<ny,z<nz,k<natoms).", "quantifier": "every structure (any number of atoms), every cell, every supercell with positive factors, every index i", "why_tests_cant": "tests use one or two fixed supercells; an ordering slip shows only for anisotropic factors with several atoms", "anchors": ["dynaphopy/atoms.py:Structure.get_positions", "dynaphopy/interface/iofile/__init__.py:get_correct_arrangement.dynaphopy_order"]}
{"id": "C02", "title": "Per-atom supercell attributes line up with supercell positions", "statement": "For one structure and one supercell, get_masses, get_charges, get_atomic_numbers, get_atomic_elements and get_atom_type_index all have the same length as get_positions, and entry i of each is the attribute of the very unit-cell atom whose image position i is.", "quantifier": "every structure, every attribute list, every supercell, every index", "why_tests_cant": "misalignment between six independently written loops appears only for particular supercell shapes; tests compare few entries", "anchors": ["dynaphopy/atoms.py:Structure.get_masses", "dynaphopy/atoms.py:Structure.get_charges", "dynaphopy/atoms.py:Structure.get_atomic_numbers", "dynaphopy/atoms.py:Structure.get_atomic_elements", "dynaphopy/atoms.py:Structure.get_atom_type_index"]}
{"id": "C03", "title": "Supercell lattice vectors are the unit-cell lattice vectors scaled by the supercell factors", "statement": "Structure.get_cell(supercell) returns a matrix whose i-th row (lattice vectors are rows) is supercell[i] times the i-th row of get_cell().", "quantifier": "every cell and every supercell", "why_tests_cant": "the tests only use cubic supercells or orthogonal cells, for which row and column scaling agree", "anchors": ["dynaphopy/atoms.py:Structure.get_cell", "dynaphopy/atoms.py:Structure.get_scaled_positions"]}
{"id": "C04", "title": "Setting positions is visible to every later query", "statement": "After Structure.set_positions(x), get_positions() returns x (and get_scaled_positions() the fractional coordinates of x), whatever was called before.", "quantifier": "every structure, every history of getter and setter calls before the set, every x", "why_tests_cant": "staleness depends on the call history (whether a getter filled the cache first)", "anchors": ["dynaphopy/atoms.py:Structure.set_positions", "dynaphopy/atoms.py:Structure.get_positions", "dynaphopy/atoms.py:Structure.get_scaled_positions"]}
{"id": "C05", "title": "Atom types are the equivalence classes of atoms and are numbered 0..n-1", "statement": "Structure.get_atom_type_index() gives every atom a type, types used are exactly 0..get_number_of_atom_types()-1, atom 0 has type 0, two atoms with different masses never share a type, and (when equivalence is transitive) two atoms share a type exactly when they are equivalent by a primitive translation and have equal masses; the answer does not depend on whether the first query asked for a supercell.", "quantifier": "every list of atoms, every equivalence pattern, every supercell and every order of queries", "why_tests_cant": "the assignment loop overwrites earlier decisions, so errors depend on the pattern of equivalences; caching makes the answer depend on the first call", "anchors": ["dynaphopy/atoms.py:Structure.get_atom_type_index", "dynaphopy/atoms.py:Structure.get_number_of_atom_types", "dynaphopy/atoms.py:Structure.get_number_of_primitive_atoms"]}
{"id": "C06", "title": "Changing the primitive matrix discards everything derived from the old one", "statement": "After set_primitive_matrix(P), get_primitive_cell(), get_atom_type_index(), get_number_of_atom_types() and get_number_of_primitive_atoms() return what a fresh structure with primitive matrix P would return.", "quantifier": "every structure and every history of calls", "why_tests_cant": "depends on which caches were filled before", "anchors": ["dynaphopy/atoms.py:Structure.set_primitive_matrix", "dynaphopy/atoms.py:Structure.get_primitive_cell"]}
{"id": "C07", "title": "Cropping keeps exactly the last n steps of every array", "statement": "Dynamics.crop_trajectory(n) with n>0 leaves trajectory, velocity, energy and time equal to the last min(n,N) steps of what they were, all of the same length; n None or n<=0 changes nothing; cropping to n and then to m is cropping to min(n,m).", "quantifier": "every trajectory length, every n, every combination of loaded data", "why_tests_cant": "slicing corner cases (n>N, n=0, n<0, missing arrays) multiply", "anchors": ["dynaphopy/dynamics.py:Dynamics.crop_trajectory"]}
{"id": "C08", "title": "Derived quantities of a Dynamics object reflect the current data", "statement": "After any sequence of crop_trajectory, getter calls and get_mean_displacement_matrix(flag) calls, get_mean_displacement_matrix(flag), get_velocity_mass_average() and get_time_step_average() equal what a fresh Dynamics holding the current trajectory/time would return for the same arguments.", "quantifier": "every history of API calls", "why_tests_cant": "cache staleness is a property of histories", "anchors": ["dynaphopy/dynamics.py:Dynamics.get_mean_displacement_matrix", "dynaphopy/dynamics.py:Dynamics.crop_trajectory", "dynaphopy/dynamics.py:Dynamics.get_time_step_average", "dynaphopy/dynamics.py:Dynamics.get_velocity_mass_average"]}
{"id": "C09", "title": "The average time step telescopes", "statement": "Up to its 8-decimal rounding, get_time_step_average() equals (t_last - t_first)/(n-1); it is exactly dt for a uniform time axis, for every number of steps n>=2.", "quantifier": "every time axis of length >= 2", "why_tests_cant": "every length and every (irregular) time axis", "anchors": ["dynaphopy/dynamics.py:Dynamics.get_time_step_average"]}
{"id": "C10", "title": "Relative displacements are minimum-image displacements", "statement": "atomic_displacements(trajectory, position, cell) returns, for every step, a vector that differs from trajectory - position by an integer combination of the lattice vectors (rows of cell) and whose fractional coordinates all lie in [-1/2, 1/2].", "quantifier": "every invertible cell (of any shape), every trajectory and reference position", "why_tests_cant": "real-valued inputs; the transposition of the cell is invisible for symmetric or diagonal cells", "anchors": ["c/displacements.c:atomic_displacements", "c/displacements.c:matrix_inverse", "dynaphopy/dynamics.py:Dynamics.get_relative_trajectory"]}
{"id": "C11", "title": "Displacements do not see jumps across periodic boundaries", "statement": "Adding any integer combination of lattice vectors to a trajectory point leaves its displacement unchanged (except exactly at the half-cell tie, where rounding is away from zero).", "quantifier": "every cell, point, reference position and integer combination", "why_tests_cant": "unbounded integers and arbitrary reals", "anchors": ["c/displacements.c:atomic_displacements"]}
{"id": "C12", "title": "The cofactor inverse used by the C extension is an inverse", "statement": "For every 3x3 matrix with non-zero determinant the inverse computed by displacements.c times the matrix is the identity, and the determinant routine equals the determinant.", "quantifier": "every 3x3 real matrix", "why_tests_cant": "real-valued inputs", "anchors": ["c/displacements.c:matrix_inverse", "c/displacements.c:Determinant", "c/displacements.c:CoFactor"]}
{"id": "C13", "title": "Python and C displacement routines agree", "statement": "analysis.coordinates.relativize_trajectory_py and the C atomic_displacements return the same displacement for the same trajectory, position and cell.", "quantifier": "every invertible cell and every trajectory", "why_tests_cant": "differs only for non-symmetric cells", "anchors": ["dynaphopy/analysis/coordinates.py:relativize_trajectory_py", "c/displacements.c:atomic_displacements"]}
{"id": "C14", "title": "The supercell check accepts only (nearly) integer multiples of the unit cell", "statement": "Dynamics.get_supercell_matrix() returns positive integers m_i with |m_i - |A_i|/|a_i|| small relative to the supercell size, or terminates the program; a mismatched cell is never accepted.", "quantifier": "every pair of unit cell and MD cell", "why_tests_cant": "deviations of opposite sign cancel in the check, which needs an adversarial cell to show", "anchors": ["dynaphopy/dynamics.py:Dynamics.get_supercell_matrix"]}
{"id": "C15", "title": "Average positions in the unit cell are averages over equivalent atoms", "statement": "Dynamics.average_positions(to_unit_cell=True) returns for each unit-cell atom its reference position plus the mean displacement of its equivalent atoms, folded into the cell.", "quantifier": "every structure, every supercell, every trajectory", "why_tests_cant": "depends on the number of atoms per type in the unit cell", "anchors": ["dynaphopy/dynamics.py:Dynamics.average_positions"]}
{"id": "C16", "title": "Mean displacement matrices are per-type averages and symmetric positive semidefinite", "statement": "get_mean_displacement_matrix() returns, per atom type, the average over steps and over all equivalent atoms of the outer product of the displacement with itself: symmetric, with non-negative diagonal and u^T M u >= 0; with use_average_positions=True it is the covariance of the displacements.", "quantifier": "every trajectory and type assignment", "why_tests_cant": "real-valued inputs and every length", "anchors": ["dynaphopy/dynamics.py:Dynamics.get_mean_displacement_matrix"]}
{"id": "C17", "title": "Velocity correlation implements the documented formula", "statement": "correlation.correlation_par(omega, v, dt, ...) returns for every omega the value sum_{i} sum_{j} conj(v_j) v_{j+i} e^{i*omega*t_i} dt of its documented formula.", "quantifier": "every velocity array, frequency, time step and step increment", "why_tests_cant": "every array length, increment and real frequency", "anchors": ["c/correlation.c:EvaluateCorrelation", "c/correlation.c:correlation_par"]}
{"id": "C18", "title": "Correlation loops stay inside the velocity buffer", "statement": "For every data length N and every increment >= 1 every velocity element read by the correlation routine has index in [0,N), for both integration methods, and the loops terminate; parallel frequency iterations write disjoint outputs so the result does not depend on the schedule.", "quantifier": "every N, increment, method and OpenMP schedule", "why_tests_cant": "memory safety over all sizes and all schedules", "anchors": ["c/correlation.c:EvaluateCorrelation", "c/correlation.c:correlation_par"]}
{"id": "C19", "title": "The maximum entropy routine reads only inside its data buffer", "statement": "Every element of the velocity buffer and of the work arrays accessed by the MEM coefficient routine is within bounds, and all data points are used, for every data length N and every number of coefficients m accepted by the Python guard.", "quantifier": "every N and m with N > m+1", "why_tests_cant": "out-of-bounds reads rarely crash", "anchors": ["c/mem.c:GetCoefficients", "dynaphopy/power_spectrum/__init__.py:get_mem_power_spectra"]}
{"id": "C20", "title": "Maximum entropy residual power is non-negative and never increases with the order", "statement": "In the Burg recursion every reflection coefficient has modulus at most one, so the mean square discrepancy is non-negative and non-increasing in the number of coefficients, and the resulting power spectrum is non-negative at every frequency where it is defined.", "quantifier": "every real data sequence and every order", "why_tests_cant": "an inequality over all real inputs and all orders", "anchors": ["c/mem.c:GetCoefficients", "c/mem.c:FrequencyEvaluation"]}
{"id": "C21", "title": "Data segmentation covers the trajectory with equal-length in-range pieces", "statement": "_division_of_data(resolution, N, dt) yields at least two pieces [ini,fin) with 0<=ini<fin<=N, all of the same length, first starting at 0 and last ending at N, consecutive pieces leaving no gap.", "quantifier": "every resolution, data length and time step the function accepts", "why_tests_cant": "integer/real rounding for every size", "anchors": ["dynaphopy/power_spectrum/__init__.py:_division_of_data"]}
{"id": "C22", "title": "The frequency range covers the requested limits at the requested resolution", "statement": "After set_frequency_limits([lo,hi]) / set_spectra_resolution(r) the frequency axis starts at lo, has spacing r, reaches hi and exceeds it by less than r; repeating set_frequency_limits changes nothing.", "quantifier": "every lo<=hi and r>0", "why_tests_cant": "off-by-one at the end point depends on divisibility", "anchors": ["dynaphopy/__init__.py:Quasiparticle.set_frequency_limits", "dynaphopy/__init__.py:Quasiparticle.set_spectra_resolution", "dynaphopy/__init__.py:Quasiparticle._set_frequency_range"]}
{"id": "C23", "title": "Cached power spectra always correspond to the current settings", "statement": "After any sequence of Quasiparticle setter and getter calls, get_power_spectrum_phonon/wave_vector/full/partials, get_vc, get_vq, get_frequencies and get_eigenvectors return the value computed from the current wave vector, algorithm, MEM coefficients, frequency range, resolution, atom projection and trajectory.", "quantifier": "every finite history of API calls", "why_tests_cant": "cache invalidation is a property of histories", "anchors": ["dynaphopy/__init__.py:Quasiparticle.power_spectra_clear", "dynaphopy/__init__.py:Quasiparticle.full_clear", "dynaphopy/__init__.py:Quasiparticle.set_projection_onto_atom_type", "dynaphopy/__init__.py:Quasiparticle.set_reduced_q_vector", "dynaphopy/__init__.py:Quasiparticle.crop_trajectory", "dynaphopy/__init__.py:Quasiparticle.get_power_spectrum_partials"]}
{"id": "C24", "title": "Renormalized results always correspond to the current settings", "statement": "After any history of calls, get_renormalized_force_constants(), get_commensurate_points_data() and the phonon dispersions reflect the current algorithm, fitting function, frequency range, symmetry and NAC settings.", "quantifier": "every finite history of API calls", "why_tests_cant": "cache invalidation is a property of histories", "anchors": ["dynaphopy/__init__.py:Quasiparticle.force_constants_clear", "dynaphopy/__init__.py:Quasiparticle.get_commensurate_points_data", "dynaphopy/__init__.py:Quasiparticle.get_renormalized_force_constants", "dynaphopy/__init__.py:Quasiparticle.set_NAC"]}
{"id": "C25", "title": "Computations at other wave vectors leave the selected wave vector unchanged", "statement": "get_power_spectrum_phonon, get_power_spectrum_wave_vector, get_commensurate_points_data (and everything built on them) return with get_reduced_q_vector() as it was before the call, in both symmetry modes.", "quantifier": "every state, every list of (equivalent / commensurate) wave vectors", "why_tests_cant": "every list of q points and state", "anchors": ["dynaphopy/__init__.py:Quasiparticle.get_power_spectrum_phonon", "dynaphopy/__init__.py:Quasiparticle.get_commensurate_points_data"]}
{"id": "C26", "title": "Two Quasiparticle objects are independent", "statement": "Calling setters on one Quasiparticle object never changes what another Quasiparticle object returns.", "quantifier": "every interleaving of calls on two objects", "why_tests_cant": "interleavings of histories", "anchors": ["dynaphopy/parameters.py:Singleton", "dynaphopy/parameters.py:Parameters", "dynaphopy/__init__.py:Quasiparticle.__init__"]}
{"id": "C27", "title": "Every parameter setter is observable through its getter", "statement": "For each property of Parameters, assigning a value makes the getter return that value and changes no other property.", "quantifier": "every property, every value, every prior state", "why_tests_cant": "a misspelled attribute is silent in Python", "anchors": ["dynaphopy/parameters.py:Parameters"]}
{"id": "C28", "title": "Wave-vector projection is the documented, linear, normalised projection", "statement": "project_onto_wave_vector(dynamic,q)[t,type,dim] equals the sum over atoms of that type of sqrt(m) v e^{-i q.r} divided by sqrt(number of primitive cells); it is linear in the velocity, and with project_on_atom=k only type k contributes.", "quantifier": "every trajectory, type assignment and q", "why_tests_cant": "every number of atoms, steps, every real q", "anchors": ["dynaphopy/projection.py:project_onto_wave_vector"]}
{"id": "C29", "title": "Projection onto orthonormal eigenvectors conserves kinetic energy", "statement": "If the eigenvectors are orthonormal, the total squared modulus over phonon modes of project_onto_phonon(vc, eigenvectors) at each step equals the total squared modulus of vc; the two implementations project_onto_phonon and project_onto_phonon2 return the same values.", "quantifier": "every complex vc, every orthonormal eigenvector basis of any size", "why_tests_cant": "every dimension and every unitary matrix", "anchors": ["dynaphopy/projection.py:project_onto_phonon", "dynaphopy/projection.py:project_onto_phonon2"]}
{"id": "C30", "title": "Degenerate sets partition the branches", "statement": "degenerate_sets(frequencies, cutoff) returns sets that together contain every branch index exactly once, each holding frequencies linked by steps smaller than the cutoff.", "quantifier": "every frequency list and cutoff", "why_tests_cant": "overlaps need a particular order of three frequencies", "anchors": ["dynaphopy/analysis/fitting/__init__.py:degenerate_sets", "dynaphopy/analysis/fitting/__init__.py:get_degenerate_averages"]}
{"id": "C31", "title": "Fit results have one entry per phonon branch in branch order", "statement": "phonon_fitting_analysis returns positions, widths and errors lists with exactly one entry per power spectrum column in column order; a failed fit contributes zeros for its branch and shifts no other branch.", "quantifier": "every number of branches and every pattern of failed fits", "why_tests_cant": "every success/failure pattern", "anchors": ["dynaphopy/analysis/fitting/__init__.py:phonon_fitting_analysis"]}
{"id": "C32", "title": "Lorentzian fit parameters mean what the report says", "statement": "For the symmetric Lorentzian with coefficients (a,b,c,d): the peak is at a, the reported maximum is the height above the base line, the reported width is the full width at half maximum, and the reported area is the integral above the base line.", "quantifier": "every fitted coefficient vector (including negative b)", "why_tests_cant": "real identities; sign conventions of the optimiser are not controlled by tests", "anchors": ["dynaphopy/analysis/fitting/fitting_functions.py:Lorentzian"]}
{"id": "C33", "title": "The damped-oscillator and asymmetric fits report consistent position, width and height", "statement": "For the damped harmonic function and the asymmetric Lorentzian the reported peak position/width/maximum are those of the fitted curve; the asymmetric function with zero asymmetry is the symmetric Lorentzian.", "quantifier": "every coefficient vector", "why_tests_cant": "real identities", "anchors": ["dynaphopy/analysis/fitting/fitting_functions.py:Damped_harmonic", "dynaphopy/analysis/fitting/fitting_functions.py:Lorentzian_asymmetric"]}
{"id": "C34", "title": "Harmonic thermodynamic functions satisfy the thermodynamic identities", "statement": "For every frequency > 0 and temperature > 0 the integrands of thermal_properties satisfy F = E - T*S, the two entropy routines agree, Cv = dE/dT, S = -dF/dT, Cv >= 0 and S >= 0.", "quantifier": "every frequency and temperature", "why_tests_cant": "real analysis identities over a continuum", "anchors": ["dynaphopy/analysis/thermal_properties.py:get_free_energy", "dynaphopy/analysis/thermal_properties.py:get_entropy", "dynaphopy/analysis/thermal_properties.py:get_entropy2", "dynaphopy/analysis/thermal_properties.py:get_cv", "dynaphopy/analysis/thermal_properties.py:get_total_energy"]}
{"id": "C35", "title": "Free energy corrections vanish for an unrenormalised density of states", "statement": "get_free_energy_correction_dos / get_free_energy_correction_shift return zero when the renormalised spectrum equals the harmonic one (or all shifts are zero), for every temperature and frequency grid.", "quantifier": "every grid, DOS and temperature", "why_tests_cant": "every grid", "anchors": ["dynaphopy/analysis/thermal_properties.py:get_free_energy_correction_dos", "dynaphopy/analysis/thermal_properties.py:get_free_energy_correction_shift"]}
{"id": "C36", "title": "Generated VASP cells list every atom under its own element", "statement": "The POSCAR produced by generate_VASP_structure(structure, supercell) lists elements and counts such that expanding them gives the element of each listed position; the counts sum to the number of atoms.", "quantifier": "every structure (any order of elements) and supercell", "why_tests_cant": "only grouped element orders are exercised", "anchors": ["dynaphopy/generate_cell.py:generate_VASP_structure", "dynaphopy/interface/iofile/__init__.py:read_from_file_structure_poscar"]}
{"id": "C37", "title": "Generated LAMMPS cells are rigid rotations of the supercell", "statement": "The LAMMPS box (lengths and tilts) written by generate_LAMMPS_structure has the same lattice vector lengths and angles as the supercell, and each atom keeps its fractional coordinates; atom type numbers are 1..number of elements and consistent with the mass table.", "quantifier": "every non-degenerate cell, supercell and atom list", "why_tests_cant": "real-valued geometry", "anchors": ["dynaphopy/generate_cell.py:generate_LAMMPS_structure"]}
{"id": "C38", "title": "LAMMPS dump box bounds are converted to the right lattice vectors", "statement": "For every triclinic box the parser recovers from BOX BOUNDS the edge lengths and tilt factors that LAMMPS used to write them, and (when the unit cell has the same shape) the rotated supercell has rows parallel to the unit-cell lattice vectors with preserved lengths and the coordinates are rotated by the same matrix.", "quantifier": "every box, tilt sign and unit cell", "why_tests_cant": "four sign cases of the tilts and real geometry", "anchors": ["dynaphopy/interface/iofile/trajectory_parsers.py:read_lammps_trajectory"]}
{"id": "C39", "title": "The reading window selects exactly the requested steps", "statement": "Reading a trajectory file with initial_cut=a, end_cut=b, last_steps=n yields exactly the last n of steps a..b of the file, for the OUTCAR, LAMMPS and XDATCAR readers.", "quantifier": "every file length, every window", "why_tests_cant": "every combination of window options and lengths; each reader has its own loop", "anchors": ["dynaphopy/interface/iofile/trajectory_parsers.py:read_vasp_trajectory", "dynaphopy/interface/iofile/trajectory_parsers.py:read_lammps_trajectory", "dynaphopy/interface/iofile/trajectory_parsers.py:read_VASP_XDATCAR"]}
{"id": "C40", "title": "Every loaded step has its own time stamp", "statement": "After loading, get_time() has the same length as the trajectory/velocity and entry i is the time of stored step i, for all readers and all window options.", "quantifier": "every file and window", "why_tests_cant": "every combination of options", "anchors": ["dynaphopy/interface/iofile/trajectory_parsers.py:read_lammps_trajectory", "dynaphopy/interface/iofile/trajectory_parsers.py:read_VASP_XDATCAR", "dynaphopy/interface/iofile/__init__.py:initialize_from_hdf5_file"]}
{"id": "C41", "title": "Memory-mapped and in-memory reading return the same data", "statement": "Loading with memmap=True and memmap=False gives the same trajectory for the same window.", "quantifier": "every file and window, both readers", "why_tests_cant": "depends on the number of steps read", "anchors": ["dynaphopy/interface/iofile/trajectory_parsers.py:read_lammps_trajectory", "dynaphopy/interface/iofile/trajectory_parsers.py:read_VASP_XDATCAR"]}
{"id": "C42", "title": "Reordering templates are permutations applied consistently", "statement": "Applying a template permutation while reading puts atom template[i]... of the file at the position expected by the structure: the reordered coordinates contain each input atom exactly once, and indexing by argsort(template) inverts indexing by template.", "quantifier": "every permutation and every coordinate list", "why_tests_cant": "every permutation", "anchors": ["dynaphopy/interface/iofile/trajectory_parsers.py:read_lammps_trajectory", "dynaphopy/interface/iofile/__init__.py:get_correct_arrangement"]}
{"id": "C43", "title": "The arrangement template is always a permutation", "statement": "get_correct_arrangement returns a list of natoms indices that is a permutation (falling back to the identity when atoms cannot be matched one to one).", "quantifier": "every reference position list, structure and threshold", "why_tests_cant": "the matching is by threshold and the fallback condition must cover every failure", "anchors": ["dynaphopy/interface/iofile/__init__.py:get_correct_arrangement"]}
{"id": "C44", "title": "HDF5 save and load round-trip", "statement": "save_data_hdf5 followed by initialize_from_hdf5_file returns the same time, velocity, trajectory, wave vector and supercell, and with a read window returns the window of each.", "quantifier": "every combination of optional data sets and windows", "why_tests_cant": "every combination of options and lengths", "anchors": ["dynaphopy/interface/iofile/__init__.py:save_data_hdf5", "dynaphopy/interface/iofile/__init__.py:initialize_from_hdf5_file"]}
{"id": "C45", "title": "Concatenating HDF5 files concatenates trajectories", "statement": "concath5 of files f1..fk yields velocity/trajectory data equal to the concatenation of the windows of the inputs in order, and a time axis of the same length.", "quantifier": "every number and length of files, every window", "why_tests_cant": "every number of files", "anchors": ["scripts/concath5"]}
{"id": "C46", "title": "POSCAR parsing reads what a POSCAR writer writes", "statement": "Reading the POSCAR text written by generate_VASP_structure gives back the same cell, elements and (cartesian) positions, for both new and old style headers.", "quantifier": "every structure with grouped elements", "why_tests_cant": "every number of atoms and elements", "anchors": ["dynaphopy/interface/iofile/__init__.py:read_from_file_structure_poscar", "dynaphopy/generate_cell.py:generate_VASP_structure"]}
{"id": "C47", "title": "Eigenvector rearrangement is lossless", "statement": "obtain_eigenvectors_and_frequencies arranges phonopy eigenvectors as [branch][atom][dimension] and the renormalisation code flattens them back to the same matrix.", "quantifier": "every number of atoms and every eigenvector matrix", "why_tests_cant": "every size", "anchors": ["dynaphopy/interface/phonopy_link.py:obtain_eigenvectors_and_frequencies", "dynaphopy/interface/phonopy_link.py:get_renormalized_force_constants"]}
{"id": "C48", "title": "Equivalent wave vectors contain the wave vector itself and nothing twice", "statement": "get_equivalent_q_points_by_symmetry(q) returns a duplicate-free list of q's images under the rotations, containing q when the identity is among the rotations and q is in the kept region.", "quantifier": "every q and every set of rotations", "why_tests_cant": "every rotation group and real q", "anchors": ["dynaphopy/interface/phonopy_link.py:get_equivalent_q_points_by_symmetry"]}
{"id": "C49", "title": "A wave vector reported as commensurate is periodic in the MD supercell", "statement": "check_commensurate(q) is true exactly when (to 4 decimals) q has integer coordinates in the reciprocal supercell lattice, i.e. e^{-iq.r} is invariant under supercell translations; adding a reciprocal lattice vector to q changes the projection of each atom type only by a constant phase factor.", "quantifier": "every q, primitive matrix and supercell", "why_tests_cant": "real/rational arithmetic over all cells", "anchors": ["dynaphopy/__init__.py:Quasiparticle.check_commensurate", "dynaphopy/__init__.py:Quasiparticle.get_q_vector"]}
{"id": "C50", "title": "Invalid selections are rejected without side effects", "statement": "select_power_spectra_algorithm and select_fitting_function with an unknown number, and set_projection_onto_atom_type with an unknown type, terminate without changing any setting; known numbers take effect.", "quantifier": "every integer argument and state", "why_tests_cant": "every integer", "anchors": ["dynaphopy/__init__.py:Quasiparticle.select_power_spectra_algorithm", "dynaphopy/__init__.py:Quasiparticle.select_fitting_function", "dynaphopy/__init__.py:Quasiparticle.set_projection_onto_atom_type"]}
{"id": "C51", "title": "The progress bar and curve files are well formed", "statement": "write_curve_to_file writes one line per frequency with one column per curve, columns in order; the console progress bar always has 30 cells.", "quantifier": "every curve matrix; every progress value", "why_tests_cant": "every size", "anchors": ["dynaphopy/interface/iofile/__init__.py:write_curve_to_file", "dynaphopy/power_spectrum/__init__.py:_progress_bar"]}
{"id": "C52", "title": "Anisotropic displacement parameters transform consistently", "statement": "The crystallographic (U_crys), U* and U_cif style tensors returned by get_anisotropic_displacement_parameters are obtained from the cartesian tensor by congruence with the cell transformation: symmetric whenever the cartesian tensor is and reproducing it under the inverse transformation.", "quantifier": "every cell and every symmetric tensor", "why_tests_cant": "real linear algebra over all cells", "anchors": ["dynaphopy/__init__.py:Quasiparticle.get_anisotropic_displacement_parameters"]}
{"id": "C53", "title": "LAMMPS in-memory runs return atoms in id order", "statement": "generate_lammps_trajectory returns each step's coordinates ordered by atom id.", "quantifier": "every number of atoms and every internal LAMMPS order (permutation of ids)", "why_tests_cant": "internal reordering happens only in long runs", "anchors": ["dynaphopy/interface/lammps_link.py:generate_lammps_trajectory"]}
{"id": "C54", "title": "fitdata uses all data rows", "statement": "The fitdata script fits all rows of the input file (or the requested block).", "quantifier": "every file", "why_tests_cant": "every file length", "anchors": ["scripts/fitdata"]}
{"id": "C55", "title": "Temperature estimate follows the Maxwell-Boltzmann scale", "statement": "get_temperature() equals scale^2/k_B for the fitted Maxwell scale, is non-negative, leaves the silent setting unchanged, and is computed once.", "quantifier": "every fitted scale and every history", "why_tests_cant": "every real and history", "anchors": ["dynaphopy/analysis/energy.py:boltzmann_distribution", "dynaphopy/__init__.py:Quasiparticle.get_temperature"]}
{"id": "C56", "title": "Element data tables are consistent", "statement": "symbol_map and atom_data agree: symbol_map[s] is the row of s in atom_data, so elements -> atomic numbers -> masses gives the mass of the element; and recovering elements from masses yields exactly one element per atom.", "quantifier": "every chemical symbol in the tables; every mass", "why_tests_cant": "tests use a handful of elements", "anchors": ["dynaphopy/atoms.py:atom_data", "dynaphopy/atoms.py:symbol_map", "dynaphopy/atoms.py:Structure.__init__"]}
{"id": "C57", "title": "Integrated thermodynamic quantities satisfy the thermodynamic identities", "statement": "For every frequency grid, density of states and temperature, get_free_energy = get_total_energy - T*get_entropy (in consistent units), get_cv is the temperature derivative of get_total_energy, get_entropy minus that of get_free_energy, get_entropy2 equals get_entropy, and entropy, heat capacity and energy are non negative.", "quantifier": "every non negative frequency grid, density of states, temperature > 0 and quadrature rule", "why_tests_cant": "identities over a continuum of temperatures and every grid", "anchors": ["dynaphopy/analysis/thermal_properties.py:get_free_energy", "dynaphopy/analysis/thermal_properties.py:get_total_energy", "dynaphopy/analysis/thermal_properties.py:get_entropy"]}
{"id": "C58", "title": "Thermal properties with unrenormalised force constants are the harmonic ones", "statement": "get_thermal_properties(force_constants) returns the harmonic thermal properties whenever the force constants give the harmonic density of states, with and without normalize_dos.", "quantifier": "every density of states, temperature and normalisation flag", "why_tests_cant": "every density of states", "anchors": ["dynaphopy/__init__.py:get_thermal_properties"]}
{"id": "C59", "title": "The POSCAR scale factor applies to cell and Cartesian positions", "statement": "Reading a POSCAR whose second line is the scale factor s gives the cell multiplied by s and, for Cartesian coordinates, the positions multiplied by s as well (the VASP meaning of the universal scaling factor); direct coordinates are not scaled.", "quantifier": "every scale factor, cell and coordinate list", "why_tests_cant": "every scale factor; tests only use 1.0", "anchors": ["dynaphopy/interface/iofile/__init__.py:read_from_file_structure_poscar"]}
{"id": "C60", "title": "The step limit bounds what is loaded", "statement": "At most limit_number_steps steps are read from a trajectory file, whatever its length and the window.", "quantifier": "every file length, window and limit", "why_tests_cant": "the off-by-two only shows for files longer than the limit (10^7 steps by default)", "anchors": ["dynaphopy/interface/iofile/trajectory_parsers.py:read_lammps_trajectory", "dynaphopy/interface/iofile/trajectory_parsers.py:read_VASP_XDATCAR"]}
{"id": "C61", "title": "LAMMPS coordinates are taken from the columns named x y z", "statement": "Whatever columns a LAMMPS dump has, an accepted dump yields as positions the columns named x y z and as velocities the columns named vx vy vz.", "quantifier": "every column list", "why_tests_cant": "tests only contain dumps whose first columns are the coordinates", "anchors": ["dynaphopy/interface/iofile/trajectory_parsers.py:read_lammps_trajectory"]}
{"id": "C62", "title": "The scale factor of an XDATCAR is applied", "statement": "The lattice returned for an XDATCAR file is its scale factor times the three lattice rows.", "quantifier": "every scale factor and lattice", "why_tests_cant": "test files all have scale factor 1", "anchors": ["dynaphopy/interface/iofile/trajectory_parsers.py:read_VASP_XDATCAR"]}
{"id": "C63", "title": "Band paths run from the first to the last point", "statement": "The q-points of a band segment given to obtain_phonon_dispersion_bands are band_resolution+1 equally spaced points whose first is the start and whose last is the end of the segment.", "quantifier": "every pair of end points and resolution", "why_tests_cant": "every resolution and real end points", "anchors": ["dynaphopy/interface/phonopy_link.py:obtain_phonon_dispersion_bands"]}
{"id": "C64", "title": "Unrenormalised frequencies give back the harmonic eigenvalues", "statement": "get_renormalized_force_constants converts frequencies to eigenvalues of the dynamical matrix so that a frequency computed from an eigenvalue (negative ones included) gives that eigenvalue again, and vice versa.", "quantifier": "every real eigenvalue and unit conversion", "why_tests_cant": "every real number, imaginary modes included", "anchors": ["dynaphopy/interface/phonopy_link.py:get_renormalized_force_constants"]}
{"id": "C65", "title": "Types by element separate elements", "statement": "set_atom_type_index_by_element gives two atoms the same type exactly when they are the same element, with types numbered from 0.", "quantifier": "every list of atomic numbers", "why_tests_cant": "tests use one or two elements in one order", "anchors": ["dynaphopy/atoms.py:Structure.set_atom_type_index_by_element", "dynaphopy/atoms.py:Structure.get_number_of_atom_types"]}
{"id": "C66", "title": "FORCE_SETS are accepted exactly when they match the supercell", "statement": "get_force_sets returns the force sets when the file declares as many atoms as the supercell holds (cells times atoms in the cell) and refuses them otherwise.", "quantifier": "every integer supercell matrix and every number of atoms", "why_tests_cant": "all supercell matrices", "anchors": ["dynaphopy/atoms.py:Structure.get_force_sets"]}
{"id": "C67", "title": "XSF export ends and lists one atom per type", "statement": "write_xsf_file ends, declares the number of primitive atoms and writes exactly one atom for each type, in type order.", "quantifier": "every list of atom types", "why_tests_cant": "non-termination cannot be shown by a test; every list of types", "anchors": ["dynaphopy/interface/iofile/__init__.py:write_xsf_file"]}
{"id": "C68", "title": "Input files are read as written", "statement": "read_parameters_from_input_file returns, for every keyword of a well-formed input file (structure files, force sets/constants, primitive and supercell matrices, bands with optional labels, mesh), the value written under its last occurrence; comments and other lines have no effect, the default structure file is POSCAR, and whether a part is read does not depend on which part precedes it.", "quantifier": "all well-formed input files: any number and order of parts, any blanks, commas, labels and comment lines", "why_tests_cant": "The reader re-uses its loop variables inside the BANDS part, so correctness depends on which part follows which; tests use one sample file.", "anchors": ["dynaphopy/interface/iofile/__init__.py:read_parameters_from_input_file"]}
{"id": "C69", "title": "The trajectory format is detected from the keywords", "statement": "get_trajectory_parser returns the first format (OUTCAR, LAMMPS dump, XDATCAR) all of whose keywords occur in the file, and None if there is none.", "quantifier": "all file contents and all sizes", "why_tests_cant": "Depends on the whole content and on the number of bytes inspected; sample files are short and of one format.", "anchors": ["dynaphopy/interface/iofile/__init__.py:get_trajectory_parser"]}
{"id": "C70", "title": "FFT power spectra: defined, non-negative, quadratic, phase-blind, back ends agree", "statement": "For every series, time step and frequency axis accepted by the segmentation, the FFT spectra return one non-negative number per requested frequency; multiplying the velocities by a complex c multiplies every value by |c|^2 (so a global phase changes nothing); for real series resolved frequencies f and -f get the same value; the numpy, FFTW, CUDA and CuPy back ends return the same array, column by column.", "quantifier": "all series lengths, complex data, time steps > 0, frequency axes, argsort results", "why_tests_cant": "ranges over all data and lengths; back ends need hardware the tests do not have", "anchors": ["dynaphopy/power_spectrum/__init__.py:_numpy_power", "dynaphopy/power_spectrum/__init__.py:get_fft_numpy_spectra", "dynaphopy/power_spectrum/__init__.py:_cuda_power"]}
{"id": "C71", "title": "A pure oscillation peaks at its own frequency", "statement": "For every amplitude, length, time step and resolved frequency f of either sign, the FFT spectrum of A exp(2 pi i f t) takes its largest value exactly at f, where it equals |A|^2 dt times a factor depending on the piece length only.", "quantifier": "all amplitudes, lengths, steps, resolved frequencies, requested axes", "why_tests_cant": "needs trigonometric identities for every length and frequency", "anchors": ["dynaphopy/power_spectrum/__init__.py:_numpy_power"]}
{"id": "C72", "title": "The integral of the FFT spectrum is the mean square velocity", "statement": "Requesting the complete frequency grid, the sum of the returned spectrum times the frequency spacing equals the mean of |v|^2 (the quantity printed as kinetic energy).", "quantifier": "all series and grid sizes", "why_tests_cant": "an identity over all data (Parseval)", "anchors": ["dynaphopy/power_spectrum/__init__.py:_numpy_power", "dynaphopy/__init__.py:write_power_spectrum_full"]}
{"id": "C74", "title": "The full spectrum is the sum over atoms and coordinates and its decompositions add up", "statement": "get_power_spectrum_full returns, at every frequency, the sum over all (atom, coordinate) pairs of the spectrum of that velocity component; the result does not depend on the silent flag (which selects the memory-efficient path); spectra projected on each atom type add up to it, spectra projected on each coordinate of a type add up to the projection on the type, and the per-atom spectra of get_power_spectrum_partials add up to it.", "quantifier": "all trajectories, algorithms, numbers of atoms, dimensions and frequencies, all assignments of types", "why_tests_cant": "the decompositions must add up for every structure, typing and algorithm, in both code paths", "anchors": ["dynaphopy/__init__.py: get_power_spectrum_full, get_power_spectrum_partials"]}
{"id": "C75", "title": "Projection arguments of get_power_spectrum_full are honoured or refused", "statement": "set_projection_onto_atom_type accepts exactly the atom types of the structure; get_power_spectrum_full(projection_on_coordinate=c) returns the spectrum of coordinate c, or refuses a c out of range, on every call.", "quantifier": "all types, coordinates, settings and states of the cache", "why_tests_cant": "whether an argument is silently ignored depends on the state reached by earlier calls", "anchors": ["dynaphopy/__init__.py: get_power_spectrum_full, set_projection_onto_atom_type"]}
{"id": "C73", "title": "The ideal harmonic trajectory is the thermal superposition of the modes it is built from", "statement": "generate_test_trajectory returns ceil(total_time/time_step) frames at multiples of time_step in which every atom oscillates around its lattice position as the superposition of the waves of all modes above minimum_frequency (none below), harmonically at the mode frequencies, with the same energy kB*T in every mode, and with phase_0 as the common phase.", "quantifier": "all structures, eigenvectors, frequencies, times, temperatures and phases", "why_tests_cant": "equipartition and the role of the phase are identities over all modes, atoms and times", "anchors": ["dynaphopy/interface/iofile/__init__.py: generate_test_trajectory"]}
{"id": "C76", "title": "Displacement distributions are densities of the displacements along the direction", "statement": "get_atomic_displacements returns, for each atom type, a density over equal bins spanning all projected displacements: non-negative, equal to the fraction of samples in each bin divided by its width, integrating to one, independent of the length of the direction vector; the file written and the plot put each value at the centre of its bin.", "quantifier": "all trajectories, directions, numbers of bins and types", "why_tests_cant": "normalisation and bin placement must hold for every data set, including constant ones", "anchors": ["dynaphopy/__init__.py: get_atomic_displacements, write_atomic_displacements, plot_trajectory_distribution", "dynaphopy/analysis/coordinates.py: trajectory_projection"]}
{"id": "C77", "title": "Branches of the renormalized dispersion relations", "statement": "get_renormalized_phonon_dispersion_bands returns one entry per requested stretch with the requested ends and labels; in it the shift is renormalized minus harmonic and the linewidth is plus minus minus for every branch and point; with band_connection every renormalized branch is reported once and paired with the harmonic branch whose mode it follows; if renormalization changes nothing all shifts are zero.", "quantifier": "all dispersion data (any number of stretches, points, branches; all frequencies and orthonormal eigenvectors), all flag combinations, with and without labels", "why_tests_cant": "The pairing must hold for every set of eigenvectors; a test with one material has modes that match well and never shows a lost or duplicated branch.", "anchors": ["dynaphopy/__init__.py:Quasiparticle.get_renormalized_phonon_dispersion_bands", "dynaphopy/__init__.py:eigenvector_order", "dynaphopy/__init__.py:set_order"]}
{"id": "C78", "title": "Branches across the stretches of a path", "statement": "With interconnect_bands each frequency stays with its eigenvector, the first stretch is unchanged, and branch b of one stretch goes on as branch b of the next one, with no branch lost.", "quantifier": "all lists of stretches with any number of points and branches and all orthonormal eigenvectors", "why_tests_cant": "Depends on the eigenvectors at every joint of an arbitrary path.", "anchors": ["dynaphopy/__init__.py:reconnect_eigenvectors"]}
{"id": "C79", "title": "Tick labels of dispersion plots", "statement": "The dispersion plots put one tick at the start of each stretch and one at the end of the path, with one label each: the ends of the path, the common label at a continuous joint and both labels separated by a slash at a discontinuous one.", "quantifier": "all paths and labels", "why_tests_cant": "Discontinuous joints at every position and paths of every length.", "anchors": ["dynaphopy/__init__.py:Quasiparticle.plot_phonon_dispersion_bands", "dynaphopy/__init__.py:Quasiparticle.plot_renormalized_phonon_dispersion_bands", "dynaphopy/__init__.py:Quasiparticle.plot_linewidths_and_shifts_bands"]}
{"id": "C80", "title": "Density of states from a power spectrum", "statement": "get_dos returns one value per frequency, such that value times the mean energy of a mode (kT, or the Bose-Einstein energy) is twice the spectrum in J per cell; it is non-negative for a non-negative spectrum; the quantum density is at most the classical one and at least it divided by 1 + hf/2kT; integrating it with the mode energy gives back the energy of the spectrum.", "quantifier": "all temperatures above zero, frequency grids, spectra, cell numbers and linear quadratures", "why_tests_cant": "Equalities and inequalities over all real grids and spectra.", "anchors": ["dynaphopy/analysis/thermal_properties.py:get_dos", "dynaphopy/analysis/thermal_properties.py:get_total_energy"]}
{"id": "C81", "title": "Reported integration of the density of states", "statement": "The integration printed with the thermal properties is the integral, per degree of freedom, of the density of states that was used for the other numbers; normalize_dos makes it 1 (one over the number of primitive atoms when projected) by multiplying the density by a constant.", "quantifier": "all densities of non-zero integral, quadratures, temperatures, projections, both normalisation flags", "why_tests_cant": "Must hold for every density of states.", "anchors": ["dynaphopy/__init__.py:Quasiparticle.get_thermal_properties", "dynaphopy/__init__.py:Quasiparticle.display_thermal_properties"]}
{"id": "C82", "title": "The command line program computes every requested output with the settings given on the command line", "statement": "For every combination of options of the dynaphopy script (last steps, fitting function, temperature, QHA force constants, projected atom, resolution, wave vector, algorithm, number of MEM coefficients, frequency range, and any set of requested outputs), every value written or plotted is the one computed from scratch from the cropped trajectory with exactly the settings asked for, independently of which other outputs are requested in the same run; frequency columns are the range asked for; the run completes exactly when every requested quantity can be computed; an invalid selection stops it before any output.", "quantifier": "all option combinations, all initial settings (input file), all trajectories, all outcomes of the numerical kernels", "why_tests_cant": "the number of option combinations is exponential and the interference goes through hidden caches and the shared settings", "anchors": ["scripts/dynaphopy:288-407", "dynaphopy/__init__.py:48-55", "dynaphopy/__init__.py:139-151", "dynaphopy/__init__.py:1035-1053", "dynaphopy/__init__.py:1100-1212", "dynaphopy/__init__.py:1302-1382"]}
{"id": "C83", "title": "The interactive menu shows values that belong to the settings it displays", "statement": "After any sequence of menu entries (frequencies, wave vector, thermal properties, spectra, renormalized dispersion, peaks and all the settings of the preferences menu), every entry shows the values computed from scratch with the settings then in force; selections typed in a menu take the first key that names an entry, ignore every other key and never abort the session.", "quantifier": "all sequences of menu entries and typed keys, all initial settings, all trajectories, all numerical kernels", "why_tests_cant": "the sequences are unbounded and the interference goes through hidden caches", "anchors": ["dynaphopy/interface/interactive_ui.py:interactive_interface", "dynaphopy/__init__.py:Quasiparticle"]}
{"id": "C84", "title": "Numbers listed on the screen keep their order and value", "statement": "The list of frequencies shown by the interactive menu contains every frequency once, numbered 1, 2, ... in the order given, three per row, each at its own place; it can be drawn exactly when their number is a multiple of three.", "quantifier": "all lists and all screen positions", "why_tests_cant": "must hold for every number of phonon branches", "anchors": ["dynaphopy/interface/interactive_ui.py:list_on_screen"]}
{"id": "C85", "title": "Force constants recalculated from a frequency file use each point's own frequencies", "statement": "rfc_calc pairs, for every commensurate point of the supercell asked for, the frequencies the file gives for that wave vector with the eigenvectors of that wave vector; it reads the files the program itself writes; a point missing in the file is reported; --dim selects the supercell.", "quantifier": "all frequency files, all supercells, all structures", "why_tests_cant": "must hold for every file content and every order of points", "anchors": ["scripts/rfc_calc:get_renormalized_constants", "dynaphopy/interface/iofile/__init__.py:save_quasiparticle_data_to_file"]}
{"id": "C86", "title": "The quasiparticle data file lists every commensurate point with its own data", "statement": "write_quasiparticles_data writes a list with one entry per commensurate point, in order, each with its own wave vector, frequencies, linewidths and shifts to eight decimals, and its group velocities exactly when they were asked for; earlier calls and settings do not matter.", "quantifier": "all sequences of writes with either option, all data, all supercell choices", "why_tests_cant": "the interference goes through a shared mutable dictionary", "anchors": ["dynaphopy/__init__.py:Quasiparticle.write_quasiparticles_data", "dynaphopy/__init__.py:Quasiparticle.get_commensurate_points_properties", "dynaphopy/interface/iofile/__init__.py:save_quasiparticle_data_to_file"]}
{"id": "C87", "title": "Quasi-harmonic force constants belong to the volume they are interpolated at", "statement": "qha_extract feeds the quasi-harmonic analysis with volume, energy and thermal properties of the same system, and at an equilibrium volume equal to the volume of system i it writes the force constants of file i, in whatever order the systems are listed.", "quantifier": "all numbers and orders of systems, all interpolants through the data", "why_tests_cant": "must hold for every order of the input files", "anchors": ["scripts/qha_extract"]}
{"id": "C88", "title": "Quasi-harmonic shifts reproduce the data they are built from", "statement": "At the reference temperature and a tabulated volume the frequencies used are those of that volume's file; at a volume that matches the reference they follow the curve fitted to the temperature files; interpolate_volume selects interpolation; the temperatures analysed run from tmin to tmax in steps of 10; without bands in the input file the automatic path is used.", "quantifier": "all files, temperatures, volumes, fits and interpolants", "why_tests_cant": "must hold for every data set", "anchors": ["scripts/qha_quasiparticle.py:ForceConstantsFitting", "scripts/qha_quasiparticle.py:QuasiparticlesQHA"]}
{"id": "C89", "title": "The mesh file gives each mode its own linewidth", "statement": "write_mesh_data lists every mesh point once, in order, with its multiplicity; at commensurate points the listed frequencies and linewidths are the fitted ones and entry j of both lists belongs to the same mode.", "quantifier": "all fitted frequencies and linewidths, all meshes", "why_tests_cant": "must hold for every order of linewidths", "anchors": ["dynaphopy/__init__.py:Quasiparticle.get_mesh_frequencies_and_linewidths", "dynaphopy/__init__.py:Quasiparticle.write_mesh_data", "dynaphopy/interface/iofile/__init__.py:save_mesh_data_to_yaml_file"]}
{"id": "C90", "title": "Harmonic dispersion relations belong to the current path and NAC choice", "statement": "After any history of set_NAC, set_band_ranges, clearing, plotting and printing, plot_phonon_dispersion_bands and print_phonon_dispersion_bands show the dispersion relation and labels of the path and NAC choice in force, and both always work.", "quantifier": "all histories of calls, all paths", "why_tests_cant": "histories are unbounded and the result goes through a cache", "anchors": ["dynaphopy/__init__.py:Quasiparticle.plot_phonon_dispersion_bands", "dynaphopy/__init__.py:Quasiparticle.print_phonon_dispersion_bands", "dynaphopy/__init__.py:Quasiparticle.set_band_ranges", "dynaphopy/__init__.py:Quasiparticle.set_NAC"]}
{"id": "C91", "title": "Velocities computed from coordinates are those of the true path", "statement": "When a trajectory holds only coordinates, the velocities the program uses are the time derivative of the true atomic path: crossings of the periodic boundary leave no trace while the atom stays within half a cell of its reference position, inner samples are second order accurate, uniform motion is exact.", "quantifier": "all cells of any dimension, all trajectories, all periodic images written in the file, all smooth paths, all time stamps", "why_tests_cant": "paths, cells and wrappings range over continua", "anchors": ["dynaphopy/dynamics.py:Dynamics.velocity", "dynaphopy/dynamics.py:Dynamics.get_relative_trajectory", "dynaphopy/dynamics.py:Dynamics.get_time_step_average"]}
{"id": "C92", "title": "Harmonic results use the force data last given", "statement": "After any history of set_force_set, set_force_constants and harmonic queries on a structure, a harmonic query uses the force data given last; force sets that do not fit the supercell are refused; repeating a query changes nothing.", "quantifier": "all histories of calls, all force sets and force constants", "why_tests_cant": "histories are unbounded and the force data go through a cache", "anchors": ["dynaphopy/atoms.py:Structure.set_force_set", "dynaphopy/atoms.py:Structure.set_force_constants", "dynaphopy/atoms.py:Structure.get_force_sets", "dynaphopy/interface/phonopy_link.py:get_phonon"]}
{"id": "C93", "title": "Drawn phonon modes show the displacement pattern", "statement": "plot_eigenvectors draws at each atom an arrow proportional to the atom's displacement in that mode, eigenvector divided by the square root of that atom's own mass, in Cartesian axes, and the twelve edges of the cell.", "quantifier": "all structures, eigenvectors, masses and cells", "why_tests_cant": "masses, eigenvectors and cells range over continua", "anchors": ["dynaphopy/analysis/modes.py:plot_phonon_modes", "dynaphopy/__init__.py:Quasiparticle.plot_eigenvectors"]}
{"id": "C94", "title": "The coefficient scan reports the best fit", "statement": "phonon_width_scan_analysis prints, for each branch with at least one successful fit, the coefficients number, area, error and peak position of the fit with the least error and a width between the widths of the successful fits; failing points and failing branches change nothing else.", "quantifier": "all spectra, fits, scan ranges and numbers of branches", "why_tests_cant": "fits and errors range over reals with infinities, scans over all lists", "anchors": ["dynaphopy/power_spectrum/__init__.py:mem_coefficient_scan_analysis", "dynaphopy/__init__.py:Quasiparticle.phonon_width_scan_analysis"]}
{"id": "C95", "title": "Commensurate points of a structure are those of the supercell", "statement": "Structure.get_commensurate_points(supercell) returns exactly the wave vectors of the Brillouin zone whose phase is one on every supercell translation.", "quantifier": "all primitive matrices and supercell multiplicities", "why_tests_cant": "multiplicities are unbounded and matrices arbitrary", "anchors": ["dynaphopy/atoms.py:Structure.get_commensurate_points"]}
{"id": "C96", "title": "Wave vector projection conserves energy and has the symmetries of a Fourier transform", "statement": "Projecting a trajectory on every wave vector commensurate with its supercell loses nothing: for each atom of the primitive cell and coordinate the squared moduli add up to the mass weighted squared velocities of its images, and with orthonormal eigenvectors the phonon modes of all wave vectors share exactly twice the kinetic energy of every step. Opposite wave vectors give complex conjugates for real velocities, moving the origin multiplies everything by one phase factor, and the order of the atoms does not matter.", "quantifier": "all cells, atom lists, supercell sizes, masses, trajectories, steps, orthonormal eigenvectors, origins and permutations of the atoms", "why_tests_cant": "A numerical test checks one supercell and one trajectory to a tolerance; the identity is about all supercells and trajectories and mixes atom ordering, phases and normalisation", "anchors": ["dynaphopy/projection.py:project_onto_wave_vector", "dynaphopy/projection.py:project_onto_phonon", "dynaphopy/atoms.py:get_positions", "dynaphopy/__init__.py:get_q_vector"]}
{"id": "C97", "title": "Thermodynamic functions obey the Dulong-Petit bound, the third law and grow with temperature", "statement": "For positive frequencies and temperature the heat capacity lies between zero and the Dulong-Petit value and tends to it at high temperature, heat capacity and entropy tend to zero and the energy to the zero point energy at low temperature, the energy lies between the classical one and the classical one plus the zero point energy, and heat capacity, entropy and energy never decrease with temperature; a negative frequency counts as a positive one in energy and heat capacity and is left out of free energy and entropy.", "quantifier": "all temperatures, frequency grids, non negative densities of states and quadrature weights", "why_tests_cant": "Limits and monotony quantify over all temperatures and grids; a test evaluates finitely many", "anchors": ["dynaphopy/analysis/thermal_properties.py:get_cv", "dynaphopy/analysis/thermal_properties.py:get_entropy", "dynaphopy/analysis/thermal_properties.py:get_total_energy"]}
{"id": "C98", "title": "Power spectra are quadratic in the velocities, blind to a phase and to the direction of time, even and periodic in the frequency", "statement": "For every recorded velocity series and every order, the maximum entropy spectrum does not change when the series is conjugated or read backwards in time (among the samples it uses), takes the same value at f, -f and f + 1/dt, and multiplying the velocities by a constant multiplies the spectrum by its squared modulus; the direct correlation spectrum is likewise multiplied by the squared modulus of any complex constant. The maximum entropy spectrum does not keep the scaling law in general: below an amplitude that depends on the series it is identically zero, because the recursion stops on an absolute threshold; and it is not invariant under a constant phase factor, because real and imaginary parts are two separate series.", "quantifier": "all velocity series, orders, time steps, frequencies, real and complex constants", "why_tests_cant": "an identity between spectra of infinitely many pairs of series; a test compares one pair at finitely many frequencies, and the amplitude threshold depends on the series", "anchors": ["dynaphopy/power_spectrum/__init__.py:get_mem_spectra_par_openmp", "c/mem.c:MaximumEntropyMethod", "c/correlation.c"]}
{"id": "C99", "title": "Smoothing a spectrum before fitting is a local straight line fit", "statement": "With -sm, fitdata replaces each value by the value, at the same frequency, of the straight line that fits the data best when each row is weighted by the tricube of its distance in units of the distance to the k-th nearest row (k = smallest integer not below factor times rows); data on a straight line stay as they are, the operation is linear in the data and does not depend on unit and origin of the frequency. On equally spaced frequencies every row gets a number when the window holds at least three neighbours and fewer than all rows. It fails for smaller windows: with the default factor, for every file of at most 100 rows; and for every factor of one or more.", "quantifier": "all numbers of rows, frequencies, data and factors", "why_tests_cant": "an optimality statement over all straight lines and all data; the failing sizes form an infinite family of inputs", "anchors": ["scripts/fitdata:loess"]}
{"id": "C100", "title": "Projecting the ideal harmonic trajectory gives back its modes", "statement": "Take the ideal harmonic trajectory generated from phonopy's frequencies and eigenvectors at all the wave vectors commensurate with the supercell, obtain velocities by central differences (as the program does for coordinate-only trajectories, periodic wrapping included) and project onto one of those wave vectors and one of its modes. The result is a pure real sine of that mode's frequency with amplitude sqrt(3 kB T)/(2 pi f) * sin(2 pi f dt)/dt, whatever the cell, the number of atoms, the supercell, the masses and all the other modes; modes at or below the frequency cutoff give zero. For degenerate modes or arbitrary eigenvector phases at the opposite wave vector the signal still contains the mode's frequency only.", "quantifier": "all cells, atoms, supercell sizes, masses, commensurate wave vector sets, frequencies, orthonormal eigenvectors obeying time reversal, temperatures, time steps and steps", "why_tests_cant": "Each test crystal exercises one supercell and one set of modes; separation of modes is an orthogonality statement over all of them", "anchors": ["dynaphopy/interface/iofile/__init__.py:generate_test_trajectory", "dynaphopy/projection.py:project_onto_wave_vector", "dynaphopy/projection.py:project_onto_phonon", "dynaphopy/dynamics.py:Dynamics.velocity"]}
{"id": "C101", "title": "The C extensions give back the memory they take", "statement": "A call of one of the compiled routines (displacements, maximum entropy, correlation) frees nothing twice, frees nothing it does not own, returns a live result, and afterwards holds no memory or array references except the returned result; so repeating it (once per atom, coordinate and mode) does not accumulate memory.", "quantifier": "all numbers of steps, dimensions, coefficients, frequencies, all outcomes of the tests on the data, all histories of calls", "why_tests_cant": "A unit test sees one call and its numbers, not the balance of allocations over all sizes and early exits", "anchors": ["c/displacements.c", "c/mem.c:GetCoefficients", "c/mem.c:MaximumEntropyMethod", "c/correlation.c:correlation_par"]}
{"id": "C102", "title": "Exported projections are the projections; time plots show the time", "statement": "save_vq writes one line per time step and one column per mode, save_vc one line per step and one column per coordinate of the chosen atom of the primitive cell; each entry is the complex projection with real and imaginary part correct to nine significant digits, and reading and writing the numbers again changes nothing. save_vc accepts exactly the atoms 1..n and writes nothing for other numbers. In the time plots (projections, trajectory, velocity) frame k is drawn at k times the time step, the same instant as in the energy plot.", "quantifier": "all projections (any numbers of steps, atoms, modes, any complex values), all integers as atom numbers, all time steps", "why_tests_cant": "the rounding of the decimal format has carries at every power of ten and the time axis error depends on the number of frames; examples show single values only", "anchors": ["dynaphopy/__init__.py:save_vc", "dynaphopy/__init__.py:save_vq", "dynaphopy/__init__.py:plot_vq", "dynaphopy/__init__.py:plot_vc", "dynaphopy/__init__.py:plot_trajectory", "dynaphopy/__init__.py:plot_velocity", "dynaphopy/__init__.py:plot_energy"]}
{"id": "C103", "title": "The Gaussian fit reports the mean and deviation of the displacement distribution", "statement": "For every fitted parameter vector the printed mean and standard deviation are those of the fitted bell curve (also when the optimiser returns a negative sigma), and moving the origin of the displacements moves the mean by the same amount and leaves deviation, acceptance and error unchanged.", "quantifier": "all parameter vectors returned by the fit, all ranges of abscissae, all errors, all shifts of the origin", "why_tests_cant": "the sign of sigma and the position of the distribution relative to zero are chosen by the data; a test with centred displacements never sees the other side", "anchors": ["dynaphopy/analysis/fitting/fitting_functions.py:Gaussian_function", "dynaphopy/__init__.py:plot_trajectory_distribution"]}
{"id": "C104", "title": "Constant pressure: each temperature uses its own equilibrium volume", "statement": "With the quasiharmonic script at constant pressure, every quantity reported for a temperature (frequency shifts, force constants, tables of free energy, entropy and heat capacity, density of states) is computed at the equilibrium volume of that same temperature; that volume is the tabulated one at tabulated temperatures and linear in between; temperatures outside the table are refused; the linewidth curves plotted against volume belong to the wave vector asked for.", "quantifier": "all tables of equilibrium volumes, temperatures, quasiparticle files and fitting orders", "why_tests_cant": "which volume enters for which temperature is invisible in the produced numbers; a test table with few temperatures or with files in one order of wave vectors hides wrong pairings", "anchors": ["scripts/qha_quasiparticle.py:QuasiparticlesQHA", "scripts/qha_quasiparticle.py:ForceConstantsFitting.qpoint_to_index", "scripts/qha_quasiparticle.py:ForceConstantsFitting.plot_linewidth_volume"]}
{"id": "C105", "title": "Memory-mapped trajectories do not share or leave temporary files", "statement": "With memmap=True every getter of a Dynamics object (positions, displacements, velocities, mass-weighted velocities) returns the same arrays as with the trajectory in memory, whatever other trajectories are loaded, used and dropped in between by the same or by other processes in the same directory, and when the object is dropped all the temporary files it created are removed. True for any interleaving of processes that read one trajectory each (positions or velocities for the removal); refuted for two trajectories in one process (the file names only depend on the process) and for the removal of the XDATCAR file.", "quantifier": "every interleaved schedule of loads, getters and deletions of any number of processes, every trajectory and initial directory contents", "why_tests_cant": "the schedules of several processes and of the garbage collector are unbounded; a test runs one trajectory in one process", "anchors": ["dynaphopy/dynamics.py:Dynamics.__del__", "dynaphopy/dynamics.py:Dynamics.get_relative_trajectory", "dynaphopy/dynamics.py:Dynamics.velocity", "dynaphopy/dynamics.py:Dynamics.get_velocity_mass_average", "dynaphopy/interface/iofile/trajectory_parsers.py:read_lammps_trajectory", "dynaphopy/interface/iofile/trajectory_parsers.py:read_VASP_XDATCAR"]}
{"id": "C106", "title": "The structure of an OUTCAR file is the one written in it", "statement": "read_from_file_structure_outcar returns the direct lattice vectors, the Cartesian positions in file order and, for every atom, the mass of its type, for every OUTCAR text whose headings appear in the usual order, whatever stands between the parts (in particular other lines with POMASS =, such as those of the POTCAR header, before the table).", "quantifier": "every file text with the six headings in order, any number of atoms and types, any other text in between", "why_tests_cant": "fixed offsets and keyword searches from the current position only go wrong for particular surrounding text; a test reads one file", "anchors": ["dynaphopy/interface/iofile/__init__.py:read_from_file_structure_outcar"]}
{"id": "C107", "title": "The automatic band path visits the points it names", "statement": "When no band path is given, the path obtained through seekpath is computed for the user's crystal (its cell, the fractional positions of its atoms, the same species exactly for equal elements), has one stretch per label pair in the same order, and every stretch, as used for dispersion relations, runs between the wave vectors that its two labels name. Without seekpath a default stretch with matching labels is used.", "quantifier": "all cells, primitive matrices, positions, elements and seekpath results", "why_tests_cant": "the coordinates refer to a cell that is chosen by another package for every crystal; a test sees a few crystals", "anchors": ["dynaphopy/atoms.py:Structure.get_path_using_seek_path", "dynaphopy/__init__.py:Quasiparticle.get_band_ranges_and_labels"]}
{"id": "C108", "title": "Lattice dynamics densities and thermal properties are per unit cell", "statement": "The density of states, thermal properties and group velocities taken from phonopy are those of the force constants asked for (the given ones, else the structure's), per unit cell: if phonopy's density integrates to 3 per primitive atom the returned one integrates to 3 per atom of the unit cell; projected densities add up to the total; numbers of atoms that do not exist and missing forces are refused; the requested frequency spacing is used; plots name every curve for what it shows.", "quantifier": "all phonopy results, structures, force constants, meshes, projections, temperatures and linear quadratures", "why_tests_cant": "normalisation and bookkeeping must hold for every crystal and every phonopy answer", "anchors": ["dynaphopy/interface/phonopy_link.py:obtain_phonopy_dos", "dynaphopy/interface/phonopy_link.py:obtain_phonopy_thermal_properties", "dynaphopy/interface/phonopy_link.py:obtain_phonopy_group_velocity", "dynaphopy/__init__.py:Quasiparticle.plot_power_spectrum_full", "dynaphopy/__init__.py:Quasiparticle.plot_dos_phonopy"]}
{"id": "C109", "title": "Changing the unit cell is seen by everything derived from it", "statement": "After Structure.set_cell(c), get_primitive_cell() and the atom types are those of a fresh structure with cell c and the same masses, coordinates and primitive matrix.", "quantifier": "every structure, every cell and every history of calls", "why_tests_cant": "depends on which caches were filled before the change", "anchors": ["dynaphopy/atoms.py:Structure.set_cell", "dynaphopy/atoms.py:Structure.get_primitive_cell", "dynaphopy/atoms.py:Structure.set_primitive_matrix"]}
{"id": "C110", "title": "A Structure answers with the last value it was given", "statement": "After any sequence of setter calls and queries on a Structure, its cell is the one last given to set_cell (or the constructor), get_primitive_matrix() is the matrix last given to set_primitive_matrix (or the constructor; the identity when none was given), and get_masses() is the list last given to set_masses (or the constructor), expanded over a requested supercell in the same atom order as the positions; a mass list that is too short is an error. Queries change none of them.", "quantifier": "all histories of setters and queries, all cells, matrices and mass lists, all positive supercell sizes", "why_tests_cant": "the caches that make this hard (primitive cell, atom counts, types) depend on the order of all previous calls; a test exercises a handful of orders", "anchors": ["dynaphopy/atoms.py:Structure.set_cell", "dynaphopy/atoms.py:Structure.set_masses", "dynaphopy/atoms.py:Structure.get_masses", "dynaphopy/atoms.py:Structure.get_primitive_matrix", "dynaphopy/atoms.py:Structure.set_primitive_matrix"]}
{"id": "C111", "title": "Occupation number and fit temperature of a peak", "statement": "For every fitted peak of positive frequency nu whose area exceeds the zero-point energy, the printed occupation number is the Bose-Einstein number of quanta of energy h*nu at the printed fit temperature, twice the area is the mean energy of that oscillator, the temperature grows with the area, and a mode in equilibrium at T0 is printed with temperature T0 and its own number of quanta.", "quantifier": "all areas, positive peak positions, numbers of quanta and temperatures", "why_tests_cant": "identities between printed transcendental functions of two real arguments; a test compares a few values with the same formula", "anchors": ["dynaphopy/analysis/fitting/__init__.py:phonon_fitting_analysis", "dynaphopy/analysis/fitting/__init__.py:h_planck_bar"]}
{"id": "C112", "title": "One consistent set of physical units", "statement": "The Boltzmann and Planck constants and conversion factors used in different modules (J, eV and u A^2/ps^2 based) describe the same quantities, so that the kinetic energy of a trajectory at temperature T is reported as kB T / 2 per degree of freedom, the density of states derived from its power spectrum counts every mode once, and a classical mode is printed with the temperature of the trajectory.", "quantifier": "all temperatures, numbers of modes, supercells, quadrature weights and spectra with the equipartition integral", "why_tests_cant": "unit tests compare with stored numbers produced by the same constants, so an inconsistent constant is invisible to them", "anchors": ["dynaphopy/power_spectrum/__init__.py:unit_conversion", "dynaphopy/analysis/thermal_properties.py:get_dos", "dynaphopy/analysis/energy.py:kb_boltzmann", "dynaphopy/analysis/fitting/__init__.py:kb_boltzmann"]}
{"id": "C113", "title": "The temperature of a trajectory is its kinetic temperature", "statement": "For a trajectory in which no atom is at rest, get_temperature() (when none was set) is the unique T with mean kinetic energy = 3/2 N k_B T, whatever maximum-likelihood estimator of the Maxwell distribution is used and whatever its starting guess; it depends on the velocities only through the total kinetic energy, and scaling all velocities by k multiplies it by k squared. The average and the deviation printed with it are the mean and the standard deviation of sqrt(m)|v| over all atoms and frames, so that the sum of their squares is 3 k_B T.", "quantifier": "every trajectory length, number of atoms, positive masses, velocities without a resting atom, and every maximum-likelihood estimator", "why_tests_cant": "a test checks one trajectory with scipy's estimator up to a tolerance", "anchors": ["dynaphopy/analysis/energy.py: boltzmann_distribution", "dynaphopy/dynamics.py: get_velocity_mass_average", "dynaphopy/__init__.py: get_temperature"]}
{"id": "C114", "title": "Exact peak shapes are recovered by the fit", "statement": "If every branch's power spectrum is exactly a Lorentzian of positive width and area on a base line, sampled at five or more different frequencies, then any least-squares solution that the analysis reports as successful has exactly the true position, width and area; likewise for the damped oscillator shape and, sampled at forty-five or more frequencies, for the asymmetric Lorentzian.", "quantifier": "every frequency grid with at least five points, every position, width, area and base line, every least-squares solver", "why_tests_cant": "tests fit a handful of noisy curves up to a tolerance and cannot exclude a second solution", "anchors": ["dynaphopy/analysis/fitting/fitting_functions.py: Lorentzian, Damped_harmonic, Lorentzian_asymmetric", "dynaphopy/analysis/fitting/__init__.py: phonon_fitting_analysis"]}
{"id": "C115", "title": "Parallel spectra do not depend on threads and timing", "statement": "The maximum entropy and direct correlation spectra, whose frequency loops run in parallel threads, contain exactly (bit for bit) the numbers of the sequential loop, for every number of threads, every assignment of frequencies to threads and every interleaving of their memory accesses; no two threads ever compete for a memory location and no thread is ever stuck.", "quantifier": "all numbers of threads, assignments of iterations, interleavings and arithmetics", "why_tests_cant": "a test sees one interleaving per run on one machine; a data race can stay hidden for ever", "anchors": ["c/mem.c: MaximumEntropyMethod", "c/correlation.c: correlation_par"]}
{"id": "C116", "title": "A real oscillation peaks at its own frequency", "statement": "The FFT power spectrum of N samples of A cos(2 pi f t + phi), with f resolved by the pieces the program analyses, takes its largest value exactly at f, whatever the amplitude, phase, length and time step; unless f is zero or the Nyquist frequency that value is at least (3/20) n dt A^2, and with more than three samples per piece every resolved frequency other than f and -f is at most 97/100 of it. The same holds for each column of the array the four FFT algorithms return, and for the velocities of a mode of the ideal harmonic trajectory projected onto its wave vector and eigenvector: the spectrum peaks at the phonon frequency.", "quantifier": "all amplitudes, phases, lengths, steps, resolved frequencies, requested axes, algorithms and other columns; all crystals and modes", "why_tests_cant": "The two components e^{+i} and e^{-i} of a real signal interfere in a window of finite length, with a sign depending on the phase; that the peak never moves is an inequality over every length, frequency and phase", "anchors": ["dynaphopy/power_spectrum/__init__.py:_numpy_power", "dynaphopy/power_spectrum/__init__.py:get_fft_numpy_spectra", "dynaphopy/projection.py:project_onto_phonon", "dynaphopy/interface/iofile/__init__.py:generate_test_trajectory"]}
{"id": "C117", "title": "A failed or interrupted analysis leaves nothing behind", "statement": "If a call of get_power_spectrum_full, get_power_spectrum_partials, get_power_spectrum_phonon or get_temperature does not complete (the analysis routine raises or exits, its library is missing, the user interrupts it), no later call returns a half-computed result: every value ever returned is the right spectrum or temperature, and the settings are as before.", "quantifier": "every trajectory, spectrum routine, session of requests, and every point at which a routine fails or the program is interrupted", "why_tests_cant": "tests run the calls that succeed; what a failure at the k-th column of the loop leaves in the cached attribute only shows in the next call, for each k", "anchors": ["dynaphopy/__init__.py: Quasiparticle.get_power_spectrum_full, get_power_spectrum_partials, get_power_spectrum_phonon, get_temperature", "dynaphopy/power_spectrum/__init__.py: get_mem_power_spectra, _fftw_power, _cuda_power, _cupy_power"]}
{"id": "C118", "title": "Trajectory quantities are never returned half-computed", "statement": "If a request for the supercell factors, the velocities or the mass-weighted velocities of a Dynamics object fails (the MD cell does not match the unit cell, the trajectory has too few frames for a derivative, the user interrupts it), no later request returns anything but the right factors and velocities; in particular never uninitialised memory or zeros in place of velocities.", "quantifier": "every pair of cells, trajectory, content of freshly allocated memory, session of requests and point of interruption", "why_tests_cant": "the attribute that caches the result is set before the result is complete; a test has to fail a request at every possible point and then ask again", "anchors": ["dynaphopy/dynamics.py: Dynamics.get_supercell_matrix, Dynamics.velocity, Dynamics.get_velocity_mass_average"]}
{"id": "C119", "title": "The area under the maximum entropy spectrum is the mean square velocity", "statement": "For every recorded velocity, number of samples, number of coefficients and time step, the spectrum returned by the maximum entropy routine integrates to the mean square of the samples it read over the frequencies between minus and plus the Nyquist frequency (half of it over the positive ones), whatever the number of coefficients, so that the areas of different settings can be compared and read as kinetic energies.", "quantifier": "all series, numbers of samples and coefficients, time steps", "why_tests_cant": "an identity between an integral over a continuum of frequencies and the data, for every series and every order", "anchors": ["c/mem.c:MaximumEntropyMethod", "c/mem.c:GetCoefficients", "c/mem.c:FrequencyEvaluation"]}
{"id": "C120", "title": "In double precision the maximum entropy residual power and spectrum stay non-negative", "statement": "Evaluated as the C routine evaluates it, in IEEE double precision with round to nearest, the residual power of the maximum entropy fit is a non-negative number no larger than the mean square of the samples, and so is every point of the spectrum. (Exact arithmetic satisfies this, C19; in double precision it fails: a reflection coefficient can round above 1. What does hold for every buffer is a bound on how negative the residual can be.)", "quantifier": "all buffers of doubles (infinities and NaN included), all lengths up to 2^31 and all numbers of coefficients", "why_tests_cant": "rounding depends on every bit of every sample: the failing inputs are isolated pairs of doubles and the bound must cover every rounding history", "anchors": ["c/mem.c:GetCoefficients", "c/mem.c:FrequencyEvaluation"]}
{"id": "C121", "title": "A sample that is not a number is never hidden by a power spectrum", "statement": "If one velocity sample handed to a power spectrum routine is NaN or infinite, the spectrum is not a number at any frequency; equivalently, a finite spectrum value certifies that every sample was a number. (True for the maximum entropy method with fewer coefficients than samples; with more it returns 0 whatever the samples are. The direct method never looks at the last correlation step samples.; an FFT method never looks at the samples outside the pieces it cuts the trajectory into.)", "quantifier": "all buffers of doubles, all frequencies, time steps, numbers of coefficients, correlation steps and both integration methods, whatever the library's cexp and cpow return", "why_tests_cant": "NaN propagation depends on every comparison, early return and loop limit; a test places a NaN in a few positions only", "anchors": ["c/mem.c:GetCoefficients", "c/mem.c:FrequencyEvaluation", "c/correlation.c:EvaluateCorrelation", "dynaphopy/power_spectrum/__init__.py:_numpy_power"]}
{"id": "C122", "title": "Projecting onto a mode recovers the amplitude of that mode in any superposition of lattice waves", "statement": "Take any velocities that are a superposition of the lattice waves of a supercell, with an arbitrary complex amplitude for every mode at every commensurate wave vector. Projecting them onto a wave vector and then onto a mode gives sqrt(number of cells)/2 times the amplitude of that wave plus the conjugate amplitude of its partner at the opposite wave vector. Nothing of any other mode or wave vector is left: a mode that takes no part in the motion gives exactly zero, and two superpositions with the same velocities have the same amplitudes.", "quantifier": "every cell, supercell, masses, orthonormal eigenvectors, set of amplitudes, wave vector and mode", "why_tests_cant": "a test has one crystal and one trajectory; the absence of cross-talk has to hold for every set of amplitudes of all the other modes", "anchors": ["dynaphopy/projection.py:project_onto_wave_vector", "dynaphopy/projection.py:project_onto_phonon", "dynaphopy/dynamics.py:get_velocity_mass_average"]}
{"id": "C123", "title": "The phonon spectrum at a wave vector shows the motion of the mode at the frequency of the mode", "statement": "Let the atoms move in a superposition of harmonic waves. The FFT power spectrum of the velocities projected onto a wave vector q and a mode shows the motion of that mode as its largest value at the frequency of the mode. This is so for standing waves (equal strength along q and -q, always the case where q and -q coincide). For a wave that runs along q it is false: at q the peak is at minus the frequency, and for pieces of an even number of samples the value at the frequency itself is exactly zero; the whole peak appears in the spectrum at -q.", "quantifier": "every cell, supercell, masses, orthonormal eigenvectors, amplitudes of all the waves, resolved frequency, sampling, number of samples and list of requested frequencies", "why_tests_cant": "the ideal trajectories of the test-suite contain standing waves only, and the effect depends on the relation between the amplitudes of two waves", "anchors": ["dynaphopy/projection.py:project_onto_wave_vector", "dynaphopy/projection.py:project_onto_phonon", "dynaphopy/power_spectrum/__init__.py:get_fft_numpy_spectra", "dynaphopy/__init__.py:get_power_spectrum_phonon"]}
{"id": "C124", "title": "The phonon projections contain the whole motion", "statement": "For every crystal, supercell, positive masses and real velocities, the velocities of every atom at every step are exactly the superposition of the lattice waves whose amplitudes are the projections (onto wave vector, then onto phonon mode) the program computes at all the wave vectors of the supercell, divided by the square root of the number of cells. Hence two trajectories with the same projections move alike, and all projections vanish exactly when the atoms stand still.", "quantifier": "all cells, atoms, supercell sizes, masses, orthonormal eigenvector sets, real trajectories, steps, atoms and coordinates", "why_tests_cant": "an inverse transform over all wave vectors and modes, for every trajectory and basis; examples only show single points", "anchors": ["dynaphopy/projection.py:project_onto_wave_vector", "dynaphopy/projection.py:project_onto_phonon", "dynaphopy/atoms.py:get_positions"]}
{"id": "C125", "title": "The orthonormality option of the harmonic eigenvectors", "statement": "obtain_eigenvectors_and_frequencies(..., test_orthonormal=True) returns orthonormal eigenvectors for every set of orthogonal eigenvectors phonopy may return, whatever their lengths, and changes nothing when they already are orthonormal.", "quantifier": "all numbers of atoms and all complex matrices with orthogonal non-zero columns", "why_tests_cant": "a universally quantified statement about matrices: tests with phonopy only see already normalised eigenvectors, for which the wrong axis cannot be noticed", "anchors": ["dynaphopy/interface/phonopy_link.py:eigenvectors_normalization", "dynaphopy/interface/phonopy_link.py:obtain_eigenvectors_and_frequencies"]}
{"id": "C126", "title": "One motion stored in three formats is read as one trajectory", "statement": "If the same motion of the same simulation cell is stored as a LAMMPS dump (in LAMMPS' own orientation of the box), as an XDATCAR (relative coordinates) and as an OUTCAR (Cartesian coordinates), then reading any of them, with the same range of steps, last_steps and template, gives the same trajectory, the same simulation cell and the same time stamps; the result does not depend on the orientation in which LAMMPS stored the box.", "quantifier": "every motion, unit cell, multiples of the unit cell, LAMMPS box of that shape, number of atoms per species, window of steps, last_steps, template and time step for which the files are well formed (OUTCAR: from the first step, see C39; time stamps: see C40)", "why_tests_cant": "three parsers written independently, each with its own unit/orientation conventions; a test compares one pair of files", "anchors": ["dynaphopy/interface/iofile/trajectory_parsers.py: read_lammps_trajectory, read_VASP_XDATCAR, read_vasp_trajectory", "dynaphopy/dynamics.py: Dynamics.trajectory"]}
{"id": "C127", "title": "Symmetry equivalent wave vectors have one power spectrum", "statement": "With use_symmetry (the default) the phonon and wave vector power spectra are averages over the equivalent wave vectors, so two wave vectors that a symmetry operation of the crystal maps onto each other (up to a reciprocal lattice vector) give the same spectrum, whatever was computed before.", "quantifier": "every crystal (group of operations, primitive matrix), pair of equivalent wave vectors, trajectory, algorithm and history of calls", "why_tests_cant": "the equivalence must hold for every group, wave vector and history; a test looks at one wave vector of one crystal", "anchors": ["dynaphopy/__init__.py: get_power_spectrum_phonon, get_power_spectrum_wave_vector", "dynaphopy/interface/phonopy_link.py: get_equivalent_q_points_by_symmetry"]}
{"id": "C128", "title": "The quasi-harmonic script matches its quasiparticle files to wave vectors, temperatures and each other", "statement": "In qha_quasiparticle.py every frequency read from a temperature or volume file is compared with the harmonic frequency of that entry's own wave vector; file i belongs to the i-th temperature (volume) and the numbers of files and temperatures must agree; a file that lists other wave vectors than the first one is refused; the order in which the (temperature, file) pairs are given changes neither the fitted shifts nor whether the script runs; the reference temperature may be left out, as declared; and consistent input yields the frequencies that the shifts describe.", "quantifier": "all lists of files, entries, temperatures and volumes, all harmonic spectra, fits and interpolants", "why_tests_cant": "the mismatches raise no error and the resulting force constants look plausible; tests with one file order cannot reveal row-by-row pairing", "anchors": ["scripts/qha_quasiparticle.py:ForceConstantsFitting", "scripts/qha_quasiparticle.py:QuasiparticlesQHA"]}
{"id": "C129", "title": "An in-memory LAMMPS run is the run that was asked for", "statement": "generate_lammps_trajectory returns samples of one MD run of the replicated system of the script: relaxation first, then one sample every sampling interval; energy, velocities and positions of a frame belong to the same instant; the time stamps are the MD time since the relaxation; the cell is the one of the samples; when a temperature is given the run is a constant-temperature run at it.", "quantifier": "every script (fixes, velocities), every MD engine, every request and number of steps", "why_tests_cant": "an MD engine with other fixes, a barostat or atoms already moving changes the answer silently; decimal times round differently", "anchors": ["dynaphopy/interface/lammps_link.py:generate_lammps_trajectory"]}
{"id": "C130", "title": "A trajectory file that ends in the middle of a step is not read as complete", "statement": "Reading a LAMMPS dump, XDATCAR or OUTCAR that was cut inside a step gives an error (or exactly the complete steps); malformed count and time lines are refused; an empty window gives an empty trajectory, and an error when its last steps are asked for.", "quantifier": "every file, number of steps and place of the cut (between lines; inside a coordinate line of a LAMMPS dump or XDATCAR), every template and last_steps", "why_tests_cant": "the cut can be at any line; each place takes another path through the reader", "anchors": ["dynaphopy/interface/iofile/trajectory_parsers.py:read_lammps_trajectory", "dynaphopy/interface/iofile/trajectory_parsers.py:read_VASP_XDATCAR", "dynaphopy/interface/iofile/trajectory_parsers.py:read_vasp_trajectory"]}
{"id": "C131", "title": "Reports about atoms give each atom its own element and numbers", "statement": "The lines printed by get_average_atomic_positions carry the element of the atom and its true mean position (over the steps and, for the unit cell, over the equivalent atoms), brought into the cell; the rows printed by get_anisotropic_displacement_parameters are one per atom of the unit cell, in its order, with the element of the atom and the tensor of its type.", "quantifier": "every structure, supercell, trajectory recorded with periodic jumps, and arrangement of types in the unit cell", "why_tests_cant": "depends on the number of equivalent atoms in the unit cell, on where in the list the types stand and on jumps across the boundary", "anchors": ["dynaphopy/__init__.py:Quasiparticle.get_average_atomic_positions", "dynaphopy/__init__.py:Quasiparticle.get_anisotropic_displacement_parameters", "dynaphopy/dynamics.py:Dynamics.average_positions"]}
{"id": "C132", "title": "The settings written in the input file are those the calculation uses", "statement": "For every well-formed input file the programs (dynaphopy, the quasi-harmonic script, rfc_calc) compute with exactly what the file says: the structure file named, the primitive matrix, the force data with the supercell matrix, the bands and the mesh (documented defaults for what is absent); settings the file does not name are unchanged; contradictory files are refused.", "quantifier": "every well-formed input file, readable or unreadable force files, every state of the parameters left by earlier analyses in the process", "why_tests_cant": "the values travel through dictionary keys and attribute names from the text of the file to the objects; a missing or differently spelled key is silent", "anchors": ["scripts/dynaphopy", "scripts/qha_quasiparticle.py:QuasiparticlesQHA.__init__", "scripts/rfc_calc", "dynaphopy/parameters.py:Parameters.get_data_from_dict", "dynaphopy/atoms.py:Structure.get_data_from_dict"]}
{"id": "C133", "title": "Figures of dispersion relations and linewidths show the quantity of their title", "statement": "The figures of plot_linewidths_and_shifts_bands have, for every stretch and branch, exactly one curve each: the linewidth, harmonic frequency, frequency shift and renormalized frequency of that branch over the distances of the stretch, each in the figure whose title names it, with one colour per branch everywhere. plot_renormalized_phonon_dispersion_bands draws the renormalized frequencies in red, the harmonic ones in blue, and with linewidths a band as wide as the linewidth centred on the frequency; the legend names the curves rightly; everything lies within the abscissa limits; ticks are at the ends of the stretches. plot_frequencies_vs_linewidths shows each (frequency, linewidth) pair of the mesh once.", "quantifier": "every returned band data (any number of stretches, branches and points), every palette, every mesh", "why_tests_cant": "the figures are never inspected by tests, and the claim is about all branches, stretches and meshes", "anchors": ["dynaphopy/__init__.py: Quasiparticle.plot_linewidths_and_shifts_bands, plot_renormalized_phonon_dispersion_bands, plot_frequencies_vs_linewidths"]}
{"id": "C134", "title": "Shift plots and tables of the quasi-harmonic script show the shifts of the files", "statement": "In qha_quasiparticle.py the measured points of the shift plots, the plots of the files and the tables shift_r and tshift_r contain, for each temperature or volume, wave vector and branch, the shift of the file of that temperature or volume with respect to the reference named in the title; choosing a branch draws that branch; the fitted or interpolated lines cover the range of the data and pass (interpolated) through the points they meet; a run of the script writes both tables.", "quantifier": "every set of data files, wave vector, branch, temperatures, volumes, fit and spline, with and without tick labels", "why_tests_cant": "needs all files, branches and reference temperatures; the failure with labels depends on the Python version and the input file", "anchors": ["scripts/qha_quasiparticle.py: ForceConstantsFitting.plot_shift_*, plot_fitted_shifts_*, get_shift_temperature, QuasiparticlesQHA.plot_band_structure_constant_pressure, end of the script"]}
{"id": "C135", "title": "One fit, one set of coefficients", "statement": "Whatever is asked of a fit object, in any order and as often as wanted (its coefficients, its report, its curve on any grid), all answers describe one and the same curve: the optimiser is not run again once it has converged, it always starts at the position and height given to the object, and a failed attempt leaves nothing behind.", "quantifier": "all four fitting functions, all sequences of requests, all answers of the optimiser at each call (convergence, failure, exceptions), all guesses", "why_tests_cant": "depends on the history of requests and on when the optimiser fails; a test asks once in one order with a fit that converges", "anchors": ["dynaphopy/analysis/fitting/fitting_functions.py:Lorentzian", "dynaphopy/analysis/fitting/fitting_functions.py:Lorentzian_asymmetric", "dynaphopy/analysis/fitting/fitting_functions.py:Damped_harmonic", "dynaphopy/analysis/fitting/fitting_functions.py:Gaussian_function"]}
{"id": "C136", "title": "Each fitted peak has its own figure", "statement": "The figure of phonon i shows the spectrum that was fitted for branch i, the curve with the coefficients reported for it, and a line at the returned position at the top of that curve; a branch whose fit fails has no figure; hiding the figures changes no returned or printed value; the printed frequency shift leads from the harmonic frequency to the returned position.", "quantifier": "all spectra, grids, fitting functions, optimiser answers per branch, degeneracy settings, thermal expansion shifts", "why_tests_cant": "numbers drawn are not checked by tests and the pairing of figures, columns and fits must hold for any pattern of failures", "anchors": ["dynaphopy/analysis/fitting/__init__.py:phonon_fitting_analysis", "dynaphopy/__init__.py:Quasiparticle.phonon_individual_analysis"]}
{"id": "C137", "title": "A displacement distribution that is exactly Gaussian is recovered by the fit", "statement": "If the histogram of displacements is exactly a Gaussian on a base line at its sample points, then every least-squares solution of the fit is that same curve everywhere, whatever solution the optimiser finds, and the mean and standard deviation printed (and every number of the report) are the true ones.", "quantifier": "all centres, positive widths, non-zero heights, base lines, and all lists of at least seven different sample points", "why_tests_cant": "uniqueness of the optimum over all parameters and all grids; a test checks one curve and one optimiser run", "anchors": ["dynaphopy/analysis/fitting/fitting_functions.py:Gaussian_function", "dynaphopy/__init__.py:Quasiparticle.plot_trajectory_distribution"]}
{"id": "C138", "title": "The package works with every phonopy version that offers what it needs", "statement": "With every installed phonopy that offers the crystal class and the unit of frequency - under the name of the old or of the new versions - dynaphopy can be imported and uses that class and that unit; renormalized force constants are built from dynamical matrices whose frequencies are those given, whichever interface phonopy has for handing them over; force constants, force sets and non-analytical corrections given by the user are those phonopy computes with, and the accessors of the old kind return what was set.", "quantifier": "all installations (what phonopy offers under which name), frequencies, eigenvectors, force data and NAC choices", "why_tests_cant": "a test environment holds one phonopy version; pyproject.toml accepts phonopy>=2.0", "anchors": ["dynaphopy/interface/phonopy_link.py:10-53", "dynaphopy/interface/phonopy_link.py:get_phonon", "dynaphopy/interface/phonopy_link.py:get_renormalized_force_constants"]}
{"id": "C139", "title": "Thermodynamic functions at low temperatures in double precision", "statement": "At every temperature and frequency of ordinary size, including those where h f / k T is so large that exp, sinh and cosh overflow in double precision, the summands of the total energy, entropy, heat capacity and free energy handed to the quadrature are the textbook values of a quantum harmonic oscillator up to rounding; in particular the free energy stays below the zero-point energy and the reported one is finite.", "quantifier": "all double-precision temperatures, frequencies and densities of states between 2^-60 and 2^60 with at least 30 THz per kelvin, and the frequency 0; every grid and every quadrature", "why_tests_cant": "the overflow happens only for high frequencies at low temperatures and is silenced (warnings are filtered and np.nan_to_num replaces infinities by the largest double); a test samples a few temperatures, and the claim is about every pair of doubles", "anchors": ["dynaphopy/analysis/thermal_properties.py:get_total_energy", "dynaphopy/analysis/thermal_properties.py:get_free_energy", "dynaphopy/analysis/thermal_properties.py:get_entropy", "dynaphopy/analysis/thermal_properties.py:get_cv"]}
{"id": "C140", "title": "The temperature of an analysis is the one asked for, or else that of its current trajectory", "statement": "get_temperature() (and with it every thermal property) returns the temperature last given to set_temperature, whatever is called in between, and the Maxwell-Boltzmann estimate of the current trajectory when none was given; 0 K is a temperature like any other, and cropping the trajectory is followed.", "quantifier": "every history of calls, every trajectory, every temperature", "why_tests_cant": "the value is cached at the first call; which value is returned depends on the whole history of calls", "anchors": ["dynaphopy/__init__.py:Quasiparticle.get_temperature", "dynaphopy/__init__.py:Quasiparticle.set_temperature", "dynaphopy/__init__.py:Quasiparticle.crop_trajectory"]}
{"id": "C141", "title": "All results of one calculation use the same non-analytical correction", "statement": "With the quasi-harmonic script, densities of states, thermal tables, their figures and dispersions at a temperature and a volume are all those phonopy gives for the force constants of that temperature and volume with the correction chosen for the calculation; each curve of the dispersion gradient belongs to the temperature of its colour at the volume of that temperature; with dynaphopy the harmonic and renormalized dispersions follow the same requested paths with the chosen correction, and the mesh data agree with the dispersion at the wave vectors they share. Refuted for plot_density_of_states (never corrected) and for the mesh data (never corrected, set_NAC does not change them).", "quantifier": "every structure, force constants, temperature, volume, path, mesh, setting of NAC and every phonopy", "why_tests_cant": "the correction is a flag passed separately by every method; a test with a non-polar crystal cannot see a missing flag, and no test covers all methods with a BORN file", "anchors": ["scripts/qha_quasiparticle.py:ForceConstantsFitting.get_thermal_properties, get_dos, plot_density_of_states, get_band_structure, plot_thermal_properties", "scripts/qha_quasiparticle.py:QuasiparticlesQHA.plot_band_structure_gradient", "dynaphopy/__init__.py:get_mesh_frequencies_and_linewidths, get_renormalized_phonon_dispersion_bands", "dynaphopy/interface/phonopy_link.py:obtain_phonon_dispersion_bands, obtain_phonopy_mesh_from_force_constants"]}
{"id": "C142", "title": "The dispersion relations list each branch with its own linewidth", "statement": "At every wave vector commensurate with the supercell get_renormalized_phonon_dispersion_bands(with_linewidths=True) lists the fitted frequencies, the band edges frequency plus and minus half the linewidth, and the linewidth of the same mode; no linewidth is negative and their sum is that of the fitted ones. Refuted without band connection (as plot_renormalized_phonon_dispersion_bands asks for): when two linewidths differ by more than twice the distance of the frequencies, neither branch is listed with the linewidth of any mode.", "quantifier": "every list of modes (frequency, linewidth) at a commensurate wave vector", "why_tests_cant": "the edges come from two separate diagonalisations, each sorted on its own: only crossings of the edges show it, which the test data do not have", "anchors": ["dynaphopy/__init__.py:get_renormalized_phonon_dispersion_bands, plot_renormalized_phonon_dispersion_bands", "dynaphopy/interface/phonopy_link.py:get_renormalized_force_constants, obtain_phonon_dispersion_bands"]}
