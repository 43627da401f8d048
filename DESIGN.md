# DynaPhoPy: formal model in Coq 8.16.1

## 1. Method

The Python and C sources in /repo are read as text and transcribed, function by
function, into total Gallina functions.  Every model definition carries a comment
`(* path:lines *)` with the code it models and the simplifications made.

* **Numbers.** Python integers are `Z` or `nat`.  Floating point values are exact:
  `Q` where the model has to be executed on a witness, the standard library's real
  numbers `R` where analysis is needed, or an abstract carrier (a polymorphic type `A`)
  where the code only moves values around.  IEEE rounding, NaN and infinity are *not*
  modelled unless the comment of a definition says so.  A theorem over `R` therefore
  speaks about the code in exact arithmetic.  Where rounding decides a property (data
  segmentation and frequency axis, C21 and C22) the model is written over an arithmetic and
  instantiated both with `R` and with IEEE binary64 (the standard library's SpecFloat);
  Flocq is used as a proof library, to relate SpecFloat to correct rounding, and (C120) as the definition of binary64 arithmetic (BinarySingleNaN); it adds no axioms.
* **numpy arrays** are lists (or functions on indices for fixed 3x3 shapes).
* **Errors** (`exit()`, exceptions, out-of-range accesses) are values (`option` /
  an explicit outcome type), never a silent default.
* **Objects with caches** are records with `option` fields and a `step` function on an
  inductive type of API operations; histories are lists of operations.  The "fresh
  object" specification is a separate function that has no caches at all.
* **External code** (phonopy, numpy.linalg, scipy fits, the file system) enters as a
  universally quantified function argument or `Section` variable that is discharged into
  the theorem's statement.  There are no axioms describing it.

Each topic has a model file `<Topic>Model.v` (definitions only), a specification file or
section `<Topic>Spec.v` (definitions readable without the model), a proof file
`<Topic>Proofs.v` and a property file `<Topic>Props.v` with only theorem statements closed
by `exact`, non-vacuity examples and `Print Assumptions`.

Properties that are *false* of the code are kept at full strength in properties.jsonl; the
model then proves `..._refuted` (a concrete execution that violates the statement) and a
`..._partial` theorem for the largest useful region where the statement holds.  In
MANIFEST.json such properties have status `partial` and the note says what is refuted.

## 2. Trusted base

1. Coq's kernel (8.16.1) and the `vm_compute` reduction machine it includes.
2. The axioms printed by `Print Assumptions` below each theorem.  Only those of the Coq
   standard library occur: for theorems over `R`, `ClassicalDedekindReals.sig_forall_dec`,
   `ClassicalDedekindReals.sig_not_dec` and
   `FunctionalExtensionality.functional_extensionality_dep`, and where derivatives,
   integrals or epsilon-style choices of the real library are used also
   `Classical_Prop.classic` and `ClassicalEpsilon.constructive_indefinite_description`.
   All other theorems are closed under the global context.  Section 5 has the list for
   every theorem.
3. The faithfulness of the transcription (the comments give the lines to compare).

## 3. Per-property plan

| id | what is modelled | how it is proved |
|----|------------------|------------------|
| C01 | get_positions loop nest, itertools.product order, dynaphopy_order index arithmetic | list induction on `flat_map`, div/mod arithmetic, both directions of the bijection |
| C02 | the five repetition loops | induction; alignment stated through the C01 index |
| C03 | get_cell(supercell) as matrix product with a diagonal | refuted by a triclinic witness; proved for uniform supercells and for diagonal cells |
| C04 | Structure position caches as a state machine | refuted after a getter; proved when the cache is empty |
| C05 | the double loop of get_atom_type_index over an abstract equivalence test | loop invariant (types < counter, all types used); supercell-first query refuted |
| C06 | cache record of Structure with set_primitive_matrix | invariant over histories |
| C07 | crop_trajectory branch by branch on optional arrays | list lemmas on "last n" |
| C08 | Dynamics caches as a state machine | refuted for crop and for the flag; proved for velocity_mass_average |
| C09 | the accumulation loop over Q / R | telescoping induction; rounding as a function with half-ulp bound |
| C10-C12 | displacements.c over R, cofactor inverse for n=3 | ring/field, floor lemmas |
| C13 | both routines | refuted on a hexagonal-like cell; equal for symmetric cells away from ties |
| C14 | get_supercell_matrix over Q with row norms given | refuted by cancelling deviations; proved per component when deviations have one sign ; `DynFailureModel.v` adds the cache: a refused cell is accepted on the next call (refuted universally) |
| C15 | average_positions accumulation | refuted with two equivalent atoms in the cell; proved for one atom per type |
| C16 | accumulation per type | algebra over R, sums of squares |
| C17-C18 | correlation.c loops with an access log | refuted exponent; bounds by arithmetic; schedule independence by permutation of writes |
| C19 | mem.c GetCoefficients index accesses | refuted (index N read, index 0 unused); work arrays proved in bounds |
| C20 | Burg recursion over R | Cauchy-Schwarz type bound, induction on order |
| C21 | _division_of_data over an arithmetic, instantiated with reals and with IEEE binary64 (SpecFloat) | floor arithmetic for the exact instance; for binary64, SpecFloat linked to Flocq's correctly rounded operations (FloatFacts), then an error analysis (FloatPieces); counterexamples by evaluation |
| C22 | np.arange and the two setters over the same two arithmetics | ceiling arithmetic; error analysis in binary64 (FloatAxis); counterexamples by evaluation |
| C23-C26 | Quasiparticle caches + parameters as a state machine over API operations | invariant over histories for the operations that invalidate; refuting histories for those that do not |
| C27 | Parameters attribute store | finite enumeration over properties, for all values |
| C28-C29 | projections over C = R*R | sums, unitary matrices |
| C30-C31 | degenerate_sets and the result assembly loop | refuted overlap; coverage and chaining proved |
| C32-C33 | fitting function formulas over R | field identities |
| C34-C35 | integrands of thermal_properties over R | exp/ln identities, derivatives |
| C36, C46 | POSCAR header counting and reading | refuted for ungrouped elements, proved for grouped |
| C37-C38 | LAMMPS box formulas over R | sqrt identities, min/max case analysis |
| C39-C41 | reader loops on the list of steps in the file | loop invariants; refuting windows |
| C42-C43 | argsort templates, arrangement fallback | permutation lemmas |
| C44-C45 | hdf5 store as an association list | round trip; refuted time axis |
| C47 | reshape/transposition index maps | index arithmetic |
| C48 | filtering and np.unique | list lemmas |
| C49 | check_commensurate over Q; phases over R | integrality, periodicity of sin/cos |
| C50 | setters with rejection | case analysis for every integer |
| C51 | write loop, progress bar | list lemmas |
| C52 | congruence transformations over R | matrix algebra |
| C53 | gather by id | refuted by a 3-cycle; proved for involutions |
| C54 | fitdata reading | refuted; first row dropped |
| C55 | get_temperature | algebra, history |
| C56 | the two tables | finite check by vm_compute lifted by forallb_forall |
| C57 | the quadrature sums of thermal_properties.py over arbitrary grids | exact discrepancy of the first sample; derivative rules under the sum |
| C58 | get_thermal_properties with and without normalize_dos | equality of the two integrands; exact scale factor when the density is normalised |
| C59 | POSCAR reader, scale line | per-branch algebra; Cartesian branch refuted for every s <> 1 |
| C60, C61, C62 | the reader loops with limit, the LAMMPS column choice, the XDATCAR scale line | loop invariants, index computation, universal refutations |
| C63 | the linspace-like band path loop | arithmetic on the last index |
| C64 | frequency to eigenvalue conversion | sign/sqrt algebra |
| C65 | element-number types | list induction; refuting witness |
| C66 | FORCE_SETS acceptance test | determinant vs diagonal product |
| C67 | write_xsf_file's while loop as a fuelled iteration | no fuel is enough when a type is missing; bound otherwise |
| C68, C69 | the input-file dispatcher over a list of lines; keyword search over a prefix of bytes | induction on the blocks of a well-formed file, universal refutations |
| C70, C71, C72 | _numpy_power: split, correlate, FFT, abs, argsort | discrete Fourier algebra over C, geometric sums, Parseval |
| C73 | generate_test_trajectory | closed form of every displacement, second derivative, energy |
| C74, C75 | get_power_spectrum_full/partials over an abstract column spectrum | sums over columns; cache refutations |
| C76 | np.histogram(density=True) + projection | counting lemmas, normalisation |
| C77, C78, C79 | eigenvector_order, set_order, reconnect_eigenvectors, tick labels | argmax under a majority condition; permutation invariants along a path |
| C80, C81 | get_dos / display_thermal_properties integrals | linearity of the trapezoid rule |
| C82, C83 | scripts/dynaphopy and interactive_ui as histories over the C23-C26 state machine | simulation against the cache-free specification |
| C84 | list_on_screen | index arithmetic; exact domain of success |
| C85, C86 | rfc_calc reader and the quasiparticle file writer | pairing lemmas, cache mutation refuted |
| C87, C88 | qha_extract, ForceConstantsFitting over abstract fits and interpolants | rank of the volume in sorted order; pass-through of interpolants |
| C89 | mesh file assembly over an abstract phonopy | sortedness implies pairing; refuted otherwise |
| C90, C92 | band and force-data caches as state machines | invariants over histories, universal refutations |
| C91 | minimum image + np.gradient with one average step | second-order error bound by Taylor's formula; refutations |
| C93 | arrow assembly of plot_phonon_modes | positive multiple; equality iff masses agree |
| C94 | mem_coefficient_scan_analysis over abstract fits | argmin over the valid points |
| C95 | get_commensurate_points of Structure (grid search, rounding to five decimals) | decimal arithmetic, integrality |
| C96 | project_onto_wave_vector on a full commensurate grid | finite Parseval identity, conjugation, shift |
| C97 | Dulong-Petit, third law, monotonicity of the sums of C57 | limits and monotonicity of x/sinh x |
| C98 | mem.c and correlation.c over complex series | invariance of the Burg recursion under c*x, conj, reversal |
| C99 | fitdata loess | normal equations, uniqueness, equally spaced windows |
| C100 | composition generate -> relative trajectory -> velocity -> wave vector -> phonon | closed form by orthogonality of characters and eigenvectors |
| C101 | the allocation skeletons of the three C files | separation logic over heaps, ledgers of live blocks |
| C102 | the text exports of power spectra and correlations | printed columns, equality with the arrays computed |
| C103 | the Gaussian fit of the distribution of displacements | moments of the fitted density; translation; negative sigma and side refuted |
| C104 | qha_quasiparticle.py at constant pressure | index pairing over strided tables, piecewise linear interpolation |
| C105 | TempFilesModel: directory, inodes, maps as views, objects of processes, one call per step; getters create maps named by pid; __del__ stops at the first missing file | spec: value_of (arrays in memory) and in_memory (schedule with private arrays); invariant "each object owns its files" by induction over the schedule; refutations for two objects of one process, XDATCAR file, second deletion |
| C106 | OutcarModel: bytes, mmap position, find from the position, readline/read/split, six-byte mass columns | spec: the parts of the file (text, headings, has_words); the reader is followed part by part with the invariant "from position p on the bytes are t" |
| C107 | AutoPathModel: atoms.py 358-380 with seekpath as an arbitrary function and numpy.unique as sorted insertion; wave vectors through get_q_vector | species numbers by the place in the sorted list of distinct elements; ranges by induction on the path; wave vectors characterised by the phase along the lattice vectors (independent of inverses); fcc counterexample for every lattice parameter |
| C108 | PhonopyDosModel: phonopy_link.py 131-284, plot_power_spectrum_full, plot_dos_phonopy; phonopy's results are arbitrary functions of what it was given | the phonopy object used is characterised by the relation `uses`; integrals through an arbitrary linear quadrature; pointwise sums for projections; arange(T, T+1/2, 1) = [T] |
| C109 | same cache record, set_cell | universal counterexample (any two cells with different primitive cells); invariant "never asked" and set_primitive_matrix afterwards |
| C110 | `StructureModel` (object state, histories `srun`); specification `last_given` in `StructureStateProps.v` | Invariant over histories: a cached primitive cell implies a stored primitive matrix, queries keep cell, masses and matrix (compositional `keeps` lemmas for the option-state monad), then C02's index theorem for the expansion. |
| C111 | OccupancyModel: fitting/__init__.py 84-107, numpy's inf/nan rules as option | algebra of exp/ln; x coth x bounds and monotony by the mean value theorem; universal refutations for the quantum h*nu |
| C112 | the constants of power_spectrum, fitting, thermal_properties and energy as exact rationals | rational arithmetic (lra); consequences through C80_energy and C111 |
| C113 | `BoltzmannModel.v`: energy.py's flattened mass-weighted speeds and T = scale²/k_B around any estimator | `BoltzmannProps.v`: the likelihood is written as prefactor × exp(−Q/2s² − 3N ln s); ln u < u − 1 makes s² = Q/3N the strict maximum; hence the kinetic temperature, uniqueness, dependence on the energy only, scaling. |
| C114 | `ExactFitProps.v` over `FitFunctionsModel.v` and `FittingModel.v` | two rational curves agreeing at five points have the same polynomial coefficients (root counting), so a zero-residual least-squares solution has the true parameters up to sign; the sign test of the code removes the Lorentzian's second solution, not the damped oscillator's nor the asymmetric Lorentzian's (refuted). Asymmetric (`AsymmetricFitProofs.v`, `AsymmetricFitProps.v`): the gap of two curves is a sum of polynomials times exponentials with 45 coefficients, which has fewer zeros than coefficients (repeated Rolle); equal curves have equal coefficients by comparing growth. End to end through `phonon_fitting_analysis`. End to end with degenerate averaging for all three shapes: `KindsAnalysisProps.v`. |
| C115 | `ParallelModel.v`: threads with private registers, shared output array, one step per access, arbitrary schedules; loop bodies of c/mem.c:155-169 and c/correlation.c:143-147 | invariant: what a thread has done so far it could have done alone (footprints of different threads are disjoint because iterations are dealt once); progress, race freedom, step count and final values follow; an Example shows that dropping private(AngularFrequency) breaks it |
| C116 | no new model: `numpy_power`, `get_fft_spectra` (FftModel), ideal trajectory and projection of C100 | windowed autocorrelation of a cosine in closed form (geometric sums multiplied out by induction); even and odd piece lengths; off-peak values bounded through sines of multiples of pi/n, the peak from below; C100_mode_signal for the trajectory. Two end samples of np.gradient are excluded in the trajectory form |
| C117 | `FailureModel.v`: the statements of get_power_spectrum_full / partials / phonon / get_temperature one by one in a state-and-failure monad with a clock; two oracles over time (routine raises; user interrupts before an assignment) | Undisturbed sessions: invariant over sessions, all answers right. Failing routines with screen output: invariant, full and phonon spectra always right (`C117_screen_partial`). Refuted universally: silent full spectrum (failure at any column: the sum of the columns done so far is returned next, zeros for a missing library), partial spectra, interruption between two assignments, `silent` not restored |
| C118 | `DynFailureModel.v`: get_supercell_matrix, velocity, get_velocity_mass_average statement by statement in a state-and-failure monad; allocated memory content and interruption times arbitrary | Undisturbed sessions: invariant, loops by induction. Supercell factors under any interruptions: invariant preserved by every statement (`C118_factors_partial`). Refuted universally: mismatched cells (uninitialised memory returned; C14: refused only once), one-frame trajectories (zeros), interruption at any column |
| C119 | mem.c as in C20 (MemModel); the spectrum as a function of the frequency | The prediction error filter has no zero in the closed unit disc (Schur recursion, explicit lower bound), a companion filter with the reflection coefficients negated satisfies Re(D conj A) = residual power on the circle, and the mean value property of D/A is proved in polar coordinates (differentiation under the integral sign, Coquelicot). Refuted universally for series with sum of squares below 5e-7 and for constant or alternating velocities of any size: the spectrum is 0 at every frequency |
| C120 | c/mem.c written once over an arbitrary arithmetic and run with the exact reals (proved equal to the model of C19/C20/C98/C119) and with Flocq's IEEE binary64 (nearest even, no FMA, pow(x,2)=x*x; libm's cexp/cpow a parameter) | relative error bounds of each rounded operation (Flocq's `relative_error_N_FLT`), Cauchy-Schwarz for the rounded sums, induction over the coefficients; the refutation is one computed case |
| C121 | c/mem.c and c/correlation.c over an arbitrary arithmetic, run in IEEE binary64 (NaN and infinities included; annex G complex product with arbitrary recovery); the generic correlation over exact complex numbers gives the model of C17/C18 | which operations can return a number when an operand is not one; loop invariant "a bad cell is left in the work arrays" over the Burg recursion; loop limits of the correlation sums; FFT methods (dynaphopy/power_spectrum/__init__.py over doubles, transform = any absorbing kernel, shown inhabited by the schoolbook DFT): lag 0 of the correlation of a piece contains every sample |
| C122 | projections of C28/C29 and supercells of C05; velocities: any superposition of the waves Re(s e exp(i q.R))/sqrt(m) of all commensurate wave vectors | lattice sums of products of waves (orthogonality over the supercell), then orthonormality of the eigenvectors; conjugate partner at -q |
| C123 | C122 for the time derivative of harmonic waves joined to the FFT spectra of C70/C71/C116 | the series is a tone of frequency -f (running wave), +f (at -q) or a real oscillation up to a phase (standing wave); in pieces of 2h samples the lag weights of the two halves add to a constant, so the transform of a tone vanishes at even distances |
| C124 | project_onto_wave_vector and project_onto_phonon (models of C28/C29) over the supercell order of C13 | orthogonality of the phases over the wave vectors (C96) inverts the first projection; completeness of a square orthonormal set (columns from rows, UnitaryBridge) inverts the second |
| C125 | eigenvectors_normalization (the in-place loop over rows) and the arrangement of obtain_eigenvectors_and_frequencies | loop invariant over the rows; the columns of the row-normalised matrix are orthonormal exactly when modes sharing a coordinate have equal lengths (completeness of a square orthonormal set) |
| C126 | the three readers of `ParsersModel` (`read_lammps`, `read_xdatcar`, `read_outcar`) composed with the property `trajectory` of `DynamicsModel`; the files are described by `ParsersSpec` (blocks of a dump, header and frames of an XDATCAR, blocks of an OUTCAR) | the window theorems of C38–C40, with the turned LAMMPS box shown equal to the supercell built from the unit cell |
| C127 | `QuasiModel.get_power_spectrum_phonon` / `get_power_spectrum_wave_vector` (averaging loop, caches, restored wave vector) with `PhonopyLinkModel.get_equivalent_q_points_by_symmetry` as its list of wave vectors; `np.average` as the entrywise mean; spectra of single wave vectors uninterpreted | the lists of two images with non-negative components are permutations of each other (group axioms); refuted for components below zero (exact difference) and for images up to a reciprocal lattice vector |
| C128 | QhaFilesModel: files as lists of (wave vector, frequencies), numpy broadcasting of the subtraction, the loops over temperatures and volumes, the constructor up to PhonopyQHA; harmonic spectrum, polyfit, interp1d and thermal properties uninterpreted | row-by-row pairing computed exactly; own shifts for files in one order (partial), refuted for every file with other wave vectors in a row, for single-entry files, surplus files, lists ending at or below tmin and a missing reference temperature; permutation invariance of the fitted shifts; refinement of the C88 model for consistent input |
| C129 | `generate_lammps_trajectory` as a program sending commands to an abstract LAMMPS (system, fixes, time step) | samples at relax + (k+1)·interval steps, by induction over the loop; the stamp is one interval early, the cell is the one at the start, other integrating fixes of the script stay active, decimal times lose a step (binary64) |
| C130 | the three trajectory readers on files cut at any line of a step | the loop runs over the complete steps (induction), then every place of the cut by cases; refuted for a dump cut right after ITEM: ATOMS (one time stamp too many); cuts inside coordinate lines (`CutLineProps.v`): refused unless three numbers are left of the last line of a step, then read as a complete step with a wrong number; the same for energy lines |
| C131 | average_positions of both kinds over the real supercell expansion and the C displacement routine, the printed rows with element lookup, np.unique and the rows of the displacement parameters | atoms of the simulation: each row has the element of its atom and, for a motion of less than half a cell recorded with any jumps, the true mean position folded into the simulation cell; unit cell: the value with m equivalent atoms (m times the mean displacement), right for m = 1, wrong otherwise unless (m-1) times the mean is a lattice vector; displacement parameters: as many rows as atoms and a permutation of the rows due, in the order of the atoms exactly when the types stand together |
| C132 | the dictionary of the input file with its keys, both get_data_from_dict over the attribute lists of Structure and Parameters, the set-up parts of the three scripts (force files with their supercell, key look-ups, the chained comparison of the quasi-harmonic script, iteration over a dictionary of bands in rfc_calc) | composed with C68 from the text of the file: lookup lemmas by induction over dictionaries, then one theorem per program and case; refuted cases are universal over all well-formed files |
| C133 | BandPlotsModel: the curves, ribbons, colours (np.roll), titles, legend, ticks, limits and the scatter of the three plot methods; windows and pixels not modelled | proved: curves filtered by figure = table of branches; entries linked to C77; ribbons; legend; range for monotone distances; scatter enumerated |
| C134 | QhaPlotsModel: file plots, fitted plots, tables, dispersion at constant pressure, the commands at the end of the script; fit and spline uninterpreted | temperature part, lines and tables proved; volume plots of the same title differ by the reference shift (refuted), labels stop the script on Python 3 (refuted), default external_data fails (refuted) |
| C135 | fit objects as state machines: cached coefficients, log of the runs of the optimiser; curve_fit = an oracle that may answer differently at each call; the four curves and reports of FitFunctionsModel/GaussianModel | induction over the history of requests; universal refutations: the curve of a failed fit raises, the curve of the starting point misses the guessed height; exceptions and failed reports come from the optimiser only |
| C136 | phonon_fitting_analysis with its figures, printed shifts and returned values, over FittingModel's degenerate sets and FitObjectModel's fit objects | invariants of the loop over branches; maximum with first place; strict fall of the Lorentzian beside its centre for the refutation (line moved by the thermal expansion) |
| C137 | `GaussianFitProps.v` over `GaussianModel.v` | the difference of two Gaussians and a base line, multiplied by one inverse Gaussian, loses by three differentiations (Rolle) at most three zeros and becomes a cubic times a Gaussian; so fewer than seven common points unless centre and width agree, then height and base line agree up to the sign of the width, which the report removes; three samples are not enough (universal counterexample) |
| C138 | An installed phonopy as what it offers under which name (VersionModel): guarded imports, accessor classes over properties that are absent, read-only or settable, both interfaces for dynamical matrices (phonopy_link 10-53, 143-169, 366-388) | case analysis; eigenvalues via C64; refutation for every installation that keeps the unit in phonopy.units only (the guarded import asks for the misspelt name VaspToTHza) and for every one without set_dynamical_matrices (AttributeError is not caught) |
| C139 | thermal_properties.py in IEEE doubles (Flocq), the C library's exp, sinh, cosh, log abstract except where they overflow (ThermalFloatModel) | in the overflow region the energy is right to 1e-15, entropy and heat capacity become 0 where the exact values are below 1e-20 k; the free energy is refuted (largest double, and infinite once integrated); frequency 0 is what ThermalModel says |
| C140 | get_temperature, set_temperature, crop_trajectory of QuasiModel over arbitrary kernels | induction on the history: without cropping the temperature is the last one asked for if not 0 K, the measured one otherwise; refuted for 0 K (taken as "none given") and for a trajectory cropped after its temperature was first used |
| C141 | NacModel.v: obtain_phonon_dispersion_bands, obtain_phonopy_mesh_from_force_constants, the result methods of ForceConstantsFitting, the dispersion gradient, dispersions and mesh data of Quasiparticle, over an arbitrary phonopy | NacProps.v: each output equals phonopy's function of one set-up (force constants, supercell, correction); equivalences for the two refuted outputs: they agree with the corrected result exactly when the correction changes nothing |
| C142 | DispersionWidthModel.v: the entry of get_renormalized_phonon_dispersion_bands at a commensurate wave vector without band connection, over MeshModel's dynamical matrix round trip | DispersionWidthProps.v: sorting is monotone (pointwise bounds survive it) and preserves sums; a permutation sorted by frequency for well separated modes; an exact criterion for two modes |

Not expressible here: IEEE rounding behaviour of every numerical routine, wall-clock
performance, plotting, the correctness of phonopy / numpy / scipy / h5py / LAMMPS
themselves.  None of the properties above depends on them except through the quantified
arguments described in section 1.

## 4. What is modelled and what is not

| source file | modelled | not modelled |
|-------------|----------|--------------|
| dynaphopy/__init__.py | caches and setters of Quasiparticle, spectra (full, partial, wave vector, phonon) and their projections, dispersion branches, mesh data, commensurate data and file, renormalised force constants, thermal properties, histograms, boltzmann temperature, averages | the drawing itself (matplotlib calls) of every `plot_*`; only the arrays handed to it where a property is about them |
| dynaphopy/atoms.py | Structure: positions, masses, types, supercell tiling, primitive matrix and cell caches, force data, commensurate points, number of cells, get_path_using_seek_path | seekpath itself (an arbitrary function), trivial accessors |
| dynaphopy/dynamics.py | cropping, time steps, relative trajectory, velocity, mass weighting, averages, supercell matrix detection | destructor messages |
| dynaphopy/projection.py | complete | |
| dynaphopy/power_spectrum/__init__.py | division of data, MEM / FFT / direct drivers, coefficient scan | the FFTW and CUDA libraries (assumed equal to their numpy counterparts only where the statement says so) |
| dynaphopy/analysis/thermal_properties.py | complete | overflow of exp/sinh |
| dynaphopy/analysis/fitting | function values, reported widths/positions/areas, phonon_fitting_analysis assembly, degenerate sets | scipy.curve_fit (an arbitrary function) |
| dynaphopy/analysis/coordinates.py, energy.py, modes.py | trajectory_projection, progress bar, boltzmann formula, arrows | drawing |
| dynaphopy/interface/iofile/__init__.py | input file parser, POSCAR reader, trajectory format detection, writers (yaml, XSF, hdf5, quasiparticle, mesh, force constants, spectra), hdf5 store, test trajectory | byte-level float parsing and printing (decimal rounding modelled where a property needs it) |
| dynaphopy/interface/iofile/trajectory_parsers.py | the VASP (OUTCAR, XDATCAR), LAMMPS, generated parsers on tokenised files, memory-mapped scanning | operating system paging |
| dynaphopy/interface/phonopy_link.py | mapping between the two atom orders, force constants, bands, eigenvalue conversion, commensurate mesh, congruence | phonopy itself (arbitrary functions with stated contracts) |
| dynaphopy/interface/lammps_link.py | gathering of positions and velocities | LAMMPS |
| dynaphopy/interface/interactive_ui.py | menu actions as histories, list_on_screen | curses drawing |
| dynaphopy/interface/phonopy_link.py / NAC | flag and cache behaviour | the non-analytical term |
| scripts/ | dynaphopy, concath5, fitdata, rfc_calc, qha_extract, qha_quasiparticle | argparse's own behaviour |
| c/correlation.c, mem.c, displacements.c | loops, index accesses, arithmetic over R/C, allocation skeleton, schedules of the parallel loops | IEEE rounding, the compiler |

External code enters every theorem as a universally quantified function; where a contract is
needed (for example "argsort returns a sorting permutation") it is a hypothesis of the
theorem, visible in its statement, with an example that satisfies it.

## 5. Axioms per theorem

As printed by `Print Assumptions`; every one of them belongs to the Coq standard library:

* `sig_forall_dec` = `ClassicalDedekindReals.sig_forall_dec`
* `sig_not_dec` = `ClassicalDedekindReals.sig_not_dec`
* `functional_extensionality_dep` = `FunctionalExtensionality.functional_extensionality_dep`
* `classic` = `Classical_Prop.classic`
* `constructive_indefinite_description` = `IndefiniteDescription / ClassicalEpsilon.constructive_indefinite_description`

**none - closed under the global context** (112 theorems): `C01_order_is_bijective`, `C02_short_attribute_list_is_an_error`, `C07_crop_keeps_last_steps_partial`, `C07_crop_nothing`, `C07_crop_twice_partial`, `C07_crop_succeeds_partial`, `C07_crop_memmap_refuted`, `C07_last_steps_meaning`, `C08_velocity_mass_average`, `C08_without_crop_partial`, `C08_flag_refuted`, `C08_crop_matrix_refuted`, `C08_crop_time_step_refuted`, `C21_last_sample_lost_refuted`, `C21_unequal_pieces_refuted`, `C22_overshoot_refuted`, `C22_resolution_creeps_refuted`, `C27_set_get_partial`, `C27_frame`, `C27_history_partial`, `C27_save_flag_refuted`, `C27_defaults`, `C27_load`, `C27_degenerate_no_effect`, `C27_second_instance_ignores_arguments`, `C36_counts`, `C36_header_partial`, `C36_interleaved_refuted`, `C44_roundtrip_partial`, `C44_projected_roundtrip_partial`, `C44_window_partial`, `C44_window_projected_partial`, `C44_time_window_refuted`, `C44_read_from_zero_refuted`, `C45_concatenates_partial`, `C45_time_refuted`, `C45_time_skipped_refuted`, `C45_dropped_refuted`, `C45_missing_aborts`, `C47_arranged`, `C47_lossless`, `C51_curves`, `C52_printed`, `C53_column`, `C53_order_partial`, `C53_order_refuted`, `C53_follow_partial`, `C53_follow_refuted`, `C53_frames`, `C61_columns_refuted`, `C61_columns_partial`, `C65_types_partial`, `C65_types_refuted`, `C66_diagonal_partial`, `C66_nondiagonal_refuted`, `C67_xsf_partial`, `C67_xsf_refuted`, `C67_by_element_refuted`, `C68_reads_what_the_file_says_partial`, `C68_mesh_after_bands_refuted`, `C68_colon_after_bands_refuted`, `C68_short_matrix_refused`, `C69_first_matching_format_partial`, `C69_only_the_beginning_counts`, `C69_late_keywords_refuted`, `C69_formats_partial`, `C79_tick_labels`, `C79_tick_positions`, `C83_selection_partial`, `C84_listing`, `C88_automatic_path_refuted`, `C90_plot`, `C90_settings`, `C90_history`, `C90_print_refuted`, `C92_last_constants_used`, `C92_last_sets_used_partial`, `C92_misfit_refused`, `C92_last_sets_returned`, `C92_explicit_constants`, `C92_new_sets_ignored_refuted`, `C92_queries_repeatable`, `C92_supercell_reported`, `C101_no_invalid_free_partial`, `C101_determinant_partial`, `C101_displacements_refuted`, `C101_maximum_entropy_refuted`, `C101_correlation_refuted`, `C105_processes_partial`, `C105_files_removed_partial`, `C105_two_trajectories_refuted`, `C105_shorter_refuted`, `C105_scaled_file_left_refuted`, `C105_two_deletes_refuted`, `C106_as_written`, `C106_rectangular`, `C108_group_velocity`, `C115_mem_any_schedule`, `C115_correlation_any_schedule`, `C115_completes`, `C132_file_is_read`, `C132_rfc_bands_refuted`, `C132_rfc_automatic`, `C132_rfc_forces_partial`, `C133_figures`, `C134_external_data_refuted`, `C138_import_partial`, `C138_atoms`, `C138_constants`, `C138_sets`, `C138_nac`, `C138_set_get`

**sig_forall_dec** (49 theorems): `C01_positions_follow_dynaphopy_order`, `C02_attributes_align_with_positions`, `C02_attribute_index`, `C04_scaled_positions_updated`, `C37_types`, `C39_xdatcar_nonpositive_refuted`, `C39_xdatcar_partial`, `C40_xdatcar_partial`, `C40_xdatcar_refuted`, `C41_xdatcar_refuted`, `C42_permutation`, `C46_old_style`, `C46_extra_words`, `C59_scale_partial`, `C75_second_request_refuted`, `C85_points_printed`, `C88_default_volume`, `C93_frame`, `C104_constants`, `C104_shifts`, `C104_dos_gradient`, `C104_tables`, `C128_row_by_row`, `C128_own_shifts_partial`, `C128_size_partial`, `C128_ragged_refused`, `C128_single_entry_refuted`, `C128_missing_file`, `C128_missing_volume_file`, `C128_surplus_refuted`, `C128_listing_order_partial`, `C128_consistent_input`, `C130_xdatcar`, `C130_empty_window_xdatcar`, `C130_xdatcar_line_partial`, `C130_xdatcar_line_refuted`, `C132_structure_constants`, `C132_structure_sets`, `C132_forces_refused`, `C132_supercell_ignored_refuted`, `C132_parameters`, `C132_default_mesh`, `C132_left_over_refuted`, `C132_qha_partial`, `C132_qha_refuted`, `C132_rfc_supercell_refuted`, `C133_range`, `C133_ticks`, `C133_scatter`

**functional_extensionality_dep, sig_forall_dec** (225 theorems): `C01_object_positions`, `C03_supercell_rows_refuted`, `C03_supercell_rows_partial`, `C03_scaled_positions_partial`, `C04_set_positions_refuted`, `C04_set_positions_partial`, `C05_atom_types_partial`, `C05_crystal_types_partial`, `C05_first_query_refuted`, `C06_primitive_matrix_resets`, `C07_derived_velocity_refuted`, `C07_every_accelerated_motion_refuted`, `C09_average_time_step`, `C09_uniform`, `C09_too_short`, `C10_all_steps`, `C12_determinant_sarrus`, `C12_dimension_one_refuted`, `C15_unit_average_value`, `C15_average_positions_partial`, `C15_average_positions_refuted`, `C16_average`, `C16_covariance`, `C16_symmetric_psd`, `C19_out_of_bounds_refuted`, `C19_in_bounds_partial`, `C19_first_sample_ignored_partial`, `C20_residual_power_of_the_code`, `C20_reflection_coefficients`, `C21_exact_arithmetic_partial`, `C21_coarse_resolution`, `C22_frequency_limits_exact_partial`, `C22_resolution_exact_partial`, `C23_history_partial`, `C23_partials_frozen_refuted`, `C23_projection_ignored_refuted`, `C23_crop_ignored_refuted`, `C23_crop_first_partial`, `C23_coordinate_ignored_refuted`, `C24_history_partial`, `C24_rows_partial`, `C24_changes_ignored_refuted`, `C24_user_range_lost_refuted`, `C25_wave_vector_restored`, `C26_shared_settings_refuted`, `C26_inconsistent_refuted`, `C26_own_data_partial`, `C26_getters_independent_partial`, `C29_implementations_agree`, `C30_cover_and_linked_partial`, `C30_ascending_partial`, `C30_partition_refuted`, `C30_degenerate_mean`, `C31_one_entry_per_branch`, `C31_failures_are_local`, `C39_outcar_nonpositive_refuted`, `C39_outcar_characterised`, `C39_outcar_refuted`, `C40_outcar_partial`, `C42_position`, `C42_inverse`, `C46_round_trip`, `C47_orthonormal`, `C48_equivalent_points`, `C48_identity`, `C49_decimals`, `C50_selections`, `C51_bar`, `C51_bar_monotone`, `C51_bar_ends`, `C52_printed_order`, `C53_times`, `C54_bands_partial`, `C54_default_refuted`, `C54_lost_row_refuted`, `C55_temperature`, `C55_settings_kept`, `C56_tables`, `C56_one_row`, `C56_from_elements`, `C56_from_masses_partial`, `C56_identified_once`, `C56_from_masses_refuted`, `C56_massless_refuted`, `C56_standard_weights`, `C59_cartesian_scale_refuted`, `C62_scale_refuted`, `C62_unit_scale_partial`, `C63_band_path`, `C74_full`, `C74_silent`, `C74_projected`, `C74_types_add_up`, `C74_coordinates_add_up`, `C74_partials_add_up`, `C75_coordinate_ignored_refuted`, `C75_fresh_request_partial`, `C75_setter_partial`, `C82_spectra_partial`, `C82_range_ignored_refuted`, `C82_two_ranges_refuted`, `C82_refused_partial`, `C83_session_partial`, `C83_renormalized_partial`, `C83_coefficients_ignored_refuted`, `C83_selection_accepted_partial`, `C83_corrections_partial`, `C83_zero_key_refuted`, `C83_other_key_refuted`, `C85_pairs_partial`, `C85_own_file_refuted`, `C85_missing_refuted`, `C85_rounded_refuted`, `C85_dim_ignored_refuted`, `C86_file_partial`, `C86_option_sticks_refuted`, `C86_supercell_changed_refuted`, `C87_thermal_data`, `C87_rank`, `C87_increasing_partial`, `C87_order_refuted`, `C88_reference`, `C88_temperature`, `C88_interpolate_temperature`, `C88_interpolate_volume_refuted`, `C88_temperatures_partial`, `C88_last_temperature_refuted`, `C95_all_found_partial`, `C95_half_phases_partial`, `C95_extra_point_refuted`, `C95_missing_points_refuted`, `C99_local_line`, `C99_straight_lines_unchanged`, `C99_linear`, `C99_units`, `C99_whole_range_refuted`, `C101_real_velocities_refuted`, `C102_time_axis_refuted`, `C102_time_axis_partial`, `C102_plots_disagree_refuted`, `C102_plot_vq`, `C102_plot_vc`, `C104_dos_gradient_refuted`, `C104_volume`, `C104_outside_refuted`, `C104_linewidths_partial`, `C104_linewidths_refuted`, `C107_crystal_given`, `C107_stretches_and_labels`, `C107_without_seekpath`, `C108_total_dos_per_unit_cell`, `C108_projected_dos`, `C108_projected_pitch_refuted`, `C108_thermal_per_unit_cell`, `C108_no_forces`, `C108_legend`, `C108_dos_plot`, `C109_set_cell_refuted`, `C109_set_cell_first_partial`, `C109_set_cell_then_matrix_partial`, `C110_cell_and_matrix`, `C110_masses`, `C110_masses_length`, `C112_constants_agree`, `C112_conversion_refuted`, `C117_undisturbed`, `C117_screen_partial`, `C117_silent_refuted`, `C117_missing_library_refuted`, `C117_partials_refuted`, `C117_two_coordinates`, `C117_interrupt_refuted`, `C117_settings_refuted`, `C120_same_program`, `C126_outcar`, `C127_one_spectrum_partial`, `C127_negative_refuted`, `C127_translations_refuted`, `C128_own_shifts_refuted`, `C128_last_listed_refuted`, `C128_reference_required_refuted`, `C128_runs_partial`, `C129_samples_partial`, `C129_cell_partial`, `C129_cell_refuted`, `C129_temperature_partial`, `C129_temperature_refuted`, `C129_other_style_refused`, `C129_no_temperature`, `C129_start`, `C129_one_atom_refused`, `C129_succeeds_partial`, `C129_clock_partial`, `C129_clock_refuted`, `C129_rounding_refuted`, `C130_outcar`, `C130_empty_window_outcar`, `C130_outcar_line`, `C130_outcar_energy_partial`, `C130_outcar_energy_refuted`, `C133_dispersion`, `C133_legend`, `C134_wave_vector`, `C134_temperature`, `C134_volume_partial`, `C134_volume_refuted`, `C134_lines`, `C134_labels_refuted`, `C134_saved_partial`, `C135_start`, `C136_guess`, `C136_spectrum`, `C138_old_versions_refuted`, `C138_matrices_exist_partial`, `C138_method_removed_refuted`, `C140_history_partial`, `C140_asked_partial`, `C140_zero_kelvin_refuted`, `C140_crop_refuted`, `C141_quasiharmonic_partial`, `C141_thermal_volume`, `C141_density_plot_refuted`, `C141_band_gradient`, `C141_dispersions_partial`, `C141_mesh_refuted`

**classic, functional_extensionality_dep, sig_forall_dec** (3 theorems): `C99_uniform_grid`, `C99_small_window_refuted`, `C99_default_factor_refuted`

**functional_extensionality_dep, sig_forall_dec, sig_not_dec** (171 theorems): `C14_refused_once_refuted`, `C14_supercell_matrix_nearest_partial`, `C14_supercell_matrix_tolerance_partial`, `C14_supercell_matrix_refuted`, `C14_zero_factor_refuted`, `C14_directions_ignored_refuted`, `C14_offsetting_errors_refuted`, `C17_returned_value_partial`, `C17_trapezoid_value_partial`, `C17_returned_array_partial`, `C17_zero_frequency_partial`, `C18_in_bounds_and_terminates`, `C18_zero_increment`, `C18_negative_increment`, `C18_schedule_independent`, `C20_spectrum_always_defined`, `C20_spectrum_nonnegative`, `C20_spectrum_formula`, `C20_schedule_independent`, `C28_value`, `C28_linear`, `C28_single_type`, `C28_bad_type_raises`, `C32_dip_refuted`, `C32_sign_convention_refuted`, `C32_accepted`, `C33_zero_asymmetry`, `C33_zero_asymmetry_report`, `C33_asymmetric_partial`, `C33_damped_position_refuted`, `C33_damped_width_refuted`, `C33_damped_sign_refuted`, `C33_damped_partial`, `C35_same_dos`, `C35_no_shift`, `C35_correction_value`, `C37_rigid_partial`, `C37_left_handed_refuted`, `C38_lattice`, `C38_same_angles_needed`, `C39_lammps_nonpositive_refuted`, `C39_lammps_partial`, `C40_lammps_partial`, `C41_lammps_partial`, `C41_lammps_short_refuted`, `C41_last_steps_refuted`, `C43_distinct`, `C43_reorders`, `C43_correct_partial`, `C43_not_permutation_refuted`, `C43_origin_refuted`, `C44_supercell`, `C48_same_length`, `C48_same_cartesian_length`, `C49_periodic_accepted`, `C49_accepted_near_periodic`, `C49_phase_invariant`, `C49_reciprocal_shift`, `C52_crystal`, `C52_uvrs`, `C52_symmetric`, `C52_positive`, `C52_recover`, `C52_orthogonal`, `C60_limit_refuted`, `C60_bounded_partial`, `C64_eigenvalue_of_frequency`, `C64_frequency_of_eigenvalue`, `C70_defined_and_nonnegative`, `C70_quadratic_and_phase_blind`, `C70_real_series_symmetric`, `C70_columns_and_backends`, `C71_tone_peaks_at_its_frequency`, `C72_integral_at_least_mean_square_partial`, `C72_integral_equals_mean_square_refuted`, `C73_trajectory_partial`, `C73_phase_refuted`, `C73_harmonic`, `C73_mode_energy_partial`, `C73_equipartition_refuted`, `C76_densities`, `C76_plot_centres`, `C76_written_abscissa_refuted`, `C76_direction`, `C76_unequal_types_partial`, `C76_equal_types_partial`, `C77_entries`, `C77_followed_partial`, `C77_unchanged_partial`, `C77_branch_lost_refuted`, `C77_interconnect_only_refuted`, `C78_pairs_kept`, `C78_continuous_partial`, `C78_branch_lost_refuted`, `C80_classical`, `C89_entries`, `C89_pairs_partial`, `C89_pairs_refuted`, `C93_arrows_up_to_a_factor_partial`, `C93_arrows_exact_partial`, `C93_wrong_mass_refuted`, `C94_best_fit`, `C94_branches_printed`, `C94_width_between_partial`, `C94_failures_leave_no_trace`, `C94_unknown_errors_stop_everything_refuted`, `C94_exact_fit_refuted`, `C94_position_partial`, `C96_parseval`, `C96_opposite`, `C96_origin`, `C96_order`, `C98_mem_conjugate`, `C98_mem_time_reversal`, `C98_mem_even_and_periodic`, `C98_mem_quadratic_partial`, `C98_mem_cutoff_refuted`, `C98_mem_phase_refuted`, `C98_direct_quadratic`, `C103_sign_of_sigma`, `C103_translation_partial`, `C107_named_points_partial`, `C107_conventional_cell_refuted`, `C114_asymmetric_exists`, `C114_asymmetric_sign_refuted`, `C114_lorentzian`, `C114_lorentzian_exists`, `C114_analysis`, `C114_damped_partial`, `C114_damped_mirror_refuted`, `C114_analysis_degenerate`, `C114_analysis_damped_partial`, `C115_mem_spectrum`, `C115_correlation_spectrum`, `C118_undisturbed`, `C118_uninitialised_refuted`, `C118_single_frame_refuted`, `C118_factors_partial`, `C118_interrupt_refuted`, `C119_weak_signal_refuted`, `C119_predictable_motion_refuted`, `C121_same_program`, `C126_lammps_xdatcar`, `C126_times`, `C130_lammps_partial`, `C130_lammps_refuted`, `C130_time_line_refused`, `C130_count_line_refused`, `C130_empty_window_lammps`, `C130_lammps_line_partial`, `C130_lammps_line_refuted`, `C131_parameters_rows`, `C131_parameters_order_partial`, `C131_parameters_order_refuted`, `C133_quantities`, `C135_same_coefficients`, `C135_one_optimisation`, `C135_failure_forgotten`, `C135_exceptions`, `C135_curve_of_failed_fit_refuted`, `C135_report_on_the_curve`, `C136_figures`, `C136_figures_change_nothing`, `C136_printed_shifts`, `C136_line_partial`, `C136_line_refuted`, `C137_exists`, `C138_matrices_partial`, `C142_edges_partial`, `C142_own_partial`, `C142_crossing_refuted`

**classic, constructive_indefinite_description, functional_extensionality_dep, sig_forall_dec** (16 theorems): `C10_minimum_image`, `C11_jumps_invisible`, `C11_coefficients_unique`, `C12_cofactor_inverse`, `C12_determinant`, `C12_inverse_3x3`, `C13_python_c_agree_partial`, `C13_python_c_disagree_refuted`, `C91_boundary_crossings_invisible`, `C91_uniform_motion_exact`, `C91_drift_refuted`, `C91_uneven_time_stamps_refuted`, `C131_simulation_cell`, `C131_unit_cell_value`, `C131_unit_cell_partial`, `C131_unit_cell_refuted`

**classic, functional_extensionality_dep, sig_forall_dec, sig_not_dec** (96 theorems): `C17_every_signal_refuted`, `C17_documented_formula_refuted`, `C17_documented_trapezoid_refuted`, `C21_binary64_partial`, `C22_binary64_limits_partial`, `C22_binary64_resolution_partial`, `C32_lorentzian_partial`, `C33_asymmetric_width_refuted`, `C33_area_includes_base_line_refuted`, `C34_free_energy`, `C34_entropies_agree`, `C34_cv_is_dE_dT`, `C34_entropy_is_minus_dF_dT`, `C34_positive`, `C37_box`, `C37_fractional`, `C38_write_read`, `C57_totals_partial`, `C57_energy_cv_entropy`, `C57_nonnegative`, `C57_first_sample_dropped_refuted`, `C58_unnormalised_partial`, `C58_normalised_refuted`, `C73_phase_period_refuted`, `C80_quantum`, `C80_compare`, `C80_energy`, `C81_power_spectrum`, `C81_phonopy`, `C94_position_refuted`, `C97_mode_bounds`, `C97_dulong_petit_bound`, `C97_equipartition`, `C97_grow_with_temperature`, `C97_strictly_growing`, `C97_third_law`, `C97_dulong_petit_limit`, `C97_imaginary_modes`, `C100_mode_signal`, `C100_pure_frequency`, `C102_printed`, `C102_save_vq`, `C102_save_vc`, `C102_numbering`, `C103_mean_and_deviation`, `C103_printed`, `C103_negative_side_refuted`, `C103_positive_side_accepted`, `C103_error_depends_on_origin_refuted`, `C111_bose_einstein_partial`, `C111_monotone_partial`, `C111_below_zero_point`, `C111_quantum_refuted`, `C111_temperature_refuted`, `C112_modes_counted_refuted`, `C112_fit_temperature_refuted`, `C113_kinetic_temperature`, `C113_estimate_unique`, `C113_only_energy`, `C113_scaling`, `C113_printed`, `C114_asymmetric_partial`, `C114_analysis_asymmetric_partial`, `C116_oscillation_peaks_at_its_frequency`, `C116_no_other_peak`, `C116_column`, `C116_mode_of_ideal_trajectory`, `C119_mem_area_partial`, `C120_residual_power_partial`, `C120_negative_spectrum_refuted`, `C121_fft_contract`, `C121_fft_partial`, `C121_fft_outside_refuted`, `C121_maximum_entropy`, `C121_too_many_coefficients_refuted`, `C121_correlation_partial`, `C121_correlation_tail_refuted`, `C122_mode_amplitude`, `C122_silent_mode`, `C122_amplitudes_unique`, `C123_mode_series`, `C123_running_wave_at_opposite_q`, `C123_running_wave_at_own_q`, `C123_own_frequency_refuted`, `C123_own_frequency_odd_refuted`, `C123_standing_wave_partial`, `C135_start_height_refuted`, `C137_gaussian`, `C137_three_samples_refuted`, `C139_exact`, `C139_energy_partial`, `C139_entropy_cv_partial`, `C139_free_energy_refuted`, `C139_printed_infinite`, `C139_zero_frequency`, `C139_printed_partial`

**classic, constructive_indefinite_description, functional_extensionality_dep, sig_forall_dec, sig_not_dec** (10 theorems): `C29_energy_conserved`, `C91_second_order_accurate`, `C96_kinetic_energy`, `C100_from_coordinates`, `C124_reconstruction`, `C124_injective`, `C124_rest`, `C125_orthonormal_unchanged_partial`, `C125_exactly_when_partial`, `C125_not_orthonormal_refuted`

