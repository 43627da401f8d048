(** Model of the support of several phonopy versions in dynaphopy/interface/phonopy_link.py: the guarded imports (9-19), the classes that
    offer the accessors of old versions (21-53), their use in get_phonon (143-169) and the two ways of handing over dynamical matrices
    (378-388).  An installed phonopy is what it offers under which name; its computations are kernels.  The other imports (1-6) are assumed to succeed. *)
From Verif Require Export PhonopyLinkModel.
From Coq Require Export List String.
Export ListNotations.
Open Scope R_scope.

(** what a class offers under a name: nothing, a property that can only be read, a property that can be set *)
Inductive attribute := Absent | ReadOnly | ReadWrite.
(** DynmatToForceConstants.set_dynamical_matrices: no such method, with frequencies and eigenvectors, with one argument (the matrices) *)
Inductive interface := NoMethod | FrequenciesAndEigenvectors | OneArgument.
Record installation (Class : Type) := MkI {
  atoms_module : string -> option Class;                  (* the names of phonopy.structure.atoms *)
  units_module : option (string -> option R);             (* the names of phonopy.units; None: no such module *)
  default_to_thz : option R;                              (* phonopy.physical_units.get_physical_units().DefaultToTHz; None: no such module *)
  property : string -> attribute;                         (* what class Phonopy offers under a name *)
  set_matrices : interface;
  has_create : bool }.                                    (* create_dynamical_matrices(eigenvalues=, eigenvectors=) exists *)
Arguments MkI {Class}. Arguments atoms_module {Class}. Arguments units_module {Class}. Arguments default_to_thz {Class}.
Arguments property {Class}. Arguments set_matrices {Class}. Arguments has_create {Class}.

Section Loading.
Context {Class : Type}.
(** the module after import: the class bound to PhonopyAtoms and the global names bound to numbers *)
Record loaded := MkL { l_atoms : Class; l_globals : list (string * R) }.
Definition lookup (name : string) (g : list (string * R)) : option R := option_map snd (find (fun e => String.eqb (fst e) name) g).
(** dynaphopy/interface/phonopy_link.py:10-13: PhonopyAtoms, and on ImportError Atoms under the same name *)
Definition load_atoms (p : installation Class) : option Class :=
  match atoms_module p "PhonopyAtoms" with Some a => Some a | None => atoms_module p "Atoms" end.
(** dynaphopy/interface/phonopy_link.py:15-19.  A failing from .. import binds nothing.  None: ImportError *)
Definition load_units (p : installation Class) : option (list (string * R)) :=
  match (match units_module p with Some names => names "VaspToTHza"%string | None => None end) with
  | Some v => Some [("VaspToTHza"%string, v)]
  | None => match default_to_thz p with Some v => Some [("VaspToTHz"%string, v)] | None => None end
  end.
(** import dynaphopy; None: ImportError *)
Definition import_package (p : installation Class) : option loaded :=
  match load_atoms p, load_units p with Some a, Some g => Some (MkL a g) | _, _ => None end.

(** numpy: renormalized_frequencies / VaspToTHz *)
Definition scaled (unit : R) (f : list (list R)) : list (list R) := map (map (fun x => x / unit)) f.
(** phonopy, set_dynamical_matrices(frequencies, eigenvectors): eigenvalues frequencies**2 * sign(frequencies) *)
Definition squares (f : list (list R)) : list (list R) := map (map (fun x => x * x * np_sign x)) f.
Context {Eigenvectors Matrices : Type} (assemble : list (list R) -> Eigenvectors -> Matrices).   (* phonopy: dynamical matrices from eigenvalues and eigenvectors *)
(** dynaphopy/interface/phonopy_link.py:378-386; None: AttributeError.  A call with two arguments of a method of one raises TypeError *)
Definition hand_over (p : installation Class) (unit : R) (frequencies : list (list R)) (e : Eigenvectors) : option Matrices :=
  match set_matrices p with
  | NoMethod => None
  | FrequenciesAndEigenvectors => Some (assemble (squares (scaled unit frequencies)) e)
  | OneArgument => if has_create p then Some (assemble (map (map (fun x => x * x * np_sign x)) (scaled unit frequencies)) e) else None
  end.
(** dynaphopy/interface/phonopy_link.py:366-386, run in a process in which the package was imported; None: an exception (NameError without the unit) *)
Definition renormalized_matrices (p : installation Class) (frequencies : list (list R)) (e : Eigenvectors) : option Matrices :=
  match import_package p with
  | Some m => match lookup "VaspToTHz" (l_globals m) with Some u => hand_over p u frequencies e | None => None end
  | None => None
  end.
End Loading.

(** a Phonopy object: what the properties hold (read by phonopy's own methods) and the plain attributes of the object *)
Section Objects.
Context {Class V : Type}.
Record object := MkO { o_held : string -> option V; o_plain : string -> option V }.
Definition put (f : string -> option V) (name : string) (v : V) : string -> option V := fun n => if String.eqb n name then Some v else f n.
(** self.name = v; None: AttributeError, the property cannot be set *)
Definition assign (p : installation Class) (name : string) (v : V) (o : object) : option object :=
  match property p name with
  | Absent => Some (MkO (o_held o) (put (o_plain o) name v))
  | ReadOnly => None
  | ReadWrite => Some (MkO (put (o_held o) name v) (o_plain o))
  end.
(** self.name; None: AttributeError or no value yet *)
Definition read (p : installation Class) (name : string) (o : object) : option V :=
  match property p name with Absent => o_plain o name | _ => o_held o name end.
(** dynaphopy/interface/phonopy_link.py:26-42 PhonopyLegacy *)
Definition set_force_constants (p : installation Class) (v : V) (o : object) : option object := assign p "force_constants" v o.
Definition set_displacement_dataset (p : installation Class) (v : V) (o : object) : option object := assign p "dataset" v o.
Definition get_primitive (p : installation Class) (o : object) : option V := read p "primitive" o.
Definition get_supercell (p : installation Class) (o : object) : option V := read p "supercell" o.
Definition set_nac_params (p : installation Class) (v : V) (o : object) : option object := assign p "nac_params" v o.
Definition get_force_constants (p : installation Class) (o : object) : option V := read p "force_constants" o.
(** phonopy: produce_force_constants reads its data set and keeps the constants; None: it raises *)
Context (produce : V -> V) (born : V -> V).    (* [born]: parse_BORN(primitive) *)
Definition produce_force_constants (o : object) : option object :=
  match o_held o "dataset" with Some d => Some (MkO (put (o_held o) "force_constants" (produce d)) (o_plain o)) | None => None end.
Inductive forces := Constants (v : V) | Sets (v : V).
(** dynaphopy/interface/phonopy_link.py:151-169 get_phonon: the object and what the structure keeps; None: an exception *)
Definition get_phonon (p : installation Class) (new : object) (f : forces) (NAC : bool) : option (object * option V) :=
  match (match f with
         | Constants v => option_map (fun o => (o, None)) (set_force_constants p v new)
         | Sets d => match set_displacement_dataset p d new with
                     | Some o => match produce_force_constants o with
                                 | Some o => match get_force_constants p o with Some c => Some (o, Some c) | None => None end
                                 | None => None end
                     | None => None end
         end) with
  | None => None
  | Some (o, kept) =>
    if NAC then
      match get_primitive p o with Some c => option_map (fun o => (o, kept)) (set_nac_params p (born c) o) | None => None end
    else Some (o, kept)
  end.
End Objects.
Arguments object : clear implicits.
