(** Model of the force data held by a Structure and of their use by phonopy_link (dynaphopy/atoms.py:95-103, 171-196;
    dynaphopy/interface/phonopy_link.py:124-165).  phonopy's computation of force constants from a displacement dataset is a kernel.
    Cell, positions, primitive matrix and NAC do not change and are part of the kernels. *)
From Verif Require Export ElementsModel.
From Coq Require Export List ZArith.
Export ListNotations.

Section Forces.
Context {Array Dataset : Type}.
Definition matrix3 : Type := Z * Z * Z * (Z * Z * Z) * (Z * Z * Z).
(** dynaphopy/interface/phonopy_link.py:55-83 *)
Record force_constants := MkFC { fc_array : Array; fc_supercell : matrix3 }.
Record force_sets := MkFS { fs_dict : Dataset; fs_natom : Z; fs_supercell : matrix3 }.
Context (produce : Dataset -> matrix3 -> Array)   (* produce_force_constants of a Phonopy object with this supercell matrix *)
        (number_of_atoms : Z).
(** the two attributes of the structure *)
Record structure := MkSt { s_fc : option force_constants; s_fs : option force_sets }.
(** a query ends with exit() ([None]) or sees a phonon object: supercell matrix and force constants *)
Record phonon := MkPh { ph_supercell : matrix3; ph_constants : Array }.
Definition identity3 : matrix3 := (1, 0, 0, (0, 1, 0), (0, 0, 1))%Z.
(** dynaphopy/atoms.py:186-196 *)
Definition get_force_sets (s : structure) : option (option force_sets) :=
  match s_fs s with
  | None => Some None
  | Some f => if force_sets_accepted (fs_natom f) (fs_supercell f) number_of_atoms then Some (Some f) else None
  end.
(** dynaphopy/atoms.py:95-103 *)
Definition get_supercell_phonon (s : structure) : option matrix3 :=
  match s_fc s with
  | Some c => Some (fc_supercell c)
  | None => match get_force_sets s with
            | None => None
            | Some (Some f) => Some (fs_supercell f)
            | Some None => Some identity3
            end
  end.
(** dynaphopy/interface/phonopy_link.py:124-165 get_phonon(structure): setup_forces=True, no custom supercell.  The structure keeps what it computed. *)
Definition get_phonon (s : structure) : option phonon * structure :=
  match get_supercell_phonon s with
  | None => (None, s)
  | Some cell =>
    match s_fc s with
    | Some c => (Some (MkPh cell (fc_array c)), s)
    | None =>
      match get_force_sets s with
      | Some (Some f) => let a := produce (fs_dict f) cell in (Some (MkPh cell a), MkSt (Some (MkFC a (fs_supercell f))) (s_fs s))
      | _ => (None, s)
      end
    end
  end.
(** phonopy_link.py: the functions called with force_constants=c (setup_forces=False, custom_supercell=c.get_supercell()): no effect on s *)
Definition get_phonon_with (c : force_constants) : phonon := MkPh (fc_supercell c) (fc_array c).

Inductive call := SetConstants (c : force_constants) | SetSets (f : force_sets) | Harmonic | With (c : force_constants).
Definition step (c : call) (s : structure) : structure :=
  match c with
  | SetConstants c => MkSt (Some c) (s_fs s)      (* dynaphopy/atoms.py:177-178 *)
  | SetSets f => MkSt (s_fc s) (Some f)           (* dynaphopy/atoms.py:183-184 *)
  | Harmonic => snd (get_phonon s)
  | With _ => s
  end.
Definition run (l : list call) (s : structure) : structure := fold_left (fun s c => step c s) l s.
(** a structure created with force_sets=, force_constants= (dynaphopy/atoms.py:37-38) *)
Definition new_structure (c : option force_constants) (f : option force_sets) : structure := MkSt c f.
End Forces.
Arguments force_constants : clear implicits. Arguments force_sets : clear implicits. Arguments structure : clear implicits. Arguments phonon : clear implicits.
Arguments call : clear implicits.
