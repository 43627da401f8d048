(** Model of the HDF5 save and load functions and of scripts/concath5.
    A file is the list of its named data sets; a data set is the list of its rows along the first axis (time steps for
    trajectory, velocity, vc and time; components for reduced_q_vector and super_cell).  The type of a row is a parameter:
    h5py stores and returns numpy arrays unchanged.  memmap and the prints are left out. *)
From Coq Require Export List ZArith String Lia Arith.
Export ListNotations.
Open Scope Z_scope.

Section H5.
Context {row : Type}.
Definition dataset := list row.
Definition h5file := list (string * dataset).
(** "name" in hdf5_file, hdf5_file[name][:] *)
Fixpoint lookup (name : string) (f : h5file) : option dataset :=
  match f with [] => None | (n, d) :: t => if String.eqb n name then Some d else lookup name t end.
(** data[a:] and data[a:b]: numpy slices clip to the length, negative bounds count from the end *)
Definition bound (n : nat) (i : Z) : nat := if i <? 0 then Z.to_nat (Z.max 0 (Z.of_nat n + i)) else Nat.min (Z.to_nat i) n.
Definition slice (a : Z) (b : option Z) (l : dataset) : dataset :=
  let n := List.length l in
  let stop := match b with Some b => bound n b | None => n end in
  firstn (stop - bound n a) (skipn (bound n a) l).
(** one create_dataset call guarded by "is not None" *)
Definition store (name : string) (d : option dataset) : h5file := match d with Some d => [(name, d)] | None => [] end.
(** dynaphopy/interface/iofile/__init__.py:638-660  save_data_hdf5 *)
Definition save_data_hdf5 (time super_cell : dataset) (trajectory velocity vc reduced_q_vector : option dataset) : h5file :=
  store "trajectory" trajectory ++ store "velocity" velocity ++ store "vc" vc ++ store "reduced_q_vector" reduced_q_vector ++
  [("time", time); ("super_cell", super_cell)]%string.
(** what initialize_from_hdf5_file returns: a Dynamics (lines 709-714), or projected velocities, wave vector and a Dynamics
    without trajectory and velocity (716-719).  The Dynamics is shown by its constructor arguments. *)
Record dynamics_args := MkArgs { a_trajectory : option dataset; a_velocity : option dataset; a_time : dataset; a_super_cell : dataset }.
Inductive loaded := LDynamics (d : dynamics_args) | LProjected (vc : dataset) (q : option dataset) (d : dynamics_args).
(** dynaphopy/interface/iofile/__init__.py:663-719; None: KeyError when time or super_cell is missing *)
Definition initialize_from_hdf5_file (file : h5file) (read_trajectory : bool) (initial_cut : Z) (final_cut : option Z) : option loaded :=
  let cut := option_map (slice (initial_cut - 1) final_cut) in
  let trajectory := if read_trajectory then cut (lookup "trajectory" file) else None in
  let velocity := cut (lookup "velocity" file) in
  let vc := cut (lookup "vc" file) in
  let reduced_q_vector := lookup "reduced_q_vector" file in
  match lookup "time" file, lookup "super_cell" file with
  | Some time, Some super_cell =>
      Some match vc with
           | None => LDynamics (MkArgs trajectory velocity time super_cell)
           | Some v => LProjected v reduced_q_vector (MkArgs None None time super_cell)
           end
  | _, _ => None
  end.

(** scripts/concath5:28-51 read_file_hdf5; None: KeyError *)
Record contents := MkContents { c_vc : option dataset; c_velocity : option dataset; c_trajectory : option dataset;
                                c_time : dataset; c_super_cell : dataset; c_q : option dataset }.
Definition read_file (f : h5file) : option contents :=
  match lookup "time" f, lookup "super_cell" f with
  | Some t, Some s =>
      let mk := MkContents (lookup "vc" f) (lookup "velocity" f) (lookup "trajectory" f) t s in
      match lookup "vc" f with
      | None => Some (mk None)
      | Some _ => match lookup "reduced_q_vector" f with Some q => Some (mk (Some q)) | None => None end
      end
  | _, _ => None
  end.
(** scripts/concath5:53-79 save_data_hdf5 *)
Definition write_file (time super_cell : dataset) (trajectory velocity vc q : option dataset) : h5file :=
  [("time", time); ("super_cell", super_cell)]%string ++ store "reduced_q_vector" q ++ store "trajectory" trajectory ++ store "velocity" velocity ++ store "vc" vc.
(** scripts/concath5:110-117: one data set of one more file; subscripting None raises *)
Definition extend (first : Z) (acc new : option dataset) : option (option dataset) :=
  match acc with
  | None => Some None
  | Some a => match new with Some n => Some (Some (a ++ slice first None n)) | None => None end
  end.
(** scripts/concath5:106-117 *)
Fixpoint extend_all (first : Z) (files : list h5file) (trajectory velocity vc : option dataset) : option (option dataset * option dataset * option dataset) :=
  match files with
  | [] => Some (trajectory, velocity, vc)
  | f :: t =>
      match read_file f with
      | None => None
      | Some c =>
          match extend first trajectory (c_trajectory c), extend first velocity (c_velocity c), extend first vc (c_vc c) with
          | Some tr, Some ve, Some v => extend_all first t tr ve v
          | _, _, _ => None
          end
      end
  end.
(** scripts/concath5:86-127; argparse requires at least one input file *)
Definition concath5 (first : Z) (velocity_only : bool) (files : list h5file) : option h5file :=
  match files with
  | [] => None
  | f :: t =>
      match read_file f with
      | None => None
      | Some c =>
          let trajectory := if velocity_only then None else c_trajectory c in
          let vc := if velocity_only then None else c_vc c in
          let cut := option_map (slice first None) in
          match extend_all first t (cut trajectory) (cut (c_velocity c)) (cut vc) with
          | Some (tr, ve, v) => Some (write_file (c_time c) (c_super_cell c) tr ve v (c_q c))
          | None => None
          end
      end
  end.
End H5.
Arguments dataset : clear implicits.
Arguments h5file : clear implicits.

(** dynaphopy/interface/iofile/__init__.py:713  np.dot(np.diagflat(supercell), structure.get_cell()) *)
From Verif Require Import Base.
Definition loaded_lattice (nx ny nz : nat) (cell : mat) : mat := mmul (mdiag (INR nx) (INR ny) (INR nz)) cell.
