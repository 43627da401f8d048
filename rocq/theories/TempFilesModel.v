(** Model of the temporary files behind memory-mapped trajectories (--memmap): dynaphopy/dynamics.py (Dynamics with memmap=True) and the
    memory maps created by dynaphopy/interface/iofile/trajectory_parsers.py.

    The file system is a directory from names to files (inodes) and the contents of the files, here lists of frames (all the arrays of one
    trajectory have the same frame size, dtype complex).  A map is a view of a file: it goes on showing the file after its name is removed, and it
    shows whatever the file contains at the time of reading.
    Simplified: one method call is one step of the schedule; a frame of a file that became shorter than the map is SIGBUS (None); crop_trajectory is
    not part of this model (DynamicsModel.crop); structure, supercell and time step are part of the kernels; os.getpid() is a number and two
    processes that run at the same time have different ones (one machine); the working or temporary directory is the same for all. *)
From Coq Require Export List String Arith Lia.
From Coq Require Import DecimalString.
Export ListNotations.
Open Scope nat_scope.

(** the names of the four files: dynaphopy/interface/iofile/trajectory_parsers.py:279 and 428, dynaphopy/dynamics.py:170, 318, 146 *)
Inductive file := FTrajectory | FRelative | FVelocity | FMass.
Definition stem (f : file) : string :=
  match f with FTrajectory => "trajectory" | FRelative => "r_trajectory" | FVelocity => "velocity" | FMass => "velocity_mass" end%string.
(** '...{0}'.format(os.getpid()) *)
Definition fname (f : file) (pid : nat) : string := (stem f ++ "." ++ NilEmpty.string_of_uint (Nat.to_uint pid))%string.

Section Files.
Context {X : Type} (zero : X).                       (* a frame; the frame of zeros *)
Context (unscale displace massweight : X -> X) (gradient : list X -> list X).   (* dynaphopy/dynamics.py:305, 174-175, 152-154, 323-326 *)

Record files := MkFs { dir : string -> option nat; node : nat -> list X; next : nat }.
(** an array is in memory or it is a map with its filename, its file and its number of frames *)
Inductive arr := Mem (l : list X) | Map (name : string) (i : nat) (n : nat).
Definition set_dir (d : string -> option nat) (name : string) (v : option nat) : string -> option nat := fun s => if String.eqb s name then v else d s.
Definition set_node (c : nat -> list X) (i : nat) (l : list X) : nat -> list X := fun j => if Nat.eqb j i then l else c j.
(** np.memmap(name, mode='w+', shape=(n, ...)): an existing file of that name is truncated (it is still the same file), then extended with zeros *)
Definition np_memmap (name : string) (n : nat) (s : files) : arr * files :=
  match dir s name with
  | Some i => (Map name i n, MkFs (dir s) (set_node (node s) i (repeat zero n)) (next s))
  | None => (Map name (next s) n, MkFs (set_dir (dir s) name (Some (next s))) (set_node (node s) (next s) (repeat zero n)) (S (next s)))
  end.
Definition read_arr (s : files) (a : arr) : option (list X) :=
  match a with Mem l => Some l | Map _ i n => if Nat.leb n (List.length (node s i)) then Some (firstn n (node s i)) else None end.
(** a[:] = l *)
Definition write_arr (a : arr) (l : list X) (s : files) : option (arr * files) :=
  match a with
  | Mem _ => Some (Mem l, s)
  | Map _ i n => if Nat.leb n (List.length (node s i)) then Some (a, MkFs (dir s) (set_node (node s) i (firstn n l ++ skipn n (node s i))) (next s)) else None
  end.
(** np.memmap with n frames followed by the assignment of all the frames *)
Definition mapped (name : string) (n : nat) (l : list X) (s : files) : option (arr * files) :=
  let '(a, s) := np_memmap name n s in write_arr a l s.
(** os.remove(name); None: FileNotFoundError *)
Definition os_remove (name : string) (s : files) : option files :=
  match dir s name with Some _ => Some (MkFs (set_dir (dir s) name None) (node s) (next s)) | None => None end.

(** the arrays of a Dynamics object, dynaphopy/dynamics.py:18-30 *)
Record obj := MkObj { o_scaled : option arr; o_traj : option arr; o_rel : option arr; o_vel : option arr; o_mass : option arr }.
(** what a parser hands to Dynamics: positions or velocities (LAMMPS dump, dynaphopy/interface/iofile/trajectory_parsers.py:336-348), scaled positions (XDATCAR, 479-483) *)
Inductive kind := Positions | Velocities | Scaled.
(** reading a trajectory with memmap=True: dynaphopy/interface/iofile/trajectory_parsers.py:276-282 with 306-307, 426-432 with 449-450 (for the XDATCAR parser the frames [l] are
    those left in the file at the end, see C41) *)
Definition load (pid : nat) (k : kind) (l : list X) (s : files) : option (obj * files) :=
  match mapped (fname FTrajectory pid) (List.length l) l s with
  | Some (a, s) => Some (match k with Positions => MkObj None (Some a) None None None | Velocities => MkObj None None None (Some a) None
                              | Scaled => MkObj (Some a) None None None None end, s)
  | None => None
  end.

Definition got := option (list X * obj * files).
(** dynaphopy/dynamics.py:300-311 property trajectory; None: "No trajectory loaded", exit() *)
Definition trajectory (o : obj) (s : files) : got :=
  match o_traj o with
  | Some a => option_map (fun l => (l, o, s)) (read_arr s a)
  | None => match o_scaled o with
            | Some a => option_map (fun l => let t := map unscale l in (t, MkObj (o_scaled o) (Some (Mem t)) (o_rel o) (o_vel o) (o_mass o), s)) (read_arr s a)
            | None => None
            end
  end.
(** dynaphopy/dynamics.py:158-179 get_relative_trajectory *)
Definition relative (pid : nat) (o : obj) (s : files) : got :=
  match o_rel o with
  | Some a => option_map (fun l => (l, o, s)) (read_arr s a)
  | None => match trajectory o s with
            | None => None
            | Some (t, o, s) => let r := map displace t in
                match mapped (fname FRelative pid) (List.length t) r s with
                | Some (a, s) => option_map (fun l => (l, MkObj (o_scaled o) (o_traj o) (Some a) (o_vel o) (o_mass o), s)) (read_arr s a)
                | None => None
                end
            end
  end.
(** dynaphopy/dynamics.py:313-329 property velocity *)
Definition velocity (pid : nat) (o : obj) (s : files) : got :=
  match o_vel o with
  | Some a => option_map (fun l => (l, o, s)) (read_arr s a)
  | None => match relative pid o s with
            | None => None
            | Some (r, o, s) =>
                match mapped (fname FVelocity pid) (List.length r) (gradient r) s with
                | Some (a, s) => option_map (fun l => (l, MkObj (o_scaled o) (o_traj o) (o_rel o) (Some a) (o_mass o), s)) (read_arr s a)
                | None => None
                end
            end
  end.
(** dynaphopy/dynamics.py:143-156 get_velocity_mass_average *)
Definition velocity_mass (pid : nat) (o : obj) (s : files) : got :=
  match o_mass o with
  | Some a => option_map (fun l => (l, o, s)) (read_arr s a)
  | None => match velocity pid o s with
            | None => None
            | Some (v, o, s) =>
                match mapped (fname FMass pid) (List.length v) (map massweight v) s with
                | Some (a, s) => option_map (fun l => (l, MkObj (o_scaled o) (o_traj o) (o_rel o) (o_vel o) (Some a), s)) (read_arr s a)
                | None => None
                end
            end
  end.
(** dynaphopy/dynamics.py:53-62 __del__: an array without filename is skipped; an exception (the file is gone) ends the method, and is ignored by the interpreter *)
Fixpoint delete_files (l : list (option arr)) (s : files) : files :=
  match l with
  | [] => s
  | Some (Map name _ _) :: l => match os_remove name s with Some s => delete_files l s | None => s end
  | _ :: l => delete_files l s
  end.
Definition delete (o : obj) (s : files) : files := delete_files [o_vel o; o_traj o; o_rel o; o_mass o] s.

(** processes and their objects; [objs pid slot] is the object the process [pid] holds in its variable [slot] *)
Inductive quantity := QTrajectory | QRelative | QVelocity | QMass.
Inductive call := Load (k : kind) (l : list X) | Get (q : quantity) | Delete.
Record world := MkW { disk : files; objs : nat -> nat -> option obj }.
Definition set_obj (w : world) (pid slot : nat) (o : option obj) (s : files) : world :=
  MkW s (fun p t => if (Nat.eqb p pid && Nat.eqb t slot)%bool then o else objs w p t).
Definition get (pid : nat) (q : quantity) (o : obj) (s : files) : got :=
  match q with QTrajectory => trajectory o s | QRelative => relative pid o s | QVelocity => velocity pid o s | QMass => velocity_mass pid o s end.
(** one step; the value a getter returns, None for other calls and when it fails (the failing process does nothing more to the disk).  Loading into a
    variable that is in use drops the old object after the new one is made. *)
Definition do_call (pid slot : nat) (c : call) (w : world) : option (list X) * world :=
  match c with
  | Load k l => match load pid k l (disk w) with
                | Some (o, s) => (None, set_obj w pid slot (Some o) (match objs w pid slot with Some old => delete old s | None => s end))
                | None => (None, w)
                end
  | Get q => match objs w pid slot with
             | Some o => match get pid q o (disk w) with Some (l, o, s) => (Some l, set_obj w pid slot (Some o) s) | None => (None, w) end
             | None => (None, w)
             end
  | Delete => match objs w pid slot with Some o => (None, set_obj w pid slot None (delete o (disk w))) | None => (None, w) end
  end.
Fixpoint run (l : list (nat * nat * call)) (w : world) : list (option (list X)) * world :=
  match l with
  | [] => ([], w)
  | (pid, slot, c) :: l => let '(v, w) := do_call pid slot c w in let '(r, w) := run l w in (v :: r, w)
  end.
(** no process has an object yet *)
Definition start (s : files) : world := MkW s (fun _ _ => None).
End Files.
Arguments files : clear implicits.
Arguments arr : clear implicits.
Arguments obj : clear implicits.
Arguments call : clear implicits.
Arguments world : clear implicits.
