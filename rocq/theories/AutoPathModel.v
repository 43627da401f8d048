(** Model of Structure.get_path_using_seek_path (dynaphopy/atoms.py:358-380).  The external package seekpath is a parameter: None when it is not installed.
    Dictionaries are association lists; a missing key is an exception (None). *)
From Verif Require Export Base PhonopyLinkModel.
From Coq Require Export String.
Open Scope R_scope.

(** numpy.unique(l, return_inverse=True): the distinct strings in increasing order, and for every entry its place among them *)
Fixpoint insert (s : string) (l : list string) : list string :=
  match l with
  | [] => [s]
  | t :: r => match String.compare s t with Lt => s :: l | Eq => l | Gt => t :: insert s r end
  end.
Definition unique (l : list string) : list string := fold_right insert [] l.
Fixpoint place (s : string) (l : list string) : nat := match l with [] => O | t :: r => if String.eqb s t then O else S (place s r) end.
Definition inverse (l : list string) : list nat := map (fun s => place s (unique l)) l.

(** what seekpath.get_path returns: the entries 'point_coords' and 'path' are read by the code; 'primitive_lattice' (rotated back to the frame of the input
    crystal), the cell to which the coordinates refer, is not *)
Record path_data := MkPath { point_coords : list (string * vec); path : list (string * string); primitive_lattice : mat }.
Record bands := MkBands { ranges : list (vec * vec); labels : list (string * string) }.
Fixpoint lookup (k : string) (d : list (string * vec)) : option vec :=
  match d with [] => None | (t, v) :: r => if String.eqb k t then Some v else lookup k r end.

Section AutoPath.
Context (inv : mat -> mat).     (* numpy.linalg.inv *)
Context (seekpath : option (mat * list vec * list nat -> path_data)).
(** lines 362-365 *)
Definition query (cell : mat) (positions : list vec) (elements : list string) : mat * list vec * list nat :=
  (cell, map (fun p => vmul p (inv cell)) positions, inverse elements).
(** lines 370-372 *)
Fixpoint band_ranges (d : list (string * vec)) (l : list (string * string)) : option (list (vec * vec)) :=
  match l with
  | [] => Some []
  | s :: l => match lookup (fst s) d, lookup (snd s) d with
      | Some a, Some b => match band_ranges d l with Some r => Some ((a, b) :: r) | None => None end
      | _, _ => None end
  end.
(** lines 358-380 *)
Definition get_path_using_seek_path (cell : mat) (positions : list vec) (elements : list string) : option bands :=
  match seekpath with
  | Some get_path => let d := get_path (query cell positions elements) in
      match band_ranges (point_coords d) (path d) with Some r => Some (MkBands r (path d)) | None => None end
  | None => Some (MkBands [(V3 0 0 0, V3 (1/2) 0 (1/2))] [("GAMMA", "1/2,0,1/2")%string])
  end.
(** dynaphopy/interface/phonopy_link.py:301-320 with dynaphopy/__init__.py:167-169: the wave vector that the reduced coordinates of a path stand for in the program: relative to the
    primitive cell of the structure *)
Definition program_wave_vector (cell primitive_matrix : mat) (q : vec) : vec := get_q_vector inv (primitive_cell cell primitive_matrix) q.
End AutoPath.
