(** Specification vocabulary for trajectory files, independent of the readers.
    Steps of a file are numbered from 1. *)
From Verif Require Export Base.
From Coq Require Export String.
From Coq Require Permutation.
Open Scope R_scope.

(** steps number a, a+1, ..., b (or to the end of the file) *)
Definition window {A} (a : nat) (b : option nat) (steps : list A) : list A :=
  skipn (a - 1) (match b with Some b => firstn b steps | None => steps end).
(** the last n entries, n > 0 (all of them if there are fewer) *)
Definition last_n {A} (n : nat) (l : list A) : list A := skipn (List.length l - n) l.
Definition last_opt {A} (n : option nat) (l : list A) : list A := match n with Some n => last_n n l | None => l end.

(** what LAMMPS writes as BOX BOUNDS for a triclinic box (LAMMPS manual, "Triclinic simulation boxes") *)
Record box := MkBox { xlo : R; xhi : R; ylo : R; yhi : R; zlo : R; zhi : R; xy : R; xz : R; yz : R }.
Definition min4 a b c d := Rmin (Rmin a b) (Rmin c d).
Definition max4 a b c d := Rmax (Rmax a b) (Rmax c d).
Definition bound_lines (b : box) : list (list R) :=
  [[xlo b + min4 0 (xy b) (xz b) (xy b + xz b); xhi b + max4 0 (xy b) (xz b) (xy b + xz b); xy b];
   [ylo b + Rmin 0 (yz b); yhi b + Rmax 0 (yz b); xz b];
   [zlo b; zhi b; yz b]].
(** for an orthogonal box the tilt factors are not written *)
Definition bound_lines_orthogonal (b : box) : list (list R) := [[xlo b; xhi b]; [ylo b; yhi b]; [zlo b; zhi b]].
(** its lattice vectors, as rows *)
Definition box_lattice (b : box) : mat := M3 (V3 (xhi b - xlo b) 0 0) (V3 (xy b) (yhi b - ylo b) 0) (V3 (xz b) (yz b) (zhi b - zlo b)).
(** cosine of the angle between two vectors; two lattices have the same angles *)
Definition cosine (u v : vec) : R := vdot u v / (vnorm u * vnorm v).
Definition same_angles (a b : mat) : Prop :=
  cosine (r0 a) (r1 a) = cosine (r0 b) (r1 b) /\ cosine (r0 a) (r2 a) = cosine (r0 b) (r2 b) /\ cosine (r1 a) (r2 a) = cosine (r1 b) (r2 b).

Section Files.
Context {L T : Type} (has : string -> L -> bool) (words : L -> list T) (num : T -> option R) (int : T -> option nat).
Definition quiet (kw : string) (lines : list L) : Prop := List.Forall (fun l => has kw l = false) lines.
Definition writes_numbers (l : L) (xs : list R) : Prop := map num (words l) = map Some xs.
(** a coordinate line: at least three words, the first three are the coordinates *)
Definition writes_atom (l : L) (v : vec) : Prop := map num (firstn 3 (words l)) = [Some (vx v); Some (vy v); Some (vz v)].
Definition writes_count (l : L) (n : nat) : Prop := exists w, words l = [w] /\ int w = Some n.

(** one step of a LAMMPS dump: time stamp t, n atoms with coordinates f *)
Inductive lammps_block (n : nat) (b : box) (is_label : L -> Prop) : R * list vec -> list L -> Prop :=
| lb (h1 v h2 c h3 x y z h4 : L) (rows : list L) (t : R) (f : list vec) :
    has "TIMESTEP" h1 = true -> writes_numbers v [t] ->
    has "NUMBER OF ATOMS" h2 = true -> writes_count c n ->
    has "BOX BOUNDS" h3 = true ->
    (List.Forall2 writes_numbers [x; y; z] (bound_lines b) \/
     (xy b = 0 /\ xz b = 0 /\ yz b = 0 /\ List.Forall2 writes_numbers [x; y; z] (bound_lines_orthogonal b))) ->
    has "ITEM: ATOMS" h4 = true -> is_label h4 ->
    List.length f = n -> List.Forall2 writes_atom rows f ->
    quiet "TIMESTEP" ([v; h2; c; h3; x; y; z; h4] ++ rows) ->
    quiet "NUMBER OF ATOMS" [h1; v] -> quiet "BOX BOUNDS" [h1; v; h2; c] -> quiet "ITEM: ATOMS" [h1; v; h2; c; h3; x; y; z] ->
    lammps_block n b is_label (t, f) ([h1; v; h2; c; h3; x; y; z; h4] ++ rows).
(** a complete LAMMPS dump with these steps *)
Definition lammps_dump (n : nat) (b : box) (is_label : L -> Prop) (steps : list (R * list vec)) (file : list L) : Prop :=
  exists blocks, List.Forall2 (lammps_block n b is_label) steps blocks /\ file = List.concat blocks.

(** one step of an XDATCAR: "Direct configuration= t" and n coordinate lines *)
Inductive xdatcar_block (stamp : L -> R -> Prop) (n : nat) : R * list vec -> list L -> Prop :=
| xb (h : L) (rows : list L) (t : R) (f : list vec) :
    has "Direct configuration" h = true -> stamp h t -> List.length f = n -> List.Forall2 writes_atom rows f ->
    quiet "Direct configuration" rows -> xdatcar_block stamp n (t, f) (h :: rows).
(** comment, scale factor, three lattice vectors, element symbols, number of atoms of each element, steps *)
Inductive xdatcar_file (stamp : L -> R -> Prop) (cell : mat) (ns : list nat) (steps : list (R * list vec)) : list L -> Prop :=
| xf (c0 scale la lb lc elements counts : L) (blocks : list (list L)) :
    writes_numbers la [vx (r0 cell); vy (r0 cell); vz (r0 cell)] -> writes_numbers lb [vx (r1 cell); vy (r1 cell); vz (r1 cell)] ->
    writes_numbers lc [vx (r2 cell); vy (r2 cell); vz (r2 cell)] -> map int (words counts) = map Some ns ->
    List.Forall2 (xdatcar_block stamp (list_sum ns)) steps blocks ->
    xdatcar_file stamp cell ns steps (c0 :: scale :: la :: lb :: lc :: elements :: counts :: List.concat blocks).

(** one step of an OUTCAR: other output, "POSITION" header, dashes, n lines, other output, the energy line *)
Inductive outcar_block (energy : L -> R -> Prop) (n : nat) : R * list vec -> list L -> Prop :=
| ob (before : list L) (h dashes : L) (rows between : list L) (el : L) (e : R) (f : list vec) :
    quiet "POSITION" before -> has "POSITION" h = true -> List.length f = n -> List.Forall2 writes_atom rows f ->
    quiet "energy(" between -> has "energy(" el = true -> energy el e ->
    outcar_block energy n (e, f) (before ++ h :: dashes :: rows ++ between ++ [el]).
Inductive outcar_file (nions : L -> nat -> Prop) (potim energy : L -> R -> Prop) (n : nat) (dt : R) (steps : list (R * list vec)) : list L -> Prop :=
| of_ (p1 p2 p3 tail_ : list L) (ln lt ll : L) (blocks : list (list L)) :
    quiet "NIONS =" p1 -> has "NIONS =" ln = true -> nions ln n ->
    quiet "POTIM  =" p2 -> has "POTIM  =" lt = true -> potim lt dt ->
    quiet "direct lattice vectors" p3 -> has "direct lattice vectors" ll = true ->
    List.Forall2 (outcar_block energy n) steps blocks -> quiet "POSITION" tail_ ->
    outcar_file nions potim energy n dt steps (p1 ++ ln :: p2 ++ lt :: p3 ++ ll :: List.concat blocks ++ tail_).
End Files.

(** the list of indices that sorts the keys (numpy.argsort) *)
Definition sorts (keys : list R) (p : list nat) : Prop :=
  Permutation.Permutation p (seq 0 (List.length keys)) /\
  forall i j, (i < j < List.length keys)%nat -> nth (nth i p O) keys 0 <= nth (nth j p O) keys 0.
(** atoms of a frame listed in the order p *)
Definition listed {A} (p : list nat) (f g : list A) : Prop := Forall2 (fun i x => nth_error f i = Some x) p g.
(** a frame with the atoms in the order argsort(template); no template: unchanged *)
Definition arrange (argsort : list R -> list nat) (template : option (list R)) (f : list vec) : list vec :=
  match template with None => f | Some t => map (fun i => nth i f vzero) (argsort t) end.
(** the template does not point outside a frame of n atoms *)
Definition template_ok (argsort : list R -> list nat) (n : nat) (template : option (list R)) : Prop :=
  match template with None => True | Some t => List.Forall (fun i => (i < n)%nat) (argsort t) end.
(** a requested window: first step not after the last one *)
Definition range_ok (a : nat) (b : option nat) : Prop := match b with Some b => (a <= b /\ 1 <= b)%nat | None => True end.
(** a request for the last n steps: n > 0 and something was read *)
Definition last_ok {A} (last : option nat) (l : list A) : Prop := match last with Some n => (0 < n)%nat /\ l <> [] | None => True end.
