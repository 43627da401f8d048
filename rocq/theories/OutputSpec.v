(** Meaning of the outputs. *)
From Verif Require Import OutputModel.
From Coq Require Import List.
Open Scope R_scope.

(** * text tables: lines end with a newline, every field ends with a tab *)
Fixpoint read_fields (s : string) (field : string) : list string :=
  match s with
  | EmptyString => []
  | String c s => if Ascii.eqb c (Ascii.ascii_of_nat 9) then field :: read_fields s EmptyString else read_fields s (field ++ String c EmptyString)
  end.
Fixpoint read_lines (s : string) (line : string) : list string :=
  match s with
  | EmptyString => []
  | String c s => if Ascii.eqb c (Ascii.ascii_of_nat 10) then line :: read_lines s EmptyString else read_lines s (line ++ String c EmptyString)
  end.
Definition read_table (s : string) : list (list string) := map (fun l => read_fields l EmptyString) (read_lines s EmptyString).
(** a printed number holds neither tabs nor newlines *)
Fixpoint plain (s : string) : Prop :=
  match s with EmptyString => True | String c s => c <> Ascii.ascii_of_nat 9 /\ c <> Ascii.ascii_of_nat 10 /\ plain s end.

(** * fitdata *)
Definition sum_of (l : list R) : R := fold_right Rplus 0 l.
(** value of a band group at a row: the average of its columns *)
Definition group_value (group : list nat) (row : list R) : R := sum_of (map (fun c => nth c row 0) group) / INR (List.length group).
Definition rectangular (k : nat) (table : list (list R)) : Prop := forall r, In r table -> List.length r = k.

(** * displacement tensors *)
Definition outer (u : vec) : mat := M3 (vscale (vx u) u) (vscale (vy u) u) (vscale (vz u) u).
Definition msum (l : list mat) : mat := fold_right madd (mdiag 0 0 0) l.
(** second moment of displacements u_k with weights w_k *)
Definition second_moment (samples : list (R * vec)) : mat := msum (map (fun s => mscale (fst s) (outer (snd s))) samples).
(** entry (i, j) of a tensor, i, j = 1, 2, 3 *)
Definition axis (i : nat) : vec := match i with 1%nat => V3 1 0 0 | 2%nat => V3 0 1 0 | _ => V3 0 0 1 end.
Definition entry (m : mat) (i j : nat) : R := vdot (axis i) (mulv m (axis j)).
Definition symmetric (m : mat) : Prop := mT m = m.
Definition positive_form (m : mat) : Prop := forall v, 0 <= vdot v (mulv m v).

(** * LAMMPS order *)
Section Order.
Context {X : Type}.
(** ids are a permutation of 1..n *)
Definition ids_ok (s : list (nat * X)) : Prop := forall i, (1 <= i <= List.length s)%nat <-> In i (map fst s).
(** the vector of the atom with the given id *)
Definition of_id (s : list (nat * X)) (i : nat) (x : X) : Prop := In (i, x) s.
(** a list in id order: entry k belongs to the atom with id k+1 *)
Definition id_ordered (s : list (nat * X)) (l : list X) : Prop :=
  List.length l = List.length s /\ forall k x, nth_error l k = Some x -> of_id s (S k) x.
End Order.
