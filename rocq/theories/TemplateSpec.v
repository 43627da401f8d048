(** Specification vocabulary for the atom ordering of a trajectory. *)
From Verif Require Export Base.
Open Scope R_scope.
(** An atom of the simulation: unit cell atom number [k] in lattice cell (lx,ly,lz), displaced by [u] (in units of the lattice
    vectors) and possibly written one supercell length further along some axes ([wx], [wy], [wz]). *)
Record site := MkSite { lx : nat; ly : nat; lz : nat; k : nat; u : vec; wx : bool; wy : bool; wz : bool }.
Definition shift (w : bool) (d : nat) : R := if w then INR d else 0.
(** its coordinates in units of the unit cell vectors *)
Definition site_coordinate (spos : list vec) (dx dy dz : nat) (s : site) : vec :=
  let p := nth (k s) spos vzero in
  V3 (INR (lx s) + vx p + vx (u s) + shift (wx s) dx) (INR (ly s) + vy p + vy (u s) + shift (wy s) dy) (INR (lz s) + vz p + vz (u s) + shift (wz s) dz).
Definition site_in (spos : list vec) (dx dy dz : nat) (s : site) : Prop :=
  (lx s < dx /\ ly s < dy /\ lz s < dz /\ k s < length spos)%nat.
(** the displacement is small: less than half a cell along each axis, and less than half of the distance (in these units) to any
    periodic image of any other atom of the cell *)
Definition integer_vec (z : vec) : Prop := exists a b c : Z, z = V3 (IZR a) (IZR b) (IZR c).
Definition small (spos : list vec) (s : site) : Prop :=
  Rabs (vx (u s)) < 1/2 /\ Rabs (vy (u s)) < 1/2 /\ Rabs (vz (u s)) < 1/2 /\
  forall j z, (j < length spos)%nat -> j <> k s -> integer_vec z -> 2 * vnorm (u s) < vnorm (vadd (vsub (nth (k s) spos vzero) (nth j spos vzero)) z).
(** where the structure lists this atom in its supercell: cells with x fastest, then y, z, then the unit cell atom *)
Definition site_index (dx dy dz : nat) (s : site) : nat := (((k s * dz + lz s) * dy + ly s) * dx + lx s)%nat.
(** same lattice cell and same unit cell atom *)
Definition same_place (s t : site) : Prop := (lx s, ly s, lz s, k s) = (lx t, ly t, lz t, k t).
Definition in_unit_cell (p : vec) : Prop := 0 <= vx p < 1 /\ 0 <= vy p < 1 /\ 0 <= vz p < 1.
(** all different places *)
Definition all_places (sites : list site) : Prop := forall i j s t, nth_error sites i = Some s -> nth_error sites j = Some t -> same_place s t -> i = j.
(** along one axis the largest coordinate is nearer to [d] than half a cell *)
Definition spans (d : nat) (xs : list R) : Prop := (exists x, In x xs /\ INR d - 1/2 < x) /\ (forall x, In x xs -> x < INR d + 1/2).
(** displacement (in lattice vector units) from the place the structure lists to where the file has the atom *)
Definition offset (dx dy dz : nat) (s : site) : vec := V3 (vx (u s) + shift (wx s) dx) (vy (u s) + shift (wy s) dy) (vz (u s) + shift (wz s) dz).
