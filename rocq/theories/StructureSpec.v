(** Specification vocabulary for the Structure caches. *)
From Verif Require Export StructureModel.
Open Scope nat_scope.

(** The value a getter returns (forgetting the object state). *)
Definition value {A} (m : method A) (s : structure) : option A := option_map fst (m s).

(** The cartesian positions the object holds: the cartesian array if there is one, otherwise
    the scaled positions times the cell. *)
Definition eff (s : structure) : option (list vec) :=
  match s_positions s with
  | Some p => Some p
  | None => option_map (map (fun v => vmul v (s_cell s))) (s_scaled s)
  end.

(** operations that never fill the cartesian cache when the scaled positions are known *)
Definition no_cartesian (o : sop) : bool :=
  match o with
  | SetPositions _ | SetCell _ | SetMasses _ | SetPrimitive _ | GetPrimitiveMatrix | GetPrimitiveCell | GetScaled => true
  | _ => false
  end.
(** getters, with type queries restricted to the unit cell *)
Definition plain_getter (o : sop) : bool :=
  match o with
  | SetPositions _ | SetCell _ | SetMasses _ | SetPrimitive _ => false
  | GetTypes (Some _) => false
  | _ => true
  end.

(** Two points related by a translation of the lattice spanned by the rows of pcell. *)
Definition lattice_equivalent (pcell : mat) (x y : vec) : Prop :=
  exists a b c : Z, vsub y x = vmul (V3 (IZR a) (IZR b) (IZR c)) pcell.
(** Two points further apart than the 0.001 threshold (squared distance) from every lattice image. *)
Definition lattice_separated (pcell : mat) (x y : vec) : Prop :=
  forall a b c : Z, (1 / 1000 <= vnorm2 (vsub (vsub y x) (vmul (V3 (IZR a) (IZR b) (IZR c)) pcell)))%R.
