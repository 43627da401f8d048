(** Model of get_correct_arrangement, dynaphopy/interface/iofile/__init__.py:10-127.  Exact real arithmetic. *)
From Verif Require Export Base Rounding SupercellModel.
Open Scope R_scope.

(** np.array(x, dtype=int): truncation towards zero *)
Definition trunc (x : R) : Z := if Rle_dec 0 x then rfloor x else rceil x.
(** np.argmin: first index of the smallest value (the empty list raises in numpy; here 0) *)
Fixpoint argmin_from (best : R) (besti i : nat) (l : list R) : nat :=
  match l with
  | [] => besti
  | y :: t => if Rlt_dec y best then argmin_from y i (S i) t else argmin_from best besti (S i) t
  end.
Definition argmin (l : list R) : nat := match l with [] => 0%nat | x :: t => argmin_from x 0 1 t end.
(** dynaphopy/interface/iofile/__init__.py:62-65: one component of diff *)
Definition wrapped_diff (c p : R) : R :=
  let d := Rabs (c - p) in
  let d := if Rle_dec (1/2) d then d - 1 else d in
  if Rlt_dec d (- (1/2)) then d + 1 else d.
(** dynaphopy/interface/iofile/__init__.py:56-72: index of the unit cell atom nearest to a coordinate *)
Definition cell_atom (spos : list vec) (c : vec) : nat :=
  let f x := x - IZR (trunc x) in
  argmin (map (fun p => vnorm (V3 (wrapped_diff (f (vx c)) (vx p)) (wrapped_diff (f (vy c)) (vy p)) (wrapped_diff (f (vz c)) (vz p)))) spos).
(** dynaphopy/interface/iofile/__init__.py:54: np.round(np.max(scaled_coordinates, axis=0)) *)
Definition list_max_R (l : list R) : R := match l with [] => 0 | x :: t => fold_left Rmax t x end.
Definition supercell_dim (scaled : list vec) : Z * Z * Z :=
  (around (list_max_R (map vx scaled)), around (list_max_R (map vy scaled)), around (list_max_R (map vz scaled))).
(** dynaphopy/interface/iofile/__init__.py:94-98: one component of lattice_points_coordinates *)
Definition lattice_point (d : nat) (x : R) : R :=
  let x := if Rlt_dec (INR d - 1/2) x then x - INR d else x in
  if Rlt_dec x (- (1/2)) then x + INR d else x.
(** dynaphopy/interface/iofile/__init__.py:80, 10-20, 100-101: distance of a lattice point to entry j of original_conf, components divided by the supercell size *)
Definition conf_distance (dx dy dz : nat) (lp : vec) (j : nat) : R :=
  let '(x, y, z, _) := dynaphopy_order j dx dy dz in
  vnorm (V3 (vx lp / INR dx - INR x / INR dx) (vy lp / INR dy - INR y / INR dy) (vz lp / INR dz - INR z / INR dz)).
(** dynaphopy/interface/iofile/__init__.py:88-102: one entry of template; the integer division is a true division in Python 3 *)
Definition template_entry (spos : list vec) (dx dy dz natoms : nat) (c : vec) : R :=
  let k := cell_atom spos c in
  let p := nth k spos vzero in
  let lp := V3 (lattice_point dx (vx c - vx p)) (lattice_point dy (vy c - vy p)) (lattice_point dz (vz c - vz p)) in
  INR (argmin (map (conf_distance dx dy dz lp) (seq 0 natoms))) + INR k * INR natoms / INR (length spos).
(** len(np.unique(template)) < len(template) *)
Fixpoint has_duplicate (l : list R) : bool :=
  match l with [] => false | x :: t => if in_dec Req_EM_T x t then true else has_duplicate t end.
(** dynaphopy/interface/iofile/__init__.py:43-127, from the scaled coordinates of the reference step (lines 46-50).  A supercell size of 0 or less makes numpy divide
    by zero; not modelled (None). *)
Definition get_correct_arrangement (spos scaled : list vec) : option (list R) :=
  let '(zx, zy, zz) := supercell_dim scaled in
  if ((0 <? zx) && (0 <? zy) && (0 <? zz))%Z%bool then
    let template := map (template_entry spos (Z.to_nat zx) (Z.to_nat zy) (Z.to_nat zz) (length scaled)) scaled in
    Some (if has_duplicate template then map INR (seq 0 (length template)) else template)
  else None.
(** dynaphopy/interface/iofile/__init__.py:45-50 *)
Definition scaled_coordinates (inv : mat -> mat) (cell : mat) (reference : list vec) : list vec := map (fun c => vmul c (inv cell)) reference.
