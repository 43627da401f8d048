(** C01-C03: supercell expansion of a Structure. *)
From Verif Require Import SupercellModel SupercellSpec SupercellProofs.
Open Scope nat_scope.

Theorem C01_positions_follow_dynaphopy_order :
  forall (cell : mat) (pos : list vec) (nx ny nz : nat), nx > 0 -> ny > 0 -> nz > 0 ->
  length (get_positions cell pos [nx; ny; nz]) = length pos * (nx * ny * nz) /\
  forall i, i < length pos * (nx * ny * nz) ->
  let '(x, y, z, k) := dynaphopy_order i nx ny nz in
  x < nx /\ y < ny /\ z < nz /\ k < length pos /\
  exists p, nth_error pos k = Some p /\
  nth_error (get_positions cell pos [nx; ny; nz]) i = Some (image cell p x y z).
Proof. intros; split; [apply get_positions_length|intros; apply get_positions_nth; assumption]. Qed.
Print Assumptions C01_positions_follow_dynaphopy_order.

Theorem C01_order_is_bijective :
  forall (natoms nx ny nz : nat), nx > 0 -> ny > 0 -> nz > 0 ->
  forall x y z k, x < nx -> y < ny -> z < nz -> k < natoms ->
  exists i, (i < natoms * (nx * ny * nz) /\ dynaphopy_order i nx ny nz = (x, y, z, k)) /\
  forall i', dynaphopy_order i' nx ny nz = (x, y, z, k) -> i' = i.
Proof. exact order_bijection. Qed.
Print Assumptions C01_order_is_bijective.

Example C01_nonvacuous : map (fun i => dynaphopy_order i 2 1 3) (seq 0 12) =
  [(0,0,0,0);(1,0,0,0);(0,0,1,0);(1,0,1,0);(0,0,2,0);(1,0,2,0);
   (0,0,0,1);(1,0,0,1);(0,0,1,1);(1,0,1,1);(0,0,2,1);(1,0,2,1)].
Proof. reflexivity. Qed.

Theorem C02_attributes_align_with_positions :
  forall (A : Type) (cell : mat) (pos : list vec) (attr : list A) (nx ny nz : nat),
  nx > 0 -> ny > 0 -> nz > 0 -> length attr = length pos ->
  exists out, get_attribute (length pos) attr [nx; ny; nz] = Some out /\
  length out = length (get_positions cell pos [nx; ny; nz]) /\
  forall i a q, nth_error out i = Some a -> nth_error (get_positions cell pos [nx; ny; nz]) i = Some q ->
  exists x y z k p, x < nx /\ y < ny /\ z < nz /\
    nth_error attr k = Some a /\ nth_error pos k = Some p /\ q = image cell p x y z.
Proof. exact attributes_align. Qed.
Print Assumptions C02_attributes_align_with_positions.

(** ... and position by position: entry i belongs to the atom that dynaphopy_order gives for row i. *)
Theorem C02_attribute_index :
  forall (A : Type) (cell : mat) (pos : list vec) (attr : list A) (nx ny nz : nat),
  nx > 0 -> ny > 0 -> nz > 0 -> length attr = length pos ->
  exists out, get_attribute (length pos) attr [nx; ny; nz] = Some out /\
  forall i, i < length pos * (nx * ny * nz) ->
  let '(x, y, z, k) := dynaphopy_order i nx ny nz in
  exists a p, nth_error attr k = Some a /\ nth_error pos k = Some p /\
  nth_error out i = Some a /\ nth_error (get_positions cell pos [nx; ny; nz]) i = Some (image cell p x y z).
Proof.
  intros A cell pos attr nx ny nz Hx Hy Hz Hl.
  destruct (get_attribute_spec (length pos) attr nx ny nz Hx Hy Hz Hl) as [out [E [L N]]].
  exists out. split; [exact E|]. intros i Hi. specialize (N i Hi).
  pose proof (proj2 (C01_positions_follow_dynaphopy_order cell pos nx ny nz Hx Hy Hz) i Hi) as Q.
  destruct (dynaphopy_order i nx ny nz) as [[[x y] z] k].
  destruct Q as (_ & _ & _ & Hk & p & P1 & P2).
  destruct (nth_error attr k) as [a|] eqn:Ea; [|apply nth_error_None in Ea; lia].
  exists a, p. repeat split; assumption.
Qed.
Print Assumptions C02_attribute_index.

Theorem C02_short_attribute_list_is_an_error :
  forall (A : Type) (natoms : nat) (attr : list A) (supercell : list nat),
  length attr < natoms -> get_attribute natoms attr supercell = None.
Proof. intros; apply get_attribute_short; assumption. Qed.
Print Assumptions C02_short_attribute_list_is_an_error.

Example C02_nonvacuous : get_attribute 2 [7; 9] [2; 1; 2] = Some [7; 7; 7; 7; 9; 9; 9; 9].
Proof. reflexivity. Qed.

(** The full statement (rows scaled) is false: *)
Theorem C03_supercell_rows_refuted :
  exists (cell : mat) (nx ny nz : nat), mdet cell <> 0%R /\ nx > 0 /\ ny > 0 /\ nz > 0 /\
  get_cell cell nx ny nz <> scaled_rows cell nx ny nz.
Proof. exact get_cell_refuted. Qed.
Print Assumptions C03_supercell_rows_refuted.

(** ... and it holds exactly for the cells described here: *)
Theorem C03_supercell_rows_partial :
  forall (cell : mat) (nx ny nz : nat),
  get_cell cell nx ny nz = scaled_rows cell nx ny nz <->
  (nx = ny \/ (vy (r0 cell) = 0 /\ vx (r1 cell) = 0)%R) /\
  (nx = nz \/ (vz (r0 cell) = 0 /\ vx (r2 cell) = 0)%R) /\
  (ny = nz \/ (vz (r1 cell) = 0 /\ vy (r2 cell) = 0)%R).
Proof. exact get_cell_right_iff. Qed.
Print Assumptions C03_supercell_rows_partial.

Theorem C03_scaled_positions_partial :
  forall (inv : mat -> mat) (cell : mat) (nx ny nz : nat) (pos : list vec),
  (forall m, mdet m <> 0%R -> is_inverse (inv m) m) ->
  mdet (get_cell cell nx ny nz) <> 0%R ->
  get_cell cell nx ny nz = scaled_rows cell nx ny nz ->
  map (fun s => vmul s (scaled_rows cell nx ny nz)) (get_scaled_positions inv cell pos nx ny nz)
  = get_positions cell pos [nx; ny; nz].
Proof. exact scaled_rows_inverse_scaled. Qed.
Print Assumptions C03_scaled_positions_partial.

Example C03_nonvacuous : get_cell (mdiag 2 3 5) 1 2 3 = scaled_rows (mdiag 2 3 5) 1 2 3 /\
  mdet (get_cell (mdiag 2 3 5) 1 2 3) <> 0%R.
Proof.
  split; [apply get_cell_orthogonal|].
  unfold get_cell, mdet. vec_unfold. simpl. lra.
Qed.
