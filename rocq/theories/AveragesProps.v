(** C131: the reports about atoms (average positions, displacement parameters) give each atom its own element and its own numbers. *)
From Verif Require Import Base Rounding SupercellModel SupercellSpec SupercellProofs SupercellProps DynamicsModel DynamicsSpec DynamicsProofs DisplacementsModel DisplacementsProofs OutputModel AveragesModel.
From Coq Require Import Sorting.Sorted Sorting.Permutation.
Open Scope R_scope.

(** ** What the numbers should be *)
(** inside the parallelepiped spanned by the rows of the cell *)
Definition inside (cell : mat) (y : vec) : Prop := exists f, y = vmul f cell /\ 0 <= vx f <= 1 /\ 0 <= vy f <= 1 /\ 0 <= vz f <= 1.
(** equal up to a lattice vector of the cell *)
Definition congruent (cell : mat) (y z : vec) : Prop := exists a b c : Z, y = vsub z (vmul (V3 (IZR a) (IZR b) (IZR c)) cell).
(** the recorded point x shows an atom of reference position r displaced by u: up to jumps by simulation cells, and the displacement is less than half a cell *)
Definition shows (md : mat) (r u x : vec) : Prop :=
  exists f (a b c : Z), u = vmul f md /\ -(1/2) < vx f < 1/2 /\ -(1/2) < vy f < 1/2 /\ -(1/2) < vz f < 1/2 /\
  x = vadd (vadd r u) (vmul (V3 (IZR a) (IZR b) (IZR c)) md).

(** ** The displacement that is averaged is the true one *)
Lemma det_mT m : mdet (mT m) = mdet m.
Proof. destruct m as [[a b c] [d e f] [g h i]]. unfold mdet, mT; cbn. ring. Qed.
Lemma invertible_det inv cell : is_inverse (inv (mT cell)) (mT cell) -> mdet cell <> 0.
Proof.
  intros [_ H] D. assert (E : mdet (inv (mT cell)) * mdet (mT cell) = 1).
  { replace (mdet (inv (mT cell)) * mdet (mT cell)) with (mdet (mmul (inv (mT cell)) (mT cell))).
    - rewrite H. unfold mdet, mid; cbn. ring.
    - generalize (inv (mT cell)) (mT cell). intros [[a b c] [d e f] [g h i]] [[a' b' c'] [d' e' f'] [g' h' i']]. unfold mdet, mmul, vmul; cbn. ring. }
  rewrite det_mT, D in E. lra.
Qed.
Lemma frac_back inv cell f : is_inverse (inv (mT cell)) (mT cell) -> mulv (inv (mT cell)) (vmul f cell) = f.
Proof. intros [H1 H2]. rewrite vmul_mT. rewrite mulv_mmul. rewrite H2. apply mulv_mid. Qed.
Lemma displacement_true inv md r u x : is_inverse (inv (mT md)) (mT md) -> shows md r u x -> displacement3 md r x = u.
Proof.
  intros HI (f & a & b & c & -> & F1 & F2 & F3 & ->). rewrite (displacement3_eq inv) by (try assumption; eapply invertible_det; eassumption).
  replace (vsub (vadd (vadd r (vmul f md)) (vmul (V3 (IZR a) (IZR b) (IZR c)) md)) r) with (vmul (vadd f (V3 (IZR a) (IZR b) (IZR c))) md) by vec_ring.
  rewrite frac_back by assumption. unfold vround. cbn [vadd vx vy vz].
  rewrite (cround_nearest (vx f + IZR a) a), (cround_nearest (vy f + IZR b) b), (cround_nearest (vz f + IZR c) c) by lra. vec_ring.
Qed.

(** ** Average positions of the atoms of the simulation *)
Lemma nth_column i trajectory t : (t < length trajectory)%nat -> nth t (column i trajectory) vzero = nth i (nth t trajectory nil) vzero.
Proof. intros H. unfold column. rewrite (nth_indep _ vzero (nth i nil vzero)) by (rewrite map_length; exact H). rewrite (map_nth (fun frame => nth i frame vzero)). reflexivity. Qed.
Lemma map_as_seq {A B} (f : A -> B) (l : list A) d : map f l = map (fun t => f (nth t l d)) (seq 0 (length l)).
Proof. induction l as [|a l IH]; [reflexivity|]. cbn [length seq map]. f_equal. rewrite IH. rewrite <- (seq_shift (length l) 0), map_map. reflexivity. Qed.
(** mean over the steps of what [u t i] gives for atom i *)
Definition mean_in_time (u : nat -> nat -> vec) (steps i : nat) : vec := vmean (map (fun t => u t i) (seq 0 steps)).
Lemma averaged_true inv md reference trajectory N u i : is_inverse (inv (mT md)) (mT md) -> (i < N)%nat ->
  (forall t j, (t < length trajectory)%nat -> (j < N)%nat -> shows md (nth j reference vzero) (u t j) (nth j (nth t trajectory nil) vzero)) ->
  nth i (averaged_displacements md reference trajectory N) vzero = mean_in_time u (length trajectory) i.
Proof.
  intros HI Hi S. unfold averaged_displacements. rewrite (nth_indep _ vzero (vmean (map (displacement3 md (nth 0 reference vzero)) (column 0 trajectory)))) by (rewrite map_length, seq_length; exact Hi).
  rewrite (map_nth (fun i => vmean (map (displacement3 md (nth i reference vzero)) (column i trajectory)))). rewrite seq_nth by exact Hi. cbn [Nat.add].
  unfold mean_in_time. f_equal. rewrite (map_as_seq _ _ vzero). unfold column at 2. rewrite map_length. apply map_ext_in. intros t Ht. apply in_seq in Ht.
  rewrite nth_column by lia. eapply displacement_true; [exact HI|]. apply S; lia.
Qed.
Lemma fold_inside inv cell x : is_inverse (inv (mT cell)) (mT cell) -> inside cell (fold_into_cell inv cell x) /\ congruent cell (fold_into_cell inv cell x) x.
Proof.
  intros HI. destruct (fold_into_cell_spec inv cell x HI) as (a & b & c & E & F). split; [|exists a, b, c; exact E].
  exists (mulv (inv (mT cell)) (fold_into_cell inv cell x)). assert (G : fold_into_cell inv cell x = vmul (mulv (inv (mT cell)) (fold_into_cell inv cell x)) cell).
  { rewrite vmul_mT, mulv_mmul. destruct HI as [-> _]. rewrite mulv_mid. reflexivity. }
  split; [exact G|apply F; exact G].
Qed.
Lemma print_rows_spec {E} (elements : list E) averages : (length averages <= length elements)%nat ->
  print_rows elements averages = Some (combine elements averages).
Proof.
  revert elements. induction averages as [|y ys IH]; intros elements H; [destruct elements; reflexivity|].
  destruct elements as [|e es]; [cbn in H; lia|]. cbn in *. rewrite IH by lia. reflexivity.
Qed.
Lemma nth_error_combine {A B} (l : list A) (m : list B) i a b : nth_error l i = Some a -> nth_error m i = Some b -> nth_error (combine l m) i = Some (a, b).
Proof. revert l m. induction i as [|i IH]; intros [|x l] [|y m] H1 H2; try discriminate; cbn in *; [congruence|apply IH; assumption]. Qed.
Lemma nth_error_map_seq {B} (f : nat -> B) n i : (i < n)%nat -> nth_error (map f (seq 0 n)) i = Some (f i).
Proof. intros H. apply (map_nth_error f i (seq 0 n)). rewrite nth_error_seq by exact H. reflexivity. Qed.

(** Every atom of the simulation gets one line: its own element, and the mean of its true positions brought into the simulation cell *)
Theorem C131_simulation_cell : forall (E : Type) inv md cell (elements : list E) positions types nx ny nz trajectory u,
  let N := (length positions * (nx * ny * nz))%nat in
  (0 < nx)%nat -> (0 < ny)%nat -> (0 < nz)%nat -> length elements = length positions -> is_inverse (inv (mT md)) (mT md) ->
  (forall t i, (t < length trajectory)%nat -> (i < N)%nat ->
     shows md (nth i (get_positions cell positions (nx :: ny :: nz :: nil)) vzero) (u t i) (nth i (nth t trajectory nil) vzero)) ->
  exists rows, get_average_atomic_positions false inv md cell elements positions types (nx :: ny :: nz :: nil) trajectory N = Some rows /\ length rows = N /\
  forall i, (i < N)%nat -> let '(x, y, z, k) := dynaphopy_order i nx ny nz in
  exists e p q, nth_error elements k = Some e /\ nth_error positions k = Some p /\ nth_error rows i = Some (e, q) /\
    inside md q /\ congruent md q (vadd (image cell p x y z) (mean_in_time u (length trajectory) i)).
Proof.
  intros E inv md cell elements positions types nx ny nz trajectory u N Hx Hy Hz HE HI S.
  destruct (C02_attribute_index E cell positions elements nx ny nz Hx Hy Hz HE) as (out & HO & HOI).
  assert (HL : length (get_positions cell positions [nx; ny; nz]) = N) by (rewrite get_positions_length; unfold N; lia).
  destruct (C02_attributes_align_with_positions E cell positions elements nx ny nz Hx Hy Hz HE) as (out' & HO' & HLen & _). rewrite HO in HO'. injection HO' as <-. rewrite HL in HLen.
  set (F := fun i => fold_into_cell inv md (vadd (nth i (averaged_displacements md (get_positions cell positions [nx; ny; nz]) trajectory N) vzero) (nth i (get_positions cell positions [nx; ny; nz]) vzero))).
  exists (combine out (map F (seq 0 N))). unfold get_average_atomic_positions, average_positions_md. rewrite HO, HL, Nat.eqb_refl. fold F.
  rewrite print_rows_spec by (rewrite map_length, seq_length; lia). split; [reflexivity|]. split; [rewrite combine_length, map_length, seq_length, HLen; apply Nat.min_id|].
  intros i Hi. specialize (HOI i Hi). destruct (dynaphopy_order i nx ny nz) as [[[x y] z] k] eqn:DO. destruct HOI as (e & p & E1 & E2 & E3 & E4).
  exists e, p, (F i). split; [exact E1|]. split; [exact E2|]. split; [apply nth_error_combine; [exact E3|apply nth_error_map_seq; exact Hi]|].
  destruct (fold_inside inv md (vadd (nth i (averaged_displacements md (get_positions cell positions [nx; ny; nz]) trajectory N) vzero) (nth i (get_positions cell positions [nx; ny; nz]) vzero)) HI) as [I1 I2].
  split; [exact I1|]. unfold F. rewrite (averaged_true inv md _ trajectory N u i HI Hi S) in *. rewrite (nth_error_nth _ i vzero E4) in *.
  replace (vadd (image cell p x y z) (mean_in_time u (length trajectory) i)) with (vadd (mean_in_time u (length trajectory) i) (image cell p x y z)); [exact I2|].
  generalize (mean_in_time u (length trajectory) i) (image cell p x y z). vec_ring.
Qed.
Print Assumptions C131_simulation_cell.

(** ** Average positions of the atoms of the unit cell *)
Lemma of_type_filter (F : nat -> vec) index t : forall s, atoms_of_type (combine index (map F (seq s (length index)))) t =
  map F (filter (fun j => Nat.eqb (nth (j - s) index 0%nat) t) (seq s (length index))).
Proof.
  induction index as [|a l IH]; intros s; [reflexivity|]. cbn [length seq map combine]. unfold atoms_of_type. cbn [flat_map fst snd]. fold (atoms_of_type (combine l (map F (seq (S s) (length l)))) t).
  rewrite IH. cbn [filter].
  assert (G : filter (fun j => Nat.eqb (nth (j - S s) l 0%nat) t) (seq (S s) (length l)) = filter (fun j => Nat.eqb (nth (j - s) (a :: l) 0%nat) t) (seq (S s) (length l))).
  { apply filter_ext_in. intros j Hj. apply in_seq in Hj. replace (j - s)%nat with (S (j - S s)) by lia. reflexivity. }
  rewrite <- G. rewrite Nat.sub_diag. cbn [nth]. destruct (Nat.eqb a t); reflexivity.
Qed.
Lemma count_expanded (types : list nat) n t : count_occ Nat.eq_dec (flat_map (fun a => repeat a n) types) t = (count_occ Nat.eq_dec types t * n)%nat.
Proof.
  induction types as [|a l IH]; [reflexivity|]. cbn [flat_map]. rewrite count_occ_app, IH. cbn [count_occ].
  destruct (Nat.eq_dec a t) as [->|H].
  - rewrite count_occ_repeat_eq by reflexivity. lia.
  - rewrite count_occ_repeat_neq by (intros G; apply H; symmetry; exact G || exact G). lia.
Qed.
Lemma count_filter (index : list nat) t : forall s, length (filter (fun j => Nat.eqb (nth (j - s) index 0%nat) t) (seq s (length index))) = count_occ Nat.eq_dec index t.
Proof.
  induction index as [|a l IH]; intros s; [reflexivity|]. cbn [length seq filter].
  assert (G : filter (fun j => Nat.eqb (nth (j - S s) l 0%nat) t) (seq (S s) (length l)) = filter (fun j => Nat.eqb (nth (j - s) (a :: l) 0%nat) t) (seq (S s) (length l))).
  { apply filter_ext_in. intros j Hj. apply in_seq in Hj. replace (j - s)%nat with (S (j - S s)) by lia. reflexivity. }
  rewrite <- G. rewrite Nat.sub_diag. cbn [nth count_occ]. destruct (Nat.eq_dec a t) as [->|H]; [rewrite Nat.eqb_refl; cbn [length]; rewrite IH; reflexivity|].
  apply Nat.eqb_neq in H. rewrite H. apply IH.
Qed.

(** the atoms of the simulation whose unit-cell atom is of type t, and the mean of their true displacements over atoms and steps *)
Definition equivalent_atoms (types : list nat) (ncells t : nat) : list nat := filter (fun i => Nat.eqb (nth (i / ncells) types 0%nat) t) (seq 0 (length types * ncells)).
Definition mean_of_equivalent (u : nat -> nat -> vec) (steps : nat) (types : list nat) (ncells t : nat) : vec :=
  vmean (map (mean_in_time u steps) (equivalent_atoms types ncells t)).

Lemma expanded_index (types : list nat) nx ny nz : (0 < nx)%nat -> (0 < ny)%nat -> (0 < nz)%nat -> exists index,
  get_attribute (length types) types (nx :: ny :: nz :: nil) = Some index /\ index = flat_map (fun a => repeat a (nx * ny * nz)) types /\
  length index = (length types * (nx * ny * nz))%nat /\
  forall i, (i < length types * (nx * ny * nz))%nat -> nth i index 0%nat = nth (i / (nx * ny * nz)) types 0%nat.
Proof.
  intros Hx Hy Hz. destruct (get_attribute_spec (length types) types nx ny nz Hx Hy Hz eq_refl) as (out & H1 & H2 & H3). exists out.
  split; [exact H1|]. split.
  - unfold get_attribute in H1. rewrite nprod3, expand_loop_spec in H1 by lia. rewrite firstn_all2 in H1 by (simpl; lia). simpl skipn in H1. simpl app in H1. injection H1 as <-. reflexivity.
  - split; [exact H2|]. intros i Hi. specialize (H3 i Hi). unfold dynaphopy_order in H3. replace (ny * nx * nz)%nat with (nx * ny * nz)%nat in H3 by lia.
    assert (K : (i / (nx * ny * nz) < length types)%nat) by (apply Nat.div_lt_upper_bound; lia).
    apply (nth_error_nth _ _ 0%nat). rewrite H3. apply nth_error_nth'. exact K.
Qed.

(** What the line of atom k of the unit cell shows: with m atoms of its type in the unit cell, the reference position plus m times the mean displacement of the
    equivalent atoms, brought into the unit cell; beside the element of atom k *)
Theorem C131_unit_cell_value : forall (E : Type) inv md cell (elements : list E) positions types nx ny nz trajectory u,
  let N := (length positions * (nx * ny * nz))%nat in
  (0 < nx)%nat -> (0 < ny)%nat -> (0 < nz)%nat -> length elements = length positions -> length types = length positions ->
  is_inverse (inv (mT md)) (mT md) -> is_inverse (inv (mT cell)) (mT cell) ->
  (forall t i, (t < length trajectory)%nat -> (i < N)%nat ->
     shows md (nth i (get_positions cell positions (nx :: ny :: nz :: nil)) vzero) (u t i) (nth i (nth t trajectory nil) vzero)) ->
  exists rows, get_average_atomic_positions true inv md cell elements positions types (nx :: ny :: nz :: nil) trajectory N = Some rows /\ length rows = length positions /\
  forall k, (k < length positions)%nat ->
  exists e p q, nth_error elements k = Some e /\ nth_error positions k = Some p /\ nth_error rows k = Some (e, q) /\
    inside cell q /\ congruent cell q (vadd p (vscale (INR (count_occ Nat.eq_dec types (nth k types 0%nat)))
                                         (mean_of_equivalent u (length trajectory) types (nx * ny * nz) (nth k types 0%nat)))).
Proof.
  intros E inv md cell elements positions types nx ny nz trajectory u N Hx Hy Hz HE HT HI HC S.
  destruct (expanded_index types nx ny nz Hx Hy Hz) as (index & G1 & GF & G2 & G3). rewrite HT in G1, G2, G3.
  destruct (get_attribute_spec (length positions) elements 1 1 1 ltac:(lia) ltac:(lia) ltac:(lia) HE) as (names & N1 & N2 & N3).
  set (D := averaged_displacements md (get_positions cell positions [nx; ny; nz]) trajectory N).
  set (F := fun k => average_position_unit inv cell (nprod [nx; ny; nz]) (combine index D) (nth k positions vzero) (nth k types 0%nat)).
  exists (combine names (map F (seq 0 (length positions)))). unfold get_average_atomic_positions, average_positions_unit. rewrite G1, N1. fold D. fold F.
  rewrite print_rows_spec by (rewrite map_length, seq_length, N2; lia). split; [reflexivity|].
  split; [rewrite combine_length, map_length, seq_length, N2; lia|].
  intros k Hk. specialize (N3 k ltac:(lia)). unfold dynaphopy_order in N3. replace (k / (1 * 1 * 1))%nat with k in N3 by (rewrite Nat.div_1_r; reflexivity).
  destruct (nth_error elements k) as [e|] eqn:Ee; [|apply nth_error_None in Ee; lia]. destruct (nth_error positions k) as [p|] eqn:Ep; [|apply nth_error_None in Ep; lia].
  exists e, p, (F k). split; [reflexivity|]. split; [reflexivity|]. split; [apply nth_error_combine; [exact N3|apply nth_error_map_seq; exact Hk]|].
  unfold F at 1 2. unfold average_position_unit. rewrite (nth_error_nth _ k vzero Ep).
  set (t := nth k types 0%nat).
  assert (V : unit_average (nprod [nx; ny; nz]) (combine index D) t = vscale (INR (count_occ Nat.eq_dec types t)) (mean_of_equivalent u (length trajectory) types (nx * ny * nz) t)).
  { assert (A : atoms_of_type (combine index D) t = map (mean_in_time u (length trajectory)) (equivalent_atoms types (nx * ny * nz) t)).
    { assert (DD : D = map (fun i => nth i D vzero) (seq 0 (length index))).
      { rewrite <- (map_id D) at 1. rewrite (map_as_seq (fun x => x) D vzero). f_equal. f_equal. unfold D, averaged_displacements. rewrite map_length, seq_length, G2. reflexivity. }
      rewrite DD. rewrite of_type_filter. unfold equivalent_atoms. rewrite HT, G2.
      rewrite (filter_ext_in _ (fun i => Nat.eqb (nth (i / (nx * ny * nz)) types 0%nat) t)).
      - apply map_ext_in. intros i Hi. apply filter_In in Hi. destruct Hi as [Hi _]. apply in_seq in Hi. apply averaged_true with (1 := HI); [unfold N; lia|exact S].
      - intros i Hi. apply in_seq in Hi. rewrite Nat.sub_0_r. rewrite G3 by lia. reflexivity. }
    assert (C0 : (0 < count_occ Nat.eq_dec types t)%nat) by (apply count_occ_In; apply nth_In; lia).
    unfold mean_of_equivalent. rewrite <- A. apply unit_average_mean; [rewrite nprod3; nia|exact C0|].
    rewrite A, map_length. rewrite nprod3. rewrite <- count_expanded, <- GF. unfold equivalent_atoms. rewrite HT, <- G2. rewrite <- (count_filter index t 0).
    f_equal. apply filter_ext_in. intros i Hi. apply in_seq in Hi. rewrite Nat.sub_0_r. rewrite G3 by lia. reflexivity. }
  rewrite V.
  destruct (fold_inside inv cell (vadd (vscale (INR (count_occ Nat.eq_dec types t)) (mean_of_equivalent u (length trajectory) types (nx * ny * nz) t)) p) HC) as [I1 I2].
  split; [exact I1|]. fold t. 
  replace (vadd p (vscale (INR (count_occ Nat.eq_dec types t)) (mean_of_equivalent u (length trajectory) types (nx * ny * nz) t)))
    with (vadd (vscale (INR (count_occ Nat.eq_dec types t)) (mean_of_equivalent u (length trajectory) types (nx * ny * nz) t)) p); [exact I2|].
  generalize (vscale (INR (count_occ Nat.eq_dec types t)) (mean_of_equivalent u (length trajectory) types (nx * ny * nz) t)). intros. vec_ring.
Qed.
Print Assumptions C131_unit_cell_value.

(** With one atom of each type in the unit cell (a primitive unit cell) the line of atom k is its true mean position in the unit cell *)
Theorem C131_unit_cell_partial : forall (E : Type) inv md cell (elements : list E) positions types nx ny nz trajectory u,
  let N := (length positions * (nx * ny * nz))%nat in
  (0 < nx)%nat -> (0 < ny)%nat -> (0 < nz)%nat -> length elements = length positions -> length types = length positions -> NoDup types ->
  is_inverse (inv (mT md)) (mT md) -> is_inverse (inv (mT cell)) (mT cell) ->
  (forall t i, (t < length trajectory)%nat -> (i < N)%nat ->
     shows md (nth i (get_positions cell positions (nx :: ny :: nz :: nil)) vzero) (u t i) (nth i (nth t trajectory nil) vzero)) ->
  exists rows, get_average_atomic_positions true inv md cell elements positions types (nx :: ny :: nz :: nil) trajectory N = Some rows /\ length rows = length positions /\
  forall k, (k < length positions)%nat ->
  exists e p q, nth_error elements k = Some e /\ nth_error positions k = Some p /\ nth_error rows k = Some (e, q) /\
    inside cell q /\ congruent cell q (vadd p (mean_of_equivalent u (length trajectory) types (nx * ny * nz) (nth k types 0%nat))).
Proof.
  intros E inv md cell elements positions types nx ny nz trajectory u N Hx Hy Hz HE HT ND HI HC S.
  destruct (C131_unit_cell_value E inv md cell elements positions types nx ny nz trajectory u Hx Hy Hz HE HT HI HC S) as (rows & R1 & R2 & R3).
  exists rows. split; [exact R1|]. split; [exact R2|]. intros k Hk. destruct (R3 k Hk) as (e & p & q & E1 & E2 & E3 & E4 & E5).
  exists e, p, q. split; [exact E1|]. split; [exact E2|]. split; [exact E3|]. split; [exact E4|].
  rewrite (NoDup_count_occ' Nat.eq_dec types) in ND. rewrite (ND (nth k types 0%nat)) in E5 by (apply nth_In; lia).
  replace (vscale (INR 1) (mean_of_equivalent u (length trajectory) types (nx * ny * nz) (nth k types 0%nat)))
    with (mean_of_equivalent u (length trajectory) types (nx * ny * nz) (nth k types 0%nat)) in E5; [exact E5|]. generalize (mean_of_equivalent u (length trajectory) types (nx * ny * nz) (nth k types 0%nat)). vec_ring.
Qed.
Print Assumptions C131_unit_cell_partial.
(** ... and with m atoms of the type in the unit cell it is not, unless m - 1 times the mean displacement happens to be a lattice vector *)
Theorem C131_unit_cell_refuted : forall (E : Type) inv md cell (elements : list E) positions types nx ny nz trajectory u k,
  let N := (length positions * (nx * ny * nz))%nat in
  let m := count_occ Nat.eq_dec types (nth k types 0%nat) in
  let w := mean_of_equivalent u (length trajectory) types (nx * ny * nz) (nth k types 0%nat) in
  (0 < nx)%nat -> (0 < ny)%nat -> (0 < nz)%nat -> length elements = length positions -> length types = length positions ->
  is_inverse (inv (mT md)) (mT md) -> is_inverse (inv (mT cell)) (mT cell) ->
  (forall t i, (t < length trajectory)%nat -> (i < N)%nat ->
     shows md (nth i (get_positions cell positions (nx :: ny :: nz :: nil)) vzero) (u t i) (nth i (nth t trajectory nil) vzero)) ->
  (k < length positions)%nat ->
  (forall a b c : Z, vscale (INR m - 1) w <> vmul (V3 (IZR a) (IZR b) (IZR c)) cell) ->
  exists rows e q, get_average_atomic_positions true inv md cell elements positions types (nx :: ny :: nz :: nil) trajectory N = Some rows /\
  nth_error rows k = Some (e, q) /\ ~ congruent cell q (vadd (nth k positions vzero) w).
Proof.
  intros E inv md cell elements positions types nx ny nz trajectory u k N m w Hx Hy Hz HE HT HI HC S Hk H.
  destruct (C131_unit_cell_value E inv md cell elements positions types nx ny nz trajectory u Hx Hy Hz HE HT HI HC S) as (rows & R1 & R2 & R3).
  destruct (R3 k Hk) as (e & p & q & E1 & E2 & E3 & E4 & E5). exists rows, e, q. split; [exact R1|]. split; [exact E3|].
  rewrite (nth_error_nth _ k vzero E2). fold m in E5. fold w in E5. destruct E5 as (a & b & c & Q). intros (a' & b' & c' & Q').
  apply (H (a - a')%Z (b - b')%Z (c - c')%Z). rewrite Q in Q'. rewrite !minus_IZR. clear - Q'. clearbody w m. generalize dependent (INR m). intros M Q'.
  destruct p as [p1 p2 p3], w as [w1 w2 w3], cell as [[c1 c2 c3] [c4 c5 c6] [c7 c8 c9]]. unfold vsub, vadd, vscale, vmul in *; cbn in *. injection Q' as X Y Z. unfold vadd, vscale; cbn. f_equal; lra.
Qed.
Print Assumptions C131_unit_cell_refuted.

(** ** The rows of the displacement parameters *)
Section Rows.
Context {E : Type} (d : E) (cell_inv : mat) (c : coordinate_type).
(** the types in the order in which the rows are printed *)
Definition printed_types (atom_type : list nat) (n : nat) : list nat := flat_map (fun v => repeat v (count_occ Nat.eq_dec atom_type v)) (seq 0 n).
Lemma values_all atom_type n : (forall v, In v atom_type <-> (v < n)%nat) -> unique_values atom_type = seq 0 n.
Proof.
  intros H. assert (M : (list_max atom_type < S n)%nat).
  { destruct atom_type as [|a l]; [cbn; lia|]. assert (G : (list_max (a :: l) <= n)%nat); [|lia]. apply list_max_le. apply Forall_forall. intros v Hv. apply H in Hv. lia. }
  assert (L : forall v, In v atom_type -> (v <= list_max atom_type)%nat).
  { intros v Hv. assert (F := proj1 (list_max_le atom_type (list_max atom_type)) (Nat.le_refl _)). rewrite Forall_forall in F. apply F. exact Hv. }
  unfold unique_values. assert (B : forall v, existsb (Nat.eqb v) atom_type = true <-> (v < n)%nat).
  { intros v. rewrite existsb_exists, <- H. split; [intros (x & Hx & Ex); apply Nat.eqb_eq in Ex; subst; exact Hx|intros Hv; exists v; split; [exact Hv|apply Nat.eqb_refl]]. }
  assert (Sp : exists r, S (list_max atom_type) = (n + r)%nat).
  { exists (S (list_max atom_type) - n)%nat. destruct n as [|n']; [lia|]. assert (K := L n' (proj2 (H n') (Nat.lt_succ_diag_r n'))). lia. }
  destruct Sp as (r & ->). rewrite seq_app, filter_app. cbn [Nat.add].
  replace (filter (fun v => existsb (Nat.eqb v) atom_type) (seq n r)) with (@nil nat).
  - rewrite app_nil_r. assert (F : forall l, (forall v, In v l -> existsb (Nat.eqb v) atom_type = true) -> filter (fun v => existsb (Nat.eqb v) atom_type) l = l).
    { induction l as [|x l IH]; intros G; [reflexivity|]. cbn. rewrite G by (left; reflexivity). f_equal. apply IH. intros v Hv. apply G. right. exact Hv. }
    apply F. intros v Hv. apply in_seq in Hv. apply B. lia.
  - symmetry. assert (F : forall l, (forall v, In v l -> existsb (Nat.eqb v) atom_type <> true) -> filter (fun v => existsb (Nat.eqb v) atom_type) l = []).
    { induction l as [|x l IH]; intros G; [reflexivity|]. cbn. destruct (existsb (Nat.eqb x) atom_type) eqn:X; [exfalso; apply (G x); [left; reflexivity|exact X]|]. apply IH. intros v Hv. apply G. right. exact Hv. }
    apply F. intros v Hv G. apply in_seq in Hv. apply B in G. lia.
Qed.
Definition row_of (elements : list E) (atom_type : list nat) (matrices : list mat) (v : nat) : E * list R :=
  (nth (first_index v atom_type) elements d, adp_row (adp cell_inv (nth v matrices mzero) c)).
Lemma rows_printed elements atom_type matrices : (forall v, In v atom_type <-> (v < length matrices)%nat) ->
  displacement_rows d cell_inv c elements atom_type matrices = Some (map (row_of elements atom_type matrices) (printed_types atom_type (length matrices))).
Proof.
  intros H. unfold displacement_rows. rewrite (values_all _ _ H). rewrite seq_length, Nat.leb_refl. f_equal. unfold printed_types.
  rewrite flat_map_concat_map, concat_map, map_map. f_equal. apply map_ext_in. intros v Hv. apply in_seq in Hv.
  assert (R : forall {A} (x : A) n (f : A -> E * list R), map f (repeat x n) = repeat (f x) n) by (induction n as [|n IH]; intros; cbn; [reflexivity|f_equal; apply IH]).
  rewrite R. unfold row_of. f_equal.
  - f_equal. rewrite (nth_indep _ d (nth (first_index 0%nat atom_type) elements d)) by (rewrite map_length, seq_length; lia).
    rewrite (map_nth (fun v => nth (first_index v atom_type) elements d)). rewrite seq_nth by lia. reflexivity.
  - rewrite (nth_indep _ 0%nat (count_occ Nat.eq_dec atom_type 0%nat)) by (rewrite map_length, seq_length; lia). rewrite (map_nth (fun v => count_occ Nat.eq_dec atom_type v)). rewrite seq_nth by lia. reflexivity.
Qed.
Lemma printed_count atom_type n : forall s x, count_occ Nat.eq_dec (flat_map (fun v => repeat v (count_occ Nat.eq_dec atom_type v)) (seq s n)) x =
  if (s <=? x)%nat && (x <? s + n)%nat then count_occ Nat.eq_dec atom_type x else 0%nat.
Proof.
  induction n as [|n IH]; intros s x; cbn [seq flat_map].
  - destruct (Nat.leb_spec s x), (Nat.ltb_spec x (s + 0)); cbn; try reflexivity; lia.
  - rewrite count_occ_app, IH. destruct (Nat.eq_dec s x) as [<-|X].
    + rewrite count_occ_repeat_eq by reflexivity. destruct (Nat.leb_spec s s), (Nat.ltb_spec s (s + S n)), (Nat.leb_spec (S s) s); cbn; lia.
    + rewrite count_occ_repeat_neq by congruence. destruct (Nat.leb_spec s x), (Nat.ltb_spec x (s + S n)), (Nat.leb_spec (S s) x), (Nat.ltb_spec x (S s + n)); cbn; lia.
Qed.
Lemma printed_permutation atom_type n : (forall v, In v atom_type <-> (v < n)%nat) -> Permutation (printed_types atom_type n) atom_type.
Proof.
  intros H. apply (Permutation_count_occ Nat.eq_dec). intros x. unfold printed_types. rewrite printed_count. cbn [Nat.leb Nat.add andb].
  destruct (Nat.ltb_spec x n) as [L|L]; [reflexivity|]. symmetry. apply count_occ_not_In. rewrite H. lia.
Qed.
Lemma printed_sorted atom_type n : forall s, StronglySorted le (flat_map (fun v => repeat v (count_occ Nat.eq_dec atom_type v)) (seq s n)).
Proof.
  induction n as [|n IH]; intros s; cbn [seq flat_map]; [constructor|].
  assert (G : forall m, StronglySorted le (repeat s m ++ flat_map (fun v => repeat v (count_occ Nat.eq_dec atom_type v)) (seq (S s) n))); [|apply G].
  induction m as [|m IHm]; cbn; [apply IH|]. constructor; [exact IHm|]. apply Forall_forall. intros y Hy. apply in_app_or in Hy. destruct Hy as [Hy|Hy].
  - apply repeat_spec in Hy. lia.
  - apply in_flat_map in Hy. destruct Hy as (v & Hv & Hy). apply in_seq in Hv. apply repeat_spec in Hy. lia.
Qed.
Lemma sorted_unique (l m : list nat) : StronglySorted le l -> StronglySorted le m -> Permutation l m -> l = m.
Proof.
  revert m. induction l as [|a l IH]; intros m SL SM P; [apply Permutation_nil in P; symmetry; exact P|].
  destruct m as [|b m]; [apply Permutation_sym, Permutation_nil in P; discriminate|].
  apply StronglySorted_inv in SL. apply StronglySorted_inv in SM. destruct SL as [SL FL], SM as [SM FM]. rewrite Forall_forall in FL, FM.
  assert (a = b).
  { assert (A := Permutation_in a P (or_introl eq_refl)). assert (B := Permutation_in b (Permutation_sym P) (or_introl eq_refl)).
    destruct A as [A|A]; [congruence|]. destruct B as [B|B]; [congruence|]. specialize (FL b B). specialize (FM a A). lia. }
  subst b. f_equal. apply IH; [exact SL|exact SM|]. eapply Permutation_cons_inv. exact P.
Qed.
End Rows.

(** As many rows as atoms, and each atom has a row of its own: the rows are the rows of the atoms, in some order *)
Lemma first_index_spec v l : In v l -> (first_index v l < length l)%nat /\ nth (first_index v l) l 0%nat = v.
Proof. induction l as [|x l IH]; [intros []|]. cbn. intros H. destruct (Nat.eqb_spec x v) as [->|X]; [split; [lia|reflexivity]|]. destruct H as [H|H]; [congruence|]. destruct (IH H). split; [lia|assumption]. Qed.
(** the row an atom should have: its element and the tensor of its type *)
Definition own_row {E} (d : E) (cell_inv : mat) (c : coordinate_type) (elements : list E) (atom_type : list nat) (matrices : list mat) (k : nat) : E * list R :=
  (nth k elements d, adp_row (adp cell_inv (nth (nth k atom_type 0%nat) matrices mzero) c)).
Lemma own_rows {E} (d : E) cell_inv c elements atom_type matrices :
  (forall i j, (i < length atom_type)%nat -> (j < length atom_type)%nat -> nth i atom_type 0%nat = nth j atom_type 0%nat -> nth i elements d = nth j elements d) ->
  map (row_of d cell_inv c elements atom_type matrices) atom_type = map (own_row d cell_inv c elements atom_type matrices) (seq 0 (length atom_type)).
Proof.
  intros HE. rewrite (map_as_seq _ atom_type 0%nat). apply map_ext_in. intros k Hk. apply in_seq in Hk. unfold row_of, own_row. f_equal.
  destruct (first_index_spec (nth k atom_type 0%nat) atom_type) as [A B]; [apply nth_In; lia|]. apply HE; [exact A|lia|exact B].
Qed.
Theorem C131_parameters_rows : forall (E : Type) (d : E) cell_inv c elements atom_type matrices,
  (forall v, In v atom_type <-> (v < length matrices)%nat) ->
  (forall i j, (i < length atom_type)%nat -> (j < length atom_type)%nat -> nth i atom_type 0%nat = nth j atom_type 0%nat -> nth i elements d = nth j elements d) ->
  exists rows, displacement_rows d cell_inv c elements atom_type matrices = Some rows /\ length rows = length atom_type /\
  Permutation rows (map (own_row d cell_inv c elements atom_type matrices) (seq 0 (length atom_type))).
Proof.
  intros E d cell_inv c elements atom_type matrices H HE. exists (map (row_of d cell_inv c elements atom_type matrices) (printed_types atom_type (length matrices))).
  split; [apply rows_printed; exact H|]. assert (P := printed_permutation atom_type (length matrices) H).
  split; [rewrite map_length; apply Permutation_length; exact P|]. rewrite <- own_rows by exact HE. apply Permutation_map. exact P.
Qed.
Print Assumptions C131_parameters_rows.
(** Row k belongs to atom k if the atoms of a type stand together in the unit cell (then the types, numbered as they appear, increase along the list) *)
Theorem C131_parameters_order_partial : forall (E : Type) (d : E) cell_inv c elements atom_type matrices,
  (forall v, In v atom_type <-> (v < length matrices)%nat) ->
  (forall i j, (i < length atom_type)%nat -> (j < length atom_type)%nat -> nth i atom_type 0%nat = nth j atom_type 0%nat -> nth i elements d = nth j elements d) ->
  StronglySorted le atom_type ->
  displacement_rows d cell_inv c elements atom_type matrices = Some (map (own_row d cell_inv c elements atom_type matrices) (seq 0 (length atom_type))).
Proof.
  intros E d cell_inv c elements atom_type matrices H HE S. rewrite rows_printed by exact H. f_equal. rewrite <- own_rows by exact HE. f_equal.
  apply sorted_unique; [apply printed_sorted|exact S|apply printed_permutation; exact H].
Qed.
Print Assumptions C131_parameters_order_partial.
(** ... and only then: if the types of the atoms are of different elements and are mixed in the unit cell, some row stands at the place of an atom of another element *)
Theorem C131_parameters_order_refuted : forall (E : Type) (d : E) cell_inv c elements atom_type matrices,
  (forall v, In v atom_type <-> (v < length matrices)%nat) ->
  (forall i j, (i < length atom_type)%nat -> (j < length atom_type)%nat -> (nth i atom_type 0%nat = nth j atom_type 0%nat <-> nth i elements d = nth j elements d)) ->
  ~ StronglySorted le atom_type ->
  exists rows, displacement_rows d cell_inv c elements atom_type matrices = Some rows /\
  ~ (forall k, (k < length atom_type)%nat -> exists r, nth_error rows k = Some (nth k elements d, r)).
Proof.
  intros E d cell_inv c elements atom_type matrices H HE NS. exists (map (row_of d cell_inv c elements atom_type matrices) (printed_types atom_type (length matrices))).
  split; [apply rows_printed; exact H|]. intros G. apply NS.
  assert (P := printed_permutation atom_type (length matrices) H). assert (L := Permutation_length P).
  assert (X : printed_types atom_type (length matrices) = atom_type).
  { apply nth_ext with (d := 0%nat) (d' := 0%nat); [exact L|]. intros k Hk. rewrite L in Hk. destruct (G k Hk) as (r & Er).
    rewrite nth_error_map in Er. destruct (nth_error (printed_types atom_type (length matrices)) k) as [v|] eqn:V; [|discriminate]. cbn in Er.
    unfold row_of in Er. injection Er as Er _. rewrite (nth_error_nth _ k 0%nat V).
    destruct (first_index_spec v atom_type) as [A B]; [apply (Permutation_in v P); eapply nth_error_In; exact V|].
    apply HE in Er; [congruence|exact A|exact Hk]. }
  rewrite <- X. apply printed_sorted.
Qed.
Print Assumptions C131_parameters_order_refuted.

(** Atoms A B A of which the A are equivalent: the rows are A A B *)
Example C131_nonvacuous_rows : forall t0 t1,
  displacement_rows 0%nat mid Cart (7 :: 8 :: 7 :: nil)%nat (0 :: 1 :: 0 :: nil)%nat (t0 :: t1 :: nil) =
  Some ((7%nat, adp_row t0) :: (7%nat, adp_row t0) :: (8%nat, adp_row t1) :: nil).
Proof. intros. reflexivity. Qed.
(** One cubic cell with an atom at the origin and an equivalent one, both displaced by a tenth of the cell in every step: the report is wrong by a tenth *)
Example C131_nonvacuous : let cell := mdiag 10 10 10 in let u := fun _ _ : nat => V3 1 0 0 in
  let positions := V3 0 0 0 :: V3 5 5 5 :: nil in let trajectory := (V3 1 0 0 :: V3 6 5 5 :: nil) :: nil in
  is_inverse (mdiag (/10) (/10) (/10)) (mT cell) /\
  (forall t i, (t < 1)%nat -> (i < 2)%nat -> shows cell (nth i (get_positions cell positions (1 :: 1 :: 1 :: nil)%nat) vzero) (u t i) (nth i (nth t trajectory nil) vzero)) /\
  (forall a b c : Z, vscale (INR (count_occ Nat.eq_dec (0 :: 0 :: nil)%nat 0%nat) - 1) (mean_of_equivalent u 1 (0 :: 0 :: nil)%nat 1 0) <> vmul (V3 (IZR a) (IZR b) (IZR c)) cell).
Proof.
  cbv zeta. split; [split; apply mat_eq; apply vec_eq; unfold mmul, vmul, mdiag, mid, mT; cbn; lra|]. split.
  - intros t i Ht Hi. destruct t as [|t]; [|lia]. destruct i as [|[|i]]; [| |lia];
    exists (V3 (1/10) 0 0), 0%Z, 0%Z, 0%Z; cbn; (split; [apply vec_eq; cbn; lra|]); (repeat split; try lra); apply vec_eq; unfold lattice_translation; cbn; lra.
  - intros a b c H. unfold mean_of_equivalent, mean_in_time, equivalent_atoms, vmean in H. cbn in H. unfold vmul, vscale, vadd, mdiag in H; cbn in H. injection H as X _ _.
    assert (K : IZR (10 * a) = IZR 1) by (rewrite mult_IZR; cbn; lra). apply eq_IZR in K. lia.
Qed.
