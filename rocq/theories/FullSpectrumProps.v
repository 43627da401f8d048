(** C74: the full spectrum is the sum over atoms and coordinates, and its decompositions add up to it.
    C75: when the projection arguments are honoured. *)
From Verif Require Import FullSpectrumModel FullSpectrumSpec FullSpectrumProofs.
From Coq Require Import Lra.
Open Scope R_scope.

(** Without a projection, whatever the silent switch (which selects one of two code paths), the spectrum has one value per frequency,
    the sum over all atoms and coordinates of the spectrum of that column. *)
Theorem C74_full : forall (col : Type) (nf : nat) (power : col -> list R) s types dims v coordinate, (project_on_atom s < 0)%Z ->
  exists spectrum, get_power_spectrum_full col nf power s types dims v coordinate None = Some spectrum /\ length spectrum = nf /\
  forall k, (k < nf)%nat -> nth k spectrum 0 = double_sum (seq 0 (natoms v)) (seq 0 (ndims v)) (fun i j => nth k (power (at_ v i j)) 0).
Proof.
  intros col nf power s types dims v coordinate H. rewrite full_value. replace (0 <=? project_on_atom s)%Z with false by (symmetry; apply Z.leb_gt; lia).
  eexists. split; [reflexivity|]. split; [rewrite map_length, seq_length; reflexivity|]. intros k Hk.
  rewrite (nth_indep _ 0 (value col power v 0)) by (rewrite map_length, seq_length; lia). rewrite map_nth, seq_nth by lia. reflexivity.
Qed.
(** The silent switch never changes the result, projected or not, cached or not. *)
Theorem C74_silent : forall (col : Type) (nf : nat) (power : col -> list R) p types dims v coordinate cache,
  get_power_spectrum_full col nf power (MkS true p) types dims v coordinate cache =
  get_power_spectrum_full col nf power (MkS false p) types dims v coordinate cache.
Proof. intros. destruct cache as [x|]; [reflexivity|]. rewrite !full_value. reflexivity. Qed.
(** With a projection on a type present in the supercell: the sum over the atoms of that type and over all coordinates, or over the
    one coordinate asked for. *)
Theorem C74_projected : forall (col : Type) (nf : nat) (power : col -> list R) s types dims v coordinate,
  (0 <= project_on_atom s)%Z -> In (project_on_atom s) types -> (coordinate < Z.of_nat dims)%Z ->
  exists spectrum, get_power_spectrum_full col nf power s types dims v coordinate None = Some spectrum /\ length spectrum = nf /\
  forall k, (k < nf)%nat -> nth k spectrum 0 =
    double_sum (filter (fun i => Z.eqb (nth i types 0%Z) (project_on_atom s)) (seq 0 (length types)))
               (if Z.ltb coordinate 0 then seq 0 (ndims v) else [Z.to_nat coordinate]) (fun i j => nth k (power (at_ v i j)) 0).
Proof.
  intros col nf power s types dims v coordinate H0 Hin Hc. rewrite full_value. replace (0 <=? project_on_atom s)%Z with true by (symmetry; apply Z.leb_le; lia).
  cbv zeta. fold (indices_of types (project_on_atom s)).
  assert (N : indices_of types (project_on_atom s) <> []).
  { apply (In_nth _ _ 0%Z) in Hin. destruct Hin as (i & Hi & E). intros C. assert (In i (indices_of types (project_on_atom s))) as HI.
    { apply filter_In. split; [apply in_seq; lia|]. rewrite E. apply Z.eqb_refl. }
    rewrite C in HI. destruct HI. }
  destruct (Nat.eqb_spec (length (indices_of types (project_on_atom s))) 0) as [Z0|_]; [destruct (indices_of types (project_on_atom s)); [contradiction|discriminate]|].
  replace (Z.of_nat dims <=? coordinate)%Z with false by (symmetry; apply Z.leb_gt; lia).
  destruct (Z.ltb_spec (-1) coordinate) as [L|L]; destruct (Z.ltb_spec coordinate 0) as [L'|L']; try lia.
  - eexists. split; [reflexivity|]. split; [rewrite map_length, seq_length; reflexivity|]. intros k Hk.
    rewrite (nth_indep _ 0 (value col power (select_coordinate col v (indices_of types (project_on_atom s)) (Z.to_nat coordinate)) 0)) by (rewrite map_length, seq_length; lia). rewrite map_nth, seq_nth by lia.
    apply value_coordinate.
  - eexists. split; [reflexivity|]. split; [rewrite map_length, seq_length; reflexivity|]. intros k Hk.
    rewrite (nth_indep _ 0 (value col power (select_atoms col v (indices_of types (project_on_atom s))) 0)) by (rewrite map_length, seq_length; lia). rewrite map_nth, seq_nth by lia.
    apply value_atoms.
Qed.
(** Hence the projections add up: over the types to the full spectrum, over the coordinates to the projection on the type; and the
    per-atom partial spectra add up to the full spectrum. *)
Theorem C74_types_add_up : forall (col : Type) (nf : nat) (power : col -> list R) silent types dims v nt,
  length types = natoms v -> (forall t, In t types -> (0 <= t < Z.of_nat nt)%Z) -> (forall t, (0 <= t < Z.of_nat nt)%Z -> In t types) -> (0 < dims)%nat ->
  forall full, get_power_spectrum_full col nf power (MkS silent (-1)) types dims v (-1) None = Some full ->
  exists parts, map (fun t => get_power_spectrum_full col nf power (MkS silent (Z.of_nat t)) types dims v (-1) None) (seq 0 nt) = map Some parts /\
  forall k, (k < nf)%nat -> total (map (fun p => nth k p 0) parts) = nth k full 0.
Proof.
  intros col nf power silent types dims v nt Hl Ht Hp Hd full Hf.
  destruct (C74_full col nf power (MkS silent (-1)) types dims v (-1) ltac:(cbn; lia)) as (f' & E & _ & Hv). rewrite E in Hf. injection Hf as <-.
  exists (map (fun t => map (value col power (select_atoms col v (indices_of types (Z.of_nat t)))) (seq 0 nf)) (seq 0 nt)). split.
  - rewrite map_map. apply map_ext_in. intros t Hin. apply in_seq in Hin. rewrite full_value. cbn [project_on_atom].
    replace (0 <=? Z.of_nat t)%Z with true by (symmetry; apply Z.leb_le; lia). cbv zeta.
    assert (Hi := Hp (Z.of_nat t) ltac:(lia)). destruct (C74_projected col nf power (MkS silent (Z.of_nat t)) types dims v (-1)) as (sp & E' & _); [cbn; lia|exact Hi|lia|].
    rewrite full_value in E'. cbn [project_on_atom] in E'. replace (0 <=? Z.of_nat t)%Z with true in E' by (symmetry; apply Z.leb_le; lia). cbv zeta in E'.
    destruct (Nat.eqb _ 0); [discriminate|]. destruct (Z.of_nat dims <=? -1)%Z; [discriminate|]. reflexivity.
  - intros k Hk. rewrite Hv by exact Hk. rewrite map_map. unfold double_sum.
    rewrite <- Hl. rewrite <- (split_types types nt _ Ht). f_equal. apply map_ext. intros t.
    rewrite (nth_indep _ 0 (value col power (select_atoms col v (indices_of types (Z.of_nat t))) 0)) by (rewrite map_length, seq_length; lia). rewrite map_nth, seq_nth by lia.
    apply value_atoms.
Qed.
Theorem C74_coordinates_add_up : forall (col : Type) (nf : nat) (power : col -> list R) silent types v t,
  (0 <= t)%Z -> In t types -> exists whole parts,
  get_power_spectrum_full col nf power (MkS silent t) types (ndims v) v (-1) None = Some whole /\
  map (fun c => get_power_spectrum_full col nf power (MkS silent t) types (ndims v) v (Z.of_nat c) None) (seq 0 (ndims v)) = map Some parts /\
  forall k, (k < nf)%nat -> total (map (fun p => nth k p 0) parts) = nth k whole 0.
Proof.
  intros col nf power silent types v t H0 Hin.
  destruct (C74_projected col nf power (MkS silent t) types (ndims v) v (-1) H0 Hin ltac:(lia)) as (whole & E & _ & Hw). exists whole.
  exists (map (fun c => map (value col power (select_coordinate col v (indices_of types t) c)) (seq 0 nf)) (seq 0 (ndims v))). split; [exact E|]. split.
  - rewrite map_map. apply map_ext_in. intros c Hc. apply in_seq in Hc.
    destruct (C74_projected col nf power (MkS silent t) types (ndims v) v (Z.of_nat c) H0 Hin ltac:(lia)) as (sp & E' & _). rewrite E'. f_equal.
    rewrite full_value in E'. cbn [project_on_atom] in E'. replace (0 <=? t)%Z with true in E' by (symmetry; apply Z.leb_le; lia). cbv zeta in E'.
    destruct (Nat.eqb _ 0); [discriminate|]. destruct (Z.of_nat (ndims v) <=? Z.of_nat c)%Z; [discriminate|].
    replace (-1 <? Z.of_nat c)%Z with true in E' by (symmetry; apply Z.ltb_lt; lia). rewrite Nat2Z.id in E'. injection E' as E'. symmetry. exact E'.
  - intros k Hk. rewrite Hw by exact Hk. cbn [Z.ltb]. rewrite map_map. cbn [project_on_atom]. fold (indices_of types t).
    change (if (-1 <? 0)%Z then seq 0 (ndims v) else [Z.to_nat (-1)]) with (seq 0 (ndims v)). rewrite double_swap.
    f_equal. apply map_ext. intros c.
    rewrite (nth_indep _ 0 (value col power (select_coordinate col v (indices_of types t) c) 0)) by (rewrite map_length, seq_length; lia). rewrite map_nth, seq_nth by lia.
    cbn [plus]. rewrite value_coordinate, double_swap. cbn. unfold total. ring.
Qed.
Theorem C74_partials_add_up : forall (col : Type) (nf : nat) (power : col -> list R) silent types v coordinate, ndims v = 3%nat ->
  exists full rows, get_power_spectrum_full col nf power (MkS silent (-1)) types 3 v coordinate None = Some full /\
  get_power_spectrum_partials col nf power v = Some rows /\ length rows = nf /\
  forall k, (k < nf)%nat -> length (nth k rows []) = natoms v /\ total (nth k rows []) = nth k full 0 /\
    forall i, (i < natoms v)%nat -> nth i (nth k rows []) 0 = total (map (fun j => nth k (power (at_ v i j)) 0) [0; 1; 2]%nat).
Proof.
  intros col nf power silent types v coordinate H3.
  destruct (C74_full col nf power (MkS silent (-1)) types 3 v coordinate ltac:(cbn; lia)) as (full & E & _ & Hv). exists full.
  rewrite partials_value by lia. eexists. split; [exact E|]. split; [reflexivity|]. split; [rewrite map_length, seq_length; reflexivity|]. intros k Hk.
  set (F := fun k => map _ (seq 0 (natoms v))). rewrite (nth_indep _ [] (F 0%nat)) by (rewrite map_length, seq_length; lia). rewrite map_nth, seq_nth by lia. cbn [plus]. unfold F. clear F.
  split; [rewrite map_length, seq_length; reflexivity|]. split.
  - rewrite Hv by exact Hk. unfold double_sum. rewrite H3. f_equal. apply map_ext. intros i. cbn. unfold total. ring.
  - intros i Hi. set (F := fun i => _ + _ + _). rewrite (nth_indep _ 0 (F 0%nat)) by (rewrite map_length, seq_length; lia). rewrite map_nth, seq_nth by lia. cbn. unfold F, total. ring.
Qed.

(** C75.  The documented meaning of the argument ("projection on coordinate c") fails in two ways.  Without a projection on an atom
    type the argument is ignored, whatever it is and even when there is no such coordinate; *)
Theorem C75_coordinate_ignored_refuted : forall (col : Type) (nf : nat) (power : col -> list R) s types dims v c c' cache,
  (project_on_atom s < 0)%Z ->
  get_power_spectrum_full col nf power s types dims v c cache = get_power_spectrum_full col nf power s types dims v c' cache.
Proof.
  intros col nf power s types dims v c c' [x|] H; [reflexivity|]. rewrite !full_value.
  replace (0 <=? project_on_atom s)%Z with false by (symmetry; apply Z.leb_gt; lia). reflexivity.
Qed.
(** and a second request with another coordinate or another atom type returns the first result, even where a fresh one would refuse. *)
Theorem C75_second_request_refuted : forall (col : Type) (nf : nat) (power : col -> list R) s s' types dims v c c' first,
  get_power_spectrum_full col nf power s types dims v c None = Some first ->
  get_power_spectrum_full col nf power s' types dims v c' (Some first) = Some first.
Proof. reflexivity. Qed.
(** What does hold: on an empty cache with a projection on an atom type, an absent type or a coordinate out of range is refused, and
    every other request is answered (by C74_projected: with the projection asked for). *)
Theorem C75_fresh_request_partial : forall (col : Type) (nf : nat) (power : col -> list R) s types dims v c, (0 <= project_on_atom s)%Z ->
  (get_power_spectrum_full col nf power s types dims v c None = None <-> ~ In (project_on_atom s) types \/ (Z.of_nat dims <= c)%Z).
Proof.
  intros col nf power s types dims v c H0. split.
  - intros E. destruct (in_dec Z.eq_dec (project_on_atom s) types) as [Hin|Hn]; [|left; exact Hn]. right.
    destruct (Z.le_gt_cases (Z.of_nat dims) c) as [L|L]; [exact L|]. destruct (C74_projected col nf power s types dims v c H0 Hin ltac:(lia)) as (sp & E' & _). rewrite E in E'. discriminate.
  - intros HH. rewrite full_value. replace (0 <=? project_on_atom s)%Z with true by (symmetry; apply Z.leb_le; lia). cbv zeta.
    destruct (Nat.eqb_spec (length (indices_of types (project_on_atom s))) 0) as [_|N]; [reflexivity|].
    destruct HH as [Hn|L].
    + exfalso. destruct (indices_of types (project_on_atom s)) as [|i l] eqn:E; [apply N; reflexivity|].
      assert (Hi : In i (indices_of types (project_on_atom s))) by (rewrite E; left; reflexivity). apply filter_In in Hi. destruct Hi as [Hi Hq].
      apply in_seq in Hi. apply Z.eqb_eq in Hq. apply Hn. rewrite <- Hq. apply nth_In. lia.
    + replace (Z.of_nat dims <=? c)%Z with true by (symmetry; apply Z.leb_le; lia). reflexivity.
Qed.

(** The setter accepts exactly the types that occur (the number of primitive atoms is the number of distinct types, and these are
    0, 1, ...: C05), records the type asked for, and what it accepts is never refused by the next spectrum for the absence of atoms. *)
Theorem C75_setter_partial : forall types nprimitive t s, (forall x, In x types <-> (0 <= x < Z.of_nat nprimitive)%Z) ->
  (set_projection_onto_atom_type nprimitive t s <> None <-> In t types) /\
  (forall s', set_projection_onto_atom_type nprimitive t s = Some s' -> project_on_atom s' = t /\ silent s' = silent s /\
   forall (col : Type) nf (power : col -> list R) dims v c, (c < Z.of_nat dims)%Z -> get_power_spectrum_full col nf power s' types dims v c None <> None).
Proof.
  intros types n t s Ht. 
  assert (A : set_projection_onto_atom_type n t s <> None <-> In t types).
  { rewrite Ht. unfold set_projection_onto_atom_type. destruct (Z.leb_spec 0 t) as [A|A]; destruct (Z.ltb_spec t (Z.of_nat n)) as [B|B]; cbn [andb]; split;
    first [discriminate | lia | (intros Es; exfalso; apply Es; reflexivity) | (intros ? ?; lia) | (intros _ Es; discriminate Es)]. }
  split; [exact A|]. intros s' E. assert (Hin : In t types) by (apply A; congruence). assert (Hb := proj1 (Ht t) Hin).
  unfold set_projection_onto_atom_type in E. destruct ((0 <=? t)%Z && (t <? Z.of_nat n)%Z)%bool; [|discriminate]. injection E as <-.
  split; [reflexivity|]. split; [reflexivity|]. intros col nf power dims v c Hc C.
  apply C75_fresh_request_partial in C; [|cbn; lia]. cbn [project_on_atom] in C. destruct C as [C|C]; [contradiction|lia].
Qed.

(** Two atoms of types 0 and 1 in three dimensions, three frequencies: the hypotheses are met and the projections differ. *)
Definition demo : varray (list R) := MkV 2 3 (fun i j => [INR i; INR j; 1]).
Example C74_nonvacuous : forall x0 x1, 
  get_power_spectrum_full (list R) 3 (fun x => x) (MkS true 0) [0; 1]%Z 3 demo 1 None = Some x0 ->
  get_power_spectrum_full (list R) 3 (fun x => x) (MkS true 1) [0; 1]%Z 3 demo 1 None = Some x1 ->
  nth 0 x0 0 = 0 /\ nth 0 x1 0 = 1 /\ nth 1 x0 0 = 1 /\ nth 2 x1 0 = 1.
Proof. intros x0 x1 H0 H1. vm_compute in H0, H1. injection H0 as <-. injection H1 as <-. cbn. repeat split; ring. Qed.
Example C74_types_nonvacuous : length [0; 1]%Z = natoms demo /\ (forall t, In t [0; 1]%Z -> (0 <= t < Z.of_nat 2)%Z) /\ (forall t, (0 <= t < Z.of_nat 2)%Z -> In t [0; 1]%Z) /\ ndims demo = 3%nat.
Proof. split; [reflexivity|]. split; [intros t [<- | [<- | []]]; lia|]. split; [|reflexivity]. intros t H. assert (t = 0 \/ t = 1)%Z as [-> | ->] by lia; cbn; auto. Qed.
Example C75_nonvacuous : get_power_spectrum_full (list R) 3 (fun x => x) (MkS true 2) [0; 1]%Z 3 demo 1 None = None /\
  get_power_spectrum_full (list R) 3 (fun x => x) (MkS true (-1)) [0; 1]%Z 3 demo 7 None <> None /\
  (forall x, In x [0; 1]%Z <-> (0 <= x < Z.of_nat 2)%Z).
Proof.
  split; [reflexivity|]. split; [discriminate|]. intros x. cbn [In]. lia.
Qed.
Print Assumptions C74_full. Print Assumptions C74_silent. Print Assumptions C74_projected. Print Assumptions C74_types_add_up.
Print Assumptions C74_coordinates_add_up. Print Assumptions C74_partials_add_up. Print Assumptions C75_coordinate_ignored_refuted.
Print Assumptions C75_second_request_refuted. Print Assumptions C75_fresh_request_partial.
Print Assumptions C75_setter_partial.
