(** C108: densities of states and thermal properties from lattice dynamics are per unit cell. *)
From Verif Require Import PhonopyDosModel.
From Coq Require Import Lia Lra.
Open Scope R_scope.

(** ---------- specification ---------- *)
(** a quadrature on a frequency grid: linear in the values (Simpson's rule, trapezoids, sums ...) *)
Definition linear (I : list R -> list R -> R) : Prop :=
  (forall f k d, I f (map (fun x => x * k) d) = I f d * k).
(** entry by entry sum of densities given on the same n frequencies *)
Definition pointwise_sum (n : nat) (l : list (list R)) : list R := map (fun i => fold_right Rplus 0 (map (fun d => nth i d 0) l)) (seq 0 n).
(** spacing of a grid *)
Definition spaced (h : R) (f : list R) : Prop := forall i, (S i < List.length f)%nat -> nth (S i) f 0 - nth i f 0 = h.

Section Props.
Context {FC S0 Mesh V : Type}.
Notation structure := (@structure FC S0).
Notation constants := (@constants FC S0).
Context (total_dos : @phonon FC S0 -> Mesh -> option R -> option R -> option R -> list R * list R)
        (projected_dos : @phonon FC S0 -> Mesh -> option R -> option R -> list R * list (list R))
        (thermal : @phonon FC S0 -> Mesh -> R -> R * R * R)
        (group_velocity : @phonon FC S0 -> list R -> V).
Notation dos := (obtain_phonopy_dos total_dos projected_dos).
(** the phonopy computation the user asked for: the given force constants, or those of the structure *)
Definition uses (s : structure) (fc : option constants) (nac : bool) (ph : phonon) : Prop :=
  exists f, (fc = Some f \/ fc = None /\ forces s = Some f) /\ ph_array ph = fc_array f /\ ph_supercell ph = fc_supercell f /\ ph_nac ph = nac.
Lemma prepare_ok s fc nac : (fc <> None \/ forces s <> None) -> exists ph, prepare s fc nac = Some ph /\ uses s fc nac ph.
Proof.
  intros H. destruct fc as [f|]; cbn.
  - eexists. split; [reflexivity|]. exists f. cbn. auto.
  - destruct (forces s) as [f|] eqn:E; [|destruct H as [H|H]; congruence]. eexists. split; [reflexivity|]. exists f. cbn. auto.
Qed.
Lemma uses_unique s fc nac p q : uses s fc nac p -> uses s fc nac q -> p = q.
Proof.
  intros (f & H & A & B & C) (g & H' & A' & B' & C'). assert (f = g) by (destruct H as [->|[-> H]], H' as [H'|[H'' H']]; congruence). subst g. destruct p, q; cbn in *. congruence.
Qed.

(** the density of states of a primitive cell integrates to 3 per atom of the primitive cell; the value returned integrates to 3 per atom of the unit cell, on the
    frequencies of phonopy, and it is the density of the force constants asked for *)
Theorem C108_total_dos_per_unit_cell : forall s mesh fc fmin fmax pitch proj nac ph I, linear I -> (0 < number_of_primitive_atoms s)%nat -> (proj < 0)%Z ->
  uses s fc nac ph ->
  exists d, dos s mesh fc fmin fmax pitch proj nac = Some (fst (total_dos ph mesh fmin fmax pitch), d) /\ List.length d = List.length (snd (total_dos ph mesh fmin fmax pitch)) /\
  (I (fst (total_dos ph mesh fmin fmax pitch)) (snd (total_dos ph mesh fmin fmax pitch)) = 3 * INR (number_of_primitive_atoms s) ->
   I (fst (total_dos ph mesh fmin fmax pitch)) d = 3 * INR (number_of_atoms s)).
Proof.
  intros s mesh fc fmin fmax pitch proj nac ph I L Hp Hj U.
  destruct (prepare_ok s fc nac) as (ph' & E & U'). { destruct U as (f & [->|[_ H]] & _); [left; discriminate|right; congruence]. }
  assert (ph' = ph) by (eapply uses_unique; eassumption). subst ph'. unfold obtain_phonopy_dos. rewrite E. replace (proj <? 0)%Z with true by (symmetry; apply Z.ltb_lt; exact Hj).
  destruct (total_dos ph mesh fmin fmax pitch) as [f d]. cbn [fst snd]. eexists. split; [reflexivity|]. split; [apply map_length|]. intros H. rewrite (L f (relation s) d), H. unfold relation. assert (0 < INR (number_of_primitive_atoms s)) by (apply lt_0_INR; exact Hp). field. lra.
Qed.
(** projected densities: number k is phonopy's density of the atom k of the primitive cell, and together they make up the total; other numbers are refused *)
Theorem C108_projected_dos : forall s mesh fc fmin fmax pitch nac ph, (0 < number_of_primitive_atoms s)%nat -> uses s fc nac ph ->
  let (f, rows) := projected_dos ph mesh fmin fmax in
  let r := INR (number_of_atoms s) / INR (number_of_primitive_atoms s) in
  (forall k, (k < List.length rows)%nat -> dos s mesh fc fmin fmax pitch (Z.of_nat k) nac = Some (f, map (fun x => x * r) (nth k rows []))) /\
  (forall k, (List.length rows <= k)%nat -> dos s mesh fc fmin fmax pitch (Z.of_nat k) nac = None) /\
  (forall t, (forall row, In row rows -> List.length row = List.length f) -> t = pointwise_sum (List.length f) rows ->
   exists parts, List.length parts = List.length rows /\ (forall k p, nth_error parts k = Some p -> dos s mesh fc fmin fmax pitch (Z.of_nat k) nac = Some (f, p)) /\
     pointwise_sum (List.length f) parts = map (fun x => x * r) t).
Proof.
  intros s mesh fc fmin fmax pitch nac ph Hp U. destruct (prepare_ok s fc nac) as (ph' & E & U'). { destruct U as (f & [->|[_ H]] & _); [left; discriminate|right; congruence]. }
  assert (ph' = ph) by (eapply uses_unique; eassumption). subst ph'. destruct (projected_dos ph mesh fmin fmax) as [f rows] eqn:Ep. intros r.
  assert (A : forall k, dos s mesh fc fmin fmax pitch (Z.of_nat k) nac = match nth_error rows k with Some d => Some (f, map (fun x => x * r) d) | None => None end).
  { intros k. unfold obtain_phonopy_dos. rewrite E. replace (Z.of_nat k <? 0)%Z with false by (symmetry; apply Z.ltb_ge; lia). rewrite Ep, Nat2Z.id. destruct (nth_error rows k); reflexivity. }
  split; [|split].
  - intros k Hk. rewrite A. rewrite (nth_error_nth' rows [] Hk). reflexivity.
  - intros k Hk. rewrite A. rewrite (proj2 (nth_error_None rows k) Hk). reflexivity.
  - intros t Hl ->. exists (map (map (fun x => x * r)) rows). split; [apply map_length|]. split.
    + intros k p Hk. rewrite A. rewrite nth_error_map in Hk. destruct (nth_error rows k); cbn in Hk; [injection Hk as <-; reflexivity|discriminate].
    + unfold pointwise_sum. rewrite map_map. apply map_ext. intros i. clear. induction rows as [|row rows IH]; cbn [map fold_right]; [ring|]. rewrite IH.
      replace (nth i (map (fun x => x * r) row) 0) with (nth i row 0 * r); [ring|]. destruct (Nat.lt_ge_cases i (List.length row)) as [H|H].
      * rewrite (nth_indep (map (fun x => x * r) row) 0 (0 * r)) by (rewrite map_length; exact H). rewrite (map_nth (fun x => x * r)). reflexivity.
      * rewrite !nth_overflow by (rewrite ?map_length; exact H). ring.
Qed.
(** the requested spacing is not handed over when projecting: whatever spacing is asked for, the result is the same *)
Theorem C108_projected_pitch_refuted : forall s mesh fc fmin fmax k nac f d h, dos s mesh fc fmin fmax None (Z.of_nat k) nac = Some (f, d) -> (2 <= List.length f)%nat -> spaced h f ->
  forall pitch, pitch <> h -> exists g e, dos s mesh fc fmin fmax (Some pitch) (Z.of_nat k) nac = Some (g, e) /\ ~ spaced pitch g.
Proof.
  intros s mesh fc fmin fmax k nac f d h H L Sp pitch N. exists f, d. split.
  - unfold obtain_phonopy_dos in *. destruct (prepare s fc nac) as [ph|]; [|exact H]. replace (Z.of_nat k <? 0)%Z with false in * by (symmetry; apply Z.ltb_ge; lia). exact H.
  - intros C. apply N. rewrite <- (C 0%nat ltac:(lia)). apply Sp. lia.
Qed.
(** thermal properties: those of phonopy at the temperature asked for, times the number of primitive cells in a unit cell *)
Theorem C108_thermal_per_unit_cell : forall s T mesh fc nac ph, (0 < number_of_primitive_atoms s)%nat -> uses s fc nac ph ->
  exists F E C, thermal ph mesh T = (F, E, C) /\
  obtain_phonopy_thermal_properties thermal s T mesh fc nac =
    Some (F * (INR (number_of_atoms s) / INR (number_of_primitive_atoms s)), E * (INR (number_of_atoms s) / INR (number_of_primitive_atoms s)), C * (INR (number_of_atoms s) / INR (number_of_primitive_atoms s))).
Proof.
  intros s T mesh fc nac ph Hp U. destruct (prepare_ok s fc nac) as (ph' & Eq & U'). { destruct U as (f & [->|[_ H]] & _); [left; discriminate|right; congruence]. }
  assert (ph' = ph) by (eapply uses_unique; eassumption). subst ph'. destruct (thermal ph mesh T) as [[F E] C] eqn:Et. exists F, E, C. split; [reflexivity|].
  assert (Ts : temperatures T T 1 = [T]).
  { unfold temperatures, arange. replace ((T + 1 / 2 - T) / 1) with (1 / 2) by field. unfold rceil. rewrite (rfloor_unique (- (1 / 2)) (-1)) by lra. change (Z.to_nat (- -1)) with 1%nat. cbn [seq map INR]. f_equal. ring. }
  unfold obtain_phonopy_thermal_properties. rewrite Eq, Ts. cbn [map rsum fold_right]. rewrite Et. cbn [fst snd]. unfold relation. rewrite !Rplus_0_r. reflexivity.
Qed.
(** group velocities: those of phonopy at the wave vector, for the force constants asked for *)
Theorem C108_group_velocity : forall s q fc nac ph, uses s fc nac ph -> obtain_phonopy_group_velocity group_velocity s q fc nac = Some (group_velocity ph q).
Proof.
  intros s q fc nac ph U. destruct (prepare_ok s fc nac) as (ph' & Eq & U'). { destruct U as (f & [->|[_ H]] & _); [left; discriminate|right; congruence]. }
  assert (ph' = ph) by (eapply uses_unique; eassumption). subst ph'. unfold obtain_phonopy_group_velocity. rewrite Eq. reflexivity.
Qed.
(** without force data and without given force constants there is no answer *)
Theorem C108_no_forces : forall s mesh fmin fmax pitch proj nac T q, forces s = None ->
  dos s mesh None fmin fmax pitch proj nac = None /\ obtain_phonopy_thermal_properties thermal s T mesh None nac = None /\ obtain_phonopy_group_velocity group_velocity s q None nac = None.
Proof. intros s mesh fmin fmax pitch proj nac T q H. unfold obtain_phonopy_dos, obtain_phonopy_thermal_properties, obtain_phonopy_group_velocity, prepare. rewrite H. auto. Qed.
(** every curve of the full spectrum plot has the name of what it shows *)
Theorem C108_legend : forall s mesh renormalized range spectrum resolution proj nac curves,
  forces s <> None \/ renormalized = None ->
  plot_power_spectrum_full total_dos projected_dos s mesh renormalized range spectrum resolution proj nac = Some curves ->
  nth_error curves 0 = Some ("Power spectrum (MD)"%string, (range, spectrum)) /\
  (forall x, In ("DoS (Harmonic)"%string, x) curves <-> forces s <> None /\ dos s mesh None (Some (hd 0 range)) (Some (last range 0)) (Some resolution) proj nac = Some x) /\
  (forall x, In ("DoS (Renormalized)"%string, x) curves <-> exists f, renormalized = Some f /\ dos s mesh (Some f) (Some (hd 0 range)) (Some (last range 0)) (Some resolution) proj nac = Some x).
Proof.
  intros s mesh renormalized range spectrum resolution proj nac curves Hf H. destruct range as [|f0 range]; [discriminate|]. unfold plot_power_spectrum_full in H.
  assert (El : forall d : R, last (f0 :: range) d = last (f0 :: range) f0). { clear. revert f0. induction range as [|a l IH]; intros f0 d; [reflexivity|]. change (last (a :: l) d = last (a :: l) f0). rewrite (IH a d), (IH a f0). reflexivity. }
  cbn [hd]. rewrite (El 0). set (D := fun fc => dos s mesh fc (Some f0) (Some (last (f0 :: range) f0)) (Some resolution) proj nac) in *.
  change (dos s mesh None (Some f0) (Some (last (f0 :: range) f0)) (Some resolution) proj nac) with (D None) in *.
  assert (N : forall (a b : string) (x y : list R * list R), a <> b -> (a, x) <> (b, y)) by (intros; congruence).
  destruct (forces s) as [f|] eqn:Ef.
  - destruct (D None) as [h|] eqn:Eh; [|discriminate]. destruct renormalized as [g|].
    + change (dos s mesh (Some g) (Some f0) (Some (last (f0 :: range) f0)) (Some resolution) proj nac) with (D (Some g)) in H.
      destruct (D (Some g)) as [r|] eqn:Er; [|discriminate]. injection H as <-. cbn [app combine nth_error In]. split; [reflexivity|]. split; intros x; split.
      * intros [H|[H|[H|[]]]]; [discriminate| |discriminate]. injection H as <-. split; [discriminate|reflexivity].
      * intros [_ H]. injection H as <-. auto.
      * intros [H|[H|[H|[]]]]; [discriminate|discriminate|]. injection H as <-. exists g. split; [reflexivity|exact Er].
      * intros (g' & Hg & H). injection Hg as <-. change (D (Some g) = Some x) in H. rewrite Er in H. injection H as <-. auto.
    + injection H as <-. cbn [app combine nth_error In]. split; [reflexivity|]. split; intros x; split.
      * intros [H|[H|[]]]; [discriminate|]. injection H as <-. split; [discriminate|reflexivity].
      * intros [_ H]. injection H as <-. auto.
      * intros [H|[H|[]]]; discriminate.
      * intros (g' & Hg & _). discriminate.
  - destruct Hf as [Hf|Hf]; [congruence|]. subst renormalized. injection H as <-. cbn [app combine nth_error In]. split; [reflexivity|]. split; intros x; split.
    + intros [H|[]]; discriminate.
    + intros [H _]. congruence.
    + intros [H|[]]; discriminate.
    + intros (g' & Hg & _). discriminate.
Qed.
Theorem C108_dos_plot : forall s mesh fc proj nac curves, plot_dos_phonopy total_dos projected_dos s mesh fc proj nac = Some curves ->
  (forall x, In ("Harmonic"%string, x) curves <-> dos s mesh None None None None proj nac = Some x) /\
  (forall x, In ("Renormalized"%string, x) curves <-> exists f, fc = Some f /\ dos s mesh (Some f) None None None proj nac = Some x).
Proof.
  intros s mesh fc proj nac curves H. unfold plot_dos_phonopy in H. destruct (dos s mesh None None None None proj nac) as [h|] eqn:Eh; [|discriminate]. destruct fc as [f|].
  - destruct (dos s mesh (Some f) None None None proj nac) as [r|] eqn:Er; [|discriminate]. injection H as <-. split; intros x; cbn [In]; split.
    + intros [H|[H|[]]]; [injection H as <-; reflexivity|discriminate].
    + intros H. injection H as <-. auto.
    + intros [H|[H|[]]]; [discriminate|]. injection H as <-. exists f. auto.
    + intros (g & Hg & H). injection Hg as <-. rewrite Er in H. injection H as <-. auto.
  - injection H as <-. split; intros x; cbn [In]; split.
    + intros [H|[]]. injection H as <-. reflexivity.
    + intros H. injection H as <-. auto.
    + intros [H|[]]; discriminate.
    + intros (g & Hg & _). discriminate.
Qed.
End Props.
Print Assumptions C108_total_dos_per_unit_cell.
Print Assumptions C108_projected_dos.
Print Assumptions C108_projected_pitch_refuted.
Print Assumptions C108_thermal_per_unit_cell.
Print Assumptions C108_group_velocity.
Print Assumptions C108_no_forces.
Print Assumptions C108_legend.
Print Assumptions C108_dos_plot.

(** a unit cell of two primitive cells of one atom each *)
Example C108_nonvacuous :
  let s := MkStruct (Some (MkFC tt tt)) 2 1 in
  let td (_ : @phonon unit unit) (_ : unit) (_ _ _ : option R) := ([0; 1; 2], [1; 1; 1]) in
  let pd (_ : @phonon unit unit) (_ : unit) (_ _ : option R) := ([0; 1; 2], [[1; 1; 1]]) in
  (linear (fun _ d => rsum d)) /\ uses s None false (MkPhonon tt tt false) /\
  obtain_phonopy_dos td pd s tt None None None None (-1) false = Some ([0; 1; 2], [1 * (2 / 1); 1 * (2 / 1); 1 * (2 / 1)]) /\ spaced 1 [0; 1; 2].
Proof.
  split; [|split; [|split]].
  - intros _ k d. unfold rsum. induction d as [|x d IH]; cbn; [ring|]. rewrite IH. ring.
  - exists (MkFC tt tt). cbn. auto.
  - reflexivity.
  - intros [|[|i]] H; cbn in *; try lra; lia.
Qed.
