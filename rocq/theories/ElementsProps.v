(** C56: element tables; C65: types by element; C66: FORCE_SETS check; C67: XSF export. *)
From Verif Require Import ElementsModel ElementsSpec ElementsProofs.
From Coq Require Import List.
Open Scope R_scope.
Opaque atom_data symbol_map.
Lemma Forall2_length {A B} {P : A -> B -> Prop} {l r} : Forall2 P l r -> List.length l = List.length r.
Proof. induction 1; cbn; congruence. Qed.

(** The number the symbol table gives for a symbol is the position of the symbol in the data table, and every symbol of the data
    table but the placeholder X is in the symbol table. *)
Theorem C56_tables : forall e n, symbol_number symbol_map e = Some n <-> e <> "X"%string /\ exists m, tabulated e n m.
Proof.
  intros e n. split.
  - intros H. split; [intros ->; rewrite X_unknown in H; discriminate|apply known_row, H].
  - intros [N [m H]]. eapply tabulated_known; eassumption.
Qed.
Theorem C56_one_row : forall e n m n' m', tabulated e n m -> tabulated e n' m' -> n = n' /\ m = m'.
Proof. exact tabulated_fun. Qed.
(** A structure made from element names has the numbers and masses of those elements; a name that is not in the table is refused. *)
Theorem C56_from_elements : forall es,
  (forall sp, init_species None None (Some es) = Some sp -> exists numbers, sp_elements sp = Some es /\ sp_numbers sp = Some numbers /\
     List.length numbers = List.length es /\ List.length (sp_masses sp) = List.length es /\
     forall i e, nth_error es i = Some e -> exists n m, nth_error numbers i = Some n /\ nth_error (sp_masses sp) i = Some m /\ tabulated e n m) /\
  (init_species None None (Some es) = None <-> exists e, In e es /\ forall n m, tabulated e n m -> e = "X"%string).
Proof.
  assert (D : forall es ns, Forall2 (fun e n => exists m, tabulated e n m) es ns -> exists ms, all_defined (map (fun i => option_map row_mass (nth_error atom_data i)) ns) = Some ms /\
    Forall2 (fun n m => option_map row_mass (nth_error atom_data n) = Some m) ns ms).
  { induction 1 as [|e n es ns [m H] _ (ms & E & F)]; [exists []; split; constructor|]. exists (m :: ms). cbn [map all_defined]. rewrite (tabulated_at _ _ _ H), E. split; [reflexivity|]. constructor; [apply (tabulated_at _ _ _ H)|exact F]. }
  intros es. destruct (all_defined (map (symbol_number symbol_map) es)) as [ns|] eqn:E.
  - assert (F := all_defined_forall2 _ _ _ E). assert (F' : Forall2 (fun e n => exists m, tabulated e n m) es ns) by (clear - F; induction F; constructor; [apply known_row; assumption|assumption]).
    destruct (D _ _ F') as (ms & Em & Fm). assert (I : init_species None None (Some es) = Some (MkSpecies (Some es) (Some ns) ms)) by (unfold init_species; rewrite E, Em; reflexivity).
    rewrite I. split.
    + intros sp H. injection H as <-. exists ns. cbn. split; [reflexivity|]. split; [reflexivity|]. split; [symmetry; eapply Forall2_length, F'|]. split; [rewrite <- (Forall2_length Fm); symmetry; eapply Forall2_length, F'|].
      clear - F' Fm. revert ms Fm. induction F' as [|e n es ns [m H] _ IH]; intros ms Fm i e' Hi; [destruct i; discriminate|]. inversion Fm as [|? m' ? ms' Hm Fm']; subst. destruct i as [|i]; cbn in Hi.
      * injection Hi as <-. exists n, m'. cbn. split; [reflexivity|]. split; [reflexivity|]. rewrite (tabulated_at _ _ _ H) in Hm. injection Hm as <-. exact H.
      * cbn. apply IH; assumption.
    + split; [discriminate|]. intros (e & He & Hx). exfalso.
      assert (K : symbol_number symbol_map e <> None) by (assert (A : Forall (fun x => symbol_number symbol_map x <> None) es) by (apply all_defined_map; eexists; exact E); rewrite Forall_forall in A; apply A, He).
      destruct (symbol_number symbol_map e) as [n|] eqn:Ee; [|contradiction]. apply C56_tables in Ee. destruct Ee as [N [m H]]. apply N. eapply Hx, H.
  - assert (I : init_species None None (Some es) = None) by (unfold init_species; rewrite E; reflexivity). rewrite I. split; [discriminate|]. split; [|reflexivity]. intros _.
    assert (A : ~ Forall (fun x => symbol_number symbol_map x <> None) es) by (intros A; apply all_defined_map in A; destruct A; congruence).
    clear - A. induction es as [|e es IH]; [exfalso; apply A; constructor|]. destruct (symbol_number symbol_map e) as [n|] eqn:Ee.
    + destruct IH as (e' & He & Hx); [intros F; apply A; constructor; [congruence|exact F]|]. exists e'. split; [right; exact He|exact Hx].
    + exists e. split; [left; reflexivity|]. intros n m H. destruct (string_dec e "X") as [X|X]; [exact X|]. rewrite (tabulated_known _ _ _ H X) in Ee. discriminate.
Qed.
(** When every mass prints, with one decimal, like the positive mass of a tabulated element, the constructor recovers exactly
    those elements, one per atom, and their numbers. *)
Theorem C56_from_masses_partial : forall masses es, Forall2 tells masses es ->
  exists numbers, init_species (Some masses) None None = Some (MkSpecies (Some es) (Some numbers) masses) /\ Forall2 (fun e n => exists m, tabulated e n m) es numbers.
Proof. exact init_masses_exact. Qed.
Theorem C56_identified_once : forall x e e', tells x e -> tells x e' -> e = e'.
Proof. intros x e e' H H'. apply tells_of_mass in H, H'. congruence. Qed.
(** Otherwise there is not one element per atom: whenever construction from masses succeeds there are at most as many elements
    as atoms, and fewer as soon as one mass is not that of a tabulated element. *)
Theorem C56_from_masses_refuted : forall masses sp, init_species (Some masses) None None = Some sp ->
  exists es, sp_elements sp = Some es /\ (List.length es <= List.length masses)%nat /\
  (List.length es = List.length masses <-> forall x, In x masses -> exists e, tells x e).
Proof.
  intros masses sp H. destruct (init_masses_some _ _ H) as [E F]. exists (elements_of_masses masses). split; [exact E|]. rewrite elements_flat. clear E H.
  assert (G : (List.length (flat_map of_mass masses) <= List.length masses)%nat /\ (List.length (flat_map of_mass masses) = List.length masses <-> forall x, In x masses -> exists e, tells x e)); [|exact G].
  induction F as [|x l A F [IH1 IH2]]; [split; [cbn; lia|split; [intros _ x []|reflexivity]]|]. cbn [flat_map]. rewrite app_length. cbn [List.length].
  destruct A as [[e T]|N].
  - rewrite (tells_of_mass _ _ T). cbn [List.length]. split; [lia|]. split.
    + intros L y [<-|Hy]; [exists e; exact T|]. apply IH2; [lia|exact Hy].
    + intros K. rewrite (proj2 IH2); [reflexivity|]. intros y Hy. apply K. right. exact Hy.
  - rewrite N. cbn [List.length]. split; [lia|]. split; [lia|]. intros K. destruct (K x (or_introl eq_refl)) as [e T]. apply tells_of_mass in T. congruence.
Qed.
(** In particular a structure holding an element without tabulated mass (Tc, Pm, Po, ...), whose masses the constructor itself
    fills with 0, cannot be built again from its masses: the constructor raises. *)
Theorem C56_massless_refuted : forall es sp, init_species None None (Some es) = Some sp -> (exists e, In e es /\ massless e) ->
  init_species (Some (sp_masses sp)) None None = None.
Proof.
  intros es sp H (e & He & [n Hn]). destruct (C56_from_elements es) as [A _]. destruct (A _ H) as (numbers & _ & _ & _ & _ & K).
  apply In_nth_error in He. destruct He as [i Hi]. destruct (K _ _ Hi) as (n' & m & _ & Hm & T). destruct (tabulated_fun _ _ _ _ _ T Hn) as [_ ->].
  destruct (init_species (Some (sp_masses sp)) None None) as [sp'|] eqn:E; [|reflexivity]. exfalso. apply init_masses_some in E. destruct E as [_ F]. rewrite Forall_forall in F.
  apply nth_error_In in Hm. assert (Z0 : tenths 0 = 0%Z) by (unfold tenths; rewrite Rmult_0_r; change 0 with (IZR 0); apply (Rounding.around_IZR 0)).
  destruct (F _ Hm) as [(e' & T')|N].
  - destruct T' as (n2 & m2 & (name & z & I & ->) & P & S). unfold same_digits in S. rewrite Z0 in S. change (IZR z / 100000000) with (row_mass (n2, e', name, z)) in S, P. rewrite tenths_row in S. apply (mass_pos _ I) in P. apply P. apply (mass_zero _ I). symmetry. exact S.
  - rewrite of_mass_filter, Z0 in N. assert (J : In X_row (filter (fun j => Z.eqb 0 (zt j)) atom_data)) by (apply filter_In; split; [apply X_in|reflexivity]). destruct (filter _ atom_data); [contradiction|discriminate].
Qed.
(** The masses are the standard atomic weights, within 0.02 u. *)
Theorem C56_standard_weights : forall e w, In (e, w) standard_weights -> exists n m, tabulated e n m /\ Rabs (m - IZR w / 1000) <= 2 / 100.
Proof.
  assert (C : forallb (fun ew : string * Z => existsb (fun r : nat * string * string * Z => let '(_, s, _, z) := r in String.eqb s (fst ew) && (Z.abs (z - 100000 * snd ew) <=? 2000000)%Z) atom_data) standard_weights = true) by (vm_compute; reflexivity).
  intros e w H. rewrite forallb_forall in C. specialize (C _ H). apply existsb_exists in C as ([[[n s] name] z] & I & E). cbn [fst snd] in E. apply andb_true_iff in E as [E1 E2].
  apply String.eqb_eq in E1. subst s. apply Z.leb_le in E2. exists n, (IZR z / 100000000). split; [exists name, z; split; [exact I|reflexivity]|].
  assert (E2' : (- 2000000 <= z - 100000 * w <= 2000000)%Z) by lia. destruct E2' as [A B]. apply IZR_le in A, B. rewrite minus_IZR, mult_IZR in A, B. apply Rabs_le. lra.
Qed.
Print Assumptions C56_tables.
Print Assumptions C56_standard_weights.
Print Assumptions C56_one_row.
Print Assumptions C56_from_elements.
Print Assumptions C56_from_masses_partial.
Print Assumptions C56_identified_once.
Print Assumptions C56_from_masses_refuted.
Print Assumptions C56_massless_refuted.
Transparent atom_data symbol_map.
(** heavy hydrogen (2.0) is not tabulated: the structure is built with no element at all *)
Example C56_nonvacuous_unknown : init_species (Some [2]) None None = Some (MkSpecies (Some []) (Some []) [2]).
Proof.
  rewrite init_masses, elements_flat. cbn [flat_map]. rewrite of_mass_filter. unfold tenths. replace (10 * 2) with (IZR 20) by (cbn; lra). rewrite around_IZR.
  replace (filter (fun j => Z.eqb 20 (zt j)) atom_data) with (@nil (nat * string * string * Z)) by (vm_compute; reflexivity). reflexivity.
Qed.
Example C56_nonvacuous : Forall2 tells [281/10; 16; 281/10] ["Si"; "O"; "Si"]%string.
Proof.
  assert (T : forall x k e n name z, 10 * x = IZR k -> In (n, e, name, z) atom_data -> (0 < z)%Z -> zhalf z 10000000 = k -> tells x e).
  { intros x k e n name z E I P Q. exists n, (IZR z / 100000000). split; [exists name, z; split; [exact I|reflexivity]|]. split; [apply IZR_lt in P; lra|].
    unfold same_digits. change (IZR z / 100000000) with (row_mass (n, e, name, z)). rewrite tenths_row. unfold tenths. rewrite E, around_IZR. symmetry. exact Q. }
  repeat constructor.
  - apply (T _ 281%Z "Si"%string 14%nat "Silicon"%string 2808550000%Z); [cbn; lra|apply (nth_error_In _ 14); reflexivity|lia|reflexivity].
  - apply (T _ 160%Z "O"%string 8%nat "Oxygen"%string 1599940000%Z); [cbn; lra|apply (nth_error_In _ 8); reflexivity|lia|reflexivity].
  - apply (T _ 281%Z "Si"%string 14%nat "Silicon"%string 2808550000%Z); [cbn; lra|apply (nth_error_In _ 14); reflexivity|lia|reflexivity].
Qed.
Example C56_nonvacuous_massless : massless "Tc".
Proof. exists 43%nat, "Technetium"%string, 0%Z. split; [apply (nth_error_In _ 43); reflexivity|lra]. Qed.

(** C65.  When the first atoms, as many as there are elements, are all of different elements, the types are 0, 1, ... and are
    equal exactly for atoms of the same element. *)
Theorem C65_types_partial : forall numbers, NoDup (firstn (List.length (nodup Nat.eq_dec numbers)) numbers) ->
  labels_elements numbers (types_by_element numbers) /\ Forall (fun t => (t < List.length (nodup Nat.eq_dec numbers))%nat) (types_by_element numbers).
Proof. exact types_by_element_ok. Qed.
(** With two or more atoms of one element followed by hydrogen, every atom gets the same type. *)
Theorem C65_types_refuted : forall z n m, z <> 1%nat ->
  let numbers := repeat z (S (S n)) ++ repeat 1%nat (S m) in
  ~ labels_elements numbers (types_by_element numbers) /\ forall t, In t (types_by_element numbers) -> t = 1%nat.
Proof.
  intros z n m Hz numbers. unfold numbers. rewrite (types_by_element_merged z n m Hz). split; [|intros t Ht; apply repeat_spec in Ht; exact Ht].
  intros [_ H]. specialize (H 0%nat (S (S n))). rewrite app_length, !repeat_length in H.
  assert (E : nth 0 (repeat z (S (S n)) ++ repeat 1%nat (S m)) O = nth (S (S n)) (repeat z (S (S n)) ++ repeat 1%nat (S m)) O).
  { apply H; [lia|lia|]. clear. assert (R : forall k i, (i < k)%nat -> nth i (repeat 1%nat k) O = 1%nat) by (induction k as [|k IH]; intros [|i] Hi; cbn; try lia; apply IH; lia). rewrite !R by lia. reflexivity. }
  rewrite (app_nth2 (repeat z (S (S n))) _ O (n := S (S n))) in E by (rewrite repeat_length; lia). rewrite repeat_length, Nat.sub_diag in E. apply Hz. exact E.
Qed.
Print Assumptions C65_types_partial.
Print Assumptions C65_types_refuted.
Example C65_nonvacuous : types_by_element [14; 8; 8; 14]%nat = [0; 1; 1; 0]%nat /\ types_by_element [14; 14; 1]%nat = [1; 1; 1]%nat.
Proof. split; reflexivity. Qed.

(** C66.  For diagonal supercells with positive entries, force sets are accepted exactly when the file has the atoms of the
    supercell. *)
Theorem C66_diagonal_partial : forall natom m atoms, diagonal m -> force_sets_accepted natom m atoms = true <-> natom = (cells_in m * atoms)%Z.
Proof.
  intros natom [[[[a b] c] [[d e] f]] [[g h] i]] atoms. unfold diagonal, force_sets_accepted, cells_in. intros (-> & -> & -> & -> & -> & -> & A & B & C).
  replace (a * (e * i - 0 * 0) - 0 * (0 * i - 0 * 0) + 0 * (0 * 0 - e * 0))%Z with (a * e * i)%Z by ring. rewrite Z.abs_eq by nia. apply Z.eqb_eq.
Qed.
(** For any other supercell whose diagonal product differs from its size the right file is refused. *)
Theorem C66_nondiagonal_refuted : forall a b c d e f g h i atoms, (0 < atoms)%Z ->
  let m := ((a, b, c), (d, e, f), (g, h, i)) in cells_in m <> (a * e * i)%Z -> force_sets_accepted (cells_in m * atoms) m atoms = false.
Proof. intros. unfold force_sets_accepted, m. apply Z.eqb_neq. intros E. apply H0. apply Z.mul_cancel_r in E; [exact E|lia]. Qed.
Print Assumptions C66_diagonal_partial.
Print Assumptions C66_nondiagonal_refuted.
Example C66_nonvacuous : let m := ((-1, 1, 1), (1, -1, 1), (1, 1, -1))%Z in cells_in m = 4%Z /\ force_sets_accepted 8 m 2 = false /\ force_sets_accepted 54 ((3, 0, 0), (0, 3, 0), (0, 0, 3))%Z 2 = true.
Proof. repeat split. Qed.

(** C67.  When the types are 0, 1, ..., n-1 the export ends, declares n atoms and writes, type after type, the first atom of each
    type. *)
Theorem C67_xsf_partial : forall types, let n := List.length (nodup Nat.eq_dec types) in (forall t, (t < n)%nat -> In t types) ->
  exists written, (forall fuel, (n <= fuel)%nat -> write_xsf types fuel = Some (n, written)) /\ one_per_type types written.
Proof.
  intros types n A. exists (map (firsts types) (seq 0 n)). split.
  - intros fuel F. unfold write_xsf. fold n. rewrite xsf_loop_runs; [rewrite Nat.sub_0_r; reflexivity|lia|intros t Ht; apply A; lia|lia].
  - unfold one_per_type. rewrite map_length, seq_length. split; [reflexivity|]. intros t Ht. rewrite (nth_indep _ O (firsts types O)) by (rewrite map_length, seq_length; exact Ht). rewrite map_nth, seq_nth by exact Ht.
    cbn [Nat.add]. unfold firsts. assert (P := first_of_type_spec types 0 t). destruct (first_of_type types 0 t) as [k|]; [|exfalso; apply P, A, Ht]. rewrite Nat.sub_0_r in P. tauto.
Qed.
(** When some type below n is missing, as set_atom_type_index_by_element can produce or a caller can pass, it never ends. *)
Theorem C67_xsf_refuted : forall types t, (t < List.length (nodup Nat.eq_dec types))%nat -> ~ In t types -> forall fuel, write_xsf types fuel = None.
Proof. intros types t H N fuel. unfold write_xsf. rewrite (xsf_loop_fuel_stuck types _ fuel 0 [] t); [reflexivity|lia|exact N]. Qed.
Theorem C67_by_element_refuted : forall z n m, z <> 1%nat -> forall fuel, write_xsf (types_by_element (repeat z (S (S n)) ++ repeat 1%nat (S m))) fuel = None.
Proof.
  intros z n m Hz. rewrite (types_by_element_merged _ _ _ Hz). apply (C67_xsf_refuted _ 0%nat).
  - assert (I : In 1%nat (nodup Nat.eq_dec (repeat 1%nat (S (S n) + S m)))) by (apply nodup_In; left; reflexivity). destruct (nodup _ _); [contradiction|cbn; lia].
  - intros H. apply repeat_spec in H. discriminate.
Qed.
Print Assumptions C67_xsf_partial.
Print Assumptions C67_xsf_refuted.
Print Assumptions C67_by_element_refuted.
Example C67_nonvacuous : write_xsf [0; 0; 1; 1]%nat 5 = Some (2, [0; 2])%nat /\ write_xsf [1; 2]%nat 1000 = None.
Proof. split; reflexivity. Qed.
