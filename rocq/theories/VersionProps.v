(** C138: the package works with every phonopy that offers what it needs, wherever it offers it. *)
From Verif Require Import VersionModel PhonopyLinkProps.
From Coq Require Import Lra.
Open Scope R_scope.
Open Scope string_scope.

(** specification: the unit of frequency, under the name of the old or of the new versions *)
Definition offers_unit {Class} (p : installation Class) (u : R) : Prop :=
  (exists names, units_module p = Some names /\ names "VaspToTHz" = Some u) \/ default_to_thz p = Some u.
Definition offers_atoms {Class} (p : installation Class) : Prop := atoms_module p "PhonopyAtoms" <> None \/ atoms_module p "Atoms" <> None.
(** eigenvalues whose frequencies (in THz, imaginary ones negative) are those given *)
Definition have_frequencies (u : R) (eigenvalues frequencies : list (list R)) : Prop :=
  Forall2 (Forall2 (fun l f => np_sign l * sqrt (Rabs l) * u = f)) eigenvalues frequencies.

Section C138.
Context {Class Eigenvectors Matrices : Type} (assemble : list (list R) -> Eigenvectors -> Matrices).
Implicit Types (p : installation Class) (e : Eigenvectors).

(** the versions that keep the unit in phonopy.units only: the package cannot be imported, although the unit is there *)
Theorem C138_old_versions_refuted : forall p names u, units_module p = Some names -> names "VaspToTHz" = Some u -> names "VaspToTHza" = None -> default_to_thz p = None ->
  offers_unit p u /\ import_package p = None /\ forall frequencies e, renormalized_matrices assemble p frequencies e = None.
Proof.
  intros p names u HU HV HA HD. assert (import_package p = None) as HI.
  { unfold import_package, load_units. rewrite HU, HA, HD. destruct (load_atoms p); reflexivity. }
  split; [left; exists names; auto|]. split; [exact HI|]. intros. unfold renormalized_matrices. rewrite HI. reflexivity.
Qed.

(** exactly which installations can be imported with the unit in place, and which unit it is *)
Theorem C138_import_partial : forall p u,
  (exists m, import_package p = Some m /\ lookup "VaspToTHz" (l_globals m) = Some u) <->
  (offers_atoms p /\ default_to_thz p = Some u /\ forall names, units_module p = Some names -> names "VaspToTHza" = None).
Proof.
  intros p u. unfold import_package, load_atoms, load_units, offers_atoms. split.
  - intros (m & HM & HL).
    assert (exists g, (match match units_module p with Some names => names "VaspToTHza" | None => None end with
             | Some v => Some [("VaspToTHza", v)] | None => match default_to_thz p with Some v => Some [("VaspToTHz", v)] | None => None end end) = Some g /\ l_globals m = g) as (g & HG & HE).
    { destruct (match atoms_module p "PhonopyAtoms" with Some a => _ | None => _ end); [|discriminate HM].
      destruct (match match units_module p with Some names => _ | None => _ end with Some v => _ | None => _ end) as [g|]; [|discriminate HM]. exists g. inversion HM. split; reflexivity. }
    split.
    { destruct (atoms_module p "PhonopyAtoms"); [left; discriminate|]. destruct (atoms_module p "Atoms"); [right; discriminate|]. discriminate HM. }
    clear HM. rewrite HE in HL. clear HE.
    destruct (match units_module p with Some names => names "VaspToTHza" | None => None end) as [v|] eqn:HU.
    { inversion HG; subst g. discriminate HL. }
    destruct (default_to_thz p) as [w|]; [|discriminate HG]. inversion HG; subst g. cbn in HL. split; [exact HL|]. intros names HN. rewrite HN in HU. exact HU.
  - intros (HA & HD & HN).
    assert ((match match units_module p with Some names => names "VaspToTHza" | None => None end with
             | Some v => Some [("VaspToTHza", v)] | None => match default_to_thz p with Some v => Some [("VaspToTHz", v)] | None => None end end) = Some [("VaspToTHz", u)]) as HL.
    { destruct (units_module p) as [names|]; [rewrite (HN names eq_refl)|]; rewrite HD; reflexivity. }
    rewrite HL. destruct (atoms_module p "PhonopyAtoms") as [a|] eqn:E1.
    + exists (MkL a [("VaspToTHz", u)]). split; reflexivity.
    + destruct (atoms_module p "Atoms") as [a|] eqn:E2; [exists (MkL a [("VaspToTHz", u)]); split; reflexivity|]. destruct HA as [HA|HA]; contradiction HA; reflexivity.
Qed.

(** the class used for crystals: the new name when there is one, else the old one *)
Theorem C138_atoms : forall p m, import_package p = Some m ->
  atoms_module p "PhonopyAtoms" = Some (l_atoms m) \/ (atoms_module p "PhonopyAtoms" = None /\ atoms_module p "Atoms" = Some (l_atoms m)).
Proof.
  intros p m. unfold import_package, load_atoms. destruct (atoms_module p "PhonopyAtoms") as [a|] eqn:E1.
  - destruct (load_units p); [|discriminate]. intros E; inversion E; subst; left; reflexivity.
  - destruct (atoms_module p "Atoms") as [a|] eqn:E2; [|discriminate]. destruct (load_units p); [|discriminate]. intros E; inversion E; subst; right; split; reflexivity.
Qed.

(** both interfaces for dynamical matrices lead to eigenvalues with the frequencies given *)
Theorem C138_matrices_partial : forall p frequencies e d, (forall u, default_to_thz p = Some u -> 0 < u) -> renormalized_matrices assemble p frequencies e = Some d ->
  exists u eigenvalues, default_to_thz p = Some u /\ have_frequencies u eigenvalues frequencies /\ d = assemble eigenvalues e.
Proof.
  intros p fs e d HU. unfold renormalized_matrices. destruct (import_package p) as [m|] eqn:HI; [|discriminate]. destruct (lookup "VaspToTHz" (l_globals m)) as [u|] eqn:HL; [|discriminate]. intros HH.
  destruct (proj1 (C138_import_partial p u) (ex_intro _ m (conj HI HL))) as (_ & HD & _). specialize (HU u HD).
  exists u, (squares (scaled u fs)). split; [exact HD|]. split.
  - unfold have_frequencies, squares, scaled. rewrite map_map. clear HH. induction fs as [|r fs IH]; cbn [map]; [constructor|]. constructor; [|exact IH].
    clear IH. rewrite map_map. induction r as [|f r IH]; cbn [map]; [constructor|]. constructor; [|exact IH]. exact (C64_frequency_of_eigenvalue u f HU).
  - unfold hand_over in HH. destruct (set_matrices p); [discriminate| |destruct (has_create p); [|discriminate]]; inversion HH; reflexivity.
Qed.
(** when they are offered they work *)
Theorem C138_matrices_exist_partial : forall p frequencies e u, offers_atoms p -> default_to_thz p = Some u -> (forall names, units_module p = Some names -> names "VaspToTHza" = None) ->
  (set_matrices p = FrequenciesAndEigenvectors \/ (set_matrices p = OneArgument /\ has_create p = true)) -> exists d, renormalized_matrices assemble p frequencies e = Some d.
Proof.
  intros p fs e u HA HD HN HS. destruct (proj2 (C138_import_partial p u) (conj HA (conj HD HN))) as (m & HI & HL). unfold renormalized_matrices. rewrite HI, HL. unfold hand_over.
  destruct HS as [->|[-> ->]]; eexists; reflexivity.
Qed.
(** versions without set_dynamical_matrices: create_dynamical_matrices is never reached, the exception is another one *)
Theorem C138_method_removed_refuted : forall p frequencies e, set_matrices p = NoMethod -> has_create p = true -> renormalized_matrices assemble p frequencies e = None.
Proof. intros p fs e HS _. unfold renormalized_matrices, hand_over. rewrite HS. destruct (import_package p) as [m|]; [|reflexivity]. destruct (lookup "VaspToTHz" (l_globals m)); reflexivity. Qed.
End C138.

Section Accessors.
Context {Class V : Type} (produce born : V -> V).
Implicit Types (p : installation Class) (new : object V).
Lemma put_same f name (v : V) : put f name v name = Some v. Proof. unfold put. rewrite String.eqb_refl. reflexivity. Qed.
Lemma put_other f name other (v : V) : other <> name -> put f name v other = f other. Proof. intros H. unfold put. destruct (String.eqb_spec other name); [contradiction|reflexivity]. Qed.

(** the object phonopy computes with holds the force constants given - exactly when the version lets the property be set *)
Theorem C138_constants : forall p new v, o_held new "force_constants" <> Some v ->
  ((exists o kept, get_phonon produce born p new (Constants v) false = Some (o, kept) /\ o_held o "force_constants" = Some v) <-> property p "force_constants" = ReadWrite).
Proof.
  intros p new v HN. unfold get_phonon, set_force_constants, assign. destruct (property p "force_constants") eqn:HP; cbn [option_map]; split; intros H; try discriminate H; try reflexivity.
  - destruct H as (o & kept & E & HH). inversion E; subst. contradiction.
  - destruct H as (o & kept & E & HH). discriminate E.
  - exists (MkO (put (o_held new) "force_constants" v) (o_plain new)), None. split; [reflexivity|apply put_same].
Qed.
(** the force sets given are the ones used, and the structure keeps the constants the object computes with - exactly when both properties are there and the data set
    can be set *)
Theorem C138_sets : forall p new d, o_held new "dataset" = None -> o_plain new "force_constants" = None ->
  ((exists o kept, get_phonon produce born p new (Sets d) false = Some (o, Some kept) /\ o_held o "force_constants" = Some (produce d) /\ kept = produce d) <->
   (property p "dataset" = ReadWrite /\ property p "force_constants" <> Absent)).
Proof.
  intros p new d HN HF. unfold get_phonon, set_displacement_dataset, assign, produce_force_constants, get_force_constants, read. split.
  - intros (o & kept & E & HH & HK). destruct (property p "dataset") eqn:HP; cbn [o_held o_plain] in E; try discriminate E.
    + rewrite HN in E. discriminate E.
    + split; [reflexivity|]. intros HA. rewrite put_same in E. rewrite HA in E. cbn [o_plain] in E. rewrite HF in E. discriminate E.
  - intros [HP HA]. rewrite HP. cbn [o_held o_plain]. rewrite put_same. exists (MkO (put (put (o_held new) "dataset" d) "force_constants" (produce d)) (o_plain new)), (produce d).
    cbn [o_held o_plain]. split; [|split; [apply put_same|reflexivity]].
    destruct (property p "force_constants"); [contradiction HA; reflexivity| |]; rewrite put_same; reflexivity.
Qed.
(** non-analytical corrections are those read for the primitive cell of the object, and leave the force constants alone *)
Theorem C138_nac : forall p new f o kept, property p "nac_params" = ReadWrite -> property p "primitive" <> Absent ->
  get_phonon produce born p new f true = Some (o, kept) -> exists cell o0, o_held o "primitive" = Some cell /\ o_held o "nac_params" = Some (born cell) /\
  get_phonon produce born p new f false = Some (o0, kept) /\ o_held o "force_constants" = o_held o0 "force_constants".
Proof.
  intros p new f o kept HP HA. unfold get_phonon.
  destruct (match f with Constants v => _ | Sets d => _ end) as [[o0 k0]|]; [|discriminate]. unfold get_primitive, read, set_nac_params, assign. rewrite HP.
  destruct (property p "primitive"); [contradiction HA; reflexivity| |].
  all: destruct (o_held o0 "primitive") as [c|] eqn:HC; [|discriminate]; cbn [option_map]; intros E; inversion E; subst; exists c, o0; cbn [o_held];
    rewrite put_same, put_other, HC, put_other by discriminate; repeat split; reflexivity.
Qed.
(** an accessor of the old kind returns what was set with it, on every version that allows setting *)
Theorem C138_set_get : forall p new v o, set_force_constants p v new = Some o -> get_force_constants p o = Some v.
Proof. intros p new v o. unfold set_force_constants, get_force_constants, assign, read. destruct (property p "force_constants"); intros E; inversion E; subst; apply put_same. Qed.
End Accessors.
Print Assumptions C138_old_versions_refuted. Print Assumptions C138_import_partial. Print Assumptions C138_atoms. Print Assumptions C138_matrices_partial.
Print Assumptions C138_matrices_exist_partial. Print Assumptions C138_method_removed_refuted. Print Assumptions C138_constants. Print Assumptions C138_sets. Print Assumptions C138_nac. Print Assumptions C138_set_get.

(** an old version (unit in phonopy.units, two-argument interface) and a new one *)
Definition old_phonopy : installation string :=
  MkI (fun n => if String.eqb n "Atoms" then Some "Atoms" else None) (Some (fun n => if String.eqb n "VaspToTHz" then Some (15633302 / 1000000) else None)) None (fun _ => ReadWrite) FrequenciesAndEigenvectors false.
Definition new_phonopy : installation string :=
  MkI (fun n => if String.eqb n "PhonopyAtoms" then Some "PhonopyAtoms" else None) None (Some (15633302 / 1000000)) (fun _ => ReadWrite) OneArgument true.
Example C138_nonvacuous :
  offers_unit old_phonopy (15633302 / 1000000) /\ offers_atoms old_phonopy /\ import_package old_phonopy = None /\
  (exists m, import_package new_phonopy = Some m /\ lookup "VaspToTHz" (l_globals m) = Some (15633302 / 1000000) /\ l_atoms m = "PhonopyAtoms") /\
  (exists d, renormalized_matrices (fun l (_ : unit) => l) new_phonopy [[15633302 / 1000000; - (2 * (15633302 / 1000000))]] tt = Some d /\ d = [[1; -4]]) /\
  (exists o kept, get_phonon (fun v => (v + 1)%Z) (fun v => v) new_phonopy (MkO (fun n => if String.eqb n "primitive" then Some 7%Z else None) (fun _ => None)) (Sets 3%Z) true = Some (o, Some kept) /\
     kept = 4%Z /\ o_held o "force_constants" = Some 4%Z /\ o_held o "nac_params" = Some 7%Z).
Proof.
  split; [left; eexists; split; [reflexivity|reflexivity]|]. split; [right; discriminate|]. split; [reflexivity|]. split; [eexists; split; [reflexivity|split; reflexivity]|]. split.
  - exists (map (map (fun x => x * x * np_sign x)) (scaled (15633302 / 1000000) [[15633302 / 1000000; - (2 * (15633302 / 1000000))]])). split; [reflexivity|]. unfold scaled. cbn [map]. unfold np_sign.
    assert (15633302 / 1000000 / (15633302 / 1000000) = 1) as E1 by lra. assert (- (2 * (15633302 / 1000000)) / (15633302 / 1000000) = -2) as E2 by lra. rewrite E1, E2.
    destruct (Rlt_dec 0 1); [|lra]. destruct (Rlt_dec 0 (-2)); [lra|]. destruct (Rlt_dec (-2) 0); [|lra]. f_equal; [f_equal; [lra|f_equal; lra]].
  - eexists; eexists; split; [reflexivity|]. repeat split; reflexivity.
Qed.
