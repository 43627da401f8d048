(** C132: the settings written in the input file are the settings the calculation uses. *)
From Verif Require Import InputModel InputSpec InputProofs InputProps SettingsModel.
From Coq Require Import Lia.
Open Scope string_scope. Open Scope list_scope.

(** what the input file says: the last value written under each keyword *)
Definition supercell_written (es : list entry) : list (list Z) := match last_of supercell_of es with Some m => m | None => [[1; 0; 0]; [0; 1; 0]; [0; 0; 1]]%Z end.
Definition primitive_written (es : list entry) : list (list R) := match last_of primitive_of es with Some m => m | None => [[1; 0; 0]; [0; 1; 0]; [0; 0; 1]]%R end.
Definition structure_written (es : list entry) : bool * value :=
  match last_of (file_named "STRUCTURE FILE OUTCAR") es with
  | Some f => (true, VText f)
  | None => (false, VText (match last_of (file_named "STRUCTURE FILE POSCAR") es with Some n => n | None => "POSCAR" end))
  end.
Definition readable (es : list entry) (d : input) : Prop :=
  i_outcar d = last_of (file_named "STRUCTURE FILE OUTCAR") es /\
  i_poscar d = (match last_of (file_named "STRUCTURE FILE POSCAR") es with Some n => Some n | None => Some "POSCAR" end) /\
  i_force_sets d = last_of (file_named "FORCE SETS") es /\ i_force_constants d = last_of (file_named "FORCE CONSTANTS") es /\
  i_primitive d = last_of primitive_of es /\ i_supercell d = last_of supercell_of es /\ i_bands d = last_of bands_of es /\ i_mesh d = last_of mesh_of es.

(** ** The dictionary *)
Lemma lookup_app k d e : lookup k (d ++ e) = match lookup k d with Some v => Some v | None => lookup k e end.
Proof. induction d as [|[k' v] d IH]; [reflexivity|]. cbn. destruct (string_dec k k'); [reflexivity|exact IH]. Qed.
Lemma lookup_entry {X} k k' (f : X -> value) o : lookup k (entry_of k' f o) = if string_dec k k' then option_map f o else None.
Proof. destruct o; cbn; destruct (string_dec k k'); reflexivity. Qed.
Lemma lookup_dictionary k d : lookup k (dictionary d) =
  if string_dec k "structure_file_name_poscar" then option_map VText (i_poscar d) else
  if string_dec k "structure_file_name_outcar" then option_map VText (i_outcar d) else
  if string_dec k "force_sets_file_name" then option_map VText (i_force_sets d) else
  if string_dec k "force_constants_file_name" then option_map VText (i_force_constants d) else
  if string_dec k "_primitive_matrix" then option_map VReals (i_primitive d) else
  if string_dec k "supercell_phonon" then option_map VInts (i_supercell d) else
  if string_dec k "_band_ranges" then option_map (fun x => VBands (fst x) (snd x)) (i_bands d) else
  if string_dec k "_mesh_phonopy" then option_map VMesh (i_mesh d) else None.
Proof.
  unfold dictionary. rewrite !lookup_app, !lookup_entry.
  repeat match goal with |- context [string_dec k ?s] => destruct (string_dec k s) as [->|]; [try (match goal with |- context [string_dec ?a ?b] => idtac end); cbn|] end;
  try reflexivity; repeat match goal with |- context [match option_map ?f ?o with _ => _ end] => destruct o; cbn end; reflexivity.
Qed.
Lemma lookup_get k o data : lookup k (get_data_from_dict o data) = match lookup k o with Some v => Some (match lookup k data with Some w => w | None => v end) | None => None end.
Proof.
  induction o as [|[k' v] o IH]; [reflexivity|]. cbn [get_data_from_dict map fst]. fold (get_data_from_dict o data). cbn [lookup].
  destruct (lookup k' data) as [w|] eqn:L; cbn [lookup]; destruct (string_dec k k') as [->|]; try exact IH; rewrite L; reflexivity.
Qed.
Lemma lookup_update k k' v d : lookup k (update k' v d) = if string_dec k k' then Some v else lookup k d.
Proof.
  induction d as [|[k2 w] d IH]; cbn; [reflexivity|]. destruct (string_dec k' k2) as [->|N]; cbn; destruct (string_dec k k2) as [->|M]; try reflexivity.
  - destruct (string_dec k2 k') as [->|]; [congruence|reflexivity].
  - rewrite IH. destruct (string_dec k k'); reflexivity.
Qed.

Section Programs.
Context (num : string -> option R) (int : string -> option Z).
Context {FS FC : Type} (parse_sets : string -> option FS) (parse_constants : string -> option FC).
(** a well-formed input file (C68; no list of bands directly followed by MESH PHONOPY, which is never read) with the entries [es], read as the dictionary [data] *)
Definition input_file (es : list entry) (data : dict) : Prop :=
  exists file d, layout num int (fun l => no_band num l /\ ~ occurs "MESH PHONOPY" l) es file /\ read_parameters num int file = Some d /\ data = dictionary d.
Theorem C132_file_is_read : forall es file, layout num int (fun l => no_band num l /\ ~ occurs "MESH PHONOPY" l) es file -> exists data, input_file es data.
Proof.
  intros es file H. destruct (C68_reads_what_the_file_says_partial num int es file H) as (d & E & _). exists (dictionary d), file, d. repeat split; assumption.
Qed.
Lemma input_lookup es data : input_file es data ->
  lookup "structure_file_name_poscar" data = Some (VText (match last_of (file_named "STRUCTURE FILE POSCAR") es with Some n => n | None => "POSCAR" end)) /\
  lookup "structure_file_name_outcar" data = option_map VText (last_of (file_named "STRUCTURE FILE OUTCAR") es) /\
  lookup "force_sets_file_name" data = option_map VText (last_of (file_named "FORCE SETS") es) /\
  lookup "force_constants_file_name" data = option_map VText (last_of (file_named "FORCE CONSTANTS") es) /\
  lookup "_primitive_matrix" data = option_map VReals (last_of primitive_of es) /\
  lookup "supercell_phonon" data = option_map VInts (last_of supercell_of es) /\
  lookup "_band_ranges" data = option_map (fun x => VBands (fst x) (snd x)) (last_of bands_of es) /\
  lookup "_mesh_phonopy" data = option_map VMesh (last_of mesh_of es) /\
  lookup "bands" data = None.
Proof.
  intros (file & d & H & E & ->). destruct (C68_reads_what_the_file_says_partial num int es file H) as (d' & E' & A1 & A2 & A3 & A4 & A5 & A6 & A7 & A8).
  rewrite E in E'. injection E' as <-. rewrite !lookup_dictionary. cbn. rewrite A1, A2, A3, A4, A5, A6, A7, A8.
  destruct (last_of (file_named "STRUCTURE FILE POSCAR") es); repeat split; reflexivity.
Qed.
Lemma other_lookup es data k : input_file es data -> In k (map fst parameter_defaults) -> k <> "_band_ranges" -> k <> "_mesh_phonopy" -> lookup k data = None.
Proof.
  intros (file & d & H & E & ->) I N1 N2. rewrite lookup_dictionary. cbn in I. 
  repeat (destruct I as [<-|I]; [try reflexivity; congruence|]). destruct I.
Qed.

(** the structure of scripts/dynaphopy *)
Definition has_written (es : list entry) (s : structure (FS := FS) (FC := FC)) : Prop :=
  s_file s = structure_written es /\ get_primitive_matrix (s_attributes s) = primitive_written es /\
  forall k v, k <> "_primitive_matrix" -> lookup k structure_attributes = Some v -> lookup k (s_attributes s) = Some v.
Lemma attributes_written es data : input_file es data -> let a := get_data_from_dict structure_attributes data in
  structure_file data = Some (structure_written es) /\ get_primitive_matrix a = primitive_written es /\
  (forall k v, k <> "_primitive_matrix" -> lookup k structure_attributes = Some v -> lookup k a = Some v) /\ supercell_or_identity data = supercell_written es.
Proof.
  intros I a. destruct (input_lookup es data I) as (L1 & L2 & L3 & L4 & L5 & L6 & L7 & L8 & L9).
  split; [unfold structure_file, structure_written; rewrite L2, L1; destruct (last_of (file_named "STRUCTURE FILE OUTCAR") es); reflexivity|].
  split; [unfold get_primitive_matrix, a, primitive_written; rewrite lookup_get, L5; destruct (last_of primitive_of es); reflexivity|].
  split; [|unfold supercell_or_identity, supercell_written; rewrite L6; destruct (last_of supercell_of es); reflexivity].
  intros k v N H. unfold a. rewrite lookup_get, H. replace (lookup k data) with (@None value); [reflexivity|]. symmetry.
  destruct I as (file & d & _ & _ & ->). rewrite lookup_dictionary. cbn [lookup structure_attributes] in H.
  repeat match type of H with (if string_dec k ?s then _ else _) = _ => destruct (string_dec k s) as [->|]; [clear H; try congruence; reflexivity|] end. discriminate.
Qed.
(** One force file: the structure is read from the file named (the OUTCAR if both are), has the primitive matrix written, and the force data carry the supercell
    matrix written; nothing else is changed *)
Theorem C132_structure_constants : forall es data f c, input_file es data ->
  last_of (file_named "FORCE CONSTANTS") es = Some f -> last_of (file_named "FORCE SETS") es = None -> parse_constants f = Some c ->
  exists s, dynaphopy_structure parse_sets parse_constants data = Some s /\ has_written es s /\
  s_constants s = Some (c, supercell_written es) /\ s_sets s = None /\ get_supercell_phonon s = supercell_written es.
Proof.
  intros es data f c I HC HS HP. destruct (input_lookup es data I) as (L1 & L2 & L3 & L4 & L5 & L6 & L7 & L8 & L9). destruct (attributes_written es data I) as (A1 & A2 & A3 & A4).
  exists (MkS (structure_written es) (get_data_from_dict structure_attributes data) None (Some (c, supercell_written es))).
  unfold dynaphopy_structure. rewrite A1, L3, L4, HC, HS. cbn [option_map]. unfold from_file. rewrite HP, A4. split; [reflexivity|]. repeat split; assumption.
Qed.
Theorem C132_structure_sets : forall es data f c, input_file es data ->
  last_of (file_named "FORCE SETS") es = Some f -> last_of (file_named "FORCE CONSTANTS") es = None -> parse_sets f = Some c ->
  exists s, dynaphopy_structure parse_sets parse_constants data = Some s /\ has_written es s /\
  s_sets s = Some (c, supercell_written es) /\ s_constants s = None /\ get_supercell_phonon s = supercell_written es.
Proof.
  intros es data f c I HC HS HP. destruct (input_lookup es data I) as (L1 & L2 & L3 & L4 & L5 & L6 & L7 & L8 & L9). destruct (attributes_written es data I) as (A1 & A2 & A3 & A4).
  exists (MkS (structure_written es) (get_data_from_dict structure_attributes data) (Some (c, supercell_written es)) None).
  unfold dynaphopy_structure. rewrite A1, L3, L4, HC, HS. cbn [option_map]. unfold from_file. rewrite HP, A4. split; [reflexivity|]. repeat split; assumption.
Qed.
(** both force files, or one that cannot be read: refused *)
Theorem C132_forces_refused : forall es data f g, input_file es data ->
  (last_of (file_named "FORCE SETS") es = Some f /\ last_of (file_named "FORCE CONSTANTS") es = Some g) \/
  (last_of (file_named "FORCE SETS") es = Some f /\ parse_sets f = None) \/ (last_of (file_named "FORCE CONSTANTS") es = Some g /\ parse_constants g = None) ->
  dynaphopy_structure parse_sets parse_constants data = None.
Proof.
  intros es data f g I H. destruct (input_lookup es data I) as (L1 & L2 & L3 & L4 & L5 & L6 & L7 & L8 & L9). destruct (attributes_written es data I) as (A1 & A2 & A3 & A4).
  unfold dynaphopy_structure. rewrite A1, L3, L4. unfold from_file.
  destruct H as [[-> ->]|[[-> P]|[-> P]]]; cbn [option_map]; try rewrite P; try reflexivity;
  [destruct (parse_sets f), (parse_constants g); reflexivity|].
  destruct (option_map VText (last_of (file_named "FORCE SETS") es)) as [v0|]; [destruct v0|]; try reflexivity. destruct (parse_sets s); reflexivity.
Qed.
(** Without a force file the supercell matrix that is written has no effect: the supercell of the phonons is the unit cell *)
Theorem C132_supercell_ignored_refuted : forall es data, input_file es data ->
  last_of (file_named "FORCE CONSTANTS") es = None -> last_of (file_named "FORCE SETS") es = None ->
  exists s, dynaphopy_structure parse_sets parse_constants data = Some s /\ has_written es s /\ get_supercell_phonon s = [[1; 0; 0]; [0; 1; 0]; [0; 0; 1]]%Z /\
  (supercell_written es <> [[1; 0; 0]; [0; 1; 0]; [0; 0; 1]]%Z -> get_supercell_phonon s <> supercell_written es).
Proof.
  intros es data I HC HS. destruct (input_lookup es data I) as (L1 & L2 & L3 & L4 & L5 & L6 & L7 & L8 & L9). destruct (attributes_written es data I) as (A1 & A2 & A3 & A4).
  exists (MkS (structure_written es) (get_data_from_dict structure_attributes data) None None).
  unfold dynaphopy_structure. rewrite A1, L3, L4, HC, HS. cbn [option_map]. split; [reflexivity|]. split; [repeat split; assumption|]. split; [reflexivity|]. intros N E. apply N. symmetry. exact E.
Qed.

(** the parameters: bands and mesh are those written, everything else is left as it is; a trajectory of projected velocities brings its wave vector and switches the
    symmetry off *)
Theorem C132_parameters : forall es data projected p, input_file es data -> map fst p = map fst parameter_defaults ->
  let p' := dynaphopy_parameters projected p data in
  map fst p' = map fst parameter_defaults /\
  lookup "_band_ranges" p' = match last_of bands_of es with Some (r, l) => Some (VBands r l) | None => lookup "_band_ranges" p end /\
  lookup "_mesh_phonopy" p' = match last_of mesh_of es with Some m => Some (VMesh m) | None => lookup "_mesh_phonopy" p end /\
  lookup "_reduced_q_vector" p' = match projected with Some q => Some (VVector q) | None => lookup "_reduced_q_vector" p end /\
  lookup "_use_symmetry" p' = match projected with Some _ => Some (VBool false) | None => lookup "_use_symmetry" p end /\
  forall k, k <> "_band_ranges" -> k <> "_mesh_phonopy" -> k <> "_reduced_q_vector" -> k <> "_use_symmetry" -> lookup k p' = lookup k p.
Proof.
  intros es data projected p I K p'. destruct (input_lookup es data I) as (L1 & L2 & L3 & L4 & L5 & L6 & L7 & L8 & L9).
  assert (D : forall k v, lookup k p = Some v -> In k (map fst parameter_defaults)).
  { intros k v. rewrite <- K. clear. induction p as [|[a b] p IH]; [discriminate|]. cbn. destruct (string_dec k a) as [->|]; [left; reflexivity|intros H; right; apply IH; exact H]. }
  assert (P : forall k, In k (map fst parameter_defaults) -> exists v, lookup k p = Some v).
  { intros k. rewrite <- K. clear. induction p as [|[a b] p IH]; [intros []|]. cbn. intros [<-|H]; [destruct (string_dec a a); [exists b; reflexivity|congruence]|].
    destruct (string_dec k a); [exists b; reflexivity|apply IH; exact H]. }
  split; [unfold p', dynaphopy_parameters, get_data_from_dict; rewrite map_map; rewrite <- K; apply map_ext; intros [a b]; cbn; destruct (lookup a _); reflexivity|].
  unfold p', dynaphopy_parameters. rewrite !lookup_get.
  assert (Q : forall k, In k (map fst parameter_defaults) -> k <> "_band_ranges" -> k <> "_mesh_phonopy" -> lookup k data = None) by (intros; eapply other_lookup; eassumption).
  assert (B := Q "_reduced_q_vector"). assert (C := Q "_use_symmetry").
  destruct (P "_band_ranges") as (v1 & E1); [cbn; tauto|]. destruct (P "_mesh_phonopy") as (v2 & E2); [cbn; tauto|].
  destruct (P "_reduced_q_vector") as (v3 & E3); [cbn; tauto|]. destruct (P "_use_symmetry") as (v4 & E4); [cbn; tauto|]. rewrite E1, E2, E3, E4.
  assert (S : forall k, lookup k (match projected with Some q => update "_use_symmetry" (VBool false) (update "_reduced_q_vector" (VVector q) data) | None => data end) =
     match projected with Some q => if string_dec k "_use_symmetry" then Some (VBool false) else if string_dec k "_reduced_q_vector" then Some (VVector q) else lookup k data | None => lookup k data end).
  { intros k. destruct projected; [rewrite !lookup_update; reflexivity|reflexivity]. }
  rewrite !S. split; [rewrite L7; destruct projected as [q0|], (last_of bands_of es) as [[r l]|]; reflexivity|]. split; [rewrite L8; destruct projected, (last_of mesh_of es); reflexivity|].
  split; [destruct projected; [reflexivity|]; rewrite B by (try (cbn; tauto); discriminate); reflexivity|].
  split; [destruct projected; [reflexivity|]; rewrite C by (try (cbn; tauto); discriminate); reflexivity|].
  intros k N1 N2 N3 N4. rewrite lookup_get, S. destruct (lookup k p) as [v|] eqn:E; [|reflexivity]. f_equal.
  rewrite (Q k (D k v E) N1 N2). destruct projected; [destruct (string_dec k "_use_symmetry"); [congruence|]; destruct (string_dec k "_reduced_q_vector"); [congruence|reflexivity]|reflexivity].
Qed.
(** a first analysis without MESH PHONOPY uses 40 x 40 x 40 *)
Theorem C132_default_mesh : forall es data, input_file es data -> last_of mesh_of es = None -> last_of bands_of es = None ->
  let p := dynaphopy_parameters None parameter_defaults data in lookup "_mesh_phonopy" p = Some (VMesh [40; 40; 40]%Z) /\ lookup "_band_ranges" p = Some VNone.
Proof. intros es data I H B p. destruct (C132_parameters es data None parameter_defaults I eq_refl) as (_ & E1 & E2 & _). rewrite B in E1. rewrite H in E2. split; assumption. Qed.
(** ... but a second one in the same process, whose file names no mesh, uses that of the first *)
Theorem C132_left_over_refuted : forall es1 data1 es2 data2 m, input_file es1 data1 -> input_file es2 data2 -> last_of mesh_of es1 = Some m -> last_of mesh_of es2 = None ->
  let p1 := dynaphopy_parameters None parameter_defaults data1 in lookup "_mesh_phonopy" (dynaphopy_parameters None p1 data2) = Some (VMesh m).
Proof.
  intros es1 data1 es2 data2 m I1 I2 H1 H2 p1. destruct (C132_parameters es1 data1 None parameter_defaults I1 eq_refl) as (K & _ & E & _). rewrite H1 in E.
  destruct (C132_parameters es2 data2 None p1 I2 K) as (_ & _ & F & _). rewrite H2 in F. rewrite F. exact E.
Qed.

(** the quasi-harmonic script: force constants and bands written in the file; the mesh is the one written, otherwise 20 x 20 x 20 *)
Theorem C132_qha_partial : forall es data seek f c r l, input_file es data -> last_of (file_named "FORCE CONSTANTS") es = Some f -> parse_constants f = Some c ->
  last_of bands_of es = Some (r, l) ->
  exists s, qha_setup (FS := FS) parse_constants seek data = Some (s, match last_of mesh_of es with Some m => VMesh m | None => VMesh [20; 20; 20]%Z end, VBands r l) /\
  has_written es s /\ s_constants s = Some (c, supercell_written es) /\ get_supercell_phonon s = supercell_written es.
Proof.
  intros es data seek f c r l I HC HP HB. destruct (input_lookup es data I) as (L1 & L2 & L3 & L4 & L5 & L6 & L7 & L8 & L9). destruct (attributes_written es data I) as (A1 & A2 & A3 & A4).
  exists (MkS (structure_written es) (get_data_from_dict structure_attributes data) None (Some (c, supercell_written es))).
  unfold qha_setup. rewrite A1, L4, HC. cbn [option_map]. unfold from_file. rewrite HP, A4, L9, L8, L7, HB. cbn [andb option_map fst snd].
  split; [destruct (last_of mesh_of es); reflexivity|]. repeat split; assumption.
Qed.
(** without BANDS the automatic path is never used: the script stops; it also stops for a file with FORCE SETS only *)
Theorem C132_qha_refuted : forall es data seek, input_file es data ->
  last_of bands_of es = None \/ last_of (file_named "FORCE CONSTANTS") es = None -> qha_setup (FS := FS) parse_constants seek data = None.
Proof.
  intros es data seek I H. destruct (input_lookup es data I) as (L1 & L2 & L3 & L4 & L5 & L6 & L7 & L8 & L9). destruct (attributes_written es data I) as (A1 & A2 & A3 & A4).
  unfold qha_setup. rewrite A1, L4, L7, L9. destruct H as [H|H]; rewrite H; cbn [option_map]; [|reflexivity].
  destruct (option_map VText (last_of (file_named "FORCE CONSTANTS") es)) as [v0|]; [destruct v0|]; try reflexivity. destruct (from_file parse_constants s (supercell_or_identity data)); reflexivity.
Qed.
(** rfc_calc -p: with a list of bands in the input file the plot always stops; without one it follows the automatic path *)
Theorem C132_rfc_bands_refuted : forall es data seek x, input_file es data -> last_of bands_of es = Some x -> rfc_bands seek data = None.
Proof. intros es data seek [r l] I H. destruct (input_lookup es data I) as (L1 & L2 & L3 & L4 & L5 & L6 & L7 & L8 & L9). unfold rfc_bands. rewrite L7, H. destruct l; reflexivity. Qed.
Theorem C132_rfc_automatic : forall es data seek, input_file es data -> last_of bands_of es = None -> rfc_bands seek data = Some seek.
Proof. intros es data seek I H. destruct (input_lookup es data I) as (L1 & L2 & L3 & L4 & L5 & L6 & L7 & L8 & L9). unfold rfc_bands. rewrite L7, H. reflexivity. Qed.
(** rfc_calc: force data get the supercell written; a file without SUPERCELL MATRIX, which scripts/dynaphopy accepts, is refused *)
Theorem C132_rfc_forces_partial : forall es data m, input_file es data -> last_of supercell_of es = Some m ->
  (forall f, last_of (file_named "FORCE SETS") es = Some f -> parse_sets f <> None) -> (forall f, last_of (file_named "FORCE CONSTANTS") es = Some f -> parse_constants f <> None) ->
  exists sets constants, rfc_forces parse_sets parse_constants data = Some (sets, constants) /\
  (match last_of (file_named "FORCE SETS") es with Some f => exists x, parse_sets f = Some x /\ sets = Some (x, m) | None => sets = None end) /\
  (match last_of (file_named "FORCE CONSTANTS") es with Some f => exists x, parse_constants f = Some x /\ constants = Some (x, m) | None => constants = None end).
Proof.
  intros es data m I HM H1 H2. destruct (input_lookup es data I) as (L1 & L2 & L3 & L4 & L5 & L6 & L7 & L8 & L9). unfold rfc_forces. rewrite L3, L4, L6, HM. cbn [option_map]. unfold from_file.
  destruct (last_of (file_named "FORCE SETS") es) as [f|]; cbn [option_map]; [specialize (H1 f eq_refl); destruct (parse_sets f) as [x|]; [|congruence]|];
  (destruct (last_of (file_named "FORCE CONSTANTS") es) as [g|]; cbn [option_map]; [specialize (H2 g eq_refl); destruct (parse_constants g) as [y|]; [|congruence]|]);
  eexists; eexists; (split; [reflexivity|]); split; try reflexivity; eexists; split; reflexivity.
Qed.
Theorem C132_rfc_supercell_refuted : forall es data f c, input_file es data -> last_of supercell_of es = None ->
  last_of (file_named "FORCE CONSTANTS") es = Some f -> last_of (file_named "FORCE SETS") es = None -> parse_constants f = Some c ->
  rfc_forces parse_sets parse_constants data = None /\ exists s, dynaphopy_structure parse_sets parse_constants data = Some s.
Proof.
  intros es data f c I HM HC HS HP. split.
  - destruct (input_lookup es data I) as (L1 & L2 & L3 & L4 & L5 & L6 & L7 & L8 & L9). unfold rfc_forces. rewrite L3, L4, L6, HM, HC, HS. reflexivity.
  - destruct (C132_structure_constants es data f c I HC HS HP) as (s & E & _). exists s. exact E.
Qed.
End Programs.
Print Assumptions C132_structure_constants.
Print Assumptions C132_parameters.
Print Assumptions C132_left_over_refuted.
Print Assumptions C132_qha_refuted.
Print Assumptions C132_rfc_supercell_refuted.

(** The input file of the documentation (C68): its settings arrive *)
Example C132_nonvacuous : exists es data, input_file num0 int0 es data /\ last_of bands_of es <> None /\ last_of (file_named "FORCE SETS") es = Some "FORCE_SETS_222" /\
  last_of (file_named "FORCE CONSTANTS") es = None /\ supercell_written es = [[2; 0; 0]; [0; 2; 0]; [0; 0; 2]]%Z /\ structure_written es = (false, VText "./POSCAR_unit") /\ last_of mesh_of es = Some [40; 40; 40]%Z.
Proof.
  destruct C68_nonvacuous as (es & L & HB). destruct (C68_reads_what_the_file_says_partial num0 int0 es _ L) as (d & E & A1 & A2 & A3 & A4 & A5 & A6 & A7 & A8).
  rewrite C68_concrete_good in E. injection E as <-. exists es, (dictionary (MkInput None (Some "./POSCAR_unit") (Some "FORCE_SETS_222") None None (Some [[2; 0; 0]; [0; 2; 0]; [0; 0; 2]]%Z)
    (Some ([[0; 0; 0; 1/2; 0; 1/2]; [1/2; 0; 1/2; 1; 1/2; 1/2]]%R, Some [("GAMMA", "X"); ("X", "K")])) (Some [40; 40; 40]%Z))).
  cbn in A1, A2, A3, A4, A5, A6, A7, A8. split; [exists (file0 [""]); eexists; split; [exact L|]; split; [exact C68_concrete_good|reflexivity]|].
  split; [rewrite HB; discriminate|]. split; [symmetry; exact A3|]. split; [symmetry; exact A4|]. split; [unfold supercell_written; rewrite <- A6; reflexivity|].
  split; [unfold structure_written; rewrite <- A1; destruct (last_of (file_named "STRUCTURE FILE POSCAR") es); congruence|symmetry; exact A8].
Qed.
