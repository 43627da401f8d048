(** C68 (input files) and C69 (trajectory format detection). *)
From Verif Require Import InputModel InputSpec InputProofs.
From Coq Require Import Lia.
Open Scope string_scope.

Section Read.
Context (num : string -> option R) (int : string -> option Z).
(** every well-formed file in which a list of bands is not directly followed by a line that mentions MESH PHONOPY: the
    dictionary holds, for every keyword, the value of its last occurrence, POSCAR being the default structure file *)
Theorem C68_reads_what_the_file_says_partial : forall es file,
  layout num int (fun l => no_band num l /\ ~ occurs "MESH PHONOPY" l) es file ->
  exists d, read_parameters num int file = Some d /\
    i_outcar d = last_of (file_named "STRUCTURE FILE OUTCAR") es /\
    i_poscar d = (match last_of (file_named "STRUCTURE FILE POSCAR") es with Some n => Some n | None => Some "POSCAR" end) /\
    i_force_sets d = last_of (file_named "FORCE SETS") es /\
    i_force_constants d = last_of (file_named "FORCE CONSTANTS") es /\
    i_primitive d = last_of primitive_of es /\ i_supercell d = last_of supercell_of es /\
    i_bands d = last_of bands_of es /\ i_mesh d = last_of mesh_of es.
Proof.
  intros es file H. exists (fold_left (fun d e => apply e d) es empty_input). split; [exact (layout_read num int es file H empty_input)|].
  rewrite (fold_last _ _ _ get_file), (fold_last _ _ _ get_poscar), (fold_last _ _ _ get_sets), (fold_last _ _ _ get_constants).
  rewrite (fold_last _ _ _ get_primitive), (fold_last _ _ _ get_supercell), (fold_last _ _ _ get_bands), (fold_last _ _ _ get_mesh). unfold keep. cbn.
  repeat split; try (destruct (last_of _ es); reflexivity).
Qed.
(** a well-formed file in which MESH PHONOPY directly follows the list of bands is never read: the program stops with an exception *)
Theorem C68_mesh_after_bands_refuted : forall es rows labels m file,
  (forall l ms, occurs "MESH PHONOPY" l -> ~ spells int blank l ms) ->
  layout num int (no_band num) (es ++ [Bands rows labels; Mesh m]) file -> read_parameters num int file = None.
Proof.
  intros es rows labels m file Hi. unfold read_parameters. generalize empty_input as d. revert file.
  induction es as [|e es IH]; intros file d H; cbn [List.app] in H; inversion H as [|e0 b es0 f Hb Hl Hok]; subst.
  - inversion Hl as [|e1 b1 es1 f1 Hb1 Hl1 _]; subst. inversion Hb1 as [| | | | | |k v m0 Hk Hv Hm]; subst.
    apply (bands_then_mesh num int rows labels b k (v :: f1) d Hb); [apply (Hok rows labels k (v :: f1) eq_refl eq_refl)|apply Hk|intros ms; apply Hi, Hk].
  - destruct f as [|l r]. { exfalso. inversion Hl as [Hn|? b1 ? ? Hb1 ? ? E1 E2]; [destruct es; discriminate|]. destruct b1; [inversion Hb1|discriminate]. }
    assert (D : (exists rows0 labels0, e = Bands rows0 labels0) \/ forall rows0 labels0, e <> Bands rows0 labels0) by (destruct e; [right; discriminate..|left; eauto|right; discriminate]).
    destruct D as [(rows0 & labels0 & ->)|N].
    + destruct (contains l "MESH PHONOPY") eqn:C.
      * apply (bands_then_mesh num int rows0 labels0 b l r d Hb); [apply (Hok rows0 labels0 l r eq_refl eq_refl)|apply contains_occurs, C|intros ms; apply Hi, contains_occurs, C].
      * rewrite (block_read num int _ b Hb (l :: r) d); [apply IH, Hl|]. intros r1 l1 l2 r2 _ E. injection E as <- <-. split; [apply (Hok rows0 labels0 l r eq_refl eq_refl)|].
        intros X. apply contains_occurs in X. congruence.
    + rewrite (block_read num int _ b Hb (l :: r) d); [apply IH, Hl|]. intros r1 l1 l2 r2 E. destruct (N _ _ E).
Qed.
(** a line with a colon right after the list of bands (for instance a keyword written with one) stops the program too *)
Theorem C68_colon_after_bands_refuted : forall rows labels b p t rest,
  block num int (Bands rows labels) b -> ~ has_char ":" p -> ~ has_char ":" t -> ~ has_char "," t ->
  (forall xs, List.length xs = 6%nat -> ~ spells num blank_or_comma p xs) ->
  read_parameters num int (b ++ (p ++ String ":" t) :: rest) = None.
Proof. intros rows labels b p t rest Hb H1 H2 H3 H4. exact (bands_then_colon num int rows labels b p t rest empty_input Hb H1 H2 H3 H4). Qed.
(** A matrix needs its three lines: a file that ends before them is refused, whatever comes before. *)
Theorem C68_short_matrix_refused : forall before line rest,
  occurs "PRIMITIVE MATRIX" line \/ occurs "SUPERCELL MATRIX" line -> ~ comment line -> (List.length rest < 3)%nat ->
  read_parameters num int (before ++ line :: rest) = None.
Proof.
  intros before line rest Ho Hc Hl. unfold read_parameters. generalize empty_input as d. induction before as [|l before IH]; intros d; cbn [List.app read_from].
  - assert (M : forall X (f : string -> option X), read_matrix f 3 rest = None). { intros X f. unfold read_matrix. destruct (Nat.leb 3 (List.length rest)) eqn:L; [apply Nat.leb_le in L; lia|reflexivity]. }
    assert (N : one_line num int line rest d = None); [|rewrite N; reflexivity].
    unfold one_line. replace (is_comment line) with false.
    2:{ symmetry. destruct (is_comment line) eqn:E; [|reflexivity]. exfalso. apply Hc. destruct line as [|c t]; [discriminate|]. cbn in E. apply Ascii.eqb_eq in E. subst c. exists t. reflexivity. }
    rewrite !M. destruct (file_entry line "STRUCTURE FILE OUTCAR" rest set_outcar d) as [d1|]; [|reflexivity]. cbn [obind].
    destruct (file_entry line "STRUCTURE FILE POSCAR" rest set_poscar d1) as [d2|]; [|reflexivity]. cbn [obind].
    destruct (file_entry line "FORCE SETS" rest set_force_sets d2) as [d3|]; [|reflexivity]. cbn [obind].
    destruct (file_entry line "FORCE CONSTANTS" rest set_force_constants d3) as [d4|]; [|reflexivity]. cbn [obind option_map].
    destruct Ho as [Ho|Ho]; apply contains_occurs in Ho; rewrite Ho; [reflexivity|]. destruct (contains line "PRIMITIVE MATRIX"); reflexivity.
  - destruct (one_line num int l (before ++ line :: rest) d) as [d'|]; [|reflexivity]. cbn [obind]. apply IH.
Qed.
End Read.
Print Assumptions C68_short_matrix_refused.
Print Assumptions C68_reads_what_the_file_says_partial.
Print Assumptions C68_mesh_after_bands_refuted.

(** ** A concrete file *)
Definition num0 (w : string) : option R := if string_dec w "0.0" then Some 0%R else if string_dec w "0.5" then Some (1/2)%R else if string_dec w "1.0" then Some 1%R else None.
Definition int0 (w : string) : option Z := if string_dec w "0" then Some 0%Z else if string_dec w "2" then Some 2%Z else if string_dec w "40" then Some 40%Z else None.
Definition bands_part : list string := ["BANDS"; "0.0, 0.0, 0.0  0.5, 0.0, 0.5 : GAMMA, X"; "0.5, 0.0, 0.5  1.0, 0.5, 0.5 : X, K"].
Definition file0 (gap : list string) : list string :=
  (["# example"; "STRUCTURE FILE POSCAR"; "  ./POSCAR_unit "; "FORCE SETS"; "FORCE_SETS_222"; "SUPERCELL MATRIX"; "2 0 0"; "0 2 0"; "0 0 2"] ++ bands_part ++ gap ++ ["MESH PHONOPY"; "40 40 40"])%list.
Example C68_concrete_good : read_parameters num0 int0 (file0 [""]) =
  Some (MkInput None (Some "./POSCAR_unit") (Some "FORCE_SETS_222") None None (Some [[2; 0; 0]; [0; 2; 0]; [0; 0; 2]]%Z)
    (Some ([[0; 0; 0; 1/2; 0; 1/2]; [1/2; 0; 1/2; 1; 1/2; 1/2]]%R, Some [("GAMMA", "X"); ("X", "K")])) (Some [40; 40; 40]%Z)).
Proof. reflexivity. Qed.
Example C68_concrete_bad : read_parameters num0 int0 (file0 []) = None. Proof. reflexivity. Qed.
Lemma plain_check : forall l, forallb (fun k => negb (contains l k)) keywords = true -> plain l.
Proof. intros l H k Hk X. rewrite forallb_forall in H. specialize (H k Hk). apply contains_occurs in X. rewrite X in H. discriminate. Qed.
Lemma mentions_check : forall key l, contains l key = true -> forallb (fun k => if string_dec k key then true else negb (contains l k)) keywords = true -> is_comment l = false -> mentions key l.
Proof.
  intros key l H1 H2 H3. split; [apply contains_occurs, H1|]. split.
  - intros k Hk X. rewrite forallb_forall in H2. specialize (H2 k Hk). destruct (string_dec k key); [assumption|]. apply contains_occurs in X. rewrite X in H2. discriminate.
  - intros [s ->]. discriminate.
Qed.
Lemma char_check : forall c l, contains l (String c "") = false -> ~ has_char c l.
Proof.
  intros c l. induction l as [|d l IH]; intros H; [intros []|]. cbn [contains prefix] in H. apply Bool.orb_false_iff in H. destruct H as [H1 H2].
  intros [X|X]; [|apply (IH H2 X)]. subst d. destruct (Ascii.ascii_dec c c); [|congruence]. destruct l; discriminate.
Qed.
Lemma blank_check : forall l, forallb is_space (list_ascii_of_string l) = true -> Forall blank (chars l).
Proof. induction l as [|c l IH]; intros H; [constructor|]. cbn in H. apply andb_prop in H. destruct H as [H1 H2]. constructor; [apply is_space_blank, H1|apply IH, H2]. Qed.
Ltac plain1 := apply plain_check; vm_compute; reflexivity.
Ltac mention := apply mentions_check; vm_compute; reflexivity.
Lemma words_spell : forall X (f : string -> option X) l xs, all_some (map f (words l)) = Some xs -> spells f blank l xs.
Proof. intros X f l xs H. exists (words l). split; [apply pieces_worded, is_space_blank|apply all_some_forall2, H]. Qed.
Example C68_nonvacuous : exists es, layout num0 int0 (fun l => no_band num0 l /\ ~ occurs "MESH PHONOPY" l) es (file0 [""]) /\
  last_of bands_of es = Some ([[0; 0; 0; 1/2; 0; 1/2]; [1/2; 0; 1/2; 1; 1/2; 1/2]]%R, Some [("GAMMA", "X"); ("X", "K")]).
Proof.
  exists [Nothing; File "STRUCTURE FILE POSCAR" "./POSCAR_unit"; File "FORCE SETS" "FORCE_SETS_222"; Supercell [[2; 0; 0]; [0; 2; 0]; [0; 0; 2]]%Z;
    Bands (map fst [([0; 0; 0; 1/2; 0; 1/2]%R, ("GAMMA", "X")); ([1/2; 0; 1/2; 1; 1/2; 1/2]%R, ("X", "K"))]) (Some (map snd [([0; 0; 0; 1/2; 0; 1/2]%R, ("GAMMA", "X")); ([1/2; 0; 1/2; 1; 1/2; 1/2]%R, ("X", "K"))]));
    Nothing; Mesh [40; 40; 40]%Z]. split; [|reflexivity].
  assert (nb : no_band num0 "").
  { split; [intros []|]. intros xs Hl Hs. apply spells_comma in Hs. cbn in Hs. injection Hs as <-. discriminate. }
  apply (l_cons _ _ _ Nothing ["# example"]); [apply b_nothing; left; exists " example"; reflexivity| |discriminate].
  apply (l_cons _ _ _ (File _ _) ["STRUCTURE FILE POSCAR"; "  ./POSCAR_unit "]).
  { apply b_file; [cbn; tauto|mention|plain1|]. exists "  ", " ". split; [reflexivity|]. split; [apply blank_check; reflexivity|]. split; [apply blank_check; reflexivity|]. right.
    split; [exists "."%char, "/POSCAR_unit"|exists "./POSCAR_uni", "t"%char]; (split; [reflexivity|]); unfold blank; cbn; lia. } 2: discriminate.
  apply (l_cons _ _ _ (File _ _) ["FORCE SETS"; "FORCE_SETS_222"]).
  { apply b_file; [cbn; tauto|mention|plain1|]. exists "", "". split; [reflexivity|]. split; [apply blank_check; reflexivity|]. split; [apply blank_check; reflexivity|]. right.
    split; [exists "F"%char, "ORCE_SETS_222"|exists "FORCE_SETS_22", "2"%char]; (split; [reflexivity|]); unfold blank; cbn; lia. } 2: discriminate.
  apply (l_cons _ _ _ (Supercell _) ["SUPERCELL MATRIX"; "2 0 0"; "0 2 0"; "0 0 2"]).
  { apply b_supercell; [mention|repeat (constructor; [plain1|]); constructor| |repeat constructor]. repeat (constructor; [apply words_spell; reflexivity|]). constructor. } 2: discriminate.
  apply (l_cons _ _ _ (Bands _ _) bands_part).
  { apply b_labelled; [discriminate|mention|repeat (constructor; [plain1|]); constructor|].
    assert (R : forall a la lb xs na nb0, List.length xs = 6%nat -> contains a ":" = false -> all_some (map num0 (words (comma_to_space a))) = Some xs ->
      (forall c, c = ":"%char \/ c = ","%char -> ~ has_char c la /\ ~ has_char c lb) -> space_padded la na -> space_padded lb nb0 ->
      labelled_row num0 (a ++ String ":" (la ++ String "," lb)) (xs, (na, nb0))).
    { intros a la lb xs na nb0 H1 H2 H3 H4 H5 H6. exists a, la, lb. split; [reflexivity|]. split; [|split; [exact H4|split; [exact H5|exact H6]]]. split; [exact H1|]. split; [apply char_check, H2|]. apply spells_comma, H3. }
    constructor.
    - apply (R "0.0, 0.0, 0.0  0.5, 0.0, 0.5 " " GAMMA" " X"); try reflexivity; [intros c [-> | ->]; split; apply char_check; reflexivity| |].
      + exists " ", "". split; [reflexivity|]. split; [repeat constructor|]. split; [constructor|apply char_check; reflexivity].
      + exists " ", "". split; [reflexivity|]. split; [repeat constructor|]. split; [constructor|apply char_check; reflexivity].
    - constructor; [|constructor]. apply (R "0.5, 0.0, 0.5  1.0, 0.5, 0.5 " " X" " K"); try reflexivity; [intros c [-> | ->]; split; apply char_check; reflexivity| |].
      + exists " ", "". split; [reflexivity|]. split; [repeat constructor|]. split; [constructor|apply char_check; reflexivity].
      + exists " ", "". split; [reflexivity|]. split; [repeat constructor|]. split; [constructor|apply char_check; reflexivity]. }
  2: { intros rows labels l r _ E. injection E as <- <-. split; [exact nb|]. intros X. apply contains_occurs in X. discriminate. }
  apply (l_cons _ _ _ Nothing [""]); [apply b_nothing; right; plain1| |discriminate].
  apply (l_cons _ _ _ (Mesh _) ["MESH PHONOPY"; "40 40 40"] [] []); [apply b_mesh; [mention|plain1|apply words_spell; reflexivity]|constructor|discriminate].
Qed.

(** C69.  For a file that is not empty: a parser is returned exactly when all its keywords occur in the first 10^6 bytes and
    no earlier parser of the list qualifies; None is returned exactly when no parser qualifies *)
Definition checked (bytes : string) (n : nat) : string := substring 0 n bytes.
Definition qualifies (p : parser * list string) (text : string) : Prop := forall k, In k (snd p) -> occurs k text.
Lemma prefix_min : forall n s, substring 0 (Nat.min n (String.length s)) s = substring 0 n s.
Proof. induction n as [|n IH]; intros [|c s]; cbn; try reflexivity. rewrite IH. reflexivity. Qed.
Lemma qual_spec : forall p text, forallb (contains text) (snd p) = true <-> qualifies p text.
Proof. intros p text. rewrite forallb_forall. unfold qualifies. split; intros H k Hk; [apply contains_occurs, H, Hk|apply contains_occurs, H, Hk]. Qed.
Theorem C69_first_matching_format_partial : forall bytes n, bytes <> "" ->
  exists r, get_trajectory_parser bytes n = Some r /\
  (forall p, r = Some p <-> exists before keys after, parsers_keywords = (before ++ (p, keys) :: after)%list /\ qualifies (p, keys) (checked bytes n) /\
     forall q, In q before -> ~ qualifies q (checked bytes n)) /\
  (r = None <-> forall q, In q parsers_keywords -> ~ qualifies q (checked bytes n)).
Proof.
  intros bytes n Hb. unfold get_trajectory_parser. rewrite prefix_min. fold (checked bytes n). destruct bytes as [|c bytes]; [congruence|]. set (text := checked (String c bytes) n).
  eexists. split; [reflexivity|]. set (test := fun p : parser * list string => forallb (contains text) (snd p)).
  assert (F : forall q, test q = false <-> ~ qualifies q text). { intros q. rewrite <- qual_spec. unfold test. destruct (forallb _ _); split; congruence. }
  split.
  - intros p. split.
    + intros H. destruct (find test parsers_keywords) as [[p0 keys]|] eqn:E; [|discriminate]. cbn in H. injection H as ->. apply find_first in E. destruct E as (a & b & E & H1 & H2).
      exists a, keys, b. split; [exact E|]. split; [apply qual_spec, H1|]. intros q Hq. apply F. rewrite Forall_forall in H2. apply H2, Hq.
    + intros (a & keys & b & E & H1 & H2). assert (X : find test parsers_keywords = Some (p, keys)). { apply find_first. exists a, b. split; [exact E|]. split; [apply qual_spec, H1|]. apply Forall_forall. intros q Hq. apply F, H2, Hq. } rewrite X. reflexivity.
  - destruct (find test parsers_keywords) as [q|] eqn:E; cbn.
    + split; [discriminate|]. intros H. apply find_some in E. destruct E as [E1 E2]. exfalso. apply (H q E1), qual_spec, E2.
    + split; [|reflexivity]. intros _ q Hq. apply F. apply (find_none _ _ E q Hq).
Qed.
(** nothing after the bytes checked matters *)
Theorem C69_only_the_beginning_counts : forall a b n, a <> "" -> b <> "" -> substring 0 n a = substring 0 n b -> get_trajectory_parser a n = get_trajectory_parser b n.
Proof. intros a b n Ha Hb E. unfold get_trajectory_parser. rewrite !prefix_min, E. destruct a, b; congruence. Qed.
(** so a file whose keywords come later is not recognised *)
Theorem C69_late_keywords_refuted : forall head body n, head <> "" -> String.length head = n -> (forall q, In q parsers_keywords -> ~ qualifies q head) ->
  get_trajectory_parser (head ++ body) n = Some None.
Proof.
  intros head body n Hh Hl Hq. destruct (C69_first_matching_format_partial (head ++ body) n) as (r & E & _ & H2). { destruct head; [congruence|discriminate]. }
  rewrite E. f_equal. apply H2. intros q Hin. unfold checked. replace (substring 0 n (head ++ body)) with head; [apply Hq, Hin|].
  subst n. clear. induction head as [|c h IH]; [destruct body; reflexivity|]. cbn. rewrite <- IH. reflexivity.
Qed.
Print Assumptions C69_first_matching_format_partial.
(** the three formats and their keywords *)
Theorem C69_formats_partial : forall bytes n, bytes <> "" ->
  let text := checked bytes n in
  let vasp := occurs "NIONS" text /\ occurs "POMASS" text /\ occurs "direct lattice vectors" text in
  let lammps := occurs "ITEM: TIMESTEP" text /\ occurs "ITEM: NUMBER OF ATOMS" text /\ occurs "ITEM: BOX BOUNDS" text in
  let xdatcar := occurs "Direct configuration" text /\ occurs "=" text in
  (get_trajectory_parser bytes n = Some (Some OutcarParser) <-> vasp) /\
  (get_trajectory_parser bytes n = Some (Some LammpsParser) <-> ~ vasp /\ lammps) /\
  (get_trajectory_parser bytes n = Some (Some XdatcarParser) <-> ~ vasp /\ ~ lammps /\ xdatcar) /\
  (get_trajectory_parser bytes n = Some None <-> ~ vasp /\ ~ lammps /\ ~ xdatcar).
Proof.
  intros bytes n Hb text vasp lammps xdatcar. unfold get_trajectory_parser. rewrite prefix_min. fold (checked bytes n). fold text. destruct bytes as [|c bytes]; [congruence|]. clearbody text.
  unfold parsers_keywords. cbn [find snd forallb].
  assert (V : vasp <-> (contains text "NIONS" && (contains text "POMASS" && (contains text "direct lattice vectors" && true)))%bool = true) by (unfold vasp; rewrite !andb_true_iff, !contains_occurs; tauto).
  assert (L : lammps <-> (contains text "ITEM: TIMESTEP" && (contains text "ITEM: NUMBER OF ATOMS" && (contains text "ITEM: BOX BOUNDS" && true)))%bool = true) by (unfold lammps; rewrite !andb_true_iff, !contains_occurs; tauto).
  assert (X : xdatcar <-> (contains text "Direct configuration" && (contains text "Direct configuration" && (contains text "=" && true)))%bool = true) by (unfold xdatcar; rewrite !andb_true_iff, !contains_occurs; tauto).
  rewrite V, L, X. clear V L X vasp lammps xdatcar.
  destruct (contains text "NIONS" && _)%bool; [cbn; intuition (try discriminate; try congruence)|].
  destruct (contains text "ITEM: TIMESTEP" && _)%bool; [cbn; intuition (try discriminate; try congruence)|].
  destruct (contains text "Direct configuration" && _)%bool; cbn; intuition (try discriminate; try congruence).
Qed.
Print Assumptions C69_formats_partial.
Example C69_nonvacuous :
  get_trajectory_parser "ITEM: TIMESTEP 0 ITEM: NUMBER OF ATOMS 8 ITEM: BOX BOUNDS pp pp pp" 1000 = Some (Some LammpsParser) /\
  get_trajectory_parser "Si 1.0 Direct configuration=     1" 1000 = Some (Some XdatcarParser) /\
  get_trajectory_parser "Direct configuration=     1" 10 = Some None.
Proof. split; [reflexivity|]. split; reflexivity. Qed.
