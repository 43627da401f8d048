(** C106: the structure in an OUTCAR file. *)
From Verif Require Import OutcarModel.
From Coq Require Import List Ascii String Arith ZArith Lia Bool.
Import ListNotations.
Open Scope nat_scope.

(** * Specification: the parts of an OUTCAR file *)
(** [pat] occurs in [t] at [i] *)
Definition occurs (pat t : bytes) (i : nat) : Prop := exists u v, t = u ++ pat ++ v /\ List.length u = i.
(** the first [pat] in a text that begins with [junk ++ pat] is that one *)
Definition heading (junk pat : bytes) : Prop := forall i, occurs pat (junk ++ pat) i -> List.length junk <= i.
(** a line: no newline inside *)
Definition one_line (l : bytes) : Prop := ~ In newline l.
(** the words of a line: [l] is words separated by white space, perhaps with white space around *)
Inductive has_words : bytes -> list bytes -> Prop :=
| hw_end b : List.Forall (fun c => blank c = true) b -> has_words b []
| hw_last b w : List.Forall (fun c => blank c = true) b -> w <> [] -> List.Forall (fun c => blank c = false) w -> has_words (b ++ w) [w]
| hw_word b w c l ws : List.Forall (fun c => blank c = true) b -> w <> [] -> List.Forall (fun c => blank c = false) w -> blank c = true -> has_words (c :: l) ws -> has_words (b ++ w ++ c :: l) (w :: ws).
Definition lines (l : list bytes) : bytes := List.concat (map (fun x => x ++ [newline]) l).
(** each line gives three numbers *)
Definition three {X} (read_float : bytes -> option X) (l : bytes) (v : list X) : Prop :=
  exists a b c x y z, has_words l [a; b; c] /\ read_float a = Some x /\ read_float b = Some y /\ read_float c = Some z /\ v = [x; y; z].
Definition six {X} (read_float : bytes -> option X) (l : bytes) (v : list X) : Prop :=
  exists a b c d e f x y z u v' w, has_words l [a; b; c; d; e; f] /\ read_float a = Some x /\ read_float b = Some y /\ read_float c = Some z /\
    read_float d = Some u /\ read_float e = Some v' /\ read_float f = Some w /\ v = [x; y; z].

(** * Proofs *)
Lemma skipn_app_exact {A} (u v : list A) n : n = List.length u -> skipn n (u ++ v) = v.
Proof. intros ->. rewrite skipn_app, skipn_all, Nat.sub_diag. reflexivity. Qed.
Lemma firstn_app_exact {A} (u v : list A) n : n = List.length u -> firstn n (u ++ v) = u.
Proof. intros ->. rewrite firstn_app, firstn_all, Nat.sub_diag. apply app_nil_r. Qed.
Lemma starts_iff pat : forall t, starts_with pat t = true <-> exists v, t = pat ++ v.
Proof.
  induction pat as [|a pat IH]; intros t; [split; [exists t; reflexivity|reflexivity]|]. destruct t as [|b t]; cbn.
  - split; [discriminate|intros [v H]; discriminate].
  - destruct (ascii_dec a b) as [->|N].
    + rewrite IH. split; intros [v H]; exists v; [rewrite H; reflexivity|congruence].
    + split; [discriminate|]. intros [v H]. congruence.
Qed.
Lemma search_first pat : forall junk rest i, heading junk pat -> search pat (junk ++ pat ++ rest) i = Some (i + List.length junk).
Proof.
  induction junk as [|c junk IH]; intros rest i H.
  - cbn [app List.length]. rewrite Nat.add_0_r. assert (E : starts_with pat (pat ++ rest) = true) by (apply starts_iff; exists rest; reflexivity).
    destruct (pat ++ rest); cbn [search]; rewrite E; reflexivity.
  - cbn [app search]. destruct (starts_with pat (c :: junk ++ pat ++ rest)) eqn:E.
    + exfalso. apply starts_iff in E. destruct E as [v E]. assert (K : List.length (c :: junk) <= 0); [|cbn in K; lia]. apply H.
      assert (F : exists w, c :: junk ++ pat = pat ++ w).
      { exists (skipn (List.length pat) (c :: junk ++ pat)).
        assert (E' := f_equal (firstn (List.length pat)) E). rewrite firstn_app_exact in E' by reflexivity.
        change (c :: junk ++ pat ++ rest) with ((c :: junk) ++ pat ++ rest) in E'. change (c :: junk ++ pat) with ((c :: junk) ++ pat). rewrite app_assoc in E'. rewrite firstn_app in E'.
        replace (List.length pat - List.length ((c :: junk) ++ pat)) with 0 in E' by (rewrite app_length; lia). cbn [firstn] in E'. rewrite app_nil_r in E'.
        rewrite <- (firstn_skipn (List.length pat) ((c :: junk) ++ pat)) at 1. rewrite E'. reflexivity. }
      destruct F as [w F]. exists [], w. split; [exact F|reflexivity].
    + rewrite IH; [f_equal; cbn; lia|]. intros j [u [v [F L]]]. assert (K : List.length (c :: junk) <= S j); [|cbn in K; lia]. apply H. exists (c :: u), v. cbn. rewrite F, L. split; reflexivity.
Qed.
Lemma line_of_app l rest : one_line l -> line_of (l ++ newline :: rest) = l ++ [newline].
Proof.
  intros H. induction l as [|c l IH]; cbn [app line_of].
  - destruct (ascii_dec newline newline); [reflexivity|contradiction].
  - destruct (ascii_dec c newline) as [->|N]; [exfalso; apply H; left; reflexivity|]. rewrite IH; [reflexivity|]. intros K. apply H. right. exact K.
Qed.
Lemma split_blank b : forall t, List.Forall (fun c => blank c = true) b -> split_from [] (b ++ t) = split_from [] t.
Proof. induction b as [|c b IH]; intros t H; [reflexivity|]. inversion H; subst. cbn. rewrite H2. apply IH. assumption. Qed.
Lemma split_word w : forall w0 t, List.Forall (fun c => blank c = false) w -> split_from w0 (w ++ t) = split_from (rev w ++ w0) t.
Proof. induction w as [|c w IH]; intros w0 t H; [reflexivity|]. inversion H; subst. cbn. rewrite H2, IH by assumption. rewrite <- app_assoc. reflexivity. Qed.
Lemma split_end w : w <> [] -> split_from (rev w) [] = [w].
Proof. intros W. cbn. rewrite rev_involutive. destruct (rev w) eqn:E; [|reflexivity]. exfalso. apply W. rewrite <- (rev_involutive w), E. reflexivity. Qed.
Lemma split_cut w c t : w <> [] -> blank c = true -> split_from (rev w) (c :: t) = w :: split_from [] t.
Proof. intros W C. cbn. rewrite C, rev_involutive. destruct (rev w) eqn:E; [|reflexivity]. exfalso. apply W. rewrite <- (rev_involutive w), E. reflexivity. Qed.
Lemma split_words l ws : has_words l ws -> OutcarModel.split (l ++ [newline]) = ws /\ OutcarModel.split l = ws.
Proof.
  intros H. unfold OutcarModel.split. induction H as [b B|b w B W N|b w c l ws B W N C H IH].
  - split; [rewrite split_blank by exact B; reflexivity|]. rewrite <- (app_nil_r b), split_blank by exact B. reflexivity.
  - split.
    + rewrite <- app_assoc. rewrite split_blank by exact B. rewrite split_word by exact N. rewrite app_nil_r. rewrite (split_cut w newline [] W eq_refl). reflexivity.
    + rewrite split_blank by exact B. rewrite <- (app_nil_r w) at 1. rewrite split_word by exact N. rewrite app_nil_r. apply split_end, W.
  - destruct IH as [IH1 IH2]. cbn [app split_from] in IH1, IH2. rewrite C in IH1, IH2. split.
    + rewrite <- app_assoc. rewrite split_blank by exact B. rewrite <- app_assoc. rewrite split_word by exact N. rewrite app_nil_r. cbn [app]. rewrite (split_cut w c _ W C), IH1. reflexivity.
    + rewrite split_blank by exact B. rewrite split_word by exact N. rewrite app_nil_r. rewrite (split_cut w c _ W C), IH2. reflexivity.
Qed.

Section Reading.
Context {X : Type} (read_int : bytes -> option nat) (read_float : bytes -> option X) (file : bytes).
(** the bytes from position [pos] on are [t] *)
Definition at_pos (pos : nat) (t : bytes) : Prop := exists u, file = u ++ t /\ List.length u = pos.
Lemma at_skip pos t : at_pos pos t -> skipn pos file = t.
Proof. intros [u [-> L]]. apply skipn_app_exact. congruence. Qed.
Lemma at_move pos u t : at_pos pos (u ++ t) -> at_pos (pos + List.length u) t.
Proof. intros [w [E L]]. exists (w ++ u). rewrite <- app_assoc. split; [exact E|]. rewrite app_length. lia. Qed.
Lemma at_len pos t : at_pos pos t -> List.length file = pos + List.length t.
Proof. intros [u [E L]]. rewrite E, app_length. lia. Qed.
Lemma seek_at pos t (z : Z) : at_pos pos t -> z = Z.of_nat pos -> seek file z = Some pos.
Proof.
  intros H ->. unfold seek. assert (L := at_len _ _ H). assert (E : ((0 <=? Z.of_nat pos) && (Z.of_nat pos <=? Z.of_nat (List.length file)))%Z = true).
  { apply andb_true_intro. split; apply Z.leb_le; lia. } rewrite E, Nat2Z.id. reflexivity.
Qed.
Lemma find_at pos junk pat rest : at_pos pos (junk ++ pat ++ rest) -> heading junk pat -> OutcarModel.find file pat pos = Z.of_nat (pos + List.length junk).
Proof. intros A H. unfold OutcarModel.find. rewrite (at_skip _ _ A), (search_first pat junk rest pos H). reflexivity. Qed.
Lemma keyword_at pos junk (s : string) (more rest : bytes) (k : Z) : at_pos pos (junk ++ of_string s ++ more ++ rest) -> heading junk (of_string s) -> k = Z.of_nat (List.length (of_string s ++ more)) ->
  exists p, keyword file s k pos = Some p /\ at_pos p rest.
Proof.
  intros A H ->. unfold keyword. rewrite (find_at pos junk (of_string s) (more ++ rest) A H). apply at_move in A. rewrite app_assoc in A. apply at_move in A.
  eexists. split; [|exact A]. apply (seek_at _ rest _ A). lia.
Qed.
Lemma keyword_here pos junk (s : string) (rest : bytes) : at_pos pos (junk ++ of_string s ++ rest) -> heading junk (of_string s) ->
  exists p, keyword file s 0 pos = Some p /\ at_pos p (of_string s ++ rest).
Proof.
  intros A H. unfold keyword. rewrite (find_at pos junk (of_string s) rest A H). apply at_move in A.
  eexists. split; [|exact A]. apply (seek_at _ _ _ A). lia.
Qed.
Lemma readline_at pos l rest : at_pos pos (l ++ newline :: rest) -> one_line l -> exists p, readline file pos = (l ++ [newline], p) /\ at_pos p rest.
Proof.
  intros A H. unfold readline. rewrite (at_skip _ _ A), line_of_app by exact H. eexists. split; [reflexivity|]. apply at_move. rewrite <- app_assoc. exact A.
Qed.
Lemma columns_at start : forall (cols : list bytes) i pos rest u, at_pos start (u ++ List.concat cols ++ rest) -> List.length u = 9 + 6 * i -> List.Forall (fun c => List.length c = 6) cols -> cols <> [] ->
  exists p, columns file start i (List.length cols) pos = Some (cols, p) /\ at_pos p rest.
Proof.
  induction cols as [|c cols IH]; intros i pos rest u A L F N; [contradiction|]. inversion F as [|? ? F1 F2]; subst. cbn [List.length columns].
  assert (A1 := at_move _ _ _ A). cbn [List.concat] in A1. rewrite <- app_assoc in A1. rewrite (seek_at _ _ _ A1) by lia.
  unfold read. rewrite (at_skip _ _ A1). rewrite firstn_app_exact by congruence.
  destruct cols as [|c2 cols].
  - cbn [columns List.length]. eexists. split; [reflexivity|]. apply at_move in A1. cbn [List.concat app] in A1. exact A1.
  - destruct (IH (S i) (start + List.length u + List.length c) rest (u ++ c)) as [p [E A2]]; [|rewrite app_length; lia|exact F2|discriminate|].
    + rewrite <- app_assoc. cbn [List.concat] in A |- *. rewrite <- app_assoc in A. exact A.
    + rewrite E. exists p. split; [reflexivity|exact A2].
Qed.
(** tables *)
Lemma table_at a b : forall ls ws pos rest, at_pos pos (lines ls ++ rest) -> List.Forall one_line ls -> List.Forall2 has_words ls ws ->
  exists p, table file a b (List.length ls) pos = (map (fun w => firstn (b - a) (skipn a w)) ws, p) /\ at_pos p rest.
Proof.
  induction ls as [|l ls IH]; intros ws pos rest A O W; inversion W as [|? w ? ws' Hw Hws]; subst; cbn [table List.length map]; [exists pos; split; [reflexivity|exact A]|].
  inversion O as [|? ? O1 O2]; subst. unfold lines in A. cbn [map List.concat] in A. rewrite <- !app_assoc in A. cbn [app] in A.
  destruct (readline_at pos l _ A O1) as [p [E A1]]. rewrite E. destruct (IH ws' p rest A1 O2 Hws) as [q [E2 A2]]. rewrite E2. exists q. split; [|exact A2].
  rewrite (proj1 (split_words l w Hw)). reflexivity.
Qed.
Lemma all_some_map {Y Z} (f : Y -> option Z) l r : List.Forall2 (fun y z => f y = Some z) l r -> all_some (map f l) = Some r.
Proof. intros H. induction H as [|y z l r E H IH]; [reflexivity|]. cbn. rewrite E, IH. reflexivity. Qed.
Lemma matrix_ok rows m k : List.Forall2 (fun r v => floats read_float r = Some v) rows m -> List.Forall (fun v => List.length v = k) m -> matrix read_float rows = Some m.
Proof.
  intros H L. unfold matrix. rewrite (all_some_map _ _ _ H). destruct m as [|v m]; [reflexivity|]. inversion L as [|? ? L1 L2]; subst.
  assert (E : forallb (fun r : list X => Nat.eqb (List.length r) (List.length v)) (v :: m) = true); [|rewrite E; reflexivity].
  apply forallb_forall. intros x Hx. apply Nat.eqb_eq. exact (proj1 (Forall_forall _ _) L x Hx).
Qed.
Lemma three_table ls vs pos rest : at_pos pos (lines ls ++ rest) -> List.Forall one_line ls -> List.Forall2 (three read_float) ls vs ->
  exists rows p, table file 0 3 (List.length ls) pos = (rows, p) /\ matrix read_float rows = Some vs /\ at_pos p rest.
Proof.
  intros A O T. assert (W : exists ws, List.Forall2 has_words ls ws /\ List.Forall2 (fun r v => floats read_float r = Some v) (map (fun w => firstn 3 (skipn 0 w)) ws) vs /\ List.Forall (fun v => List.length v = 3) vs).
  { clear A O. induction T as [|l v ls vs H T IH]; [exists []; repeat split; constructor|]. destruct IH as [ws [W1 [W2 W3]]]. destruct H as [a [b [c [x [y [z [H1 [H2 [H3 [H4 ->]]]]]]]]]].
    exists ([a; b; c] :: ws). split; [constructor; assumption|]. split; [cbn [map]; constructor; [|exact W2]|constructor; [reflexivity|exact W3]]. cbn. unfold floats. cbn. rewrite H2, H3, H4. reflexivity. }
  destruct W as [ws [W1 [W2 W3]]]. destruct (table_at 0 3 ls ws pos rest A O W1) as [p [E A2]]. exists (map (fun w => firstn 3 (skipn 0 w)) ws), p. split; [exact E|]. split; [exact (matrix_ok _ _ 3 W2 W3)|exact A2].
Qed.
Lemma six_table ls vs pos rest : at_pos pos (lines ls ++ rest) -> List.Forall one_line ls -> List.Forall2 (six read_float) ls vs ->
  matrix read_float (fst (table file 0 3 (List.length ls) pos)) = Some vs /\
  exists rows p ws, table file 3 6 (List.length ls) pos = (rows, p) /\ matrix read_float rows = Some ws /\ at_pos p rest.
Proof.
  intros A O T. assert (W : exists ws us, List.Forall2 has_words ls ws /\ List.Forall2 (fun r v => floats read_float r = Some v) (map (fun w => firstn 3 (skipn 0 w)) ws) vs /\ List.Forall (fun v => List.length v = 3) vs
     /\ List.Forall2 (fun r v => floats read_float r = Some v) (map (fun w => firstn 3 (skipn 3 w)) ws) us /\ List.Forall (fun v => List.length v = 3) us).
  { clear A O. induction T as [|l v ls vs H T IH]; [exists [], []; repeat split; constructor|]. destruct IH as [ws [us [W1 [W2 [W3 [W4 W5]]]]]]. destruct H as [a [b [c [d [e [f [x [y [z [u [v' [w [H1 [H2 [H3 [H4 [H5 [H6 [H7 ->]]]]]]]]]]]]]]]]]]].
    exists ([a; b; c; d; e; f] :: ws), ([u; v'; w] :: us). split; [constructor; assumption|]. split; [cbn [map]; constructor; [|exact W2]|split; [constructor; [reflexivity|exact W3]|split; [cbn [map]; constructor; [|exact W4]|constructor; [reflexivity|exact W5]]]]; cbn; unfold floats; cbn; [rewrite H2, H3, H4|rewrite H5, H6, H7]; reflexivity. }
  destruct W as [ws [us [W1 [W2 [W3 [W4 W5]]]]]]. destruct (table_at 0 3 ls ws pos rest A O W1) as [p [E A2]]. destruct (table_at 3 6 ls ws pos rest A O W1) as [q [E' A2']].
  split; [rewrite E; exact (matrix_ok _ _ 3 W2 W3)|]. exists (map (fun w => firstn 3 (skipn 3 w)) ws), q, us. split; [exact E'|]. split; [exact (matrix_ok _ _ 3 W4 W5)|exact A2'].
Qed.
Lemma floats_per_atom cols (masses : list X) : forall counts, List.Forall2 (fun c m => read_float c = Some m) cols masses -> floats read_float (per_atom cols counts) = Some (per_atom masses counts).
Proof.
  unfold floats. intros counts H. apply all_some_map. revert counts. induction H as [|c m cols masses E H IH]; intros [|k ks]; cbn; try constructor. apply Forall2_app; [|apply IH].
  induction k as [|k IHk]; cbn; constructor; assumption.
Qed.
End Reading.

(** * C106 *)
Record outcar := MkOutcar {
  before_nions : bytes; nions_line : bytes;                    (* ... NIONS = 8 *)
  before_types : bytes; types_line : bytes;                    (* ions per type = 4 4 *)
  before_masses : bytes; mass_columns : list bytes;            (* POMASS = and columns of six characters *)
  before_cell : bytes; cell_title : bytes; cell_lines : list bytes;
  before_fractional : bytes; fractional_title : bytes; fractional_lines : list bytes;
  before_positions : bytes; positions_title : bytes; position_lines : list bytes;
  after : bytes }.
(** the text of the file *)
Definition text (o : outcar) : bytes :=
  (before_nions o ++ of_string "NIONS =" ++ nions_line o ++ newline :: before_types o ++ of_string "ions per type =" ++ types_line o ++ newline ::
   before_masses o ++ of_string "POMASS = " ++ List.concat (mass_columns o) ++ newline :: before_cell o ++ of_string "direct lattice vectors" ++ cell_title o ++ newline ::
   lines (cell_lines o) ++ before_fractional o ++ of_string "position of ions in fractional coordinates" ++ fractional_title o ++ newline :: lines (fractional_lines o) ++
   before_positions o ++ of_string "position of ions in cartesian coordinates" ++ positions_title o ++ newline :: lines (position_lines o) ++ after o)%list.
(** the headings are the first ones of their kind after the previous part; anything else may stand between the parts *)
Definition headings (o : outcar) : Prop :=
  heading (before_nions o) (of_string "NIONS =") /\ heading (before_types o) (of_string "ions per type") /\ heading (before_masses o) (of_string "POMASS =") /\
  heading (newline :: before_cell o) (of_string "direct lattice vectors") /\ heading (before_fractional o) (of_string "position of ions in fractional coordinates") /\
  heading (before_positions o) (of_string "position of ions in cartesian coordinates").
Definition single_lines (o : outcar) : Prop :=
  one_line (nions_line o) /\ one_line (types_line o) /\ one_line (cell_title o) /\ one_line (fractional_title o) /\ one_line (positions_title o) /\
  List.Forall one_line (cell_lines o) /\ List.Forall one_line (fractional_lines o) /\ List.Forall one_line (position_lines o).
(** the mass of atom [k]: the atoms of the first type come first *)
Definition mass_of {X} (masses : list X) (counts : list nat) (k : nat) (m : X) : Prop :=
  exists j, nth_error masses j = Some m /\ list_sum (firstn j counts) <= k < list_sum (firstn (S j) counts).

Lemma per_atom_spec {X} (masses : list X) : forall counts, List.length masses = List.length counts ->
  List.length (per_atom masses counts) = list_sum counts /\ forall k, k < list_sum counts -> exists m, nth_error (per_atom masses counts) k = Some m /\ mass_of masses counts k m.
Proof.
  induction masses as [|m ms IH]; intros [|c cs] L; try discriminate; cbn [per_atom list_sum fold_right]; [split; [reflexivity|intros k H; lia]|].
  destruct (IH cs) as [L1 H1]; [cbn in L; lia|]. change (fold_right Nat.add 0 cs) with (list_sum cs). split; [rewrite app_length, repeat_length; lia|]. intros k Hk.
  destruct (Nat.lt_ge_cases k c) as [K|K].
  - exists m. split.
    + rewrite nth_error_app1 by (rewrite repeat_length; exact K). apply nth_error_repeat. exact K.
    + exists 0. split; [reflexivity|]. cbn. lia.
  - destruct (H1 (k - c)) as [m' [E [j [Ej Lj]]]]; [lia|]. exists m'. split; [rewrite nth_error_app2 by (rewrite repeat_length; exact K); rewrite repeat_length; exact E|].
    exists (S j). split; [exact Ej|]. cbn [firstn list_sum fold_right] in Lj |- *. change (fold_right Nat.add 0) with list_sum. change (fold_right Nat.add 0) with list_sum in Lj. destruct cs as [|c2 cs]; [cbn in Lj; destruct j; cbn in Lj; lia|].
    change (fold_right Nat.add 0 (firstn j cs)) with (list_sum (firstn j cs)) in *. cbn [list_sum fold_right] in *. lia.
Qed.

(** Whatever stands between the parts, the structure is the one in the file: cell and Cartesian positions line by line, and each atom has the mass of its type. *)
Theorem C106_as_written : forall (X : Type) (read_int : bytes -> option nat) (read_float : bytes -> option X) (o : outcar) (counts : list nat) (masses : list X) (cell fractional positions : list (list X)) (count_words : list bytes),
  headings o -> single_lines o ->
  read_int (nions_line o ++ [newline]) = Some (List.length (position_lines o)) -> List.length (fractional_lines o) = List.length (position_lines o) ->
  has_words (types_line o) count_words -> List.Forall2 (fun w c => read_int w = Some c) count_words counts -> counts <> [] ->
  List.length (mass_columns o) = List.length counts -> List.Forall (fun c => List.length c = 6) (mass_columns o) -> List.Forall2 (fun c m => read_float c = Some m) (mass_columns o) masses ->
  List.length (cell_lines o) = 3 -> List.Forall2 (six read_float) (cell_lines o) cell ->
  List.Forall2 (three read_float) (fractional_lines o) fractional -> List.Forall2 (three read_float) (position_lines o) positions ->
  exists s, read_structure read_int read_float (text o) = Some s /\ s_cell s = cell /\ s_positions s = positions /\
    List.length (s_masses s) = list_sum counts /\ forall k, k < list_sum counts -> exists m, nth_error (s_masses s) k = Some m /\ mass_of masses counts k m.
Proof.
  intros X read_int read_float o counts masses cell fractional positions count_words [H1 [H2 [H3 [H4 [H5 H6]]]]] [O1 [O2 [O3 [O4 [O5 [O6 [O7 O8]]]]]]] N LF W2 C2 CN LM M6 MM L3 CELL FR POS.
  set (file := text o). assert (A0 : at_pos file 0 (text o)) by (exists []; split; reflexivity). unfold text in A0.
  unfold read_structure, bind.
  destruct (keyword_at file 0 _ "NIONS =" [] _ 7 A0 H1 eq_refl) as [p1 [E1 A1]]. rewrite E1. clear A0.
  destruct (readline_at file p1 _ _ A1 O1) as [p2 [E2 A2]]. rewrite E2, N. clear A1.
  change (of_string "ions per type =") with (of_string "ions per type" ++ of_string " =") in A2. rewrite <- (app_assoc (of_string "ions per type")) in A2.
  destruct (keyword_at file p2 _ "ions per type" (of_string " =") _ 15 A2 H2 eq_refl) as [p3 [E3 A3]]. rewrite E3. clear A2.
  destruct (readline_at file p3 _ _ A3 O2) as [p4 [E4 A4]]. rewrite E4, (proj1 (split_words _ _ W2)). clear A3.
  unfold ints. rewrite (all_some_map _ _ _ C2).
  change (of_string "POMASS = ") with (of_string "POMASS =" ++ of_string " ") in A4. rewrite <- (app_assoc (of_string "POMASS =")) in A4.
  assert (F4 := find_at file p4 _ (of_string "POMASS =") _ A4 H3). rewrite F4. assert (NN : (Z.of_nat (p4 + List.length (before_masses o)) <? 0)%Z = false) by (apply Z.ltb_ge; lia). rewrite NN, Nat2Z.id.
  assert (A5 := at_move file _ _ _ A4). clear A4. rewrite app_assoc in A5. rewrite <- LM.
  destruct (columns_at file _ (mass_columns o) 0 p4 _ (of_string "POMASS =" ++ of_string " ") A5 eq_refl M6) as [p5 [E5 A6]]; [intros Z; rewrite Z in LM; destruct counts; [contradiction|discriminate]|]. rewrite E5. clear A5.
  rewrite (floats_per_atom read_float _ _ counts MM).
  destruct (keyword_here file p5 (newline :: before_cell o) "direct lattice vectors" _ A6 H4) as [p6 [E6 A7]]. rewrite E6. clear A6.
  rewrite app_assoc in A7. destruct (readline_at file p6 _ _ A7) as [p7 [E7 A8]]. { intros I. apply in_app_or in I. destruct I as [I|I]; [cbn in I; repeat (destruct I as [I|I]; [discriminate|]); exact I|exact (O3 I)]. } clear A7. rewrite E7.
  destruct (six_table read_float file _ _ p7 _ A8 O6 CELL) as [M1 [rows [p8 [ws [E8 [M2 A9]]]]]]. rewrite L3 in M1, E8. rewrite M1, E8, M2. clear A8.
  destruct (keyword_here file p8 _ "position of ions in fractional coordinates" _ A9 H5) as [p9 [E9 A10]]. rewrite E9. clear A9.
  rewrite app_assoc in A10. destruct (readline_at file p9 _ _ A10) as [p10 [E10 A11]]. { intros I. apply in_app_or in I. destruct I as [I|I]; [cbn in I; repeat (destruct I as [I|I]; [discriminate|]); exact I|exact (O4 I)]. } clear A10. rewrite E10.
  destruct (three_table read_float file _ _ p10 _ A11 O7 FR) as [rows2 [p11 [E11 [M3 A12]]]]. rewrite LF in E11. rewrite E11, M3. clear A11.
  destruct (keyword_here file p11 _ "position of ions in cartesian coordinates" _ A12 H6) as [p12 [E12 A13]]. rewrite E12. clear A12.
  rewrite app_assoc in A13. destruct (readline_at file p12 _ _ A13) as [p13 [E13 A14]]. { intros I. apply in_app_or in I. destruct I as [I|I]; [cbn in I; repeat (destruct I as [I|I]; [discriminate|]); exact I|exact (O5 I)]. } clear A13. rewrite E13.
  destruct (three_table read_float file _ _ p13 _ A14 O8 POS) as [rows3 [p14 [E14 [M4 _]]]]. rewrite E14. cbn [fst]. rewrite M4.
  eexists. split; [reflexivity|]. cbn. split; [reflexivity|]. split; [reflexivity|]. apply per_atom_spec.
  rewrite <- LM. clear - MM. induction MM; cbn; auto.
Qed.
Print Assumptions C106_as_written.
(** Whatever the file, a structure that is read has a rectangular cell and rectangular positions, each line of at most three numbers. *)
Definition rectangular {X} (m : list (list X)) : Prop := exists k, k <= 3 /\ List.Forall (fun r => List.length r = k) m.
Lemma all_some_length {Y} (l : list (option Y)) r : all_some l = Some r -> List.length r = List.length l.
Proof. revert r. induction l as [|[y|] l IH]; intros r E; cbn in E; try discriminate; [injection E as <-; reflexivity|]. destruct (all_some l); [|discriminate]. injection E as <-. cbn. f_equal. apply IH. reflexivity. Qed.
Lemma table_short file a b : forall n pos w, In w (fst (table file a b n pos)) -> List.length w <= b - a.
Proof.
  induction n as [|n IH]; intros pos w H; [destruct H|]. cbn [table] in H. destruct (readline file pos) as [l p]. destruct (table file a b n p) as [r q] eqn:E. cbn [fst] in H.
  destruct H as [<-|H]; [rewrite firstn_length; lia|]. apply (IH p). rewrite E. exact H.
Qed.
Lemma matrix_rectangular {X} (rf : bytes -> option X) rows m : (forall w, In w rows -> List.length w <= 3) -> matrix rf rows = Some m -> rectangular m /\ List.length m = List.length rows.
Proof.
  intros S E. unfold matrix in E. destruct (all_some (map (floats rf) rows)) as [r|] eqn:A; [|discriminate].
  destruct (forallb _ r) eqn:F; [|discriminate]. injection E as <-. split; [|rewrite (all_some_length _ _ A), map_length; reflexivity].
  destruct r as [|r0 r]; [exists 0; split; [lia|constructor]|]. exists (List.length r0). split.
  - destruct rows as [|w rows]; [discriminate|]. cbn [map all_some] in A. destruct (floats rf w) as [x|] eqn:Ew; [|discriminate]. destruct (all_some (map (floats rf) rows)); [|discriminate]. injection A as <- _.
    unfold floats in Ew. rewrite (all_some_length _ _ Ew), map_length. apply S. left. reflexivity.
  - apply Forall_forall. intros x Hx. rewrite forallb_forall in F. apply Nat.eqb_eq, F, Hx.
Qed.
Theorem C106_rectangular : forall (X : Type) (read_int : bytes -> option nat) (read_float : bytes -> option X) file s, read_structure read_int read_float file = Some s ->
  rectangular (s_cell s) /\ List.length (s_cell s) = 3 /\ rectangular (s_positions s).
Proof.
  intros X ri rf file s E. unfold read_structure, bind in E.
  repeat match type of E with
  | (match ?x with Some _ => _ | None => _ end) = _ => destruct x eqn:?; [|discriminate E]
  | (let '(_, _) := ?x in _) = _ => destruct x eqn:?
  end.
  injection E as <-. cbn [s_cell s_positions].
  repeat match goal with H : matrix rf (fst (table file 0 3 ?n ?p)) = Some _ |- _ => apply matrix_rectangular in H; [|intros w Hw; exact (table_short file 0 3 n p w Hw)]; let A := fresh in let B := fresh in destruct H as [A B] end.
  split; [assumption|]. split; [|assumption].
  match goal with H : List.length ?c = List.length (fst (table file 0 3 3 ?p)) |- List.length ?c = 3 => rewrite H end.
  cbn [table]. repeat match goal with |- context [readline file ?p] => destruct (readline file p) end. reflexivity.
Qed.
Print Assumptions C106_rectangular.

(** non-vacuity: a file of three atoms of two types, with a POTCAR line that also contains POMASS = *)
Lemma search_least pat : forall t k i, search pat t k = Some i -> forall j, occurs pat t j -> i <= k + j.
Proof.
  induction t as [|c t IH]; intros k i H j [u [v [E L]]].
  - cbn in H. destruct (starts_with pat []); [injection H as <-; lia|discriminate].
  - cbn in H. destruct (starts_with pat (c :: t)) eqn:Es; [injection H as <-; lia|]. destruct u as [|d u].
    + exfalso. cbn in E. assert (Z : starts_with pat (c :: t) = true) by (apply starts_iff; exists v; exact E). congruence.
    + cbn in E. injection E as -> E. specialize (IH (S k) i H (List.length u)). cbn in L. rewrite <- L. enough (i <= S k + List.length u) by lia. apply IH. exists u, v. split; [exact E|reflexivity].
Qed.
Lemma heading_computed junk pat : search pat (junk ++ pat) 0 = Some (List.length junk) -> heading junk pat.
Proof. intros H i O. exact (search_least _ _ _ _ H i O). Qed.
Definition digits (b : bytes) : option nat :=
  let w := filter (fun c => negb (blank c)) b in
  fold_left (fun acc c => match acc with Some n => let d := nat_of_ascii c - 48 in if (Nat.leb 48 (nat_of_ascii c) && Nat.leb d 9)%bool then Some (10 * n + d) else None | None => None end) w (Some 0).
Definition strip (b : bytes) : option string := Some (string_of_list_ascii (filter (fun c => negb (blank c)) b)).
Definition sample : outcar :=
  MkOutcar (of_string "   POMASS =   24.305; ZVAL   =    2.000
   number of ions     ") (of_string "      3") (of_string "   ") (of_string "               1   2")
    (of_string "  Mass of Ions in am
   ") [of_string " 24.30"; of_string "207.20"] (of_string "
      ") (of_string "                 reciprocal lattice vectors")
    [of_string "   5.45  0.00  0.00   0.18  0.00  0.00"; of_string "   0.00  5.45  0.00   0.00  0.18  0.00"; of_string "   0.00  0.00  5.45   0.00  0.00  0.18"]
    (of_string " ") (of_string " (direct lattice)") [of_string " 0.1 0.2 0.3"; of_string " 0.4 0.5 0.6"; of_string " 0.7 0.8 0.9 "]
    (of_string "
 ") (of_string "  (Angst):") [of_string " 1.1 1.2 1.3"; of_string " 1.4 1.5 1.6"; of_string " 1.7 1.8 1.9 "] (of_string "
 rest").
Example C106_nonvacuous :
  headings sample /\ single_lines sample /\ digits (nions_line sample ++ [newline]) = Some 3 /\
  read_structure digits strip (text sample) =
    Some (MkS [["5.45"; "0.00"; "0.00"]; ["0.00"; "5.45"; "0.00"]; ["0.00"; "0.00"; "5.45"]] [["1.1"; "1.2"; "1.3"]; ["1.4"; "1.5"; "1.6"]; ["1.7"; "1.8"; "1.9"]] ["24.30"; "207.20"; "207.20"])%string.
Proof.
  split; [|split; [|split; vm_compute; reflexivity]].
  - repeat split; apply heading_computed; vm_compute; reflexivity.
  - assert (D : forall l, (if in_dec ascii_dec newline l then false else true) = true -> one_line l). { intros l H I. destruct (in_dec ascii_dec newline l); [discriminate|contradiction]. }
    repeat split; cbn [cell_lines fractional_lines position_lines sample]; repeat constructor; apply D; vm_compute; reflexivity.
Qed.
