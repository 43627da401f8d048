(** Proofs about the input file reader. *)
From Verif Require Import InputModel InputSpec.
From Coq Require Import Lia.
Open Scope string_scope.

Lemma app_nil_s : forall s : string, s ++ "" = s. Proof. induction s as [|c s IH]; cbn; [reflexivity|rewrite IH; reflexivity]. Qed.
Lemma app_assoc_s : forall a b c : string, (a ++ b) ++ c = a ++ b ++ c. Proof. induction a as [|x a IH]; intros; cbn; [reflexivity|rewrite IH; reflexivity]. Qed.
Lemma chars_app : forall a b, chars (a ++ b) = (chars a ++ chars b)%list. Proof. induction a as [|c a IH]; intros; cbn; [reflexivity|rewrite IH; reflexivity]. Qed.

Lemma prefix_spec : forall k s, prefix k s = true <-> exists b, s = k ++ b.
Proof.
  induction k as [|c k IH]; intros s. { split; [intros _; exists s; reflexivity|intros _; destruct s; reflexivity]. }
  destruct s as [|d s]. { split; [discriminate|intros [b H]; discriminate]. }
  cbn [prefix append]. destruct (Ascii.ascii_dec c d) as [->|N].
  - rewrite IH. split; intros [b H]; exists b; [rewrite H; reflexivity|injection H as H; exact H].
  - split; [discriminate|]. intros [b H]. injection H as H1 H2. congruence.
Qed.
Lemma contains_occurs : forall s k, contains s k = true <-> occurs k s.
Proof.
  induction s as [|c s IH]; intros k; cbn [contains]; rewrite Bool.orb_true_iff, prefix_spec.
  - split; [intros [[b H]|H]; [exists "", b; exact H|discriminate]|]. intros (a & b & H). left. destruct a; [exists b; exact H|discriminate].
  - rewrite IH. split.
    + intros [[b H]|(a & b & H)]; [exists "", b; exact H|exists (String c a), b; rewrite H; reflexivity].
    + intros (a & b & H). destruct a as [|d a]; [left; exists b; exact H|right; cbn in H; injection H as _ H; exists a, b; exact H].
Qed.
Lemma contains_false : forall s k, ~ occurs k s -> contains s k = false.
Proof. intros s k N. destruct (contains s k) eqn:E; [apply contains_occurs in E; contradiction|reflexivity]. Qed.

Lemma is_space_blank : forall c, is_space c = true <-> blank c.
Proof.
  intros c. unfold is_space, blank. rewrite Bool.orb_true_iff, !Bool.andb_true_iff, !Nat.leb_le. lia.
Qed.
Lemma is_eq : forall c d, is c d = true <-> c = d. Proof. intros. unfold is. apply Ascii.eqb_eq. Qed.

Section Pieces.
Context (sep : ascii -> Prop) (f : ascii -> bool) (Hf : forall c, f c = true <-> sep c).
Lemma f_false : forall c, ~ sep c -> f c = false.
Proof. intros c N. destruct (f c) eqn:E; [apply Hf in E; contradiction|reflexivity]. Qed.
Lemma pieces_nosep : forall w, Forall (fun c => ~ sep c) (chars w) -> pieces f w = [w].
Proof.
  induction w as [|c w IH]; intros H; [reflexivity|]. inversion H; subst. cbn [pieces]. rewrite f_false by assumption. rewrite IH by assumption. reflexivity.
Qed.
Lemma pieces_sep : forall w c s, Forall (fun c => ~ sep c) (chars w) -> sep c -> pieces f (w ++ String c s) = w :: pieces f s.
Proof.
  induction w as [|d w IH]; intros c s H Hc.
  - cbn. rewrite (proj2 (Hf c) Hc). reflexivity.
  - inversion H; subst. cbn [append pieces]. rewrite f_false by assumption. rewrite IH by assumption. reflexivity.
Qed.
Lemma worded_pieces : forall s ws, worded sep s ws -> filter nonempty (pieces f s) = ws.
Proof.
  induction 1 as [|c s ws Hc _ IH|w Hw Hn|w c s ws Hw Hn Hc _ IH].
  - reflexivity.
  - cbn [pieces]. rewrite (proj2 (Hf c) Hc). cbn. exact IH.
  - rewrite pieces_nosep by exact Hn. destruct w; [congruence|reflexivity].
  - rewrite pieces_sep by assumption. cbn [filter]. destruct w; [congruence|]. cbn [nonempty]. rewrite IH. reflexivity.
Qed.
Lemma split_first : forall s, (Forall (fun c => ~ sep c) (chars s)) \/ (exists w c t, s = w ++ String c t /\ Forall (fun c => ~ sep c) (chars w) /\ sep c).
Proof.
  induction s as [|c s IH]; [left; constructor|]. destruct (f c) eqn:E.
  - right. exists "", c, s. split; [reflexivity|]. split; [constructor|apply Hf, E].
  - assert (N : ~ sep c) by (intros X; apply Hf in X; congruence). destruct IH as [IH|(w & d & t & -> & Hw & Hd)].
    + left. constructor; assumption.
    + right. exists (String c w), d, t. split; [reflexivity|]. split; [constructor; assumption|exact Hd].
Qed.
Lemma pieces_worded : forall s, worded sep s (filter nonempty (pieces f s)).
Proof.
  intros s. remember (String.length s) as n eqn:En. revert s En. induction n as [n IH] using (well_founded_induction lt_wf). intros s En.
  destruct (split_first s) as [H|(w & c & t & -> & Hw & Hc)].
  - rewrite pieces_nosep by exact H. destruct s; [constructor|]. cbn [filter nonempty]. apply w_last; [discriminate|exact H].
  - rewrite pieces_sep by assumption. assert (L : (String.length t < n)%nat).
    { subst n. clear. induction w; cbn; [lia|]. cbn in IHw. lia. }
    specialize (IH _ L t eq_refl). destruct w as [|d w]; cbn [filter nonempty append]; [apply w_sep; assumption|].
    apply (w_word sep (String d w) c t); [discriminate|assumption|assumption|exact IH].
Qed.
End Pieces.

Definition bc (c : ascii) : bool := is_space c || is c ",".
Lemma bc_spec : forall c, bc c = true <-> blank_or_comma c.
Proof. intros c. unfold bc, blank_or_comma. rewrite Bool.orb_true_iff, is_space_blank, is_eq. reflexivity. Qed.
Lemma comma_pieces : forall s, pieces is_space (comma_to_space s) = pieces bc s.
Proof.
  induction s as [|c s IH]; [reflexivity|]. cbn [comma_to_space pieces]. unfold bc at 1. destruct (is c ",") eqn:E.
  - rewrite Bool.orb_true_r. cbn. rewrite IH. reflexivity.
  - rewrite Bool.orb_false_r, IH. reflexivity.
Qed.
Lemma words_blank : forall s ws, worded blank s ws -> words s = ws.
Proof. intros s ws H. apply (worded_pieces blank is_space is_space_blank), H. Qed.
Lemma words_comma : forall s, words (comma_to_space s) = filter nonempty (pieces bc s).
Proof. intros s. unfold words. rewrite comma_pieces. reflexivity. Qed.

Lemma all_some_forall2 : forall A B (f : A -> option B) ws xs, Forall2 (fun w x => f w = Some x) ws xs <-> all_some (map f ws) = Some xs.
Proof.
  intros A B f. induction ws as [|w ws IH]; intros xs; cbn.
  - split; [intros H; inversion H; reflexivity|]. intros H. injection H as <-. constructor.
  - destruct (f w) as [x|] eqn:E.
    + destruct (all_some (map f ws)) as [r|] eqn:F.
      * split; intros H. { inversion H as [|? ? ? ? H1 H2]; subst. apply IH in H2. congruence. } injection H as <-. constructor; [exact E|apply IH; reflexivity].
      * split; intros H; [|discriminate]. inversion H as [|? ? ? ? H1 H2]; subst. apply IH in H2. discriminate.
    + split; intros H; [|discriminate]. inversion H as [|? ? ? ? H1 H2]; subst. congruence.
Qed.
Lemma spells_words : forall X (f : string -> option X) l xs, spells f blank l xs -> all_some (map f (words l)) = Some xs.
Proof. intros X f l xs (ws & H & F). rewrite (words_blank _ _ H). apply all_some_forall2, F. Qed.
Lemma spells_comma : forall X (f : string -> option X) l xs, spells f blank_or_comma l xs <-> all_some (map f (words (comma_to_space l))) = Some xs.
Proof.
  intros X f l xs. rewrite words_comma. split.
  - intros (ws & H & F). rewrite (worded_pieces blank_or_comma bc bc_spec _ _ H). apply all_some_forall2, F.
  - intros H. exists (filter nonempty (pieces bc l)). split; [apply pieces_worded, bc_spec|]. apply all_some_forall2, H.
Qed.

(** strip *)
Lemma lstrip_blank : forall a s, Forall blank (chars a) -> lstrip (a ++ s) = lstrip s.
Proof. induction a as [|c a IH]; intros s H; [reflexivity|]. inversion H; subst. cbn. rewrite (proj2 (is_space_blank c)) by assumption. apply IH. assumption. Qed.
Lemma rstrip_blank : forall b, Forall blank (chars b) -> rstrip b = "".
Proof. induction b as [|c b IH]; intros H; [reflexivity|]. inversion H; subst. cbn. rewrite IH by assumption. rewrite (proj2 (is_space_blank c)) by assumption. reflexivity. Qed.
Lemma rstrip_app : forall s b, Forall blank (chars b) -> rstrip (s ++ b) = rstrip s.
Proof. induction s as [|c s IH]; intros b H; [apply rstrip_blank, H|]. cbn. rewrite IH by exact H. reflexivity. Qed.
Lemma rstrip_last : forall s c, ~ blank c -> rstrip (s ++ String c "") = s ++ String c "".
Proof.
  intros s c N. assert (F : is_space c = false) by (destruct (is_space c) eqn:E; [apply is_space_blank in E; contradiction|reflexivity]).
  induction s as [|d s IH]; cbn; [rewrite F; reflexivity|]. rewrite IH. destruct (s ++ String c "") eqn:E; [|reflexivity]. destruct s; discriminate.
Qed.
Lemma strip_padded : forall l name, padded l name -> strip l = name.
Proof.
  intros l name (a & b & -> & Ha & Hb & H). unfold strip. rewrite lstrip_blank by exact Ha. destruct H as [->|[(c & s & -> & Hc) (t & d & E & Hd)]].
  - cbn. replace b with (b ++ "") by apply app_nil_s. rewrite lstrip_blank by exact Hb. reflexivity.
  - assert (F : is_space c = false) by (destruct (is_space c) eqn:X; [apply is_space_blank in X; contradiction|reflexivity]).
    assert (Q : lstrip (String c s ++ b) = String c s ++ b) by (cbn; rewrite F; reflexivity). rewrite Q, rstrip_app by exact Hb. rewrite E. apply rstrip_last, Hd.
Qed.
Lemma no_spaces_app : forall a b, no_spaces (a ++ b) = no_spaces a ++ no_spaces b.
Proof. induction a as [|c a IH]; intros b; [reflexivity|]. cbn. rewrite IH. destruct (is c " "); reflexivity. Qed.
Lemma no_spaces_pad : forall a, Forall (eq " "%char) (chars a) -> no_spaces a = "".
Proof. induction a as [|c a IH]; intros H; [reflexivity|]. inversion H; subst. cbn. apply IH. assumption. Qed.
Lemma no_spaces_id : forall a, ~ has_char " " a -> no_spaces a = a.
Proof.
  induction a as [|c a IH]; intros H; [reflexivity|]. cbn. destruct (is c " ") eqn:E. { apply is_eq in E. subst. exfalso. apply H. left. reflexivity. }
  rewrite IH; [reflexivity|]. intros X. apply H. right. exact X.
Qed.
Lemma no_spaces_padded : forall t l, space_padded t l -> no_spaces t = l.
Proof. intros t l (a & b & -> & Ha & Hb & H). rewrite !no_spaces_app, (no_spaces_pad a Ha), (no_spaces_pad b Hb), no_spaces_id by exact H. cbn. apply app_nil_s. Qed.

Lemma not_char_forall : forall c s, ~ has_char c s -> Forall (fun d => ~ (d = c)) (chars s).
Proof. intros c s H. apply Forall_forall. intros d Hd ->. apply H, Hd. Qed.
Lemma is_colon : forall c, is c ":" = true <-> c = ":"%char. Proof. intros; apply is_eq. Qed.
Lemma is_comma : forall c, is c "," = true <-> c = ","%char. Proof. intros; apply is_eq. Qed.
Lemma colon_none : forall l, ~ has_char ":" l -> pieces (fun c => is c ":") l = [l].
Proof. intros l H. apply (pieces_nosep (fun c => c = ":"%char) _ is_colon). apply not_char_forall, H. Qed.

(** keywords *)
Lemma mentions_contains : forall key line k, mentions key line -> In k keywords -> contains line k = if string_dec k key then true else false.
Proof.
  intros key line k (Ho & Hu & _) Hk. destruct (string_dec k key) as [->|N]; [apply contains_occurs, Ho|]. apply contains_false. intros X. apply N, Hu; assumption.
Qed.
Lemma not_comment : forall line, ~ comment line -> is_comment line = false.
Proof. intros [|c s] H; [reflexivity|]. cbn. destruct (is c "#") eqn:E; [|reflexivity]. apply is_eq in E. subst. exfalso. apply H. exists s. reflexivity. Qed.
Section Reader.
Context (num : string -> option R) (int : string -> option Z).
Let oneline := one_line num int.
Ltac keys K := repeat match goal with |- context [contains ?l ?k] => rewrite (K k ltac:(cbn; tauto)) end.
Lemma quiet_line : forall l rest d, comment l \/ plain l -> one_line num int l rest d = Some d.
Proof.
  intros l rest d [[s ->]|H]; [reflexivity|]. unfold one_line. destruct (is_comment l); [reflexivity|].
  assert (K : forall k, In k keywords -> contains l k = false) by (intros k Hk; apply contains_false, H, Hk).
  unfold file_entry. rewrite !K by (cbn; tauto). cbn. rewrite K by (cbn; tauto). reflexivity.
Qed.
Lemma quiet_lines : forall ls rest d, Forall plain ls -> read_from num int (ls ++ rest) d = read_from num int rest d.
Proof. induction ls as [|l ls IH]; intros rest d H; [reflexivity|]. inversion H; subst. cbn [List.app read_from]. rewrite quiet_line by (right; assumption). cbn. apply IH. assumption. Qed.

Definition after_bands (l : string) : Prop := no_band num l /\ ~ occurs "MESH PHONOPY" l.
Lemma no_band_stops : forall l rest line, no_band num l -> bands_loop num line (l :: rest) = ([], [], l, l :: rest).
Proof.
  intros l rest line [Hc H]. cbn [bands_loop]. rewrite colon_none by exact Hc.
  destruct (all_some (map num (words (comma_to_space l)))) as [[|a [|b [|c [|d [|e [|f [|]]]]]]]|] eqn:E; try reflexivity.
  exfalso. apply (H [a; b; c; d; e; f] eq_refl). apply spells_comma, E.
Qed.
Lemma plain_part : forall a b k, In k keywords -> plain (a ++ b) -> contains a k = false.
Proof. intros a b k Hk H. apply contains_false. intros (x & y & ->). apply (H k Hk). exists x, (y ++ b). rewrite !app_assoc_s. reflexivity. Qed.
(** the loop over the rows of a block: rows read, labels, and the state in which it reaches the following line *)
Lemma bands_rows : forall ls rows, Forall2 (band_row num) ls rows -> Forall plain ls -> forall line tail, contains line "MESH PHONOPY" = false ->
  exists line', contains line' "MESH PHONOPY" = false /\
  bands_loop num line (ls ++ tail) = let '(bs, lb, ln, at_) := bands_loop num line' tail in ((rows ++ bs)%list, lb, ln, at_).
Proof.
  induction 1 as [|l x ls rows (Hl & Hc & Hs) _ IH]; intros Hp line tail Hm.
  - exists line. split; [exact Hm|]. cbn [List.app]. destruct (bands_loop num line tail) as [[[? ?] ?] ?]. reflexivity.
  - inversion Hp; subst. cbn [List.app bands_loop]. rewrite colon_none by exact Hc. apply spells_comma in Hs. rewrite Hs.
    destruct x as [|a [|b [|c [|d [|e [|f [|]]]]]]]; try discriminate Hl.
    destruct (IH ltac:(assumption) l tail) as (line' & Hm' & E). { apply contains_false. match goal with H : plain l |- _ => apply H; cbn; tauto end. }
    exists line'. split; [exact Hm'|]. rewrite E. destruct (bands_loop num line' tail) as [[[? ?] ?] ?]. reflexivity.
Qed.
Definition raw (s : string * string) (r : list string) : Prop := exists a b, r = [a; b] /\ no_spaces a = fst s /\ no_spaces b = snd s.
Lemma labelled_rows : forall ls rows, Forall2 (labelled_row num) ls rows -> Forall plain ls -> forall line tail, contains line "MESH PHONOPY" = false ->
  exists line' raws, contains line' "MESH PHONOPY" = false /\ Forall2 raw (map snd rows) raws /\
  bands_loop num line (ls ++ tail) = let '(bs, lb, ln, at_) := bands_loop num line' tail in ((map fst rows ++ bs)%list, (raws ++ lb)%list, ln, at_).
Proof.
  induction 1 as [|l x ls rows (a & la & lb & -> & (Hl & Hc & Hs) & Hn & Ha & Hb) _ IH]; intros Hp line tail Hm.
  - exists line, []. split; [exact Hm|]. split; [constructor|]. cbn [List.app map]. destruct (bands_loop num line tail) as [[[? ?] ?] ?]. reflexivity.
  - inversion Hp; subst. cbn [List.app bands_loop].
    assert (Cl : ~ has_char ":" (la ++ String "," lb)).
    { unfold has_char. rewrite chars_app. cbn. intros X. apply in_app_or in X. destruct X as [X|[X|X]]; [apply (proj1 (Hn ":"%char (or_introl eq_refl))), X|discriminate|apply (proj2 (Hn ":"%char (or_introl eq_refl))), X]. }
    rewrite (pieces_sep (fun c => c = ":"%char) _ is_colon a ":" _ (not_char_forall _ _ Hc) eq_refl). rewrite (colon_none _ Cl).
    rewrite (pieces_sep (fun c => c = ","%char) _ is_comma la "," lb (not_char_forall _ _ (proj1 (Hn ","%char (or_intror eq_refl)))) eq_refl).
    rewrite (pieces_nosep (fun c => c = ","%char) _ is_comma lb (not_char_forall _ _ (proj2 (Hn ","%char (or_intror eq_refl))))).
    apply spells_comma in Hs. rewrite Hs. destruct (fst x) as [|a1 [|b1 [|c1 [|d1 [|e1 [|f1 [|]]]]]]] eqn:Ex; try discriminate Hl.
    destruct (IH ltac:(assumption) a tail) as (line' & raws & Hm' & Hr & E). { eapply plain_part; [cbn; tauto|eassumption]. }
    exists line', ([la; lb] :: raws). split; [exact Hm'|]. split. { cbn. constructor; [|exact Hr]. exists la, lb. split; [reflexivity|]. split; apply no_spaces_padded; assumption. }
    rewrite E. destruct (bands_loop num line' tail) as [[[? ?] ?] ?]. cbn [map]. rewrite Ex. reflexivity.
Qed.
Lemma read_labels_raw : forall ss raws, Forall2 raw ss raws -> read_labels raws = Some ss.
Proof.
  unfold read_labels. induction 1 as [|[a b] r ss raws (x & y & -> & Ex & Ey) _ IH]; [reflexivity|]. cbn in *. subst. rewrite IH. reflexivity.
Qed.

(** what an entry does to the dictionary *)
Definition apply (e : entry) (d : input) : input :=
  match e with
  | Nothing => d
  | File k n => if string_dec k "STRUCTURE FILE OUTCAR" then set_outcar n d else if string_dec k "STRUCTURE FILE POSCAR" then set_poscar n d
                else if string_dec k "FORCE SETS" then set_force_sets n d else if string_dec k "FORCE CONSTANTS" then set_force_constants n d else d
  | Primitive m => set_primitive m d
  | Supercell m => set_supercell m d
  | Bands r l => set_bands (r, l) d
  | Mesh m => set_mesh m d
  end.
Lemma matrix_rows : forall X (f : string -> option X) a b c m rest, Forall2 (spells f blank) [a; b; c] m -> square m -> read_matrix f 3 (a :: b :: c :: rest) = Some m.
Proof.
  intros X f a b c m rest H Hs. unfold read_matrix. cbn [List.length Nat.leb firstn map].
  inversion H as [|? x ? m1 H1 HH]; subst; clear H. inversion HH as [|? y ? m2 H2 HI]; subst; clear HH. inversion HI as [|? z ? m3 H3 HJ]; subst; clear HI. inversion HJ; subst.
  rewrite (spells_words _ _ _ _ H1), (spells_words _ _ _ _ H2), (spells_words _ _ _ _ H3). cbn [all_some].
  inversion Hs as [|? ? S1 K]; subst. inversion K as [|? ? S2 K2]; subst. inversion K2 as [|? ? S3 K3]; subst.
  cbn [forallb hd]. rewrite S1, S2, S3. reflexivity.
Qed.
Definition next_ok (e : entry) (tail : list string) : Prop := forall rows labels l r, e = Bands rows labels -> tail = l :: r -> after_bands l.
Lemma block_read : forall e b, block num int e b -> forall tail d, next_ok e tail -> read_from num int (b ++ tail) d = read_from num int tail (apply e d).
Proof.
  intros e b H. destruct H as [l Hl|key k v name Hin Hk Hv Hp|k a b c m Hk Hp Hm Hs|k a b c m Hk Hp Hm Hs|k ls rows Hk Hp Hr|k ls rows Hne Hk Hp Hr|k v m Hk Hv Hm]; intros tail d Hok.
  - cbn [List.app read_from]. rewrite quiet_line by exact Hl. reflexivity.
  - assert (K := fun k' => mentions_contains key k k' Hk). change (read_from num int ([k; v] ++ tail) d) with (obind (one_line num int k (v :: tail) d) (read_from num int (v :: tail))).
    assert (E : one_line num int k (v :: tail) d = Some (apply (File key name) d)).
    { unfold one_line, file_entry. rewrite not_comment by apply Hk. rewrite (strip_padded v name Hp). cbn [apply].
      destruct Hin as [<-|[<-|[<-|[<-|[]]]]]; keys K; cbn; keys K; reflexivity. }
    rewrite E. cbn [obind]. apply (quiet_lines [v]). constructor; [exact Hv|constructor].
  - assert (K := fun k' => mentions_contains _ k k' Hk). change (read_from num int ([k; a; b; c] ++ tail) d) with (obind (one_line num int k (a :: b :: c :: tail) d) (read_from num int ([a; b; c] ++ tail)%list)).
    assert (E : one_line num int k (a :: b :: c :: tail) d = Some (set_primitive m d)).
    { unfold one_line, file_entry. rewrite not_comment by apply Hk. rewrite (matrix_rows _ num a b c m tail Hm Hs). keys K. cbn. keys K. reflexivity. }
    rewrite E. cbn [obind]. apply (quiet_lines [a; b; c]). exact Hp.
  - assert (K := fun k' => mentions_contains _ k k' Hk). change (read_from num int ([k; a; b; c] ++ tail) d) with (obind (one_line num int k (a :: b :: c :: tail) d) (read_from num int ([a; b; c] ++ tail)%list)).
    assert (E : one_line num int k (a :: b :: c :: tail) d = Some (set_supercell m d)).
    { unfold one_line, file_entry. rewrite not_comment by apply Hk. rewrite (matrix_rows _ int a b c m tail Hm Hs). keys K. cbn. keys K. reflexivity. }
    rewrite E. cbn [obind]. apply (quiet_lines [a; b; c]). exact Hp.
  - assert (K := fun k' => mentions_contains _ k k' Hk). change (read_from num int ((k :: ls) ++ tail) d) with (obind (one_line num int k (ls ++ tail)%list d) (read_from num int (ls ++ tail)%list)).
    assert (E : one_line num int k (ls ++ tail)%list d = Some (set_bands (rows, None) d)).
    { unfold one_line, file_entry. rewrite not_comment by apply Hk. destruct (bands_rows ls rows Hr Hp k tail) as (line' & Hm' & EB). { rewrite (K "MESH PHONOPY" ltac:(cbn; tauto)). reflexivity. }
      rewrite EB. keys K. cbn [string_dec].
      destruct tail as [|l r].
      - cbn [bands_loop]. cbn. rewrite ?Hm', ?List.app_nil_r. reflexivity.
      - destruct (Hok rows None l r eq_refl eq_refl) as [Hnb Hmesh]. rewrite (no_band_stops l r line' Hnb). rewrite List.app_nil_r. cbn [obind read_labels map all_some].
        cbn. rewrite ?(contains_false l _ Hmesh), ?List.app_nil_r. reflexivity. }
    rewrite E. cbn [obind]. apply quiet_lines. exact Hp.
  - assert (K := fun k' => mentions_contains _ k k' Hk). change (read_from num int ((k :: ls) ++ tail) d) with (obind (one_line num int k (ls ++ tail)%list d) (read_from num int (ls ++ tail)%list)).
    assert (E : one_line num int k (ls ++ tail)%list d = Some (set_bands (map fst rows, Some (map snd rows)) d)).
    { unfold one_line, file_entry. rewrite not_comment by apply Hk. destruct (labelled_rows ls rows Hr Hp k tail) as (line' & raws & Hm' & Hraw & EB). { rewrite (K "MESH PHONOPY" ltac:(cbn; tauto)). reflexivity. }
      rewrite EB. keys K. cbn [string_dec]. assert (RL := read_labels_raw _ _ Hraw).
      assert (NE : exists s ss, map snd rows = s :: ss) by (destruct rows as [|r0 rows]; [congruence|cbn; eauto]). destruct NE as (s & ss & NE).
      destruct tail as [|l r].
      - cbn [bands_loop]. rewrite !List.app_nil_r. cbn [obind]. cbn. rewrite ?List.app_nil_r, RL, NE. cbn. rewrite Hm'. reflexivity.
      - destruct (Hok _ _ l r eq_refl eq_refl) as [Hnb Hmesh]. rewrite (no_band_stops l r line' Hnb). rewrite !List.app_nil_r. cbn [obind].
        cbn. rewrite ?List.app_nil_r, RL, NE. cbn. rewrite ?(contains_false l _ Hmesh), ?List.app_nil_r. reflexivity. }
    rewrite E. cbn [obind]. apply quiet_lines. exact Hp.
  - assert (K := fun k' => mentions_contains _ k k' Hk). change (read_from num int ([k; v] ++ tail) d) with (obind (one_line num int k (v :: tail) d) (read_from num int ([v] ++ tail)%list)).
    assert (E : one_line num int k (v :: tail) d = Some (set_mesh m d)).
    { unfold one_line, file_entry. rewrite not_comment by apply Hk. keys K. cbn -[words]. keys K. cbn -[words]. rewrite (spells_words _ _ _ _ Hm). reflexivity. }
    rewrite E. cbn [obind]. apply (quiet_lines [v]). constructor; [exact Hv|constructor].
Qed.
Lemma layout_read : forall es f, layout num int after_bands es f -> forall d, read_from num int f d = Some (fold_left (fun d e => apply e d) es d).
Proof.
  induction 1 as [|e b es f Hb _ IH Hok]; intros d; [reflexivity|].
  rewrite (block_read e b Hb f d). { cbn. apply IH. } intros rows labels l r He Hf. eapply Hok; eassumption.
Qed.

(** the dictionary holds the last entry of each kind *)
Definition keep {X} (o : option X) (old : option X) : option X := match o with Some x => Some x | None => old end.
Lemma fold_last : forall X (get : input -> option X) (sel : entry -> option X),
  (forall e d, get (apply e d) = keep (sel e) (get d)) ->
  forall es d, get (fold_left (fun d e => apply e d) es d) = keep (last_of sel es) (get d).
Proof.
  intros X get sel H. induction es as [|e es IH]; intros d; [reflexivity|]. cbn. rewrite IH, H. destruct (last_of sel es); [reflexivity|]. destruct (sel e); reflexivity.
Qed.
Ltac one := intros e d; destruct e as [|k n|m|m|r l|m]; try reflexivity; unfold apply, file_named;
  destruct (string_dec k "STRUCTURE FILE OUTCAR") as [->|]; [reflexivity|]; destruct (string_dec k "STRUCTURE FILE POSCAR") as [->|]; [reflexivity|];
  destruct (string_dec k "FORCE SETS") as [->|]; [reflexivity|]; destruct (string_dec k "FORCE CONSTANTS") as [->|]; reflexivity.
Lemma get_file : forall e d, i_outcar (apply e d) = keep (file_named "STRUCTURE FILE OUTCAR" e) (i_outcar d). Proof. one. Qed.
Lemma get_poscar : forall e d, i_poscar (apply e d) = keep (file_named "STRUCTURE FILE POSCAR" e) (i_poscar d). Proof. one. Qed.
Lemma get_sets : forall e d, i_force_sets (apply e d) = keep (file_named "FORCE SETS" e) (i_force_sets d). Proof. one. Qed.
Lemma get_constants : forall e d, i_force_constants (apply e d) = keep (file_named "FORCE CONSTANTS" e) (i_force_constants d). Proof. one. Qed.
Lemma get_primitive : forall e d, i_primitive (apply e d) = keep (primitive_of e) (i_primitive d). Proof. one. Qed.
Lemma get_supercell : forall e d, i_supercell (apply e d) = keep (supercell_of e) (i_supercell d). Proof. one. Qed.
Lemma get_bands : forall e d, i_bands (apply e d) = keep (bands_of e) (i_bands d). Proof. one. Qed.
Lemma get_mesh : forall e d, i_mesh (apply e d) = keep (mesh_of e) (i_mesh d). Proof. one. Qed.

(** a MESH PHONOPY line right after a list of bands is taken for its own value *)
Lemma bands_then_mesh : forall rows labels b k rest d, block num int (Bands rows labels) b -> no_band num k -> occurs "MESH PHONOPY" k ->
  (forall ms, ~ spells int blank k ms) -> read_from num int (b ++ k :: rest) d = None.
Proof.
  intros rows labels b k rest d Hb Hnb Ho Hi.
  assert (V : all_some (map int (words k)) = None).
  { destruct (all_some (map int (words k))) as [ms|] eqn:E; [|reflexivity]. exfalso. apply (Hi ms). exists (words k). split; [apply pieces_worded, is_space_blank|apply all_some_forall2, E]. }
  apply contains_occurs in Ho.
  inversion Hb as [| | | |k0 ls rows0 Hk Hp Hr|k0 ls rows0 Hne Hk Hp Hr|]; subst.
  - assert (K := fun k' => mentions_contains _ k0 k' Hk). change (read_from num int ((k0 :: ls) ++ k :: rest) d) with (obind (one_line num int k0 (ls ++ k :: rest)%list d) (read_from num int (ls ++ k :: rest)%list)).
    unfold one_line, file_entry. rewrite not_comment by apply Hk. destruct (bands_rows ls rows Hr Hp k0 (k :: rest)) as (line' & Hm' & EB). { rewrite (K "MESH PHONOPY" ltac:(cbn; tauto)). reflexivity. }
    rewrite EB. keys K. rewrite (no_band_stops k rest line' Hnb), List.app_nil_r. cbn. rewrite Ho, V. reflexivity.
  - assert (K := fun k' => mentions_contains _ k0 k' Hk). change (read_from num int ((k0 :: ls) ++ k :: rest) d) with (obind (one_line num int k0 (ls ++ k :: rest)%list d) (read_from num int (ls ++ k :: rest)%list)).
    unfold one_line, file_entry. rewrite not_comment by apply Hk. destruct (labelled_rows ls rows0 Hr Hp k0 (k :: rest)) as (line' & raws & Hm' & Hraw & EB). { rewrite (K "MESH PHONOPY" ltac:(cbn; tauto)). reflexivity. }
    rewrite EB. keys K. rewrite (no_band_stops k rest line' Hnb), !List.app_nil_r. cbn.
    assert (RL := read_labels_raw _ _ Hraw). assert (NE : exists s ss, map snd rows0 = s :: ss) by (destruct rows0 as [|r0 rows0]; [congruence|cbn; eauto]). destruct NE as (s & ss & NE).
    rewrite RL, NE. cbn. rewrite Ho, V. reflexivity.
Qed.
(** a line with a colon and no comma after it, right after a list of bands, is taken for a label with one part *)
Lemma bands_then_colon : forall rows labels b p t rest d, block num int (Bands rows labels) b -> ~ has_char ":" p -> ~ has_char ":" t -> ~ has_char "," t ->
  (forall xs, List.length xs = 6%nat -> ~ spells num blank_or_comma p xs) -> read_from num int (b ++ (p ++ String ":" t) :: rest) d = None.
Proof.
  intros rows labels b p t rest d Hb Hp0 Ht Htc Hx.
  assert (S : forall line, bands_loop num line ((p ++ String ":" t) :: rest) = ([], [[t]], p, (p ++ String ":" t) :: rest)).
  { intros line. cbn [bands_loop]. rewrite (pieces_sep (fun c => c = ":"%char) _ is_colon p ":" t (not_char_forall _ _ Hp0) eq_refl), (colon_none _ Ht).
    rewrite (pieces_nosep (fun c => c = ","%char) _ is_comma t (not_char_forall _ _ Htc)).
    destruct (all_some (map num (words (comma_to_space p)))) as [[|a [|b0 [|c [|d0 [|e [|f [|]]]]]]]|] eqn:E; try reflexivity.
    exfalso. apply (Hx [a; b0; c; d0; e; f] eq_refl). apply spells_comma, E. }
  assert (N : forall raws, read_labels (raws ++ [[t]])%list = None).
  { unfold read_labels. induction raws as [|r raws IH]; [reflexivity|]. cbn. rewrite IH. destruct r as [|? [|]]; reflexivity. }
  set (L := p ++ String ":" t) in *. clearbody L.
  inversion Hb as [| | | |k0 ls rows0 Hk Hp Hr|k0 ls rows0 Hne Hk Hp Hr|]; subst.
  - assert (K := fun k' => mentions_contains _ k0 k' Hk). change (read_from num int ((k0 :: ls) ++ L :: rest) d) with (obind (one_line num int k0 (ls ++ L :: rest)%list d) (read_from num int (ls ++ L :: rest)%list)).
    unfold one_line, file_entry. rewrite not_comment by apply Hk. destruct (bands_rows ls rows Hr Hp k0 (L :: rest)) as (line' & Hm' & EB). { rewrite (K "MESH PHONOPY" ltac:(cbn; tauto)). reflexivity. }
    rewrite EB. keys K. rewrite S. cbn. reflexivity.
  - assert (K := fun k' => mentions_contains _ k0 k' Hk). change (read_from num int ((k0 :: ls) ++ L :: rest) d) with (obind (one_line num int k0 (ls ++ L :: rest)%list d) (read_from num int (ls ++ L :: rest)%list)).
    unfold one_line, file_entry. rewrite not_comment by apply Hk. destruct (labelled_rows ls rows0 Hr Hp k0 (L :: rest)) as (line' & raws & Hm' & Hraw & EB). { rewrite (K "MESH PHONOPY" ltac:(cbn; tauto)). reflexivity. }
    rewrite EB. keys K. rewrite S. cbn -[read_labels]. rewrite N. reflexivity.
Qed.
End Reader.

(** format detection *)
Lemma find_first : forall A (p : A -> bool) l x, find p l = Some x <-> exists a b, l = (a ++ x :: b)%list /\ p x = true /\ Forall (fun y => p y = false) a.
Proof.
  intros A p. induction l as [|y l IH]; intros x; cbn.
  - split; [discriminate|]. intros ([|? ?] & b & H & _); discriminate.
  - destruct (p y) eqn:E.
    + split. { intros H. injection H as <-. exists [], l. split; [reflexivity|]. split; [exact E|constructor]. }
      intros ([|z a] & b & H & Hx & Ha); cbn in H; injection H as -> H; [reflexivity|]. inversion Ha; subst. congruence.
    + rewrite IH. split.
      * intros (a & b & -> & Hx & Ha). exists (y :: a), b. split; [reflexivity|]. split; [exact Hx|constructor; assumption].
      * intros ([|z a] & b & H & Hx & Ha); cbn in H; injection H as -> H; [congruence|]. inversion Ha; subst. exists a, b. split; [reflexivity|]. split; assumption.
Qed.
