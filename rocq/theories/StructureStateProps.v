(** C110: a Structure object answers with the last value it was given. *)
From Verif Require Import StructureModel StructureSpec StructureProofs SupercellSpec SupercellProofs SupercellProps.
Open Scope nat_scope.

(* ---------- specification ---------- *)
(** The value of the last operation of the history for which [pick] finds one, or the value the object started with. *)
Fixpoint last_given {A} (pick : sop -> option A) (start : A) (h : list sop) : A :=
  match h with
  | [] => start
  | o :: h' => last_given pick (match pick o with Some a => a | None => start end) h'
  end.
Definition given_cell (o : sop) : option mat := match o with SetCell c => Some c | _ => None end.
Definition given_masses (o : sop) : option (list R) := match o with SetMasses m => Some m | _ => None end.
Definition given_matrix (o : sop) : option mat := match o with SetPrimitive m => Some m | _ => None end.

(* ---------- proofs ---------- *)
Ltac crush E1 :=
  repeat match goal with
  | H : get_positions_of _ _ = _ |- _ => unfold get_positions_of, bind, fill_positions in H
  | H : get_masses _ _ = _ |- _ => unfold get_masses, bind in H
  | H : get_ncell _ = _ |- _ => unfold get_ncell, bind in H
  | H : get_scaled _ _ = _ |- _ => unfold get_scaled, bind in H
  | H : get_pmat _ _ = _ |- _ => unfold get_pmat in H
  | H : get_pcell _ _ = _ |- _ => unfold get_pcell, bind in H
  | H : get_types _ _ _ = _ |- _ => unfold get_types, bind in H
  | H : get_ntypes _ _ = _ |- _ => unfold get_ntypes, bind in H
  | H : get_nprim _ _ = _ |- _ => unfold get_nprim, bind in H
  | H : None = Some _ |- _ => discriminate H
  | H : Some _ = None |- _ => discriminate H
  | H : Some _ = Some _ |- _ => injection H; clear H; intros; subst; cbn in *
  | H : context [match ?x with _ => _ end] |- _ => match type of H with _ = _ => match x with context [match _ with _ => _ end] => fail 1 | _ => destruct x eqn:? end end
  end.

Section Keep.
Variable inv : mat -> mat.
(** what a query may change *)
Definition same (s s' : structure) : Prop :=
  s_cell s' = s_cell s /\ s_masses s' = s_masses s /\
  (s_pmat s' = s_pmat s \/ s_pmat s = None /\ s_pcell s = None /\ s_pmat s' = Some mid) /\
  (s_pcell s' = s_pcell s \/ s_pmat s' <> None).
Definition ok (s : structure) : Prop := s_pcell s <> None -> s_pmat s <> None.

Lemma same_refl s : same s s. Proof. repeat split; auto. Qed.
Lemma same_trans a b c : ok a -> same a b -> same b c -> same a c /\ ok b.
Proof.
  intros O (A1 & A2 & A3 & A4) (B1 & B2 & B3 & B4).
  assert (Ob : ok b).
  { intros H. destruct A4 as [A4|A4]; [|exact A4]. rewrite A4 in H. apply O in H. destruct A3 as [-> | (A3 & _)]; congruence. }
  split; [|exact Ob]. repeat split; try congruence.
  - destruct A3 as [A3|(A3 & A3' & A3'')], B3 as [B3|(B3 & B3' & B3'')]; try (left; congruence).
    + right. rewrite <- A3. split; [exact B3|split; [|exact B3'']].
      destruct A4 as [A4|A4]; [rewrite <- A4; exact B3'|congruence].
    + right. repeat split; congruence.
  - destruct B4 as [B4|B4]; [|right; exact B4]. rewrite B4.
    destruct A4 as [A4|A4]; [left; exact A4|right]. destruct B3 as [-> | (_ & _ & ->)]; congruence.
Qed.
Definition keeps {A} (m : method A) : Prop := forall s a s', ok s -> m s = Some (a, s') -> same s s'.
Lemma keeps_bind {A B} (m : method A) (f : A -> method B) : keeps m -> (forall a, keeps (f a)) -> keeps (bind m f).
Proof.
  intros M F s b s' O H. unfold bind in H. destruct (m s) as [[a s1]|] eqn:E; [|discriminate].
  specialize (M _ _ _ O E). destruct (same_trans s s1 s1 O M (same_refl _)) as [_ O1].
  destruct (same_trans s s1 s' O M (F a _ _ _ O1 H)) as [R _]. exact R.
Qed.
Lemma keeps_fill : keeps fill_positions.
Proof. intros s a s' O H. unfold fill_positions in H. crush H; repeat split; auto. Qed.
Lemma keeps_positions sc : keeps (get_positions_of sc).
Proof. apply keeps_bind; [apply keeps_fill|]. intros p s a s' O H. injection H as _ <-. apply same_refl. Qed.
Lemma keeps_ncell : keeps get_ncell.
Proof.
  intros s a s' O H. unfold get_ncell in H. destruct (s_ncell s); [injection H as _ <-; apply same_refl|].
  revert H. apply (keeps_bind (get_positions_of None)); [apply keeps_positions| |exact O]. intros p t b t' _ H. injection H as _ <-. repeat split; auto.
Qed.
Lemma keeps_scaled : keeps (get_scaled inv).
Proof.
  intros s a s' O H. unfold get_scaled in H. destruct (s_scaled s); [injection H as _ <-; apply same_refl|].
  revert H. apply (keeps_bind (get_positions_of None)); [apply keeps_positions| |exact O]. intros p t b t' _ H. injection H as _ <-. repeat split; auto.
Qed.
Lemma keeps_masses sc : keeps (get_masses sc).
Proof. apply keeps_bind; [apply keeps_ncell|]. intros n s a s' O H. crush H; apply same_refl. Qed.
Lemma keeps_pmat : keeps (get_pmat inv).
Proof.
  intros s a s' O H. unfold get_pmat in H. destruct (s_pmat s) as [m|] eqn:E; [injection H as _ <-; apply same_refl|].
  destruct (s_pcell s) as [pc|] eqn:F.
  - exfalso. apply O; congruence.
  - injection H as _ <-. split; [reflexivity|]. split; [reflexivity|]. split; [right; cbn; auto|left; reflexivity].
Qed.
Lemma pmat_filled s a s' : get_pmat inv s = Some (a, s') -> s_pmat s' = Some a.
Proof. unfold get_pmat. destruct (s_pmat s) eqn:E; intros H; injection H as <- <-; [exact E|reflexivity]. Qed.
Lemma keeps_pcell : keeps (get_pcell inv).
Proof.
  intros s a s' O H. unfold get_pcell in H. destruct (s_pcell s) eqn:F; [injection H as _ <-; apply same_refl|].
  unfold bind in H. destruct (get_pmat inv s) as [[pm s1]|] eqn:E; [|discriminate]. injection H as _ <-.
  pose proof (keeps_pmat _ _ _ O E) as (A1 & A2 & A3 & A4). pose proof (pmat_filled _ _ _ E) as P.
  split; [exact A1|]. split; [exact A2|]. split; [exact A3|]. right. cbn. congruence.
Qed.
Lemma keeps_types sc : keeps (get_types inv sc).
Proof.
  apply keeps_bind; [apply keeps_masses|]. intros ms. apply keeps_bind.
  - intros s a s' O H. destruct (s_types s); [injection H as _ <-; apply same_refl|]. revert H.
    apply (keeps_bind (get_pcell inv)); [apply keeps_pcell| |exact O]. intros pc. apply keeps_bind; [apply keeps_ncell|]. intros n.
    apply keeps_bind; [apply keeps_positions|]. intros pos t b t' _ H.
    destruct (all_some _); [|discriminate]. injection H as _ <-. repeat split; auto.
  - intros []. apply keeps_bind; [apply keeps_ncell|]. intros n s a s' O H. crush H; apply same_refl.
Qed.
Lemma keeps_ntypes : keeps (get_ntypes inv).
Proof.
  intros s a s' O H. unfold get_ntypes in H. destruct (s_ntypes s); [injection H as _ <-; apply same_refl|].
  revert H. apply (keeps_bind (get_types inv None)); [apply keeps_types| |exact O]. intros p t b t' _ H. injection H as _ <-. repeat split; auto.
Qed.
Lemma keeps_nprim : keeps (get_nprim inv).
Proof.
  intros s a s' O H. unfold get_nprim in H. destruct (s_nprim s); [injection H as _ <-; apply same_refl|].
  revert H. apply (keeps_bind (get_types inv None)); [apply keeps_types| |exact O]. intros p t b t' _ H. injection H as _ <-. repeat split; auto.
Qed.

(** the invariant along a history *)
Definition holds (c : mat) (ms : list R) (pm : mat) (s : structure) : Prop :=
  s_cell s = c /\ s_masses s = ms /\ (s_pmat s = Some pm \/ s_pmat s = None /\ s_pcell s = None /\ pm = mid).
Lemma holds_ok c ms pm s : holds c ms pm s -> ok s.
Proof. intros (_ & _ & [H|(H & H' & _)]) K; congruence. Qed.
Lemma holds_same c ms pm s s' : holds c ms pm s -> same s s' -> holds c ms pm s'.
Proof.
  intros (A & B & D) (A1 & A2 & A3 & A4). split; [congruence|]. split; [congruence|].
  destruct A3 as [A3|(A3 & A3' & A3'')].
  - rewrite A3. destruct D as [D|(D & D' & D'')]; [left; exact D|]. destruct A4 as [A4|A4]; [right; repeat split; congruence|congruence].
  - left. destruct D as [D|(D & D' & ->)]; congruence.
Qed.
Lemma run_holds h : forall c ms pm s s', holds c ms pm s -> srun inv h s = Some s' ->
  holds (last_given given_cell c h) (last_given given_masses ms h) (last_given given_matrix pm h) s'.
Proof.
  induction h as [|o h IH]; intros c ms pm s s' Hs R; [injection R as <-; exact Hs|].
  cbn [srun] in R. destruct (sstep inv o s) as [s1|] eqn:E; [|discriminate]. cbn [last_given]. apply (IH _ _ _ s1); [|exact R].
  pose proof (holds_ok _ _ _ _ Hs) as O.
  destruct o; cbn [given_cell given_masses given_matrix]; unfold sstep in E.
  1-4: cbn in E; injection E as <-; destruct Hs as (A & B & D); cbn; (split; [|split]); cbn; auto.
  all: match type of E with match ?m with _ => _ end = _ => destruct m as [[a t]|] eqn:F; [|discriminate] end; injection E as <-; apply (holds_same _ _ _ s); [exact Hs|].
  - exact (keeps_positions _ _ _ _ O F).
  - exact (keeps_scaled _ _ _ O F).
  - exact (keeps_masses _ _ _ _ O F).
  - exact (keeps_pmat _ _ _ O F).
  - exact (keeps_pcell _ _ _ O F).
  - exact (keeps_types _ _ _ _ O F).
  - exact (keeps_ntypes _ _ _ O F).
  - exact (keeps_nprim _ _ _ O F).
  - exact (keeps_ncell _ _ _ O F).
Qed.
Lemma new_holds c ms p q pm : holds c ms (match pm with Some m => m | None => mid end) (new_structure c ms p q pm).
Proof. split; [reflexivity|]. split; [reflexivity|]. destruct pm; [left; reflexivity|right; auto]. Qed.
End Keep.

(* ---------- theorems ---------- *)
(** Whatever was asked before, the cell is the last one given to set_cell (or the constructor), and the primitive
    matrix the last one given to set_primitive_matrix (or the constructor; the identity if it was given none). *)
Theorem C110_cell_and_matrix :
  forall (inv : mat -> mat) c0 m0 p0 q0 pm0 h s,
  srun inv h (new_structure c0 m0 p0 q0 pm0) = Some s ->
  s_cell s = last_given given_cell c0 h /\
  value (get_pmat inv) s = Some (last_given given_matrix (match pm0 with Some m => m | None => mid end) h).
Proof.
  intros inv c0 m0 p0 q0 pm0 h s R. destruct (run_holds inv h _ _ _ _ _ (new_holds c0 m0 p0 q0 pm0) R) as (A & B & D).
  split; [exact A|]. unfold value, get_pmat. destruct D as [-> | (-> & -> & ->)]; reflexivity.
Qed.
Print Assumptions C110_cell_and_matrix.

(** The masses of atom i of the (super)cell are those of its unit-cell atom in the last list given. *)
Theorem C110_masses :
  forall (inv : mat -> mat) c0 m0 p0 q0 pm0 h s n,
  srun inv h (new_structure c0 m0 p0 q0 pm0) = Some s ->
  value get_ncell s = Some n ->
  let masses := last_given given_masses m0 h in
  length masses = n ->
  value (get_masses None) s = Some masses /\
  forall nx ny nz, nx > 0 -> ny > 0 -> nz > 0 ->
  exists l, value (get_masses (Some (nx, ny, nz))) s = Some l /\
  forall i, i < n * (nx * ny * nz) -> let '(x, y, z, k) := dynaphopy_order i nx ny nz in
  exists m, nth_error masses k = Some m /\ nth_error l i = Some m.
Proof.
  intros inv c0 m0 p0 q0 pm0 h s n R N masses L.
  pose proof (run_holds inv h _ _ _ _ _ (new_holds c0 m0 p0 q0 pm0) R) as H. pose proof (holds_ok _ _ _ _ H) as O.
  unfold value in N. destruct (get_ncell s) as [[n' s']|] eqn:E; [|discriminate]. cbn in N. injection N as ->.
  pose proof (holds_same _ _ _ _ _ H (keeps_ncell _ _ _ O E)) as (A & B & D). fold masses in B.
  split.
  - unfold value, get_masses, bind. rewrite E, B, <- L, get_attribute_unit. reflexivity.
  - intros nx ny nz Hx Hy Hz.
    destruct (C02_attribute_index _ mid (repeat vzero n) masses nx ny nz Hx Hy Hz) as (l & El & Hl); [rewrite repeat_length; exact L|].
    rewrite repeat_length in El, Hl. exists l. split.
    + unfold value, get_masses, bind. rewrite E, B, El. reflexivity.
    + intros i Hi. specialize (Hl i Hi). destruct (dynaphopy_order i nx ny nz) as [[[x y] z] k].
      destruct Hl as (m & p & M1 & _ & M2 & _). exists m. auto.
Qed.
Print Assumptions C110_masses.

(** ... a list that is too short is an error, one that is too long is cut. *)
Theorem C110_masses_length :
  forall (inv : mat -> mat) c0 m0 p0 q0 pm0 h s n,
  srun inv h (new_structure c0 m0 p0 q0 pm0) = Some s ->
  value get_ncell s = Some n ->
  let masses := last_given given_masses m0 h in
  (length masses < n -> forall sc, value (get_masses sc) s = None) /\
  (n <= length masses -> value (get_masses None) s = Some (firstn n masses)).
Proof.
  intros inv c0 m0 p0 q0 pm0 h s n R N masses.
  pose proof (run_holds inv h _ _ _ _ _ (new_holds c0 m0 p0 q0 pm0) R) as H. pose proof (holds_ok _ _ _ _ H) as O.
  unfold value in N. destruct (get_ncell s) as [[n' s']|] eqn:E; [|discriminate]. cbn in N. injection N as ->.
  pose proof (holds_same _ _ _ _ _ H (keeps_ncell _ _ _ O E)) as (A & B & D). fold masses in B.
  split.
  - intros L sc. unfold value, get_masses, bind. rewrite E, B. destruct sc as [[[nx ny] nz]|]; rewrite C02_short_attribute_list_is_an_error by exact L; reflexivity.
  - intros L. unfold value, get_masses, bind. rewrite E, B, get_attribute_unit_longer by exact L. reflexivity.
Qed.
Print Assumptions C110_masses_length.

(** C01 for the object: the positions it answers with for a supercell are the images, under its present cell, of the
    positions it answers with for the unit cell, in the documented order. *)
Theorem C01_object_positions :
  forall (inv : mat -> mat) c0 m0 p0 q0 pm0 h s p nx ny nz, nx > 0 -> ny > 0 -> nz > 0 ->
  srun inv h (new_structure c0 m0 p0 q0 pm0) = Some s ->
  value (get_positions_of None) s = Some p ->
  exists q, value (get_positions_of (Some (nx, ny, nz))) s = Some q /\ length q = length p * (nx * ny * nz) /\
  forall i, i < length p * (nx * ny * nz) ->
  let '(x, y, z, k) := dynaphopy_order i nx ny nz in
  exists a, nth_error p k = Some a /\ nth_error q i = Some (image (last_given given_cell c0 h) a x y z).
Proof.
  intros inv c0 m0 p0 q0 pm0 h s p nx ny nz Hx Hy Hz R V.
  pose proof (run_holds inv h _ _ _ _ _ (new_holds c0 m0 p0 q0 pm0) R) as H. pose proof (holds_ok _ _ _ _ H) as O.
  unfold value, get_positions_of, bind in V. destruct (fill_positions s) as [[p' s']|] eqn:E; [|discriminate].
  destruct (holds_same _ _ _ _ _ H (keeps_fill _ _ _ O E)) as (A & _ & _).
  cbn [option_map fst] in V. rewrite get_positions_unit in V. injection V as ->.
  destruct (C01_positions_follow_dynaphopy_order (s_cell s') p nx ny nz Hx Hy Hz) as (L & K). rewrite A in L, K.
  exists (get_positions (last_given given_cell c0 h) p [nx; ny; nz]). split; [|split; [exact L|]].
  - unfold value, get_positions_of, bind. rewrite E, <- A. reflexivity.
  - intros i Hi. specialize (K i Hi). destruct (dynaphopy_order i nx ny nz) as [[[x y] z] k].
    destruct K as (_ & _ & _ & _ & K). exact K.
Qed.
Print Assumptions C01_object_positions.

Example C110_nonvacuous : exists s,
  srun (fun m => m) [SetMasses [2%R]; GetPrimitiveMatrix; SetPrimitive (M3 vzero vzero vzero); GetPrimitiveCell; SetCell (M3 vzero vzero vzero)]
       (new_structure mid [1%R] (Some [V3 1 2 3]) None None) = Some s /\
  value get_ncell s = Some 1 /\
  last_given given_masses [1%R] [SetMasses [2%R]; GetPrimitiveMatrix; SetPrimitive (M3 vzero vzero vzero); GetPrimitiveCell; SetCell (M3 vzero vzero vzero)] = [2%R].
Proof.
  eexists. split; [cbn; reflexivity|]. split; [|reflexivity].
  unfold value, get_ncell, get_positions_of, fill_positions, bind. cbn [s_ncell s_positions with_cell with_pcell with_types with_nprim with_ntypes with_pmat with_masses new_structure option_map fst].
  rewrite get_positions_unit. reflexivity.
Qed.
