(** C36, C37, C46, C59: generated cells and the POSCAR reader. *)
From Verif Require Export GenerateModel GenerateSpec GenerateProofs GenerateGeometry GeneratePoscar.
From Coq Require Import Lra.
Open Scope R_scope.

(** C36: the counts always sum to the number of atoms, there is one count per element ... *)
Theorem C36_counts : forall (A : Type) eq_dec leb (types : list A),
  list_sum (vasp_counts eq_dec leb types) = List.length types /\ List.length (vasp_elements eq_dec leb types) = List.length (vasp_counts eq_dec leb types).
Proof. intros A e l t. split; [apply vasp_sum|apply vasp_lengths]. Qed.
(** ... but the header describes the listed atoms exactly when atoms of one element are adjacent *)
Theorem C36_header_partial : forall (A : Type) eq_dec leb (types : list A), grouped types -> header_types (vasp_elements eq_dec leb types) (vasp_counts eq_dec leb types) = types.
Proof. intros A e l t. apply vasp_iff. Qed.
Theorem C36_interleaved_refuted : forall (A : Type) eq_dec leb (types : list A), ~ grouped types -> header_types (vasp_elements eq_dec leb types) (vasp_counts eq_dec leb types) <> types.
Proof. intros A e l t N E. apply N. apply (vasp_iff e l t). exact E. Qed.

(** C37: the written box spans a lattice of the same lengths and angles, for every non degenerate cell *)
Theorem C37_box : forall cell, mdet cell <> 0 ->
  let '(xhi, yhi, zhi, xy, xz, yz) := lammps_box cell in
  same_shape (lammps_lattice xhi yhi zhi xy xz yz) cell /\ 0 < xhi /\ 0 < yhi /\ 0 < zhi.
Proof. intros cell H. assert (B := box_lattice cell H). destruct (lammps_box cell) as [[[[[xhi yhi] zhi] xy] xz] yz]. destruct B as [-> B]. split; [exact (shape cell H)|exact B]. Qed.
(** each atom keeps its fractional coordinates with respect to the written box *)
Theorem C37_fractional : forall cell inv fractional, mdet cell <> 0 -> is_inverse (inv cell) cell ->
  let '(xhi, yhi, zhi, xy, xz, yz) := lammps_box cell in
  lammps_positions inv cell (map (fun f => vmul f cell) fractional) = map (fun f => vmul f (lammps_lattice xhi yhi zhi xy xz yz)) fractional.
Proof.
  intros cell inv fr H Hi. assert (B := box_lattice cell H). destruct (lammps_box cell) as [[[[[xhi yhi] zhi] xy] xz] yz]. destruct B as [-> _]. unfold lammps_positions. rewrite map_map. apply map_ext. intros f. exact (frac_kept cell inv Hi f).
Qed.
(** distances are preserved; the map is a proper rotation for right handed cells ... *)
Theorem C37_rigid_partial : forall cell inv, mdet cell <> 0 -> is_inverse (inv cell) cell ->
  (forall x y, vnorm (vsub (vmul x (trans_cell inv cell)) (vmul y (trans_cell inv cell))) = vnorm (vsub x y)) /\ (0 < mdet cell -> mdet (trans_cell inv cell) = 1).
Proof.
  intros cell inv H Hi. split.
  - intros x y. unfold vnorm, vnorm2. f_equal. rewrite <- (norm_trans cell H inv Hi (vsub x y)). f_equal; unfold vsub, vmul, vadd, vscale; apply vec_eq; cbn; ring.
  - intros P. rewrite (det_trans cell H inv Hi). destruct (Rlt_dec 0 (mdet cell)); [reflexivity|contradiction].
Qed.
(** ... and a mirror image for every left handed one *)
Theorem C37_left_handed_refuted : forall cell inv, mdet cell < 0 -> is_inverse (inv cell) cell -> mdet (trans_cell inv cell) = -1.
Proof. intros cell inv N Hi. assert (H : mdet cell <> 0) by lra. rewrite (det_trans cell H inv Hi). destruct (Rlt_dec 0 (mdet cell)); [lra|reflexivity]. Qed.
(** type numbers and masses, for every order of the elements *)
Theorem C37_types : forall (A : Type) eq_dec leb (def : A) types masses, List.length masses = List.length types ->
  (forall i j, (i < List.length types)%nat -> (j < List.length types)%nat -> nth i types def = nth j types def -> nth i masses 0 = nth j masses 0) ->
  lammps_ntypes eq_dec leb types = List.length (nodup eq_dec types) /\
  (forall i, (i < List.length types)%nat -> exists t, lammps_type eq_dec leb def types i = Some t /\ (1 <= t <= lammps_ntypes eq_dec leb types)%nat /\ nth (t - 1) (lammps_masses eq_dec leb types masses) 0 = nth i masses 0) /\
  (forall i j, (i < List.length types)%nat -> (j < List.length types)%nat -> (lammps_type eq_dec leb def types i = lammps_type eq_dec leb def types j <-> nth i types def = nth j types def)).
Proof. intros A e l d t m L H. split; [apply ntypes_distinct|exact (lammps_types_ok e l d t m L H)]. Qed.

(** C46: show10/show15/show_nat print, read_float/read_int parse words; rnd10/rnd15 is what printing and parsing again gives *)
Theorem C46_round_trip : forall show10 show15 show_nat read_float read_int rnd10 rnd15,
  (forall x, read_float (show10 x) = Some (rnd10 x)) -> (forall x, read_float (show15 x) = Some (rnd15 x)) -> (forall k, read_int (show_nat k) = Some k) -> read_float "1.0"%string = Some 1 ->
  forall leb cell types positions scaled_positions scaled, grouped types -> List.length positions = List.length types -> List.length scaled_positions = List.length types ->
  read_poscar read_float read_int (generate_VASP show10 show15 show_nat leb cell types positions scaled_positions scaled) =
  Some (MkPoscar (mmap rnd10 cell) (if scaled then Some (map (vmap rnd15) scaled_positions) else None) (if scaled then None else Some (map (vmap rnd10) positions)) types).
Proof.
  intros s10 s15 sn rf ri q10 q15 A B D E leb cell types ps ss sc G Lp Ls. destruct (round_trip s10 s15 sn rf ri q10 q15 A B D leb cell types ps ss sc E Lp Ls) as [[c s p t] [H1 [H2 [H3 [H4 H5]]]]]. cbn in H2, H3, H4, H5. rewrite H1. subst c s p. rewrite H5. rewrite (proj2 (vasp_iff string_dec leb types) G). reflexivity.
Qed.
(** old style headers are read as the same structure *)
Theorem C46_old_style : forall show10 show_nat read_float read_int rnd10,
  (forall x, read_float (show10 x) = Some (rnd10 x)) -> (forall k, read_int (show_nat k) = Some k) ->
  forall scale s cell elements counts mode coords, read_float scale = Some s -> read_int mode = None -> List.length elements = List.length counts -> List.length coords = list_sum counts ->
  read_poscar read_float read_int (old_file show10 show_nat scale cell elements counts mode (map (words show10) coords)) = read_poscar read_float read_int (new_file show10 show_nat scale cell elements counts mode (map (words show10) coords)) /\
  read_poscar read_float read_int (old_file show10 show_nat scale cell elements counts mode (map (words show10) coords)) <> None.
Proof.
  intros s10 sn rf ri q10 A D scale s cell es cs mode vs Hs Hm Le Lv.
  assert (E1 := read_old s10 sn rf ri q10 A D scale s cell es cs mode vs s10 q10 A Hs Hm Le Lv). assert (E2 := read_new s10 sn rf ri q10 A D scale s cell es cs mode vs s10 q10 A Hs Le Lv).
  split; [exact (eq_trans E1 (eq_sym E2))|]. intros C. assert (C' := eq_trans (eq_sym E1) C). discriminate.
Qed.

Lemma is_direct_iff mode : is_direct [mode] = true <-> direct_mode mode.
Proof.
  unfold direct_mode, is_direct, first_letter. destruct mode as [|c t]; [split; [discriminate|intros [r [E|E]]; discriminate E]|].
  destruct (Ascii.ascii_dec c "D"%char) as [->|N1]; [split; [exists t; auto|reflexivity]|].
  destruct (Ascii.ascii_dec c "d"%char) as [->|N2]; [split; [exists t; auto|reflexivity]|]. split; [discriminate|]. intros [r [E|E]]; congruence.
Qed.

(** words after the three coordinates (an element symbol, "T T F") and lines after the last atom (velocities) change nothing *)
Lemma body_ext rf (pre rows rows' rest rest' : list line) : List.Forall2 (fun l l' => firstn 3 l = firstn 3 l') rows rows' ->
  body rf (pre ++ rows ++ rest) (List.length pre) (List.length rows) = body rf (pre ++ rows' ++ rest') (List.length pre) (List.length rows').
Proof.
  intros F. unfold body.
  assert (X : forall r t : list line, Nat.leb (List.length pre + List.length r) (List.length (pre ++ r ++ t)) = true /\ firstn (List.length r) (skipn (List.length pre) (pre ++ r ++ t)) = r).
  { intros r t. split; [apply Nat.leb_le; rewrite !app_length; lia|]. rewrite skipn_app, skipn_all, Nat.sub_diag. cbn [app skipn]. rewrite firstn_app, Nat.sub_diag, firstn_all. cbn [firstn]. apply app_nil_r. }
  destruct (X rows rest) as [-> ->], (X rows' rest') as [-> ->]. induction F as [|l l' r r' H F IH]; [reflexivity|]. cbn [read_vecs]. rewrite H, IH. reflexivity.
Qed.
Lemma extra_words : forall show10 show_nat read_float read_int rnd10,
  (forall x, read_float (show10 x) = Some (rnd10 x)) -> (forall k, read_int (show_nat k) = Some k) ->
  forall scale s cell elements counts mode coords tails rest, read_float scale = Some s -> List.length elements = List.length counts -> List.length coords = list_sum counts -> List.length tails = List.length coords ->
  read_poscar read_float read_int (new_file show10 show_nat scale cell elements counts mode (map (fun e => words show10 (fst e) ++ snd e) (combine coords tails) ++ rest)) =
  Some (MkPoscar (mscale s (mmap rnd10 cell)) (if is_direct [mode] then Some (map (vmap rnd10) coords) else None) (if is_direct [mode] then None else Some (map (vmap rnd10) coords)) (header_types elements counts)).
Proof.
  intros s10 sn rf ri q10 A D scale s cell es cs mode vs tails rest Hs Le Lv Lt. assert (E := read_new s10 sn rf ri q10 A D scale s cell es cs mode vs s10 q10 A Hs Le Lv). rewrite <- E. clear E.
  unfold read_poscar. cbn [new_file nth app]. rewrite !(read_row rf s10 q10 _ A). rewrite Hs. rewrite (read_counts sn ri D). rewrite expand_header by exact Le. unfold coordinates.
  set (rows := map (fun e => words s10 (fst e) ++ snd e) (combine vs tails) : list line).
  assert (F : List.Forall2 (fun l l' => firstn 3 l = firstn 3 l') rows (map (row s10) vs)).
  { unfold rows. clear - Lt. revert tails Lt. induction vs as [|v vs IH]; intros [|t ts] L; try discriminate; cbn [combine map]; constructor; [reflexivity|]. apply IH. cbn in L. lia. }
  assert (B := body_ext rf [["Generated"; "using"; "dynaphopy"]%string; [scale]; row s10 (r0 cell); row s10 (r1 cell); row s10 (r2 cell); es; map sn cs; [mode]] rows (map (row s10) vs) (rest ++ [[]]) [[]] F).
  assert (L1 : @List.length line rows = list_sum cs) by (unfold rows; rewrite (map_length (fun e : vec * list string => words s10 (fst e) ++ snd e)), combine_length; lia). assert (L2 : @List.length line (map (row s10) vs) = list_sum cs) by (rewrite map_length; exact Lv). rewrite L1, L2 in B.
  unfold new_file. cbn [app]. rewrite <- app_assoc. cbn [List.length app] in B.
  match type of B with body _ ?a ?b ?c = body _ ?a2 _ _ => match goal with |- match match body _ ?a' ?b' ?c' with _ => _ end with _ => _ end = match match body _ ?a2' _ _ with _ => _ end with _ => _ end => change (body rf a' b' c') with (body rf a b c); change a2' with a2 end end.
  rewrite B. reflexivity.
Qed.

Theorem C46_extra_words : forall show10 show_nat read_float read_int rnd10,
  (forall x, read_float (show10 x) = Some (rnd10 x)) -> (forall k, read_int (show_nat k) = Some k) ->
  forall scale s cell elements counts mode coords tails rest, read_float scale = Some s -> List.length elements = List.length counts -> List.length coords = list_sum counts -> List.length tails = List.length coords ->
  exists p, read_poscar read_float read_int (new_file show10 show_nat scale cell elements counts mode (map (fun e => words show10 (fst e) ++ snd e) (combine coords tails) ++ rest)) = Some p /\
  p_cell p = mscale s (mmap rnd10 cell) /\ p_types p = header_types elements counts /\
  (direct_mode mode -> p_scaled p = Some (map (vmap rnd10) coords) /\ p_positions p = None) /\ (~ direct_mode mode -> p_scaled p = None /\ p_positions p = Some (map (vmap rnd10) coords)).
Proof.
  intros s10 sn rf ri q10 A D scale s cell es cs mode vs tails rest Hs Le Lv Lt. eexists. split; [exact (extra_words s10 sn rf ri q10 A D scale s cell es cs mode vs tails rest Hs Le Lv Lt)|]. cbn.
  split; [reflexivity|]. split; [reflexivity|]. assert (Z := is_direct_iff mode). destruct (is_direct [mode]); split; intros H; auto.
  - exfalso. apply H, Z. reflexivity.
  - apply Z in H. discriminate.
Qed.

(** C59: with scale factor s the cell is scaled ... *)
Theorem C59_scale_partial : forall show10 show_nat read_float read_int rnd10,
  (forall x, read_float (show10 x) = Some (rnd10 x)) -> (forall k, read_int (show_nat k) = Some k) ->
  forall scale s cell elements counts mode coords, read_float scale = Some s -> List.length elements = List.length counts -> List.length coords = list_sum counts ->
  exists p, read_poscar read_float read_int (new_file show10 show_nat scale cell elements counts mode (map (words show10) coords)) = Some p /\
  p_cell p = mscale s (mmap rnd10 cell) /\ p_types p = header_types elements counts /\ (direct_mode mode -> p_scaled p = Some (map (vmap rnd10) coords) /\ p_positions p = None).
Proof.
  intros s10 sn rf ri q10 A D scale s cell es cs mode vs Hs Le Lv. assert (E2 := read_new s10 sn rf ri q10 A D scale s cell es cs mode vs s10 q10 A Hs Le Lv).
  change (words s10) with (row s10). eexists. split; [exact E2|]. cbn. split; [reflexivity|]. split; [reflexivity|]. intros Hd. apply is_direct_iff in Hd. rewrite Hd. split; reflexivity.
Qed.
(** ... but Cartesian positions are not: for every s <> 1 and any atom off the origin the positions are wrong *)
Theorem C59_cartesian_scale_refuted : forall show10 show_nat read_float read_int rnd10,
  (forall x, read_float (show10 x) = Some (rnd10 x)) -> (forall k, read_int (show_nat k) = Some k) ->
  forall scale s cell elements counts mode coords, read_float scale = Some s -> List.length elements = List.length counts -> List.length coords = list_sum counts ->
  ~ direct_mode mode -> s <> 1 -> (exists v, In v coords /\ vmap rnd10 v <> vzero) ->
  exists p, read_poscar read_float read_int (new_file show10 show_nat scale cell elements counts mode (map (words show10) coords)) = Some p /\
  p_positions p = Some (map (vmap rnd10) coords) /\ p_positions p <> Some (map (vscale s) (map (vmap rnd10) coords)).
Proof.
  intros s10 sn rf ri q10 A D scale s cell es cs mode vs Hs Le Lv Hm Ns [v [I N]]. assert (E2 := read_new s10 sn rf ri q10 A D scale s cell es cs mode vs s10 q10 A Hs Le Lv).
  change (words s10) with (row s10). eexists. split; [exact E2|]. cbn [p_positions]. rewrite <- is_direct_iff in Hm. apply Bool.not_true_is_false in Hm. rewrite Hm. split; [reflexivity|]. intros E. inversion E as [E']. rewrite map_map in E'.
  assert (F : vmap q10 v = vscale s (vmap q10 v)). { clear -E' I. induction vs as [|w vs IH]; [destruct I|]. assert (A1 := f_equal (hd vzero) E'). assert (B1 := f_equal (@tl vec) E'). destruct I as [->|I]; [exact A1|apply IH; assumption]. }
  apply N. apply vec_eq; cbn; [assert (G := f_equal vx F)|assert (G := f_equal vy F)|assert (G := f_equal vz F)]; cbn in G.
  - assert (Z : (s - 1) * q10 (vx v) = 0) by lra. apply Rmult_integral in Z. destruct Z; [lra|assumption].
  - assert (Z : (s - 1) * q10 (vy v) = 0) by lra. apply Rmult_integral in Z. destruct Z; [lra|assumption].
  - assert (Z : (s - 1) * q10 (vz v) = 0) by lra. apply Rmult_integral in Z. destruct Z; [lra|assumption].
Qed.

Print Assumptions C36_counts.
Print Assumptions C36_header_partial.
Print Assumptions C36_interleaved_refuted.
Print Assumptions C37_box.
Print Assumptions C37_fractional.
Print Assumptions C37_rigid_partial.
Print Assumptions C37_left_handed_refuted.
Print Assumptions C37_types.
Print Assumptions C46_round_trip.
Print Assumptions C46_old_style.
Print Assumptions C46_extra_words.
Print Assumptions C59_scale_partial.
Print Assumptions C59_cartesian_scale_refuted.

Open Scope string_scope.
Example C36_nonvacuous : vasp_elements string_dec String.leb ["Si"; "Si"; "O"; "O"; "O"] = ["Si"; "O"] /\ vasp_counts string_dec String.leb ["Si"; "Si"; "O"; "O"; "O"] = [2; 3]%nat /\
  vasp_counts string_dec String.leb ["Ga"; "N"; "Ga"; "N"] = [1; 3]%nat /\ ~ grouped ["Ga"; "N"; "Ga"; "N"].
Proof. split; [reflexivity|]. split; [reflexivity|]. split; [reflexivity|]. intros G. specialize (G 0%nat 1%nat 2%nat "Ga" ltac:(lia) eq_refl eq_refl). discriminate. Qed.
Example C37_nonvacuous : mdet (M3 (V3 2 0 0) (V3 1 2 0) (V3 0 1 3)) <> 0 /\ lammps_type string_dec String.leb "" ["Ga"; "N"; "Ga"; "N"] 2 = Some 1%nat /\ lammps_type string_dec String.leb "" ["Ga"; "N"; "Ga"; "N"] 3 = Some 2%nat.
Proof. split; [unfold mdet; cbn; lra|]. split; reflexivity. Qed.
(** printers and parsers as asked for exist (only integers are distinguished here) *)
Fixpoint unary (k : nat) : string := match k with O => "" | S k => String "1" (unary k) end.
Example C46_nonvacuous : exists (show : R -> string) (show_nat : nat -> string) read_float read_int (rnd : R -> R),
  (forall x, read_float (show x) = Some (rnd x)) /\ (forall k, read_int (show_nat k) = Some k) /\ read_float "1.0" = Some 1%R /\ read_int "Direct" = None.
Proof.
  exists (fun _ => "0.0"), unary, (fun w => if string_dec w "1.0" then Some 1%R else Some 0%R), (fun w => if string_dec w "Direct" then None else Some (String.length w)), (fun _ => 0%R).
  split; [intros x; destruct (string_dec "0.0" "1.0"); [discriminate|reflexivity]|]. split.
  - intros k. destruct (string_dec (unary k) "Direct") as [E|_]; [destruct k; discriminate|]. f_equal. induction k; cbn; congruence.
  - split; [destruct (string_dec "1.0" "1.0"); [reflexivity|contradiction]|]. destruct (string_dec "Direct" "Direct"); [reflexivity|contradiction].
Qed.
