From Verif Require Import GenerateModel GenerateSpec GenerateProofs.
Open Scope R_scope.
Section P.
Context (show10 show15 : R -> string) (show_nat : nat -> string) (read_float : string -> option R) (read_int : string -> option nat).
Context (rnd10 rnd15 : R -> R).
Context (H10 : forall x, read_float (show10 x) = Some (rnd10 x)) (H15 : forall x, read_float (show15 x) = Some (rnd15 x)) (Hn : forall k, read_int (show_nat k) = Some k).
Lemma read_row show rnd v : (forall x, read_float (show x) = Some (rnd x)) -> read_vec read_float (row show v) = Some (vmap rnd v).
Proof. intros H. unfold read_vec, row. cbn. rewrite !H. reflexivity. Qed.
Lemma read_rows show rnd vs : (forall x, read_float (show x) = Some (rnd x)) -> read_vecs read_float (map (row show) vs) = Some (map (vmap rnd) vs).
Proof. intros H. induction vs as [|v vs IH]; [reflexivity|]. cbn [map read_vecs]. change (firstn 3 (row show v)) with (row show v). rewrite (read_row show rnd v H), IH. reflexivity. Qed.
Lemma read_counts cs : read_all read_int (map show_nat cs) = Some cs.
Proof. induction cs as [|c cs IH]; [reflexivity|]. cbn. rewrite Hn, IH. reflexivity. Qed.
Lemma expand_header {X} (es : list X) : forall cs, List.length es = List.length cs -> expand es cs = Some (header_types es cs).
Proof. induction es as [|e es IH]; intros [|c cs] H; try discriminate; [reflexivity|]. cbn. rewrite IH by (cbn in H; lia). reflexivity. Qed.
Lemma mscale1 m : mscale 1 m = m.
Proof. destruct m as [[] [] []]. unfold mscale, vscale. cbn. rewrite !Rmult_1_l. reflexivity. Qed.
Lemma body_rows pre vs show rnd : (forall x, read_float (show x) = Some (rnd x)) ->
  body read_float (pre ++ map (row show) vs ++ [[]]) (List.length pre) (List.length vs) = Some (map (vmap rnd) vs).
Proof.
  intros H. unfold body. assert (L : List.length (pre ++ map (row show) vs ++ [[]]) = (List.length pre + List.length vs + 1)%nat) by (rewrite !app_length, map_length; cbn; lia). rewrite L.
  assert (B : Nat.leb (List.length pre + List.length vs) (List.length pre + List.length vs + 1) = true) by (apply Nat.leb_le; lia). rewrite B.
  rewrite skipn_app, skipn_all, Nat.sub_diag. cbn [app skipn]. rewrite firstn_app, map_length, Nat.sub_diag. cbn [firstn]. rewrite app_nil_r. rewrite firstn_all2 by (rewrite map_length; lia). apply read_rows. exact H.
Qed.
(** new style: header, cell, elements, counts, mode, rows *)
Lemma read_new scale s cell elements counts mode vs show rnd : (forall x, read_float (show x) = Some (rnd x)) -> read_float scale = Some s -> List.length elements = List.length counts -> List.length vs = list_sum counts ->
  read_poscar read_float read_int (new_file show10 show_nat scale cell elements counts mode (map (row show) vs)) =
  Some (MkPoscar (mscale s (mmap rnd10 cell)) (if is_direct [mode] then Some (map (vmap rnd) vs) else None) (if is_direct [mode] then None else Some (map (vmap rnd) vs)) (header_types elements counts)).
Proof.
  intros H Hs Le Lv. unfold read_poscar. cbn [new_file nth app]. rewrite !(read_row show10 rnd10 _ H10). rewrite Hs. rewrite read_counts. rewrite expand_header by exact Le. unfold coordinates.
  assert (B := body_rows [["Generated"; "using"; "dynaphopy"]%string; [scale]; row show10 (r0 cell); row show10 (r1 cell); row show10 (r2 cell); elements; map show_nat counts; [mode]] vs show rnd H). cbn [List.length app] in B. unfold new_file. cbn [app]. rewrite <- Lv.
  match type of B with body _ ?a ?b ?c = _ => match goal with |- context[body _ ?a' ?b' ?c'] => change (body read_float a' b' c') with (body read_float a b c) end end. rewrite B. destruct (is_direct [mode]); reflexivity.
Qed.
(** old style: elements in the comment line *)
Lemma read_old scale s cell elements counts mode vs show rnd : (forall x, read_float (show x) = Some (rnd x)) -> read_float scale = Some s -> read_int mode = None -> List.length elements = List.length counts -> List.length vs = list_sum counts ->
  read_poscar read_float read_int (old_file show10 show_nat scale cell elements counts mode (map (row show) vs)) =
  Some (MkPoscar (mscale s (mmap rnd10 cell)) (if is_direct [mode] then Some (map (vmap rnd) vs) else None) (if is_direct [mode] then None else Some (map (vmap rnd) vs)) (header_types elements counts)).
Proof.
  intros H Hs Hm Le Lv. unfold read_poscar. cbn [old_file nth app read_all]. rewrite !(read_row show10 rnd10 _ H10). rewrite Hs, Hm. rewrite read_counts. rewrite expand_header by exact Le. unfold coordinates.
  assert (B := body_rows [elements; [scale]; row show10 (r0 cell); row show10 (r1 cell); row show10 (r2 cell); map show_nat counts; [mode]] vs show rnd H). cbn [List.length app] in B. unfold old_file. cbn [app]. rewrite <- Lv.
  match type of B with body _ ?a ?b ?c = _ => match goal with |- context[body _ ?a' ?b' ?c'] => change (body read_float a' b' c') with (body read_float a b c) end end. rewrite B. destruct (is_direct [mode]); reflexivity.
Qed.
Lemma round_trip leb cell types positions scaled_positions scaled : read_float "1.0"%string = Some 1 -> List.length positions = List.length types -> List.length scaled_positions = List.length types ->
  exists p, read_poscar read_float read_int (generate_VASP show10 show15 show_nat leb cell types positions scaled_positions scaled) = Some p /\
  p_cell p = mmap rnd10 cell /\ p_scaled p = (if scaled then Some (map (vmap rnd15) scaled_positions) else None) /\ p_positions p = (if scaled then None else Some (map (vmap rnd10) positions)) /\
  p_types p = header_types (vasp_elements string_dec leb types) (vasp_counts string_dec leb types).
Proof.
  intros H1 Lp Ls. assert (Le := vasp_lengths string_dec leb types). assert (Lv := vasp_sum string_dec leb types). destruct scaled.
  - assert (E := read_new "1.0"%string 1 cell _ _ "Direct"%string scaled_positions show15 rnd15 H15 H1 Le ltac:(congruence)). cbn [is_direct first_letter] in E. eexists. split; [exact E|]. cbn. rewrite mscale1. repeat split; reflexivity.
  - assert (E := read_new "1.0"%string 1 cell _ _ "Cartesian"%string positions show10 rnd10 H10 H1 Le ltac:(congruence)). cbn [is_direct first_letter] in E. eexists. split; [exact E|]. cbn. rewrite mscale1. repeat split; reflexivity.
Qed.
End P.
