(** C89: the mesh file. *)
From Verif Require Import PhonopyLinkModel MeshModel.
From Coq Require Import Lia Lra Permutation Sorting.Sorted.
Import List ListNotations.
Open Scope R_scope.

Lemma insert_perm x l : Permutation (insert x l) (x :: l).
Proof. induction l as [|y l IH]; cbn; [reflexivity|]. destruct (Rle_dec x y); [reflexivity|]. rewrite IH. apply perm_swap. Qed.
Lemma ascending_perm l : Permutation (ascending l) l.
Proof. induction l as [|x l IH]; cbn; [constructor|]. rewrite insert_perm. constructor. exact IH. Qed.
Lemma insert_sorted x l : StronglySorted Rle l -> StronglySorted Rle (insert x l).
Proof.
  induction 1 as [|y l Hs IH Hf]; cbn; [repeat constructor|]. destruct (Rle_dec x y) as [L|L].
  - constructor; [constructor; assumption|]. constructor; [exact L|]. eapply Forall_impl; [|exact Hf]. cbn. intros; lra.
  - constructor; [exact IH|]. apply (Permutation_Forall (Permutation_sym (insert_perm x l))). constructor; [lra|exact Hf].
Qed.
Lemma ascending_sorted l : StronglySorted Rle (ascending l).
Proof. induction l as [|x l IH]; cbn; [constructor|apply insert_sorted, IH]. Qed.
Lemma sign_pos x : 0 < x -> np_sign x = 1.
Proof. intros H. unfold np_sign. destruct (Rlt_dec 0 x); [reflexivity|lra]. Qed.
Lemma sign_neg x : x < 0 -> np_sign x = -1.
Proof. intros H. unfold np_sign. destruct (Rlt_dec 0 x); [lra|]. destruct (Rlt_dec x 0); [reflexivity|lra]. Qed.
Lemma sign_0 : np_sign 0 = 0.
Proof. unfold np_sign. destruct (Rlt_dec 0 0); [lra|]. destruct (Rlt_dec 0 0); [lra|reflexivity]. Qed.
Section Unit.
Context (u : R) (Hu : 0 < u).
Lemma back f : frequency_of u (eigenvalue u f) = f.
Proof.
  unfold frequency_of, eigenvalue. assert (E : f = f / u * u) by (field; lra). set (g := f / u) in *. clearbody g. subst f. f_equal.
  destruct (Rtotal_order g 0) as [L|[->|L]].
  - rewrite (sign_neg g L). assert (P : 0 < g * g) by nra. rewrite sign_neg by lra. rewrite Rabs_left by lra. replace (- (g * g * -1)) with ((- g) * (- g)) by ring. rewrite sqrt_square by lra. ring.
  - rewrite sign_0. replace (0 * 0 * 0) with 0 by ring. rewrite sign_0. ring.
  - rewrite (sign_pos g L). assert (P : 0 < g * g) by nra. rewrite sign_pos by lra. rewrite Rabs_right by lra. rewrite Rmult_1_r, sqrt_square by lra. ring.
Qed.
Lemma frequency_le a b : a <= b -> frequency_of u a <= frequency_of u b.
Proof.
  intros H. unfold frequency_of. apply Rmult_le_compat_r; [lra|]. destruct (Rtotal_order a 0) as [A|[->|A]]; destruct (Rtotal_order b 0) as [B|[->|B]]; try lra.
  - rewrite (sign_neg a A), (sign_neg b B), (Rabs_left a A), (Rabs_left b B). assert (sqrt (- b) <= sqrt (- a)) by (apply sqrt_le_1_alt; lra). lra.
  - rewrite (sign_neg a A), sign_0, (Rabs_left a A). assert (0 <= sqrt (- a)) by apply sqrt_pos. lra.
  - rewrite (sign_neg a A), (sign_pos b B). assert (0 <= sqrt (Rabs a)) by apply sqrt_pos. assert (0 <= sqrt (Rabs b)) by apply sqrt_pos. lra.
  - rewrite sign_0, (sign_pos b B). assert (0 <= sqrt (Rabs b)) by apply sqrt_pos. lra.
  - rewrite (sign_pos a A), (sign_pos b B), (Rabs_right a), (Rabs_right b) by lra. assert (sqrt a <= sqrt b) by (apply sqrt_le_1_alt; lra). lra.
Qed.
Lemma mesh_values_perm l : Permutation (mesh_values u l) l.
Proof.
  unfold mesh_values. rewrite (Permutation_map (frequency_of u) (ascending_perm (map (eigenvalue u) l))), map_map. rewrite (map_ext _ (fun x => x) back), map_id. reflexivity.
Qed.
Lemma mesh_values_sorted l : StronglySorted Rle (mesh_values u l).
Proof.
  unfold mesh_values. assert (S := ascending_sorted (map (eigenvalue u) l)). induction S as [|x r S IH F]; cbn; constructor; [exact IH|].
  rewrite Forall_forall in *. intros y Hy. apply in_map_iff in Hy as (z & <- & Hz). apply frequency_le, F, Hz.
Qed.
Lemma sorted_unique l : forall l', StronglySorted Rle l -> StronglySorted Rle l' -> Permutation l l' -> l = l'.
Proof.
  induction l as [|x l IH]; intros l' S S' P; [apply Permutation_nil in P; congruence|].
  destruct l' as [|y l']; [apply Permutation_sym, Permutation_nil in P; discriminate|]. inversion S as [|? ? S1 F1]; subst. inversion S' as [|? ? S2 F2]; subst. rewrite Forall_forall in F1, F2.
  assert (E : x = y).
  { assert (A : In x (y :: l')) by (apply (Permutation_in _ P); left; reflexivity). assert (B : In y (x :: l)) by (apply (Permutation_in _ (Permutation_sym P)); left; reflexivity).
    destruct A as [A|A]; [congruence|]. destruct B as [B|B]; [congruence|]. specialize (F1 y B). specialize (F2 x A). lra. }
  subst y. f_equal. apply IH; try assumption. exact (Permutation_cons_inv P).
Qed.
Lemma mesh_values_id l : StronglySorted Rle l -> mesh_values u l = l.
Proof. intros S. apply sorted_unique; [apply mesh_values_sorted|exact S|apply mesh_values_perm]. Qed.
Lemma entries_ok (points : list point) : forall i pre, length pre = i ->
  mesh_entries i (map p_q points) (map p_weight (pre ++ points)) (map (fun p => mesh_values u (p_fitted p)) (pre ++ points)) (map (fun p => mesh_values u (p_widths p)) (pre ++ points)) =
  Some (map (fun p => MkE (p_q p) (mesh_values u (p_fitted p)) (mesh_values u (p_widths p)) (p_weight p)) points).
Proof.
  induction points as [|p points IH]; intros i pre L; cbn [map mesh_entries]; [reflexivity|].
  assert (N : nth_error (pre ++ p :: points) i = Some p) by (rewrite nth_error_app2 by lia; replace (i - length pre)%nat with 0%nat by lia; reflexivity).
  rewrite (map_nth_error (fun p => mesh_values u (p_fitted p)) i _ N), (map_nth_error (fun p => mesh_values u (p_widths p)) i _ N), (map_nth_error p_weight i _ N).
  replace (pre ++ p :: points) with ((pre ++ [p]) ++ points) by (rewrite <- app_assoc; reflexivity). rewrite (IH (S i) (pre ++ [p])) by (rewrite app_length; cbn; lia). reflexivity.
Qed.
End Unit.

(** C89.  One entry per mesh point, in order, with its wave vector and multiplicity; at a commensurate point the frequencies are the fitted
    ones in ascending order, and the linewidths the fitted ones, also in ascending order. *)
Theorem C89_entries :
  forall (u : R) (points : list point), 0 < u ->
  exists l, write_mesh_data u points = Some l /\ length l = length points /\
  forall i p, nth_error points i = Some p -> exists e, nth_error l i = Some e /\ e_q e = p_q p /\ e_multiplicity e = p_weight p /\
  Permutation (e_frequencies e) (p_fitted p) /\ StronglySorted Rle (e_frequencies e) /\
  Permutation (e_linewidths e) (p_widths p) /\ StronglySorted Rle (e_linewidths e).
Proof.
  intros u points Hu. unfold write_mesh_data, get_mesh. assert (E := entries_ok u points 0 [] eq_refl). cbn [app] in E. rewrite E. eexists. split; [reflexivity|]. split; [apply map_length|].
  intros i p Hp. eexists. split; [apply (map_nth_error _ i _ Hp)|]. cbn. repeat split; try (apply mesh_values_perm, Hu); apply mesh_values_sorted, Hu.
Qed.
Print Assumptions C89_entries.
(** Entry j is the mode of branch j with its own linewidth when frequencies and linewidths of the point both ascend with the branch. *)
Theorem C89_pairs_partial :
  forall (u : R) (points : list point) (l : list mesh_entry) i p e, 0 < u -> write_mesh_data u points = Some l ->
  nth_error points i = Some p -> nth_error l i = Some e -> StronglySorted Rle (p_fitted p) -> StronglySorted Rle (p_widths p) ->
  e_frequencies e = p_fitted p /\ e_linewidths e = p_widths p.
Proof.
  intros u points l i p e Hu E Hp He Sf Sw. unfold write_mesh_data, get_mesh in E. assert (E' := entries_ok u points 0 [] eq_refl). cbn [app] in E'. rewrite E' in E. injection E as <-.
  assert (M := map_nth_error (fun p => MkE (p_q p) (mesh_values u (p_fitted p)) (mesh_values u (p_widths p)) (p_weight p)) i points Hp). rewrite M in He. injection He as <-. cbn.
  split; apply mesh_values_id; assumption.
Qed.
Print Assumptions C89_pairs_partial.
(** Otherwise not: for every point with increasing frequencies whose linewidths do not ascend, some mode is listed with the linewidth of
    another one. *)
Theorem C89_pairs_refuted :
  forall (u : R) (points : list point) (l : list mesh_entry) i p e, 0 < u -> write_mesh_data u points = Some l ->
  nth_error points i = Some p -> nth_error l i = Some e ->
  StronglySorted Rlt (p_fitted p) -> length (p_widths p) = length (p_fitted p) -> ~ StronglySorted Rle (p_widths p) ->
  exists j f w w', nth_error (p_fitted p) j = Some f /\ nth_error (p_widths p) j = Some w /\
  nth_error (e_frequencies e) j = Some f /\ nth_error (e_linewidths e) j = Some w' /\ w' <> w.
Proof.
  intros u points l i p e Hu E Hp He Sf L Nw. unfold write_mesh_data, get_mesh in E. assert (E' := entries_ok u points 0 [] eq_refl). cbn [app] in E'. rewrite E' in E. injection E as <-.
  assert (M := map_nth_error (fun p => MkE (p_q p) (mesh_values u (p_fitted p)) (mesh_values u (p_widths p)) (p_weight p)) i points Hp). rewrite M in He. injection He as <-. cbn [e_frequencies e_linewidths].
  assert (Sf' : StronglySorted Rle (p_fitted p)) by (clear -Sf; induction Sf as [|x r S IH F]; constructor; [exact IH|]; eapply Forall_impl; [|exact F]; cbn; intros; lra).
  rewrite (mesh_values_id u Hu _ Sf'). assert (P := mesh_values_perm u Hu (p_widths p)). assert (S := mesh_values_sorted u Hu (p_widths p)).
  assert (D : exists j w w', nth_error (p_widths p) j = Some w /\ nth_error (mesh_values u (p_widths p)) j = Some w' /\ w' <> w).
  { assert (N : mesh_values u (p_widths p) <> p_widths p) by (intros Q; apply Nw; rewrite <- Q; exact S). apply Permutation_length in P. clear -P N.
    revert P N. generalize (mesh_values u (p_widths p)) as a. generalize (p_widths p) as b. induction b as [|y b IH]; intros [|x a] P N; cbn in P; try discriminate; [contradiction|].
    destruct (Req_EM_T x y) as [->|D].
    - destruct (IH a) as (j & w & w' & A & B & C); [lia|congruence|]. exists (Datatypes.S j), w, w'. auto.
    - exists 0%nat, y, x. auto. }
  destruct D as (j & w & w' & A & B & C). destruct (nth_error (p_fitted p) j) as [f|] eqn:F.
  - exists j, f, w, w'. auto.
  - exfalso. apply nth_error_None in F. assert (j < length (p_widths p))%nat by (apply nth_error_Some; congruence). lia.
Qed.
Print Assumptions C89_pairs_refuted.
Example C89_nonvacuous : StronglySorted Rlt [1; 2; 3] /\ ~ StronglySorted Rle [5; 4; 4].
Proof.
  split; [repeat constructor; lra|]. intros S. inversion S as [|? ? _ F]; subst. inversion F as [|? ? H _]; subst. lra.
Qed.
