From Coq Require Import Lra Lia.
From Verif Require Import DosModel ThermalSpec ThermalProofs.
Open Scope R_scope.
Lemma conv_pos : 0 < conversion_factor. Proof. unfold conversion_factor. lra. Qed.
(** u/2 (e^u + 1) >= e^u - 1 *)
Lemma tanh_bound u : 0 < u -> exp u - 1 <= u / 2 * (exp u + 1).
Proof.
  intros Hu. set (g := fun u => u / 2 * (exp u + 1) - (exp u - 1)). set (g' := fun u => (exp u + 1) / 2 + u / 2 * exp u - exp u).
  destruct (MVT_cor2 g g' 0 u Hu) as (c & E & Hc).
  - intros x _. apply is_derive_Reals. unfold g, g'. auto_derive; [exact I|]. field.
  - assert (G0 : g 0 = 0) by (unfold g; rewrite exp_0; field).
    assert (G' : 0 <= g' c).
    { unfold g'. assert (P := exp_pos c). assert (I := exp_ineq1_le (- c)). rewrite exp_Ropp in I.
      assert (J : (1 - c) * exp c <= 1). { replace 1 with (/ exp c * exp c) at 2 by (field; lra). apply Rmult_le_compat_r; lra. } lra. }
    assert (0 <= g u) by (rewrite G0, Rminus_0_r in E; rewrite E; apply Rmult_le_pos; lra). unfold g in H. lra.
Qed.
Lemma classical_bounds t f : 0 < t -> 0 < f -> k_b * t <= h_bar * f * (1/2 + n t f) <= k_b * t + h_bar * f / 2.
Proof.
  intros Ht Hf. assert (K := k_pos). assert (H := h_pos). assert (Kt : 0 < k_b * t) by nra. set (u := f * h_bar / (k_b * t)).
  assert (Pu : 0 < u) by (apply Rdiv_lt_0_compat; nra). assert (E : h_bar * f = k_b * t * u) by (unfold u; field; lra).
  unfold n. fold u. rewrite E. assert (X := exp_gt1 u Pu). assert (T := tanh_bound u Pu). assert (L := exp_ineq1_le u).
  assert (A : 1 <= u * (1/2 + / (exp u - 1))).
  { apply (Rmult_le_reg_r (exp u - 1)); [lra|]. replace (u * (1/2 + / (exp u - 1)) * (exp u - 1)) with (u / 2 * (exp u + 1)) by (field; lra). lra. }
  assert (B : u * / (exp u - 1) <= 1).
  { apply (Rmult_le_reg_r (exp u - 1)); [lra|]. replace (u * / (exp u - 1) * (exp u - 1)) with u by (field; lra). lra. }
  split; [nra|]. assert (k_b * t * (u * / (exp u - 1)) <= k_b * t) by nra. lra.
Qed.
Lemma nth_div i (l : list R) a : nth i (map (fun x => x / a) l) 0 = nth i l 0 / a.
Proof. revert i. induction l as [|x l IH]; intros [|i]; cbn; try (unfold Rdiv; ring); apply IH. Qed.
Section W.
Context (weights : list R -> list R).
Lemma dos_len t fr ps c b : length fr = length ps -> length (get_dos t fr ps c b) = length fr.
Proof. intros L. unfold get_dos. rewrite map_length, combine_length. lia. Qed.
Lemma dos_nth t fr ps c b i : length fr = length ps -> (i < length fr)%nat -> nth i (get_dos t fr ps c b) 0 = dos_value t c b (nth i fr 0) (nth i ps 0).
Proof.
  intros L Hi. unfold get_dos. rewrite (nth_indep _ 0 ((fun p => dos_value t c b (fst p) (snd p)) (0, 0))) by (rewrite map_length, combine_length; lia).
  rewrite (map_nth (fun p => dos_value t c b (fst p) (snd p))), combine_nth by exact L. reflexivity.
Qed.
Lemma simps_ext u v xs : length u = length v -> (forall i, (i < length u)%nat -> nth i u 0 = nth i v 0) -> simps weights u xs = simps weights v xs.
Proof. intros L H. f_equal. apply (nth_ext _ _ 0 0 L). exact H. Qed.
Lemma simps_scale u xs c : simps weights (map (fun x => x / c) u) xs = simps weights u xs / c.
Proof.
  unfold simps. generalize (weights xs). intros ws. revert u. induction ws as [|w ws IH]; intros [|x u]; cbn; try (unfold Rdiv; ring). rewrite IH. unfold Rdiv. ring.
Qed.
Lemma integration_eq N3 nprim project fr dos b : N3 <> 0 -> nprim <> 0 -> simps weights dos fr <> 0 ->
  let '(d, i) := normalise weights N3 nprim project fr dos b in simps weights d fr / N3 = i.
Proof.
  intros HN Hp Hs. unfold normalise. destruct b; [|reflexivity]. destruct project; rewrite ?simps_scale; field; auto.
Qed.
End W.
