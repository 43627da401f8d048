(** Proofs about the asymmetric Lorentzian of FitFunctionsModel: where its maximum lies and how wide it is. *)
From Verif Require Import FitFunctionsModel FitFunctionsSpec FitFunctionsProofs.
From Coq Require Import Reals Lra Psatz.
From Coquelicot Require Import Coquelicot.
Open Scope R_scope.

Definition gw (b s u : R) : R := 2 * b / (1 + exp (s * u)).
Definition pk (b s u : R) : R := gw b s u / ((gw b s u)^2 + u^2).
Lemma gw_pos b s u : 0 < b -> 0 < gw b s u.
Proof. intros H. unfold gw. assert (E := exp_pos (s * u)). apply Rdiv_lt_0_compat; lra. Qed.
Lemma pk_den b s u : 0 < b -> 0 < (gw b s u)^2 + u^2.
Proof. intros H. assert (G := gw_pos b s u H). nra. Qed.
Lemma asym_pk a b c d s u : 0 < b -> asymmetric a b c d s (a + u) = c / PI * pk b s u + d.
Proof.
  intros Hb. assert (G := gw_pos b s u Hb). assert (P := PI_RGT_0). assert (D := pk_den b s u Hb). unfold asymmetric.
  replace (g_a a b s (a + u)) with (gw b s u) by (unfold g_a, gw; do 4 f_equal; ring).
  replace (a + u - a) with u by ring. unfold pk. f_equal.
  assert (N : (gw b s u * gw b s u + u * u) <> 0) by (intros Z; nra).
  field. split; [|split; [|lra]]; nra.
Qed.
Lemma pk_mirror b s u : pk b (- s) (- u) = pk b s u.
Proof. unfold pk, gw. replace (- s * - u) with (s * u) by ring. replace ((- u)^2) with (u^2) by ring. reflexivity. Qed.

(** the derivative *)
Lemma pk_derive b s u : 0 < b ->
  is_derive (pk b s) u (gw b s u * (s * exp (s * u) / (1 + exp (s * u)) * ((gw b s u)^2 - u^2) - 2 * u) / ((gw b s u)^2 + u^2)^2).
Proof.
  intros Hb. assert (D := pk_den b s u Hb). assert (E := exp_pos (s * u)). unfold pk, gw in *.
  auto_derive.
  - split; [lra|]. split; [lra|]. split; [|exact I]. match goal with |- ?x <> 0 => replace x with ((2 * b / (1 + exp (s * u)))^2 + u^2) by (field; lra) end. lra.
  - assert (N : (2 * b)^2 + u^2 * (1 + exp (s * u))^2 <> 0). { assert (0 < (2 * b)^2) by nra. assert (0 <= u^2 * (1 + exp (s * u))^2) by (apply Rmult_le_pos; apply pow2_ge_0). lra. }
    field. repeat split; try lra; intros Z; apply N; rewrite <- Z; ring.
Qed.

(** at a stationary point of a curve with s > 0 *)
Lemma stationary b s u : 0 < b -> 0 < s -> is_derive (pk b s) u 0 -> 0 < u < gw b s u.
Proof.
  intros Hb Hs H. assert (G := gw_pos b s u Hb). assert (D := pk_den b s u Hb). assert (E := exp_pos (s * u)).
  assert (Q := is_derive_unique _ _ _ H). rewrite (is_derive_unique _ _ _ (pk_derive b s u Hb)) in Q.
  assert (D2 : 0 < ((gw b s u)^2 + u^2)^2) by nra.
  assert (Z : gw b s u * (s * exp (s * u) / (1 + exp (s * u)) * ((gw b s u)^2 - u^2) - 2 * u) = 0).
  { apply Rmult_eq_reg_r with (/ ((gw b s u)^2 + u^2)^2); [rewrite Rmult_0_l; exact Q|]. apply Rinv_neq_0_compat. lra. }
  apply Rmult_integral in Z. destruct Z as [Z|Z]; [lra|]. clear Q H.
  set (g := gw b s u) in *. set (e := exp (s * u)) in *.
  assert (Z2 : s * e * (g^2 - u^2) = 2 * u * (1 + e)).
  { apply Rmult_eq_reg_r with (/ (1 + e)); [|apply Rinv_neq_0_compat; lra]. replace (2 * u * (1 + e) * / (1 + e)) with (2 * u) by (field; lra).
    replace (s * e * (g^2 - u^2) * / (1 + e)) with (s * e / (1 + e) * (g^2 - u^2)) by (unfold Rdiv; ring). lra. }
  destruct (Rlt_dec 0 u) as [Hu|Hu].
  - split; [exact Hu|]. assert (0 < s * e) by nra. assert (0 < 2 * u * (1 + e)) by nra. assert (0 < g^2 - u^2) by nra. nra.
  - exfalso. assert (Hu' : u <= 0) by lra.
    (* e * exp (- s u) = 1 and exp (- s u) > - s u *)
    assert (E1 : 1 + - (s * u) <= exp (- (s * u))) by (apply exp_ineq1_le). assert (E2 : e * exp (- (s * u)) = 1) by (unfold e; rewrite <- exp_plus, Rplus_opp_r, exp_0; reflexivity).
    assert (E3 : e * (1 - s * u) <= 1) by nra.
    assert (B : 0 < s * e * g^2) by (apply Rmult_lt_0_compat; nra).
    (* s e (u^2 - g^2) = 2 |u| (1+e) *)
    assert (B2 : s * e * u^2 <= - u). { assert (s * e * - u <= 1) by nra. nra. }
    nra.
Qed.
Lemma gw_decr b s u v : 0 < b -> 0 < s -> u < v -> gw b s v < gw b s u.
Proof.
  intros Hb Hs H. unfold gw. assert (E := exp_pos (s * u)). assert (L : exp (s * u) < exp (s * v)) by (apply exp_increasing; nra).
  unfold Rdiv. apply Rmult_lt_compat_l; [lra|]. apply Rinv_lt_contravar; nra.
Qed.
(** the right end of the reported width is below half height *)
Lemma right_end b s u : 0 < b -> 0 < s -> is_derive (pk b s) u 0 -> pk b s (u + gw b s u) < pk b s u / 2.
Proof.
  intros Hb Hs H. assert (S0 := stationary b s u Hb Hs H). assert (G := gw_pos b s u Hb). assert (G2 := gw_pos b s (u + gw b s u) Hb).
  assert (L := gw_decr b s u (u + gw b s u) Hb Hs ltac:(lra)). assert (D := pk_den b s u Hb). assert (D2 := pk_den b s (u + gw b s u) Hb). unfold pk in *.
  set (h := gw b s (u + gw b s u)) in *. set (g := gw b s u) in *.
  replace (g / (g^2 + u^2) / 2) with (g / (2 * (g^2 + u^2))) by (field; lra).
  apply Rmult_lt_reg_r with ((h^2 + (u + g)^2) * (2 * (g^2 + u^2))); [nra|].
  replace (h / (h^2 + (u + g)^2) * ((h^2 + (u + g)^2) * (2 * (g^2 + u^2)))) with (h * (2 * (g^2 + u^2))) by (field; lra).
  replace (g / (2 * (g^2 + u^2)) * ((h^2 + (u + g)^2) * (2 * (g^2 + u^2)))) with (g * (h^2 + (u + g)^2)) by (field; lra).
  (* h (2g^2+2u^2) < g (h^2 + (u+g)^2) *)
  assert (A : h * (2 * g^2 + 2 * u^2) < h * (2 * g^2 + 2 * u * g + u^2)) by (apply Rmult_lt_compat_l; nra).
  assert (B : h * (2 * g^2 + 2 * u * g + u^2) < g * (h^2 + (u + g)^2)). { assert (0 < (g - h) * ((u + g)^2 - g * h)) by (apply Rmult_lt_0_compat; nra). nra. }
  lra.
Qed.

(** an interior maximum of the fitted curve is a stationary point *)
Lemma interior_max b s c d u lo hi : 0 < b -> 0 < c -> lo < u < hi -> (forall v, lo <= v <= hi -> c / PI * pk b s v + d <= c / PI * pk b s u + d) -> is_derive (pk b s) u 0.
Proof.
  intros Hb Hc Hu H. assert (P := PI_RGT_0). assert (D := pk_derive b s u Hb). set (l := _ / _) in D. assert (E : l = 0); [|rewrite <- E; exact D].
  assert (K : 0 < c / PI) by (apply Rdiv_lt_0_compat; lra).
  assert (Pr : derivable_pt_lim (pk b s) u l) by (apply is_derive_Reals; exact D).
  set (pr := exist _ l Pr : derivable_pt (pk b s) u).
  assert (M := deriv_maximum (pk b s) lo hi u pr (proj1 Hu) (proj2 Hu)). apply M. intros v H1 H2. specialize (H v ltac:(lra)).
  apply Rmult_le_reg_l with (c / PI); [exact K|lra].
Qed.
Lemma asym_right a b c d s x0 xmin xmax : 0 < b -> 0 < c -> 0 < s -> xmin < x0 < xmax ->
  (forall x, xmin <= x <= xmax -> asymmetric a b c d s x <= asymmetric a b c d s x0) ->
  asymmetric a b c d s (x0 + g_a a b s x0) - d < (asymmetric a b c d s x0 - d) / 2.
Proof.
  intros Hb Hc Hs Hx H. assert (P := PI_RGT_0). assert (K : 0 < c / PI) by (apply Rdiv_lt_0_compat; lra).
  set (u := x0 - a). assert (E0 : x0 = a + u) by (unfold u; ring).
  assert (S0 : is_derive (pk b s) u 0).
  { apply (interior_max b s c d u (xmin - a) (xmax - a) Hb Hc); [unfold u; lra|]. intros v Hv. rewrite <- !(asym_pk a) by exact Hb. rewrite <- E0. apply H. lra. }
  assert (R0 := right_end b s u Hb Hs S0).
  replace (g_a a b s x0) with (gw b s u) by (unfold g_a, gw, u; reflexivity). rewrite E0. replace (a + u + gw b s u) with (a + (u + gw b s u)) by ring. rewrite !asym_pk by exact Hb. nra.
Qed.
Lemma asym_mirror a b c d s x : asymmetric a b c d (- s) (2 * a - x) = asymmetric a b c d s x.
Proof.
  unfold asymmetric, g_a. replace (- s * (2 * a - x - a)) with (s * (x - a)) by ring. set (g := 2 * b / (1 + exp (s * (x - a)))).
  replace (((2 * a - x - a) / g)^2) with (((x - a) / g)^2) by (unfold Rdiv; ring). reflexivity.
Qed.
Lemma ga_mirror a b s x : g_a a b (- s) (2 * a - x) = g_a a b s x.
Proof. unfold g_a. replace (- s * (2 * a - x - a)) with (s * (x - a)) by ring. reflexivity. Qed.
Lemma asym_left a b c d s x0 xmin xmax : 0 < b -> 0 < c -> s < 0 -> xmin < x0 < xmax ->
  (forall x, xmin <= x <= xmax -> asymmetric a b c d s x <= asymmetric a b c d s x0) ->
  asymmetric a b c d s (x0 - g_a a b s x0) - d < (asymmetric a b c d s x0 - d) / 2.
Proof.
  intros Hb Hc Hs Hx H. assert (R0 := asym_right a b c d (- s) (2 * a - x0) (2 * a - xmax) (2 * a - xmin) Hb Hc ltac:(lra) ltac:(lra)).
  rewrite ga_mirror, asym_mirror in R0. replace (2 * a - x0 + g_a a b s x0) with (2 * a - (x0 - g_a a b s x0)) in R0 by ring. rewrite asym_mirror in R0.
  apply R0. intros x Hxx. replace x with (2 * a - (2 * a - x)) by ring. rewrite asym_mirror. apply H. lra.
Qed.
