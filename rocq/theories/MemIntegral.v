(** Mean value of the real part of a quotient of two polynomials over a circle inside which the
    denominator does not vanish (in polar coordinates, over the reals). *)
From Verif Require Export MemSpec MemProofs.
From Coquelicot Require Import Coquelicot.
From Coq Require Import Reals Lra Lia Psatz.
Open Scope R_scope.

(** real and imaginary parts of sum_{i<n} p_i z^i at z = rho e^{i theta}, and of its radial derivative *)
Definition px (p : nat -> R) (n : nat) (rho th : R) : R := sum_from 0 n (fun i => p i * (rho ^ i * cos (INR i * th))).
Definition py (p : nat -> R) (n : nat) (rho th : R) : R := sum_from 0 n (fun i => p i * (rho ^ i * sin (INR i * th))).
Definition qx (p : nat -> R) (n : nat) (rho th : R) : R := sum_from 0 n (fun i => p i * (INR i * rho ^ pred i * cos (INR i * th))).
Definition qy (p : nat -> R) (n : nat) (rho th : R) : R := sum_from 0 n (fun i => p i * (INR i * rho ^ pred i * sin (INR i * th))).

Lemma sum_from_derive (f : nat -> R -> R) (d : nat -> R) t : forall n a, (forall i, is_derive (f i) t (d i)) ->
  is_derive (fun u => sum_from a n (fun i => f i u)) t (sum_from a n d).
Proof.
  induction n as [|n IH]; intros a H; cbn [sum_from].
  - apply (@is_derive_const R_AbsRing R_NormedModule).
  - apply (is_derive_plus (f a) (fun u => sum_from (S a) n (fun i => f i u))); [apply H|apply IH, H].
Qed.
Lemma sum_from_scal_r c f : forall n a, sum_from a n (fun i => c * f i) = c * sum_from a n f.
Proof. induction n as [|n IH]; intros a; cbn [sum_from]; [ring|]. rewrite IH. ring. Qed.
Lemma sum_from_2d (f : nat -> R -> R -> R) x y : forall n a, (forall i, continuity_2d_pt (f i) x y) ->
  continuity_2d_pt (fun u v => sum_from a n (fun i => f i u v)) x y.
Proof.
  induction n as [|n IH]; intros a H; cbn [sum_from]; [apply continuity_2d_pt_const|].
  apply (continuity_2d_pt_plus (f a) (fun u v => sum_from (S a) n (fun i => f i u v))); [apply H|apply IH, H].
Qed.
Lemma px_rho p n rho th : is_derive (fun r => px p n r th) rho (qx p n rho th).
Proof. unfold px, qx. apply sum_from_derive. intros i. auto_derive; [exact I|]. ring. Qed.
Lemma py_rho p n rho th : is_derive (fun r => py p n r th) rho (qy p n rho th).
Proof. unfold py, qy. apply sum_from_derive. intros i. auto_derive; [exact I|]. ring. Qed.
Lemma pow_pred rho i : INR i * rho ^ i = rho * (INR i * rho ^ pred i).
Proof. destruct i as [|i]; [cbn [INR]; ring|]. cbn [pred pow]. ring. Qed.
Lemma px_th p n rho th : is_derive (fun t => px p n rho t) th (- rho * qy p n rho th).
Proof.
  unfold px, qy. rewrite <- sum_from_scal_r. apply sum_from_derive. intros i. auto_derive; [exact I|].
  replace (_ * _) with (- p i * (INR i * rho ^ i) * sin (INR i * th)) by ring. rewrite pow_pred. ring.
Qed.
Lemma py_th p n rho th : is_derive (fun t => py p n rho t) th (rho * qx p n rho th).
Proof.
  unfold py, qx. rewrite <- sum_from_scal_r. apply sum_from_derive. intros i. auto_derive; [exact I|].
  replace (_ * _) with (p i * (INR i * rho ^ i) * cos (INR i * th)) by ring. rewrite pow_pred. ring.
Qed.
Lemma term_2d (c : R) (k : nat) (g : R -> R) (w : R) x y : (forall t, continuity_pt g t) ->
  continuity_2d_pt (fun u v => c * (u ^ k * g (w * v))) x y.
Proof.
  intros Hg. apply continuity_2d_pt_mult; [apply continuity_2d_pt_const|]. apply continuity_2d_pt_mult.
  - apply (continuity_1d_2d_pt_comp (fun u => u ^ k) (fun u v => u)); [|apply continuity_2d_pt_id1].
    apply derivable_continuous_pt. apply derivable_pt_pow.
  - apply (continuity_1d_2d_pt_comp g (fun u v => w * v)); [apply Hg|]. apply continuity_2d_pt_mult; [apply continuity_2d_pt_const|apply continuity_2d_pt_id2].
Qed.
Lemma px_2d p n x y : continuity_2d_pt (px p n) x y.
Proof. unfold px. apply sum_from_2d. intros i. apply term_2d. intros t. apply continuity_cos. Qed.
Lemma py_2d p n x y : continuity_2d_pt (py p n) x y.
Proof. unfold py. apply sum_from_2d. intros i. apply term_2d. intros t. apply continuity_sin. Qed.
Lemma qx_2d p n x y : continuity_2d_pt (qx p n) x y.
Proof.
  unfold qx. apply sum_from_2d. intros i. apply (continuity_2d_pt_ext (fun u v => (p i * INR i) * (u ^ pred i * cos (INR i * v)))); [intros; ring|].
  apply term_2d. intros t. apply continuity_cos.
Qed.
Lemma qy_2d p n x y : continuity_2d_pt (qy p n) x y.
Proof.
  unfold qy. apply sum_from_2d. intros i. apply (continuity_2d_pt_ext (fun u v => (p i * INR i) * (u ^ pred i * sin (INR i * v)))); [intros; ring|].
  apply term_2d. intros t. apply continuity_sin.
Qed.

(** quotient (c + i d) / (a + i b): real part, imaginary part and their derivatives *)
Definition nn (a b : R) := a ^ 2 + b ^ 2.
Definition qre (a b c d : R) := (c * a + d * b) / nn a b.
Definition qim (a b c d : R) := (d * a - c * b) / nn a b.
Definition dre (a b c d a' b' c' d' : R) := ((c' * a + c * a' + d' * b + d * b') * nn a b - (c * a + d * b) * (2 * a * a' + 2 * b * b')) / nn a b ^ 2.
Definition dim_ (a b c d a' b' c' d' : R) := ((d' * a + d * a' - c' * b - c * b') * nn a b - (d * a - c * b) * (2 * a * a' + 2 * b * b')) / nn a b ^ 2.
Lemma is_derive_qre (a b c d : R -> R) t a' b' c' d' : is_derive a t a' -> is_derive b t b' -> is_derive c t c' -> is_derive d t d' -> nn (a t) (b t) <> 0 ->
  is_derive (fun u => qre (a u) (b u) (c u) (d u)) t (dre (a t) (b t) (c t) (d t) a' b' c' d').
Proof.
  intros Ha Hb Hc Hd H. unfold qre, dre, nn in *. auto_derive.
  - repeat split; try (eexists; eassumption). exact H.
  - replace (Derive (fun x => a x) t) with a' by (symmetry; apply is_derive_unique, Ha). replace (Derive (fun x => b x) t) with b' by (symmetry; apply is_derive_unique, Hb). replace (Derive (fun x => c x) t) with c' by (symmetry; apply is_derive_unique, Hc). replace (Derive (fun x => d x) t) with d' by (symmetry; apply is_derive_unique, Hd). field. exact H.
Qed.
Lemma is_derive_qim (a b c d : R -> R) t a' b' c' d' : is_derive a t a' -> is_derive b t b' -> is_derive c t c' -> is_derive d t d' -> nn (a t) (b t) <> 0 ->
  is_derive (fun u => qim (a u) (b u) (c u) (d u)) t (dim_ (a t) (b t) (c t) (d t) a' b' c' d').
Proof.
  intros Ha Hb Hc Hd H. unfold qim, dim_, nn in *. auto_derive.
  - repeat split; try (eexists; eassumption). exact H.
  - replace (Derive (fun x => a x) t) with a' by (symmetry; apply is_derive_unique, Ha). replace (Derive (fun x => b x) t) with b' by (symmetry; apply is_derive_unique, Hb). replace (Derive (fun x => c x) t) with c' by (symmetry; apply is_derive_unique, Hc). replace (Derive (fun x => d x) t) with d' by (symmetry; apply is_derive_unique, Hd). field. exact H.
Qed.
(** polar Cauchy-Riemann equation *)
Lemma cauchy_riemann a b c d a' b' c' d' r : r * dre a b c d a' b' c' d' = dim_ a b c d (- r * b') (r * a') (- r * d') (r * c').
Proof. unfold dre, dim_, Rdiv, nn. ring. Qed.

Section Mean.
Context (p q : nat -> R) (n : nat).
Notation A := (fun r t => nn (px p n r t) (py p n r t)).
Notation G := (fun r t => qre (px p n r t) (py p n r t) (px q n r t) (py q n r t)).
Notation H := (fun r t => qim (px p n r t) (py p n r t) (px q n r t) (py q n r t)).
Notation dG := (fun r t => dre (px p n r t) (py p n r t) (px q n r t) (py q n r t) (qx p n r t) (qy p n r t) (qx q n r t) (qy q n r t)).
Lemma G_rho r t : A r t <> 0 -> is_derive (fun u => G u t) r (dG r t).
Proof. intros N. apply (is_derive_qre (fun u => px p n u t) (fun u => py p n u t) (fun u => px q n u t) (fun u => py q n u t)); auto using px_rho, py_rho. Qed.
Lemma H_th r t : A r t <> 0 -> is_derive (fun u => H r u) t (r * dG r t).
Proof. intros N. cbv beta. rewrite cauchy_riemann. apply (is_derive_qim (fun u => px p n r u) (fun u => py p n r u) (fun u => px q n r u) (fun u => py q n r u)); auto using px_th, py_th. Qed.
Lemma nn_2d x y : continuity_2d_pt A x y.
Proof.
  unfold nn. apply (continuity_2d_pt_ext (fun u v => px p n u v * px p n u v + py p n u v * py p n u v)); [intros; ring|].
  apply continuity_2d_pt_plus; apply continuity_2d_pt_mult; auto using px_2d, py_2d.
Qed.
Lemma G_2d x y : A x y <> 0 -> continuity_2d_pt G x y.
Proof.
  intros N. unfold qre. apply continuity_2d_pt_mult; [|apply (continuity_2d_pt_inv A); [apply nn_2d|exact N]].
  apply continuity_2d_pt_plus; apply continuity_2d_pt_mult; auto using px_2d, py_2d.
Qed.
Lemma dG_2d x y : A x y <> 0 -> continuity_2d_pt dG x y.
Proof.
  intros N. unfold dre. apply continuity_2d_pt_mult.
  - repeat first [apply continuity_2d_pt_minus | apply continuity_2d_pt_plus | apply continuity_2d_pt_mult | apply px_2d | apply py_2d | apply qx_2d | apply qy_2d | apply nn_2d | apply continuity_2d_pt_const].
  - apply (continuity_2d_pt_inv (fun u v => A u v ^ 2)); [|apply pow_nonzero; exact N].
    apply (continuity_2d_pt_ext (fun u v => A u v * A u v)); [intros; cbv beta; ring|]. apply continuity_2d_pt_mult; apply nn_2d.
Qed.
Lemma section_2d (f : R -> R -> R) x y : continuity_2d_pt f x y -> continuous (f x) y.
Proof.
  intros C. apply continuity_pt_filterlim. apply continuity_pt_locally. intros eps. destruct (C eps) as [d Hd]. exists d. intros u Hu. apply Hd; [|exact Hu].
  rewrite Rminus_eq_0, Rabs_R0. apply cond_pos.
Qed.
Definition good (r : R) : Prop := forall t, A r t <> 0.
Lemma G_int r : good r -> ex_RInt (G r) 0 (2 * PI).
Proof. intros Hr. apply (@ex_RInt_continuous R_CompleteNormedModule). intros t _. apply (section_2d G r t). apply G_2d, Hr. Qed.
Lemma H_periodic r : H r (2 * PI) = H r 0.
Proof.
  assert (E : forall p', px p' n r (2 * PI) = px p' n r 0 /\ py p' n r (2 * PI) = py p' n r 0).
  { intros p'. unfold px, py. split; apply sum_from_ext; intros j _; replace (INR j * (2 * PI)) with (0 + 2 * INR j * PI) by ring; rewrite ?cos_period, ?sin_period; replace (INR j * 0) with 0 by ring; reflexivity. }
  destruct (E p) as [E1 E2], (E q) as [E3 E4]. rewrite E1, E2, E3, E4. reflexivity.
Qed.
Lemma I_derive r : locally r good -> is_derive (fun u => RInt (G u) 0 (2 * PI)) r (RInt (dG r) 0 (2 * PI)).
Proof.
  intros L. assert (Lr : good r) by (apply (locally_singleton r good L)).
  assert (D := is_derive_RInt_param G 0 (2 * PI) r). cbv beta in D.
  rewrite (RInt_ext (fun t => Derive (fun u => G u t) r) (dG r)) in D.
  2:{ intros t _. apply is_derive_unique, G_rho, Lr. }
  apply D; clear D.
  - eapply filter_imp; [|exact L]. intros u Hu t _. eexists. apply G_rho, Hu.
  - intros t _. destruct L as [d Hd].
    apply (continuity_2d_pt_ext_loc dG); [|apply dG_2d, Lr].
    exists d. intros u v Hu _. symmetry. apply is_derive_unique. apply G_rho. apply Hd. exact Hu.
  - eapply filter_imp; [|exact L]. intros u Hu. apply G_int, Hu.
Qed.
Lemma I_zero r : r <> 0 -> good r -> RInt (dG r) 0 (2 * PI) = 0.
Proof.
  intros r0 Hr. assert (I : is_RInt (fun t => r * dG r t) 0 (2 * PI) (minus (H r (2 * PI)) (H r 0))).
  { apply (is_RInt_derive (H r)).
    - intros t _. apply H_th, Hr.
    - intros t _. apply (continuous_mult (fun _ => r) (dG r)); [apply continuous_const|]. apply (section_2d dG r t), dG_2d, Hr. }
  pose proof (H_periodic r) as Hp. cbv beta in I, Hp. rewrite Hp in I. rewrite minus_eq_zero in I.
  assert (X : ex_RInt (dG r) 0 (2 * PI)).
  { apply (@ex_RInt_continuous R_CompleteNormedModule). intros t _. apply (section_2d dG r t), dG_2d, Hr. }
  destruct X as [v Hv]. rewrite (is_RInt_unique _ _ _ _ Hv). apply (is_RInt_scal _ _ _ r) in Hv. pose proof (is_RInt_unique _ _ _ _ Hv) as U. pose proof (is_RInt_unique _ _ _ _ I) as U'.
  unfold scal in U; cbn in U; unfold mult in U; cbn in U. unfold zero in U'; cbn in U'. rewrite U in U'. nra.
Qed.
Lemma mean_value : (1 <= n)%nat -> (forall r, 0 <= r <= 1 -> locally r good) -> is_RInt (G 1) 0 (2 * PI) (2 * PI * (q 0%nat / p 0%nat)).
Proof.
  intros Hn L.
  assert (E0 : forall p' t, px p' n 0 t = p' 0%nat /\ py p' n 0 t = 0).
  { intros p' t. unfold px, py. destruct n as [|m]; [lia|]. cbn [sum_from pow INR].
    rewrite (sum_from_ext (fun i => p' i * (0 ^ i * cos (INR i * t))) (fun _ => 0 * 0)).
    2:{ intros j Hj. rewrite pow_i by lia. ring. }
    rewrite (sum_from_ext (fun i => p' i * (0 ^ i * sin (INR i * t))) (fun _ => 0 * 0)).
    2:{ intros j Hj. rewrite pow_i by lia. ring. }
    rewrite sum_from_scal_r. replace (0 * t) with 0 by ring. rewrite cos_0, sin_0. split; ring. }
  assert (p0 : p 0%nat <> 0).
  { intros Z. apply (locally_singleton 0 good (L 0 ltac:(lra)) 0). destruct (E0 p 0) as [-> ->]. unfold nn. rewrite Z. ring. }
  destruct (MVT_gen (fun u => RInt (G u) 0 (2 * PI)) 0 1 (fun _ => 0)) as [c [_ E]].
  - intros r Hr. rewrite Rmin_left, Rmax_right in Hr by lra. assert (D := I_derive r (L r ltac:(lra))). assert (Z := I_zero r ltac:(lra) (locally_singleton r good (L r ltac:(lra)))). cbv beta in D, Z. rewrite Z in D. exact D.
  - intros r Hr. rewrite Rmin_left, Rmax_right in Hr by lra. apply continuity_pt_filterlim. apply (ex_derive_continuous (fun u => RInt (G u) 0 (2 * PI))). eexists. apply I_derive, L, Hr.
  - replace (2 * PI * (q 0%nat / p 0%nat)) with (RInt (G 1) 0 (2 * PI)).
    + apply (RInt_correct (V := R_CompleteNormedModule)). apply G_int. apply (locally_singleton 1 good (L 1 ltac:(lra))).
    + assert (E1 : RInt (G 1) 0 (2 * PI) = RInt (G 0) 0 (2 * PI)) by lra. rewrite E1.
      rewrite (RInt_ext (G 0) (fun _ => q 0%nat / p 0%nat)).
      * rewrite RInt_const. unfold scal; cbn; unfold mult; cbn. ring.
      * intros t _. cbv beta. destruct (E0 p t) as [-> ->], (E0 q t) as [-> ->]. unfold qre, nn. match goal with |- ?a = ?b => change (@eq R a b) end. field. exact p0.
Qed.
End Mean.
