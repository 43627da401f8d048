From Verif Require Import ThermalModel ThermalSpec.
From Coquelicot Require Import Coquelicot.
From Coq Require Import Reals Lra Lia Psatz List.
Open Scope R_scope.

Lemma k_pos : 0 < k_b. Proof. unfold k_b. lra. Qed.
Lemma h_pos : 0 < h_bar. Proof. unfold h_bar. lra. Qed.
Lemma Na_pos : 0 < N_a. Proof. unfold N_a. lra. Qed.
Lemma exp_gt1 x : 0 < x -> 1 < exp x. Proof. intros H. rewrite <- exp_0. apply exp_increasing. exact H. Qed.

Section T.
Context (t f : R) (Ht : 0 < t) (Hf : 0 < f).
Let x := h_bar * f / (2 * k_b * t).
Lemma x_pos : 0 < x.
Proof. unfold x. assert (H := k_pos). assert (H' := h_pos). apply Rdiv_lt_0_compat; [apply Rmult_lt_0_compat; assumption|]. apply Rmult_lt_0_compat; [lra|assumption]. Qed.
Lemma two_x : f * h_bar / (k_b * t) = x + x.
Proof. unfold x. assert (H := k_pos). field. lra. Qed.
Lemma n_form : n t f = / (exp x * exp x - 1).
Proof. unfold n. rewrite two_x, exp_plus. reflexivity. Qed.
Let y := exp x.
Lemma y_gt : 1 < y. Proof. apply exp_gt1, x_pos. Qed.
Lemma yy_gt : 1 < y * y. Proof. assert (H := y_gt). nra. Qed.
Lemma sinh_form : 2 * sinh x = (y * y - 1) / y.
Proof. unfold sinh. rewrite exp_Ropp. fold y. assert (H := y_gt). field. lra. Qed.
Lemma coth_form : coth x = (y * y + 1) / (y * y - 1).
Proof. unfold coth, cosh, sinh. rewrite exp_Ropp. fold y. assert (H := y_gt). assert (H' := yy_gt). field. nra. Qed.
Lemma ln_sinh : ln (2 * sinh x) = ln (y * y - 1) - x.
Proof. rewrite sinh_form. assert (H := y_gt). assert (H' := yy_gt). rewrite ln_div by lra. unfold y. rewrite ln_exp. reflexivity. Qed.
Lemma free_def : free_term t f = k_b * t * ln (2 * sinh x).
Proof. unfold free_term. destruct (Rlt_dec 0 f); [reflexivity|lra]. Qed.
Lemma ent_def : entropy_term t f = 1 / (2 * t) * h_bar * f * coth x - k_b * ln (2 * sinh x).
Proof. unfold entropy_term. destruct (Rlt_dec 0 f); [reflexivity|lra]. Qed.
Lemma energy_def : energy_term t f = h_bar * f * (1/2 + n t f).
Proof. unfold energy_term. destruct (Req_EM_T f 0); [lra|reflexivity]. Qed.
Lemma hf : h_bar * f = 2 * k_b * t * x.
Proof. unfold x. assert (H := k_pos). field. split; lra. Qed.
Lemma F_E_TS : free_term t f = energy_term t f - t * entropy_term t f.
Proof.
  rewrite free_def, ent_def, energy_def, n_form. fold y. assert (H := k_pos). replace (1 / (2 * t) * h_bar * f) with (k_b * x) by (rewrite (Rmult_assoc _ h_bar f), hf; field; lra). rewrite coth_form, hf. assert (H' := yy_gt). field. lra.
Qed.
Lemma entropies : entropy2_term t f = entropy_term t f.
Proof.
  rewrite ent_def. unfold entropy2_term. destruct (Rlt_dec 0 f); [|lra]. rewrite n_form. fold y. assert (H' := yy_gt). assert (Hy := y_gt).
  replace (/ (y * y - 1) + 1) with (y * y / (y * y - 1)) by (field; lra). rewrite ln_div by nra. rewrite ln_Rinv by lra. rewrite ln_mult by lra. assert (Ly : ln y = x) by (unfold y; apply ln_exp). rewrite Ly, ln_sinh, coth_form.
  replace (1 / (2 * t) * h_bar * f) with (k_b * x) by (rewrite (Rmult_assoc _ h_bar f), hf; field; lra). field. lra.
Qed.
Lemma entropy_pos : 0 < entropy_term t f.
Proof.
  rewrite ent_def, coth_form, ln_sinh. assert (H := k_pos). assert (H' := yy_gt). assert (Hx := x_pos).
  replace (1 / (2 * t) * h_bar * f) with (k_b * x) by (rewrite (Rmult_assoc _ h_bar f), hf; field; lra).
  assert (L : ln (y * y - 1) < x + x). { apply Rlt_le_trans with (ln (y * y)); [apply ln_increasing; lra|]. assert (Hy := y_gt). rewrite ln_mult by lra. unfold y. rewrite ln_exp. lra. }
  assert (C : 1 < (y * y + 1) / (y * y - 1)). { apply Rmult_lt_reg_r with (y * y - 1); [lra|]. unfold Rdiv. rewrite Rmult_assoc, Rinv_l by lra. lra. }
  set (q := (y * y + 1) / (y * y - 1)) in *. assert (0 < x * q - (ln (y * y - 1) - x)) by nra. nra.
Qed.
Lemma cv_pos : 0 < cv_term t f.
Proof.
  unfold cv_term. destruct (Req_EM_T f 0); [lra|]. assert (E : z t f = x + x) by (rewrite <- two_x; unfold z; f_equal; ring). rewrite E, exp_plus. fold y. assert (H := k_pos). assert (H' := yy_gt). assert (Hx := x_pos).
  apply Rdiv_lt_0_compat; [|apply pow2_gt_0; lra]. apply Rmult_lt_0_compat; [|lra]. apply Rmult_lt_0_compat; [assumption|]. apply pow2_gt_0. lra.
Qed.
Lemma energy_pos : 0 < energy_term t f.
Proof. rewrite energy_def, n_form. fold y. assert (H' := yy_gt). assert (H := h_pos). assert (0 < / (y * y - 1)) by (apply Rinv_0_lt_compat; lra). repeat apply Rmult_lt_0_compat; lra. Qed.
End T.

Lemma dE_dT t f : 0 < t -> 0 < f -> is_derive (fun t => energy_term t f) t (cv_term t f).
Proof.
  intros Ht Hf. assert (H := k_pos). assert (H1 := h_pos). assert (E0 : f <> 0) by lra. unfold energy_term, cv_term. destruct (Req_EM_T f 0) as [|Nf]; [lra|]. unfold n.
  assert (G : 1 < exp (f * h_bar / (k_b * t))). { apply exp_gt1. apply Rdiv_lt_0_compat; nra. }
  auto_derive.
  - split; [nra|]. split; [|trivial]. change (exp (f * h_bar / (k_b * t)) + - (1) <> 0). lra.
  - fold (Rdiv (f * h_bar) (k_b * t)). unfold z. replace (h_bar * f / (k_b * t)) with (f * h_bar / (k_b * t)) by (field; split; lra). set (w := f * h_bar / (k_b * t)) in *.
    assert (W : f * h_bar = w * (k_b * t)) by (unfold w; field; split; lra).
    assert (HB : h_bar = w * k_b * t / f) by (rewrite <- Rmult_assoc in W; rewrite <- W; field; lra).
    clearbody w. rewrite HB. field. repeat split; try lra.
Qed.
Lemma dF_dT t f : 0 < t -> 0 < f -> is_derive (fun t => free_term t f) t (- entropy_term t f).
Proof.
  intros Ht Hf. assert (H := k_pos). assert (H1 := h_pos). unfold free_term, entropy_term. destruct (Rlt_dec 0 f); [|lra].
  assert (X := x_pos t f Ht Hf). assert (S : 0 < sinh (h_bar * f / (2 * k_b * t))) by (rewrite <- sinh_0; apply sinh_lt; exact X).
  apply (is_derive_ext (fun t => k_b * t * ln (exp (h_bar * f / (2 * k_b * t)) - exp (- (h_bar * f / (2 * k_b * t)))))).
  { intros s. unfold sinh. f_equal. f_equal. field. }
  assert (S2 : exp (h_bar * f / (2 * k_b * t)) - exp (- (h_bar * f / (2 * k_b * t))) = 2 * sinh (h_bar * f / (2 * k_b * t))) by (unfold sinh; field).
  auto_derive.
  - split; [nra|]. split; [nra|]. split; [|trivial]. change (0 < exp (h_bar * f / (2 * k_b * t)) - exp (- (h_bar * f / (2 * k_b * t)))). rewrite S2. lra.
  - fold (Rdiv (h_bar * f) (2 * k_b * t)). fold (Rminus (exp (h_bar * f / (2 * k_b * t))) (exp (- (h_bar * f / (2 * k_b * t))))). rewrite S2. unfold coth.
    replace (cosh (h_bar * f / (2 * k_b * t))) with ((exp (h_bar * f / (2 * k_b * t)) + exp (- (h_bar * f / (2 * k_b * t)))) / 2) by reflexivity.
    set (A := exp (h_bar * f / (2 * k_b * t))). set (B := exp (- (h_bar * f / (2 * k_b * t)))). set (SS := sinh (h_bar * f / (2 * k_b * t))) in *. field. repeat split; lra.
Qed.

(** sums *)
Ltac toR := match goal with |- @eq _ ?a ?b => change (@eq R a b) end.
Section G.
Context (weights : list R -> list R).
Notation simps := (simps weights).
Lemma simps_lin (u v w : list R) (a : R) (xs : list R) : length u = length v -> length w = length v ->
  (forall i, (i < length v)%nat -> nth i w 0 = nth i u 0 + a * nth i v 0) -> simps w xs = simps u xs + a * simps v xs.
Proof.
  unfold ThermalModel.simps. generalize (weights xs) as ws. intros ws Hu Hw H. revert u v w Hu Hw H. induction ws as [|q ws IH]; intros u v w Hu Hw H; [cbn; ring|].
  destruct v as [|v0 v], u as [|u0 u], w as [|w0 w]; cbn in Hu, Hw; try discriminate; [cbn; ring|]. cbn [combine map fold_right fst snd].
  rewrite (IH u v w) by (try lia; intros i Hi; apply (H (S i)); cbn; lia). assert (H0 := H 0%nat ltac:(cbn; lia)). cbn in H0. rewrite H0. ring.
Qed.
Lemma sample_len g fr ds : length fr = length ds -> length (sample g fr ds) = length fr.
Proof. intros H. unfold sample. rewrite map_length, combine_length. lia. Qed.
Lemma sample_nth g fr ds i : length fr = length ds -> (i < length fr)%nat -> nth i (sample g fr ds) 0 = nth i ds 0 * g (nth i fr 0).
Proof.
  intros H Hi. unfold sample. rewrite (nth_indep _ 0 ((fun p => snd p * g (fst p)) (0, 0))) by (rewrite map_length, combine_length; lia).
  rewrite (map_nth (fun p : R * R => snd p * g (fst p))), combine_nth by exact H. reflexivity.
Qed.
Lemma zf_len y : length (zero_first y) = length y. Proof. destruct y; reflexivity. Qed.
Lemma zf_nth y i : nth i (zero_first y) 0 = match i with O => 0 | S _ => nth i y 0 end.
Proof. destruct y, i; reflexivity. Qed.
Lemma grid_nth fr ds i : good_grid fr ds -> (i < length fr)%nat -> (i <> 0)%nat -> 0 < nth i fr 0.
Proof. intros [_ [_ H]] Hi Hn. destruct fr as [|a fr]; [cbn in Hi; lia|]. destruct i as [|i]; [lia|]. cbn. cbn in H, Hi. rewrite Forall_forall in H. apply H. apply nth_In. lia. Qed.
Lemma hd_nth (l : list R) : hd 0 l = nth 0 l 0. Proof. destruct l; reflexivity. Qed.
Lemma identity_grid t fr ds : 0 < t -> good_grid fr ds -> first_silent fr ds ->
  get_free_energy weights t fr ds = get_total_energy weights t fr ds - t * get_entropy weights t fr ds / 1000.
Proof.
  intros Ht G Sil. assert (G' := G). destruct G' as [L [Z _]]. unfold get_free_energy, get_total_energy, get_entropy.
  rewrite (simps_lin (sample (energy_term t) fr ds) (sample (entropy_term t) fr ds) (zero_first (sample (free_term t) fr ds)) (- t)).
  - field.
  - rewrite !sample_len by exact L. reflexivity.
  - rewrite zf_len, !sample_len by exact L. reflexivity.
  - intros i Hi. rewrite sample_len in Hi by exact L. rewrite zf_nth, !sample_nth by assumption. destruct i as [|i].
    + rewrite <- !hd_nth. destruct Sil as [Sil|Sil].
      * rewrite Sil. unfold energy_term, entropy_term. destruct (Req_EM_T 0 0) as [_|N]; [|exfalso; apply N; reflexivity]. destruct (Rlt_dec 0 0); [lra|]. ring.
      * rewrite Sil. ring.
    + rewrite (F_E_TS t (nth (S i) fr 0) Ht); [ring|]. apply (grid_nth fr ds); [exact G|exact Hi|lia].
Qed.
(** the size of the gap when the first sample is not silent *)
Lemma identity_gap t f d fr ds q ws : 0 < t -> 0 < f -> good_grid (f :: fr) (d :: ds) -> weights (f :: fr) = q :: ws ->
  get_total_energy weights t (f :: fr) (d :: ds) - t * get_entropy weights t (f :: fr) (d :: ds) / 1000 - get_free_energy weights t (f :: fr) (d :: ds) = q * d * (k_b * t * ln (2 * sinh (h_bar * f / (2 * k_b * t)))) * N_a / 1000.
Proof.
  intros Ht Hf G W. assert (E : get_free_energy weights t (0 :: fr) (d :: ds) = get_free_energy weights t (0 :: fr) (d :: ds)) by reflexivity. clear E.
  rewrite <- (free_def t f Hf).
  assert (K : simps (sample (free_term t) (f :: fr) (d :: ds)) (f :: fr) = simps (sample (energy_term t) (f :: fr) (d :: ds)) (f :: fr) + - t * simps (sample (entropy_term t) (f :: fr) (d :: ds)) (f :: fr)).
  { destruct G as [L [_ A]]. apply simps_lin; rewrite ?sample_len by exact L; try reflexivity. intros i Hi. rewrite !sample_nth by assumption. rewrite (F_E_TS t (nth i (f :: fr) 0) Ht); [ring|].
    destruct i as [|i]; [exact Hf|]. cbn. cbn in A, Hi. rewrite Forall_forall in A. apply A. apply nth_In. lia. }
  unfold get_total_energy, get_entropy, get_free_energy.
  replace (simps (zero_first (sample (free_term t) (f :: fr) (d :: ds))) (f :: fr)) with (simps (sample (free_term t) (f :: fr) (d :: ds)) (f :: fr) - q * (d * free_term t f)).
  - rewrite K. field.
  - unfold ThermalModel.simps. rewrite W. cbn. ring.
Qed.
Lemma simps_nonneg u xs : all_nonneg (weights xs) -> all_nonneg u -> 0 <= simps u xs.
Proof.
  unfold ThermalModel.simps, all_nonneg. generalize (weights xs). intros ws Hw. revert u. induction Hw as [|q ws Hq Hw IH]; intros u Hu; [cbn; lra|]. destruct Hu as [|a u Ha Hu]; cbn; [lra|].
  assert (0 <= q * a) by (apply Rmult_le_pos; assumption). assert (I := IH u Hu). lra.
Qed.
Lemma sample_nonneg g fr ds : all_nonneg ds -> (forall f, In f fr -> 0 <= g f) -> all_nonneg (sample g fr ds).
Proof.
  intros Hd Hg. unfold all_nonneg, sample. rewrite Forall_map, Forall_forall. intros [a b] H. cbn. apply Rmult_le_pos.
  - apply in_combine_r in H. unfold all_nonneg in Hd. rewrite Forall_forall in Hd. apply Hd. exact H.
  - apply Hg. apply in_combine_l in H. exact H.
Qed.
Lemma grid_in fr ds f : good_grid fr ds -> In f fr -> f = 0 \/ 0 < f.
Proof. intros [_ [H H']] I. destruct fr as [|a fr]; [destruct I|]. cbn in H, H'. destruct I as [<-|I]; [lra|]. rewrite Forall_forall in H'. right. apply H'. exact I. Qed.
Lemma signs t fr ds : 0 < t -> good_grid fr ds -> all_nonneg ds -> all_nonneg (weights fr) ->
  0 <= get_entropy weights t fr ds /\ 0 <= get_cv weights t fr ds /\ 0 <= get_total_energy weights t fr ds.
Proof.
  intros Ht G D W. assert (N := Na_pos). split; [|split].
  - unfold get_entropy. apply Rmult_le_pos; [|lra]. apply simps_nonneg; [exact W|]. apply sample_nonneg; [exact D|]. intros f I. destruct (grid_in _ _ _ G I) as [->|P].
    + unfold entropy_term. destruct (Rlt_dec 0 0); lra.
    + apply Rlt_le, entropy_pos; assumption.
  - unfold get_cv. apply Rmult_le_pos; [|lra]. apply simps_nonneg; [exact W|]. apply sample_nonneg; [exact D|]. intros f I. destruct (grid_in _ _ _ G I) as [->|P].
    + unfold cv_term. destruct (Req_EM_T 0 0) as [_|n0]; [lra|exfalso; apply n0; reflexivity].
    + apply Rlt_le, cv_pos; assumption.
  - unfold get_total_energy. apply Rmult_le_pos; [|lra]. apply Rmult_le_pos; [|lra]. apply simps_nonneg; [exact W|]. apply sample_nonneg; [exact D|]. intros f I. destruct (grid_in _ _ _ G I) as [->|P].
    + unfold energy_term. destruct (Req_EM_T 0 0) as [_|n0]; [lra|exfalso; apply n0; reflexivity].
    + apply Rlt_le, energy_pos; assumption.
Qed.
Lemma entropy_agree t fr ds : 0 < t -> good_grid fr ds -> get_entropy2 weights t fr ds = get_entropy weights t fr ds.
Proof.
  intros Ht G. unfold get_entropy2, get_entropy. f_equal. f_equal. unfold sample. apply map_ext_in. intros [a b] I. cbn. f_equal. apply in_combine_l in I. destruct (grid_in _ _ _ G I) as [->|P].
  - unfold entropy2_term, entropy_term. destruct (Rlt_dec 0 0); [lra|reflexivity].
  - apply entropies; assumption.
Qed.
(** derivatives *)
Definition dotp (ws ys : list R) : R := fold_right Rplus 0 (map (fun p => fst p * snd p) (combine ws ys)).
Lemma dotp_derive (term : R -> R -> R) (term' : R -> R) (t : R) : forall fr ds, (forall i, (i < length fr)%nat -> is_derive (fun s => term s (nth i fr 0)) t (term' (nth i fr 0))) -> length fr = length ds -> forall ws,
    is_derive (fun s => dotp ws (sample (term s) fr ds)) t (dotp ws (sample term' fr ds)).
Proof.
  induction fr as [|a fr IH]; intros ds H L ws; destruct ds as [|b ds]; try discriminate; destruct ws as [|q ws]; try (cbn; apply (is_derive_const (K := R_AbsRing) (V := R_NormedModule))).
  change (is_derive (fun s => q * (b * term s a) + dotp ws (sample (term s) fr ds)) t (q * (b * term' a) + dotp ws (sample term' fr ds))). apply (is_derive_plus (K := R_AbsRing) (V := R_NormedModule)).
    - apply (is_derive_scal (fun s => b * term s a)). apply (is_derive_scal (fun s => term s a)). exact (H 0%nat ltac:(cbn; lia)).
    - apply IH; [|cbn in L; lia]. intros i Hi. exact (H (S i) ltac:(cbn; lia)).
Qed.
Lemma zf_cons g a fr b ds : zero_first (sample g (a :: fr) (b :: ds)) = 0 :: sample g fr ds.
Proof. reflexivity. Qed.
Lemma dE_grid t fr ds : 0 < t -> good_grid fr ds -> is_derive (fun s => get_total_energy weights s fr ds) t (get_cv weights t fr ds / 1000).
Proof.
  intros Ht G. unfold get_total_energy, get_cv. assert (L : length fr = length ds) by apply G.
  apply (is_derive_ext (fun s => N_a / 1000 * dotp (weights fr) (sample (energy_term s) fr ds))); [intros s; toR; unfold ThermalModel.simps, dotp; field|].
  replace (ThermalModel.simps weights (sample (cv_term t) fr ds) fr * N_a / 1000) with (N_a / 1000 * dotp (weights fr) (sample (cv_term t) fr ds)) by (unfold ThermalModel.simps, dotp; field).
  apply (is_derive_scal (fun s => dotp (weights fr) (sample (energy_term s) fr ds))). apply (dotp_derive energy_term (cv_term t)); [|exact L]. intros i Hi.
  destruct (grid_in fr ds (nth i fr 0) G (nth_In fr 0 Hi)) as [E|P]; [|apply dE_dT; assumption].
  rewrite E. unfold cv_term. destruct (Req_EM_T 0 0) as [_|N0]; [|exfalso; apply N0; reflexivity]. apply (is_derive_ext (fun _ => 0)); [intros s; unfold energy_term; destruct (Req_EM_T 0 0) as [_|N0]; [reflexivity|exfalso; apply N0; reflexivity]|]. apply (is_derive_const (K := R_AbsRing) (V := R_NormedModule)).
Qed.
Lemma dF_grid t fr ds : 0 < t -> good_grid fr ds -> first_silent fr ds -> is_derive (fun s => get_free_energy weights s fr ds) t (- get_entropy weights t fr ds / 1000).
Proof.
  intros Ht G Sil. unfold get_free_energy, get_entropy. assert (L : length fr = length ds) by apply G.
  apply (is_derive_ext (fun s => N_a / 1000 * dotp (weights fr) (zero_first (sample (free_term s) fr ds)))); [intros s; toR; unfold ThermalModel.simps, dotp; field|].
  replace (- (ThermalModel.simps weights (sample (entropy_term t) fr ds) fr * N_a) / 1000) with (N_a / 1000 * - dotp (weights fr) (sample (entropy_term t) fr ds)) by (unfold ThermalModel.simps, dotp; field).
  apply (is_derive_scal (fun s => dotp (weights fr) (zero_first (sample (free_term s) fr ds)))). generalize (weights fr). intros ws.
  destruct fr as [|a fr], ds as [|b ds]; try discriminate.
  { cbn. replace (- dotp ws nil) with 0; [apply (is_derive_const (K := R_AbsRing) (V := R_NormedModule))|]. destruct ws; cbn; ring. }
  destruct ws as [|q ws]. { cbn. rewrite Ropp_0. apply (is_derive_const (K := R_AbsRing) (V := R_NormedModule)). }
  assert (Z : b * entropy_term t a = 0). { destruct Sil as [E|E]; cbn in E; rewrite E; [|ring]. unfold entropy_term. destruct (Rlt_dec 0 0); [lra|ring]. }
  apply (is_derive_ext (fun s => dotp ws (sample (free_term s) fr ds))); [intros s; toR; rewrite zf_cons; change (dotp ws (sample (free_term s) fr ds) = q * 0 + dotp ws (sample (free_term s) fr ds)); ring|].
  assert (D : dotp (q :: ws) (sample (entropy_term t) (a :: fr) (b :: ds)) = dotp ws (sample (entropy_term t) fr ds)) by (change (q * (b * entropy_term t a) + dotp ws (sample (entropy_term t) fr ds) = dotp ws (sample (entropy_term t) fr ds)); rewrite Z; ring).
  rewrite D. assert (N : - dotp ws (sample (entropy_term t) fr ds) = dotp ws (sample (fun f => - entropy_term t f) fr ds)).
  { clear. revert ds ws. induction fr as [|a fr IH]; intros [|b ds] [|q ws]; try (cbn; ring). change (- (q * (b * entropy_term t a) + dotp ws (sample (entropy_term t) fr ds)) = q * (b * - entropy_term t a) + dotp ws (sample (fun f => - entropy_term t f) fr ds)). rewrite <- IH. ring. }
  rewrite N. apply dotp_derive; [|cbn in L; lia]. intros i Hi. apply dF_dT; [exact Ht|]. destruct G as [_ [_ A]]. cbn in A. rewrite Forall_forall in A. apply A. apply nth_In. exact Hi.
Qed.
(** corrections *)
Lemma sub_self u : subtract u u = map (fun _ => 0) u.
Proof. unfold subtract. induction u as [|a u IH]; [reflexivity|]. cbn. rewrite IH. f_equal. ring. Qed.
Lemma dotp0 ws (u : list R) : dotp ws (map (fun _ => 0) u) = 0.
Proof. revert u. induction ws as [|q ws IH]; intros [|a u]; try reflexivity. change (q * 0 + dotp ws (map (fun _ => 0) u) = 0). rewrite IH. ring. Qed.
Lemma corr_same t fr ds : get_free_energy_correction_dos weights t fr ds ds = 0.
Proof. unfold get_free_energy_correction_dos. rewrite sub_self. change (dotp (weights fr) (map (fun _ => 0) (sample (corr_term t) fr ds)) * N_a / 1000 = 0). rewrite dotp0. field. Qed.
Lemma corr_shift0 t fr ds : get_free_energy_correction_shift weights t fr ds 0 = 0.
Proof.
  unfold get_free_energy_correction_shift. replace (sample (fun freq => - h_bar / 2 * 0 * (n t freq + 1 / 2)) fr ds) with (map (fun _ : R * R => 0) (combine fr ds)).
  - change (dotp (weights fr) (map (fun _ => 0) (combine fr ds)) * N_a / 1000 = 0).
    assert (E : forall ws (u : list (R * R)), dotp ws (map (fun _ => 0) u) = 0). { induction ws as [|q ws IH]; intros [|a u]; try reflexivity. change (q * 0 + dotp ws (map (fun _ => 0) u) = 0). rewrite IH. ring. }
    rewrite E. field.
  - unfold sample. apply map_ext. intros p. ring.
Qed.
Lemma corr_energy t fr ds dr : length fr = length ds -> length fr = length dr -> get_free_energy_correction_dos weights t fr ds dr = - (1/2) * (get_total_energy weights t fr dr - get_total_energy weights t fr ds).
Proof.
  intros L L'. unfold get_free_energy_correction_dos, get_total_energy.
  assert (C : forall f, corr_term t f = - (1/2) * energy_term t f). { intros f. unfold corr_term, energy_term. destruct (Req_EM_T f 0); field. }
  assert (E : dotp (weights fr) (subtract (sample (corr_term t) fr dr) (sample (corr_term t) fr ds)) = - (1/2) * (dotp (weights fr) (sample (energy_term t) fr dr) - dotp (weights fr) (sample (energy_term t) fr ds))).
  { generalize (weights fr). revert ds dr L L'. induction fr as [|a fr IH]; intros [|b ds] [|e dr] L L' [|q ws]; try discriminate; try (unfold dotp; cbn; field).
    cbn in L, L'. change (q * (e * corr_term t a - b * corr_term t a) + dotp ws (subtract (sample (corr_term t) fr dr) (sample (corr_term t) fr ds)) = - (1/2) * ((q * (e * energy_term t a) + dotp ws (sample (energy_term t) fr dr)) - (q * (b * energy_term t a) + dotp ws (sample (energy_term t) fr ds)))).
    rewrite IH by lia. rewrite C. field. }
  change (dotp (weights fr) (subtract (sample (corr_term t) fr dr) (sample (corr_term t) fr ds)) * N_a / 1000 = - (1 / 2) * (dotp (weights fr) (sample (energy_term t) fr dr) * N_a / 1000 - dotp (weights fr) (sample (energy_term t) fr ds) * N_a / 1000)). rewrite E. field.
Qed.
(** energies are linear in the dos *)
Lemma energy_scale t fr ds (c : R) : get_total_energy weights t fr (map (fun x => x / c) ds) = get_total_energy weights t fr ds / c.
Proof.
  unfold get_total_energy. assert (E : dotp (weights fr) (sample (energy_term t) fr (map (fun x => x / c) ds)) = dotp (weights fr) (sample (energy_term t) fr ds) / c).
  { generalize (weights fr). revert ds. induction fr as [|a fr IH]; intros [|b ds] [|q ws]; try (unfold dotp; cbn; unfold Rdiv; ring).
    change (q * (b / c * energy_term t a) + dotp ws (sample (energy_term t) fr (map (fun x => x / c) ds)) = (q * (b * energy_term t a) + dotp ws (sample (energy_term t) fr ds)) / c). rewrite IH. unfold Rdiv. ring. }
  change (dotp (weights fr) (sample (energy_term t) fr (map (fun x => x / c) ds)) * N_a / 1000 = dotp (weights fr) (sample (energy_term t) fr ds) * N_a / 1000 / c). rewrite E. unfold Rdiv. ring.
Qed.
(** get_thermal_properties *)
Lemma thermal_same {FC : Type} (dos_of : option FC -> list R * list R) t N3 np pr fc : dos_of (Some fc) = dos_of None ->
  get_thermal_properties weights dos_of t N3 np pr (Some fc) false = get_thermal_properties weights dos_of t N3 np pr None false.
Proof.
  intros E. unfold get_thermal_properties. rewrite E. destruct (dos_of None) as [fr ds] eqn:D. rewrite corr_same, !Rplus_0_r. reflexivity.
Qed.
Lemma thermal_norm {FC : Type} (dos_of : option FC -> list R * list R) t N3 np fc fr ds : dos_of (Some fc) = (fr, ds) -> dos_of None = (fr, ds) -> length fr = length ds ->
  t_total (get_thermal_properties weights dos_of t N3 np false (Some fc) true) - t_total (get_thermal_properties weights dos_of t N3 np false None true)
  = - (1/2) * (/ (simps ds fr / N3) - 1) * get_total_energy weights t fr ds.
Proof.
  intros E1 E2 L. unfold get_thermal_properties. rewrite E1, E2. cbn [t_total]. rewrite corr_energy by (rewrite ?map_length; exact L). rewrite energy_scale. unfold Rdiv. ring.
Qed.
End G.
