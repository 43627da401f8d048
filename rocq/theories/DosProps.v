(** C80: density of states from a power spectrum; C81: the integration reported with the thermal properties. *)
From Coq Require Import Lra Lia.
From Verif Require Import DosModel DosSpec ThermalSpec ThermalProofs DosProofs.
Open Scope R_scope.
(** classical: the mean energy of every mode is kT, at every frequency *)
Theorem C80_classical : forall t frequency power cells i, 0 < t -> 0 < cells -> length frequency = length power -> (i < length frequency)%nat ->
  nth i (get_dos t frequency power cells false) 0 * (boltzmann * t) = 2 * eV * nth i power 0 / cells.
Proof.
  change eV with conversion_factor; change boltzmann with k_b; change planck with h_bar.
  intros t fr ps c i Ht Hc L Hi. rewrite dos_nth by assumption. unfold dos_value, mean_energy. assert (K := k_pos). field. lra.
Qed.
(** quantum: the mean energy of a mode of frequency f > 0 is h f (1/2 + 1/(exp(hf/kT)-1)), and the zero frequency contributes nothing *)
Theorem C80_quantum : forall t frequency power cells i, 0 < t -> 0 < cells -> length frequency = length power -> (i < length frequency)%nat ->
  (0 < nth i frequency 0 -> nth i (get_dos t frequency power cells true) 0 * (planck * nth i frequency 0 * (1/2 + 1 / (exp (planck * nth i frequency 0 / (boltzmann * t)) - 1))) = 2 * eV * nth i power 0 / cells) /\
  (nth i frequency 0 = 0 -> nth i (get_dos t frequency power cells true) 0 = 0).
Proof.
  change eV with conversion_factor; change boltzmann with k_b; change planck with h_bar.
  intros t fr ps c i Ht Hc L Hi. rewrite dos_nth by assumption. unfold dos_value, mean_energy. split.
  - intros Hf. destruct (Req_EM_T (nth i fr 0) 0) as [E|N]; [lra|]. assert (P := energy_pos t (nth i fr 0) Ht Hf). unfold energy_term in P. destruct (Req_EM_T (nth i fr 0) 0) as [X|_]; [contradiction|].
    assert (E : n t (nth i fr 0) = 1 / (exp (h_bar * nth i fr 0 / (k_b * t)) - 1)) by (unfold n, Rdiv; rewrite Rmult_1_l, (Rmult_comm (nth i fr 0)); reflexivity).
    rewrite <- E in *. set (e := h_bar * nth i fr 0 * (1 / 2 + n t (nth i fr 0))) in *. field. lra.
  - intros E. destruct (Req_EM_T (nth i fr 0) 0); [reflexivity|contradiction].
Qed.
(** one value per frequency; non-negative for a non-negative spectrum; with q = h f / kT, quantum <= classical <= quantum (1 + q/2) *)
Theorem C80_compare : forall t frequency power cells, 0 < t -> 0 < cells -> length frequency = length power ->
  length (get_dos t frequency power cells true) = length frequency /\ length (get_dos t frequency power cells false) = length frequency /\
  forall i, (i < length frequency)%nat -> 0 <= nth i power 0 ->
  let classical := nth i (get_dos t frequency power cells false) 0 in let quantum := nth i (get_dos t frequency power cells true) 0 in let f := nth i frequency 0 in
  0 <= classical /\ (0 <= f -> 0 <= quantum <= classical) /\ (0 < f -> classical <= quantum * (1 + planck * f / (boltzmann * t) / 2)).
Proof.
  change eV with conversion_factor; change boltzmann with k_b; change planck with h_bar.
  intros t fr ps c Ht Hc L. rewrite !dos_len by exact L. split; [reflexivity|]. split; [reflexivity|]. intros i Hi Hp. cbv zeta. rewrite !dos_nth by assumption.
  unfold dos_value, mean_energy. assert (K := k_pos). assert (C := conv_pos). assert (HH := h_pos). set (p := nth i ps 0) in *. set (f := nth i fr 0) in *.
  assert (Kt : 0 < k_b * t) by nra. assert (N0 : 0 <= 2 * conversion_factor * p / c) by (apply Rmult_le_pos; [nra|left; apply Rinv_0_lt_compat; exact Hc]).
  set (w := 2 * conversion_factor * p / c) in *. assert (W : forall e, e <> 0 -> 2 * conversion_factor * p / (e * c) = w / e) by (intros e He; unfold w; field; lra).
  rewrite (W (k_b * t)) by lra. assert (P0 : 0 <= w / (k_b * t)) by (apply Rmult_le_pos; [exact N0|left; apply Rinv_0_lt_compat; exact Kt]). split; [exact P0|]. split.
  - intros Hf. destruct (Req_EM_T f 0) as [E|N]; [lra|]. destruct (classical_bounds t f Ht ltac:(lra)) as (A & _). set (e := h_bar * f * (1/2 + n t f)) in *. rewrite W by lra. split.
    + apply Rmult_le_pos; [exact N0|left; apply Rinv_0_lt_compat; lra].
    + apply Rmult_le_compat_l; [exact N0|]. apply Rinv_le_contravar; lra.
  - intros Hf. destruct (Req_EM_T f 0) as [E|N]; [lra|]. destruct (classical_bounds t f Ht Hf) as (A & B). set (e := h_bar * f * (1/2 + n t f)) in *. rewrite W by lra.
    apply (Rmult_le_reg_r (k_b * t * e)); [nra|]. replace (w / (k_b * t) * (k_b * t * e)) with (w * e) by (field; lra).
    replace (w / e * (1 + h_bar * f / (k_b * t) / 2) * (k_b * t * e)) with (w * (k_b * t + h_bar * f / 2)) by (field; lra). apply Rmult_le_compat_l; lra.
Qed.
(** the energy held by the modes is the one the power spectrum gives: kT per mode classically, and with Bose-Einstein statistics the total energy
    that get_total_energy returns, for every linear quadrature *)
Theorem C80_energy : forall weights t frequency power cells, 0 < t -> 0 < cells -> length frequency = length power ->
  simps weights (get_dos t frequency power cells false) frequency * (boltzmann * t) = 2 * eV / cells * simps weights power frequency /\
  ((forall f, In f frequency -> 0 < f) -> get_total_energy weights t frequency (get_dos t frequency power cells true) = 2 * eV / cells * simps weights power frequency * N_a / 1000).
Proof.
  change eV with conversion_factor; change boltzmann with k_b; change planck with h_bar.
  intros w t fr ps c Ht Hc L. assert (K := k_pos). assert (Kt : 0 < k_b * t) by nra. assert (C := conv_pos).
  assert (M : forall a, simps w (map (fun x => x / a) ps) fr = simps w ps fr / a) by (intros a; apply simps_scale). split.
  - rewrite (simps_ext w _ (map (fun x => x / (k_b * t * c / (2 * conversion_factor))) ps)).
    + rewrite M. field. repeat split; lra.
    + rewrite map_length, dos_len by exact L. exact L.
    + rewrite dos_len by exact L. intros i Hi. rewrite dos_nth by assumption. rewrite nth_div. unfold dos_value, mean_energy. field. repeat split; lra.
  - intros Hf. unfold get_total_energy. f_equal. f_equal.
    rewrite (simps_ext w _ (map (fun x => x / (c / (2 * conversion_factor))) ps)).
    + rewrite M. field. repeat split; lra.
    + rewrite map_length, sample_len; [exact L|]. rewrite dos_len by exact L. reflexivity.
    + rewrite sample_len by (rewrite dos_len by exact L; reflexivity). intros i Hi. rewrite sample_nth by (rewrite ?dos_len; auto). rewrite dos_nth by assumption.
      rewrite nth_div.
      assert (F : 0 < nth i fr 0) by (apply Hf, nth_In, Hi). unfold dos_value, mean_energy, energy_term. destruct (Req_EM_T (nth i fr 0) 0) as [E|_]; [lra|].
      destruct (classical_bounds t _ Ht F) as (A & _). set (e := h_bar * nth i fr 0 * (1/2 + n t (nth i fr 0))) in *. field. repeat split; lra.
Qed.

(** C81: the last number is the integral of the density of states actually used, per degree of freedom; after normalisation it is 1, or one over
    the number of primitive atoms when projected, and the density is the original one times a constant *)
Theorem C81_power_spectrum : forall weights t N3 nprim cells project frequency power normalize, N3 <> 0 -> nprim <> 0 ->
  simps weights (get_dos t frequency power cells false) frequency <> 0 ->
  exists c, let dos := map (fun x => c * x) (get_dos t frequency power cells false) in
  power_spectrum_properties weights t N3 nprim cells project frequency power normalize =
    MkThermal (get_free_energy weights t frequency dos) (get_entropy weights t frequency dos) (get_cv weights t frequency dos) (get_total_energy weights t frequency dos) (simps weights dos frequency / N3) /\
  (normalize = false -> c = 1) /\ (normalize = true -> simps weights dos frequency / N3 = if project then 1 / nprim else 1).
Proof.
  intros w t N3 np cells pr fr ps b HN Hp Hs. unfold power_spectrum_properties, normalise. set (d := get_dos t fr ps cells false) in *.
  assert (Id : map (fun x => 1 * x) d = d) by (rewrite <- (map_id d) at 2; apply map_ext; intros; ring).
  assert (Sc : forall c, simps w (map (fun x => c * x) d) fr = c * simps w d fr).
  { intros c. unfold simps. generalize (w fr). intros ws. generalize d. clear. induction ws as [|a ws IH]; intros [|x u]; cbn; try ring. rewrite IH. ring. }
  destruct b; [destruct pr|].
  - exists (/ (simps w d fr / N3) / np). cbv zeta. assert (E : map (fun x => x / np) (map (fun x => x / (simps w d fr / N3)) d) = map (fun x => / (simps w d fr / N3) / np * x) d) by (rewrite map_map; apply map_ext; intros; unfold Rdiv; ring).
    rewrite E, Sc. assert (V : / (simps w d fr / N3) / np * simps w d fr / N3 = 1 / np) by (field; auto). rewrite V. split; [reflexivity|]. split; [discriminate|reflexivity].
  - exists (/ (simps w d fr / N3)). cbv zeta. assert (E : map (fun x => x / (simps w d fr / N3)) d = map (fun x => / (simps w d fr / N3) * x) d) by (apply map_ext; intros; unfold Rdiv; ring).
    rewrite E, Sc. assert (V : / (simps w d fr / N3) * simps w d fr / N3 = 1) by (field; auto). rewrite V. split; [reflexivity|]. split; [discriminate|reflexivity].
  - exists 1. cbv zeta. rewrite Id. split; [reflexivity|]. split; [reflexivity|discriminate].
Qed.
Theorem C81_phonopy : forall weights (FC : Type) (dos_of : option FC -> list R * list R) t N3 nprim project fc normalize, N3 <> 0 -> nprim <> 0 ->
  simps weights (snd (dos_of fc)) (fst (dos_of fc)) <> 0 ->
  exists c, let frequency := fst (dos_of fc) in let dos := map (fun x => c * x) (snd (dos_of fc)) in let r := get_thermal_properties weights dos_of t N3 nprim project fc normalize in
  t_entropy r = get_entropy weights t frequency dos /\ t_cv r = get_cv weights t frequency dos /\ t_integration r = simps weights dos frequency / N3 /\
  (fc = None -> t_free r = get_free_energy weights t frequency dos /\ t_total r = get_total_energy weights t frequency dos) /\
  (normalize = false -> c = 1) /\ (normalize = true -> t_integration r = if project then 1 / nprim else 1).
Proof.
  intros w FC dos_of t N3 np pr fc b HN Hp Hs. unfold get_thermal_properties. destruct (dos_of fc) as [fr d] eqn:Ed. cbn [fst snd] in *.
  assert (Id : map (fun x => 1 * x) d = d) by (rewrite <- (map_id d) at 2; apply map_ext; intros; ring).
  assert (Sc : forall c, simps w (map (fun x => c * x) d) fr = c * simps w d fr).
  { intros c. unfold simps. generalize (w fr). intros ws. generalize d. clear. induction ws as [|a ws IH]; intros [|x u]; cbn; try ring. rewrite IH. ring. }
  destruct b; [destruct pr|].
  - exists (/ (simps w d fr / N3) / np). cbv zeta. assert (E : map (fun x => x / np) (map (fun x => x / (simps w d fr / N3)) d) = map (fun x => / (simps w d fr / N3) / np * x) d) by (rewrite map_map; apply map_ext; intros; unfold Rdiv; ring).
    rewrite E, Sc. assert (V : / (simps w d fr / N3) / np * simps w d fr / N3 = 1 / np) by (field; auto). rewrite V. cbn. repeat split; try discriminate; destruct fc; try discriminate; rewrite ?Rplus_0_r; reflexivity.
  - exists (/ (simps w d fr / N3)). cbv zeta. assert (E : map (fun x => x / (simps w d fr / N3)) d = map (fun x => / (simps w d fr / N3) * x) d) by (apply map_ext; intros; unfold Rdiv; ring).
    rewrite E, Sc. assert (V : / (simps w d fr / N3) * simps w d fr / N3 = 1) by (field; auto). rewrite V. cbn. repeat split; try discriminate; destruct fc; try discriminate; rewrite ?Rplus_0_r; reflexivity.
  - exists 1. cbv zeta. rewrite Id. cbn. repeat split; try discriminate; destruct fc; try discriminate; rewrite ?Rplus_0_r; reflexivity.
Qed.

(** a grid and a spectrum meeting the hypotheses *)
Example C80_nonvacuous : 0 < 300 /\ length [1; 2; 3] = length [5; 7; 2] /\ (forall f, In f [1; 2; 3] -> 0 < f) /\
  nth 1 (get_dos 300 [1; 2; 3] [5; 7; 2] 8 false) 0 * (k_b * 300) = 2 * conversion_factor * 7 / 8.
Proof.
  repeat split; [lra| |].
  - intros f [<-|[<-|[<-|[]]]]; lra.
  - apply C80_classical; [lra|lra|reflexivity|cbn; lia].
Qed.
Example C81_nonvacuous : simps (fun x => map (fun _ => 1) x) (get_dos 300 [1; 2; 3] [5; 7; 2] 8 false) [1; 2; 3] <> 0.
Proof.
  destruct (C80_energy (fun x => map (fun _ => 1) x) 300 [1; 2; 3] [5; 7; 2] 8 ltac:(lra) ltac:(lra) eq_refl) as (E & _). intros H. rewrite H in E.
  change eV with conversion_factor in E. unfold simps in E. cbn in E. assert (C := conv_pos). nra.
Qed.
Print Assumptions C80_classical. Print Assumptions C80_quantum. Print Assumptions C80_compare. Print Assumptions C80_energy. Print Assumptions C81_power_spectrum. Print Assumptions C81_phonopy.
