(** C140: the temperature of an analysis is the one asked for, or else that of its trajectory (dynaphopy/__init__.py:1086-1095; QuasiModel). *)
From Coq Require Import Reals ZArith List Lra Lia.
From Verif Require Import QuasiModel QuasiSpec QuasiProofs QuasiMore.
Import ListNotations.
Open Scope Z_scope.

(** ---------- the trajectory is only replaced by crop_trajectory ---------- *)
Section Dyn.
Context (K : kernels).
Local Notation params := (params K). Local Notation obj := (obj K). Local Notation state := (state K). Local Notation M := (M K).
Local Notation MkS := (MkS K). Local Notation with_q := (with_q K). Local Notation par := (par K). Local Notation ob := (ob K).
Ltac walk HR := repeat first [apply (pres_ret _ _ HR)|apply (pres_fail _ _ HR)|apply (pres_gets _ _ HR)|apply (pres_lift _ _ HR)
  |apply (pres_bnd _ _ HR); [|intros ?]|apply (pres_mapM _ _ HR); intros ?
  |match goal with |- pres _ _ (if ?b then _ else _) => destruct b | |- pres _ _ (match ?o with Some _ => _ | None => _ end) => destruct o
   | |- pres _ _ (let _ := _ in _) => cbv zeta end].
Ltac open := unfold fm, crop_trajectory, set_NAC, set_number_of_mem_coefficients, set_projection_onto_atom_type, set_spectra_resolution, set_frequency_limits,
  set_frequency_range, set_reduced_q_vector, get_reduced_q_vector, select_power_spectra_algorithm, select_fitting_function, set_temperature, set_qha_force_constants,
  get_temperature, get_eigenvectors, get_frequencies, get_vq, get_vc, get_power_spectrum_phonon, get_power_spectrum_wave_vector, get_power_spectrum_full,
  run_spectrum_vq, run_spectrum_vc, get_qha_shift, get_vq, get_vc, get_eigenvectors, get_frequencies, set_reduced_q_vector, get_reduced_q_vector.
Definition keeps_dyn (a b : state) : Prop := o_dyn K (ob b) = o_dyn K (ob a).
Lemma pre_dyn : pre K keeps_dyn. Proof. constructor; unfold keeps_dyn; congruence. Qed.
Ltac leaf := try (intros ?s; unfold modo, modp, keeps_dyn; cbn; solve [auto]).
Lemma com_step_dyn acc q : pres K keeps_dyn (com_step K acc q).
Proof. unfold com_step. open. walk pre_dyn; leaf. Qed.
Lemma call_dyn c : match c with Crop _ _ => False | _ => True end -> pres K keeps_dyn (do_call K c).
Proof.
  intros H. destruct c; cbn [do_call] in *; try contradiction; (unfold fm; apply (pres_bnd _ _ pre_dyn); [|intros ?; apply (pres_ret _ _ pre_dyn)]; unfold get_renormalized_force_constants, get_power_spectrum_partials, get_commensurate_points_data;
    try (open; walk pre_dyn; leaf; apply (com_loop_pres _ _ pre_dyn); apply com_step_dyn)).
Qed.
End Dyn.

(** ---------- specification ---------- *)
(** the Maxwell-Boltzmann estimate of a trajectory (C55, C113) *)
Definition measured (K : kernels) (d : D K) : R := (maxwell_scale K d ^ 2 / (831446 / 1000000))%R.
(** the last temperature asked for in a history *)
Fixpoint last_asked {K : kernels} (h : list (call K)) (t : option R) : option R :=
  match h with [] => t | SetTemp _ x :: h => last_asked h (Some x) | _ :: h => last_asked h t end.
Definition no_crop {K : kernels} (c : call K) : Prop := match c with Crop _ _ => False | _ => True end.
Definition no_set {K : kernels} (c : call K) : Prop := match c with SetTemp _ _ => False | _ => True end.

(** what get_temperature returns *)
Lemma get_temp K (s : state K) : fst (do_call K (GetTemp K) s) = Some (VT K (match o_temp K (ob K s) with Some t => if Req_EM_T t 0 then measured K (o_dyn K (ob K s)) else t | None => measured K (o_dyn K (ob K s)) end)).
Proof.
  destruct s as [p o]. cbn [do_call]. unfold fm, get_temperature, bnd, gets. cbv zeta. cbn [ob].
  destruct (o_temp K o) as [t|]; [destruct (Req_EM_T t 0)|]; reflexivity.
Qed.
Definition good (K : kernels) (d : D K) (asked : option R) (s : state K) : Prop :=
  o_dyn K (ob K s) = d /\
  match asked with
  | Some t => if Req_EM_T t 0 then o_temp K (ob K s) = Some t \/ o_temp K (ob K s) = Some (measured K d) else o_temp K (ob K s) = Some t
  | None => o_temp K (ob K s) = None \/ o_temp K (ob K s) = Some (measured K d)
  end.
Lemma good_step K d asked c s : good K d asked s -> no_crop c -> good K d (last_asked [c] asked) (snd (do_call K c s)).
Proof.
  intros [Hd G] Hc. split; [rewrite <- Hd; apply (call_dyn K c Hc s)|].
  assert (T : match c with SetTemp _ _ | GetTemp _ => False | _ => True end -> o_temp K (ob K (snd (do_call K c s))) = o_temp K (ob K s)) by (intros H; exact (call_temp K c H s)).
  destruct c; cbn [last_asked]; try (rewrite T by exact I; exact G).
  - cbn. destruct (Req_EM_T t 0); [left|]; reflexivity.
  - clear T. destruct s as [p o]. cbn [do_call]. unfold fm, get_temperature, bnd, gets. cbv zeta. cbn [ob] in *.
    destruct (o_temp K o) as [t|] eqn:E.
    + destruct (Req_EM_T t 0) as [Z|Z].
      * cbn. fold (measured K d). rewrite Hd. change (maxwell_scale K d ^ 2 / kb_boltzmann)%R with (measured K d).
        destruct asked as [a|]; [destruct (Req_EM_T a 0)|]; auto. exfalso. injection G as <-. auto.
      * cbn. rewrite E. exact G.
    + cbn. rewrite Hd. change (maxwell_scale K d ^ 2 / kb_boltzmann)%R with (measured K d). destruct asked as [a|]; [destruct (Req_EM_T a 0)|]; auto; try discriminate.
Qed.
Lemma last_asked_cons {K} (c : call K) h t : last_asked (c :: h) t = last_asked h (last_asked [c] t).
Proof. destruct c; reflexivity. Qed.
Lemma good_run K d : forall h asked s, good K d asked s -> Forall no_crop h -> good K d (last_asked h asked) (run K h s).
Proof.
  induction h as [|c h IH]; intros asked s G H; [exact G|]. inversion H as [|? ? Hc Hr]; subst. rewrite last_asked_cons. unfold run. cbn [fold_left]. apply IH; [apply good_step; assumption|exact Hr].
Qed.

(** After every history of a fresh analysis that does not crop its trajectory, the temperature is the last one asked for if that is not 0 K,
    and the one of the trajectory otherwise. *)
Theorem C140_history_partial : forall (K : kernels) (p : params K) (d : D K) (h : list (call K)), Forall no_crop h ->
  fst (do_call K (GetTemp K) (run K h (MkS K p (new_obj K d None)))) =
  Some (VT K (match last_asked h None with Some t => if Req_EM_T t 0 then measured K d else t | None => measured K d end)).
Proof.
  intros K p d h H. rewrite get_temp. assert (G := good_run K d h None (MkS K p (new_obj K d None)) (conj eq_refl (or_introl eq_refl)) H).
  destruct G as [Hd G]. rewrite Hd. destruct (last_asked h None) as [t|].
  - destruct (Req_EM_T t 0) as [Z|Z]; [destruct G as [->| ->]|rewrite G].
    + destruct (Req_EM_T t 0); [reflexivity|contradiction].
    + destruct (Req_EM_T (measured K d) 0); reflexivity.
    + destruct (Req_EM_T t 0); [contradiction|reflexivity].
  - destruct G as [->| ->]; [reflexivity|]. destruct (Req_EM_T (measured K d) 0); reflexivity.
Qed.
Print Assumptions C140_history_partial.

(** A temperature asked for, other than 0 K, is the one used until the next one, whatever is called in between, cropping included. *)
Theorem C140_asked_partial : forall (K : kernels) (s : state K) (t : R) (h : list (call K)), t <> 0%R -> Forall no_set h ->
  fst (do_call K (GetTemp K) (run K h (snd (do_call K (SetTemp K t) s)))) = Some (VT K t).
Proof.
  intros K s t h Ht H. rewrite get_temp. rewrite (run_temp K h _ H t (eq_refl : o_temp K (ob K (snd (do_call K (SetTemp K t) s))) = Some t) Ht). destruct (Req_EM_T t 0); [contradiction|reflexivity].
Qed.
Print Assumptions C140_asked_partial.

(** Asking for 0 K is not asking at all: whatever the state, the temperature is then that of the trajectory, above 0 K as soon as the fitted scale is not 0. *)
Theorem C140_zero_kelvin_refuted : forall (K : kernels) (s : state K), maxwell_scale K (o_dyn K (ob K s)) <> 0%R ->
  exists t, fst (do_call K (GetTemp K) (snd (do_call K (SetTemp K 0%R) s))) = Some (VT K t) /\ t = measured K (o_dyn K (ob K s)) /\ (0 < t)%R.
Proof.
  intros K s H. exists (measured K (o_dyn K (ob K s))). split; [|split; [reflexivity|]].
  - rewrite get_temp. cbn. destruct (Req_EM_T 0 0); [reflexivity|lra].
  - unfold measured. apply Rdiv_lt_0_compat; [|lra]. replace (maxwell_scale K (o_dyn K (ob K s)) ^ 2)%R with (Rsqr (maxwell_scale K (o_dyn K (ob K s)))) by (unfold Rsqr; ring). apply Rsqr_pos_lt. exact H.
Qed.
Print Assumptions C140_zero_kelvin_refuted.

(** Once asked for, the temperature of the trajectory outlives the trajectory: after cropping it to a part with another temperature, the old one is used. *)
Theorem C140_crop_refuted : forall (K : kernels) (p : params K) (d d' : D K) (n : option Z), crop K n d = Some d' ->
  measured K d <> 0%R -> measured K d' <> measured K d ->
  let s := run K [GetTemp K; Crop K n] (MkS K p (new_obj K d None)) in
  o_dyn K (ob K s) = d' /\ fst (do_call K (GetTemp K) s) = Some (VT K (measured K d)) /\
  fst (do_call K (GetTemp K) (run K [Crop K n] (MkS K p (new_obj K d None)))) = Some (VT K (measured K d')).
Proof.
  intros K p d d' n Hc Hn Hne s.
  assert (C : forall q o, o_vc K o = None -> o_dyn K o = d -> snd (do_call K (Crop K n) (MkS K q o)) = MkS K q (put_dyn K d' o)).
  { intros q o V E. cbn [do_call]. unfold fm, crop_trajectory, bnd, gets, modo, lift. cbn [ob par]. rewrite V. cbn [ob par]. rewrite E. rewrite Hc. reflexivity. }
  assert (G : exists q, snd (do_call K (GetTemp K) (MkS K p (new_obj K d None))) = MkS K q (put_temp K (Some (measured K d)) (new_obj K d None))).
  { eexists. cbn [do_call]. unfold fm, get_temperature, bnd, gets. cbv zeta. cbn [ob new_obj o_temp]. unfold modo, modp. cbn. reflexivity. }
  destruct G as [q G]. assert (E : s = MkS K q (put_dyn K d' (put_temp K (Some (measured K d)) (new_obj K d None)))).
  { unfold s, run. cbn [fold_left]. rewrite G. apply C; reflexivity. }
  rewrite E. split; [reflexivity|]. split.
  - rewrite get_temp. cbn. destruct (Req_EM_T (measured K d) 0); [contradiction|reflexivity].
  - unfold run. cbn [fold_left]. rewrite C by reflexivity. rewrite get_temp. reflexivity.
Qed.
Print Assumptions C140_crop_refuted.

(** ---------- examples ---------- *)
Example C140_nonvacuous_history : Forall no_crop [GetTemp Kfree; SetTemp Kfree 300%R; GetPhonon Kfree; SetQ Kfree [0; 0; 0]%R] /\
  last_asked [GetTemp Kfree; SetTemp Kfree 300%R; GetPhonon Kfree; SetQ Kfree [0; 0; 0]%R] None = Some 300%R.
Proof. split; [repeat constructor|reflexivity]. Qed.
Example C140_nonvacuous_zero : maxwell_scale Kfree (o_dyn Kfree (ob Kfree s0)) <> 0%R.
Proof. cbn. lra. Qed.
(** a trajectory whose steps get hotter: the scale is the number of steps *)
Definition heating : kernels := MkK Z (VC Kfree) (VQ Kfree) (E Kfree) (PS Kfree) (FC Kfree) (FR Kfree) (fr_eq_dec Kfree) (O Kfree)
  (crop Kfree) (crop_vc Kfree) (primitive_atoms Kfree) (eig Kfree) (project Kfree) (modes Kfree) (spectrum_vq Kfree) (spectrum_vc Kfree) (average Kfree)
  (spectrum_full Kfree) (spectrum_partials Kfree) (equivalent Kfree) (limits_range Kfree) (respan Kfree) (com_points Kfree) (dos_max Kfree) (qha_frequencies Kfree)
  (fit Kfree) (renormalize Kfree) (fun d => IZR d).
Example C140_nonvacuous_crop : crop heating (Some 10) 100 = Some 10 /\ measured heating 100 <> 0%R /\ measured heating 10 <> measured heating 100.
Proof. split; [reflexivity|]. unfold measured. cbn [maxwell_scale heating]. split; lra. Qed.
