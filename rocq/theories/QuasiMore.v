(** Further lemmas on the Quasiparticle model (no cache invariant), and concrete kernels. *)
From Verif Require Import QuasiModel QuasiSpec QuasiProofs.
From Coq Require Import Lra Lia.
Open Scope Z_scope.

Section More.
Context (K : kernels).
Local Notation params := (params K). Local Notation obj := (obj K). Local Notation state := (state K). Local Notation M := (M K).
Local Notation MkS := (MkS K). Local Notation with_q := (with_q K). Local Notation par := (par K). Local Notation ob := (ob K).

(** relations between the state before and after, closed under sequencing *)
Definition pres (R : state -> state -> Prop) {A} (m : M A) : Prop := forall s, R s (snd (m s)).
Record pre (R : state -> state -> Prop) : Prop := { p_refl : forall s, R s s; p_tr : forall a b c, R a b -> R b c -> R a c }.
Section Pres.
Context (R : state -> state -> Prop) (HR : pre R).
Lemma pres_ret {A} (a : A) : pres R (ret K a). Proof. intros s. apply HR. Qed.
Lemma pres_fail {A} : pres R (@fail K A). Proof. intros s. apply HR. Qed.
Lemma pres_gets {A} (f : state -> A) : pres R (gets K f). Proof. intros s. apply HR. Qed.
Lemma pres_lift {A} (f : option A) : pres R (lift K f). Proof. intros s. apply HR. Qed.
Lemma pres_bnd {A B} (m : M A) (f : A -> M B) : pres R m -> (forall a, pres R (f a)) -> pres R (bnd K m f).
Proof.
  intros Hm Hf s. unfold bnd. specialize (Hm s). destruct (m s) as [[a|] s1]; cbn [snd] in *; [|exact Hm].
  apply (p_tr _ HR _ s1); [exact Hm|apply Hf].
Qed.
Lemma pres_mapM {A B} (f : A -> M B) l : (forall a, pres R (f a)) -> pres R (mapM K f l).
Proof. intros Hf. induction l as [|a l IH]; cbn [mapM]; [apply pres_ret|]. apply pres_bnd; [apply Hf|]. intros b. apply pres_bnd; [exact IH|]. intros r. apply pres_ret. Qed.
End Pres.
Lemma bnd_Some {A B} (m : M A) (f : A -> M B) s b s' : bnd K m f s = (Some b, s') -> exists a s1, m s = (Some a, s1) /\ f a s1 = (Some b, s').
Proof. unfold bnd. destruct (m s) as [[a|] s1]; [|discriminate]. intros H. exists a, s1. split; [reflexivity|exact H]. Qed.

Ltac walk HR := repeat first [apply (pres_ret _ HR)|apply (pres_fail _ HR)|apply (pres_gets _ HR)|apply (pres_lift _ HR)
  |apply (pres_bnd _ HR); [|intros ?]|apply (pres_mapM _ HR); intros ?
  |match goal with |- pres _ (if ?b then _ else _) => destruct b | |- pres _ (match ?o with Some _ => _ | None => _ end) => destruct o
   | |- pres _ (let _ := _ in _) => cbv zeta end].
Ltac open := unfold fm, crop_trajectory, set_NAC, set_number_of_mem_coefficients, set_projection_onto_atom_type, set_spectra_resolution, set_frequency_limits,
  set_frequency_range, set_reduced_q_vector, get_reduced_q_vector, select_power_spectra_algorithm, select_fitting_function, set_temperature, set_qha_force_constants,
  get_eigenvectors, get_frequencies, get_vq, get_vc, get_power_spectrum_phonon, get_power_spectrum_wave_vector, get_power_spectrum_full,
  run_spectrum_vq, run_spectrum_vc, get_qha_shift, get_vq, get_vc, get_eigenvectors, get_frequencies, set_reduced_q_vector, get_reduced_q_vector.

(** what stays for ever *)
Definition keeps_part (a b : state) : Prop := forall x, o_part K (ob a) = Some x -> o_part K (ob b) = Some x.
Lemma pre_part : pre keeps_part. Proof. constructor; unfold keeps_part; auto. Qed.
Definition keeps_temp (a b : state) : Prop := o_temp K (ob b) = o_temp K (ob a).
Lemma pre_temp : pre keeps_temp. Proof. constructor; unfold keeps_temp; congruence. Qed.
Definition same_but_q (a b : state) : Prop := exists q, par b = with_q q (par a).
Lemma pre_q : pre same_but_q.
Proof. constructor; [intros s; exists (p_q K (par s)); destruct s as [[]]; reflexivity|]. intros a b c [q E] [q' E']. exists q'. rewrite E', E. reflexivity. Qed.
Definition same_but_qr (a b : state) : Prop := exists q r, par b = with_q q (with_range K r (par a)).
Lemma pre_qr : pre same_but_qr.
Proof. constructor; [intros s; exists (p_q K (par s)), (p_range K (par s)); destruct s as [[]]; reflexivity|]. intros a b c [q [r E]] [q' [r' E']]. exists q', r'. rewrite E', E. reflexivity. Qed.
Definition same_par (a b : state) : Prop := par b = par a.
Lemma pre_par : pre same_par. Proof. constructor; unfold same_par; congruence. Qed.
Lemma pres_weaken (R R' : state -> state -> Prop) {A} (m : M A) : (forall a b, R a b -> R' a b) -> pres R m -> pres R' m.
Proof. intros H Hm s. apply H, Hm. Qed.

Ltac leaf := try (intros ?s; unfold modo, modp, keeps_part, keeps_temp, same_par; cbn; solve [auto]).
Lemma com_loop_pres R (HR : pre R) : (forall acc q, pres R (com_step K acc q)) -> forall l acc, pres R (com_loop K l acc).
Proof. intros H. induction l as [|q l IH]; intros acc; cbn [com_loop]; [apply (pres_ret _ HR)|]. apply (pres_bnd _ HR); [apply H|intros a; apply IH]. Qed.
Lemma set_q_part q : pres keeps_part (set_reduced_q_vector K q). Proof. open. walk pre_part; leaf. Qed.
Lemma com_step_part acc q : pres keeps_part (com_step K acc q).
Proof. unfold com_step. open. walk pre_part; leaf. Qed.
Lemma com_part auto : pres keeps_part (get_commensurate_points_data K auto).
Proof. unfold get_commensurate_points_data. open. walk pre_part; leaf. apply (com_loop_pres _ pre_part). apply com_step_part. Qed.
Lemma call_part c : pres keeps_part (do_call K c).
Proof.
  destruct c; cbn [do_call]; try (unfold fm; apply (pres_bnd _ pre_part); [|intros ?; apply (pres_ret _ pre_part)]; unfold get_renormalized_force_constants;
    try (open; walk pre_part; leaf; apply (com_loop_pres _ pre_part); apply com_step_part)).
  - intros [p o] x Hx. cbn in Hx. unfold get_power_spectrum_partials, bnd, gets. cbn [QuasiModel.ob]. rewrite Hx. exact Hx.
Qed.
Lemma com_step_temp acc q : pres keeps_temp (com_step K acc q).
Proof. unfold com_step. open. walk pre_temp; leaf. Qed.
Lemma com_temp auto : pres keeps_temp (get_commensurate_points_data K auto).
Proof. unfold get_commensurate_points_data. open. walk pre_temp; leaf. apply (com_loop_pres _ pre_temp). apply com_step_temp. Qed.
Lemma call_temp c : match c with SetTemp _ _ | GetTemp _ => False | _ => True end -> pres keeps_temp (do_call K c).
Proof.
  intros H. destruct c; cbn [do_call] in *; try contradiction; (unfold fm; apply (pres_bnd _ pre_temp); [|intros ?; apply (pres_ret _ pre_temp)]; unfold get_renormalized_force_constants, get_power_spectrum_partials;
    try (open; walk pre_temp; leaf; apply (com_loop_pres _ pre_temp); apply com_step_temp)).
Qed.
Ltac leafq := try (intros ?s; unfold modo, modp; match goal with |- same_but_q ?s _ => exists (p_q K (par s)); destruct s as [[]]; reflexivity end);
  try (intros ?s; eexists; reflexivity).
Lemma set_q_q q : pres same_but_q (set_reduced_q_vector K q).
Proof.
  unfold set_reduced_q_vector. walk pre_q; leafq.
Qed.
Lemma set_q_par q s : par (snd (set_reduced_q_vector K q s)) = with_q q (par s) /\ fst (set_reduced_q_vector K q s) = Some tt.
Proof.
  unfold set_reduced_q_vector, bnd, gets, modo, modp, ret. destruct (length q =? _)%nat; [destruct (qvec_eq_dec _ _)|]; split; reflexivity.
Qed.
Ltac walkq := walk pre_q; try apply set_q_q; leafq.
Lemma get_eig_q : pres same_but_q (get_eigenvectors K). Proof. unfold get_eigenvectors. walkq. Qed.
Lemma get_freq_q : pres same_but_q (get_frequencies K). Proof. unfold get_frequencies. walkq. Qed.
Lemma get_vc_q : pres same_but_q (get_vc K). Proof. unfold get_vc. walkq. Qed.
Lemma get_vq_q : pres same_but_q (get_vq K). Proof. unfold get_vq. walkq; try first [apply get_vc_q|apply get_eig_q]. Qed.
Lemma get_ph_q : pres same_but_q (get_power_spectrum_phonon K).
Proof. unfold get_power_spectrum_phonon, get_reduced_q_vector, run_spectrum_vq. walkq; try apply get_vq_q. Qed.
Lemma get_wv_q : pres same_but_q (get_power_spectrum_wave_vector K).
Proof. unfold get_power_spectrum_wave_vector, get_reduced_q_vector, run_spectrum_vc. walkq; try apply get_vc_q. Qed.
Lemma get_qha_q q : pres same_but_q (get_qha_shift K q).
Proof. unfold get_qha_shift. walkq; try apply get_freq_q. Qed.
Lemma com_step_q acc q : pres same_but_q (com_step K acc q).
Proof. unfold com_step. walkq; try first [apply get_eig_q|apply get_ph_q|apply get_freq_q|apply get_qha_q]. Qed.
Lemma com_loop_q l acc : pres same_but_q (com_loop K l acc).
Proof. apply (com_loop_pres _ pre_q). apply com_step_q. Qed.

Ltac inv H := let a := fresh "a" in let s1 := fresh "s" in let E := fresh "E" in
  apply bnd_Some in H as [a [s1 [E H]]]; try (unfold gets, modo, ret, get_reduced_q_vector, gets in E; injection E as <- <-).
Lemma with_q_back (s s1 : state) : same_but_q s s1 -> with_q (p_q K (par s)) (par s1) = par s.
Proof. intros [q ->]. destruct s as [[]]. reflexivity. Qed.
Lemma mapM_q {A B} (f : A -> M B) l s r s' : (forall a, pres same_but_q (f a)) -> mapM K f l s = (r, s') -> same_but_q s s'.
Proof. intros Hf E. assert (H := pres_mapM _ pre_q f l Hf s). rewrite E in H. exact H. Qed.
Lemma pres_eq (R : state -> state -> Prop) {A} (m : M A) s r s' : pres R m -> m s = (r, s') -> R s s'.
Proof. intros H E. specialize (H s). rewrite E in H. exact H. Qed.

(** getters that do not leave the wave vector at all *)
Ltac walkp := walk pre_par; try (intros ?s; reflexivity).
Lemma get_eig_p : pres same_par (get_eigenvectors K). Proof. unfold get_eigenvectors. walkp. Qed.
Lemma get_freq_p : pres same_par (get_frequencies K). Proof. unfold get_frequencies. walkp. Qed.
Lemma get_vc_p : pres same_par (get_vc K). Proof. unfold get_vc. walkp. Qed.
Lemma get_vq_p : pres same_par (get_vq K). Proof. unfold get_vq. walkp; try first [apply get_vc_p|apply get_eig_p]. Qed.

Lemma phonon_par s x s' : get_power_spectrum_phonon K s = (Some x, s') -> par s' = par s /\ o_ph K (ob s') = Some x.
Proof.
  unfold get_power_spectrum_phonon. intros H. inv H. destruct (o_ph K (ob s)) as [y|] eqn:Ey.
  - injection H as <- <-. split; [reflexivity|exact Ey].
  - inv H. destruct (p_sym K (par s)).
    + inv H. inv H. inv H. inv H. inv H. injection H as <- <-. cbn [QuasiModel.par QuasiModel.ob put_ph o_ph].
      split; [|reflexivity].
      assert (Q := set_q_par (p_q K (par s)) s0). rewrite E0 in Q. cbn [fst snd] in Q. rewrite (proj1 Q). apply with_q_back.
      eapply mapM_q; [|exact E]. intros q. unfold run_spectrum_vq. walkq; try apply get_vq_q.
    + inv H. inv H. inv H. injection H as <- <-. split; [|reflexivity]. cbn [QuasiModel.par].
      assert (P := pres_eq _ _ _ _ _ get_vq_p E). assert (P2 : pres same_par (run_spectrum_vq K a)) by (unfold run_spectrum_vq; walkp).
      assert (P' := pres_eq _ _ _ _ _ P2 E0). unfold same_par in *. congruence.
Qed.
Lemma wave_par s x s' : get_power_spectrum_wave_vector K s = (Some x, s') -> par s' = par s /\ o_wv K (ob s') = Some x.
Proof.
  unfold get_power_spectrum_wave_vector. intros H. inv H. destruct (o_wv K (ob s)) as [y|] eqn:Ey.
  - injection H as <- <-. split; [reflexivity|exact Ey].
  - inv H. assert (P0 := pres_eq _ _ _ _ _ get_vc_p E). unfold same_par in P0. inv H. destruct (p_sym K (par s0)).
    + inv H. inv H. inv H. inv H. inv H. injection H as <- <-. cbn [QuasiModel.par QuasiModel.ob put_wv o_wv].
      split; [|reflexivity]. rewrite <- P0.
      match goal with H1 : mapM _ _ _ _ = (_, ?s1), H2 : set_reduced_q_vector _ _ ?s1 = _ |- _ =>
        assert (Q := set_q_par (p_q K (par s0)) s1); rewrite H2 in Q; cbn [fst snd] in Q; rewrite (proj1 Q); apply with_q_back;
        eapply mapM_q; [|exact H1] end.
      intros q. unfold run_spectrum_vc. walkq; try apply get_vc_q.
    + inv H. inv H. inv H. injection H as <- <-. split; [|reflexivity]. cbn [QuasiModel.par].
      match goal with H1 : get_vc _ s0 = (Some ?v, ?s1), H2 : run_spectrum_vc _ ?v ?s1 = _ |- _ =>
      assert (P := pres_eq _ _ _ _ _ get_vc_p H1); assert (P2 : pres same_par (run_spectrum_vc K v)) by (unfold run_spectrum_vc; walkp);
      assert (P' := pres_eq _ _ _ _ _ P2 H2) end. unfold same_par in *. congruence.
Qed.
Lemma set_range_par r s : fst (set_frequency_range K r s) = Some tt /\ par (snd (set_frequency_range K r s)) = with_range K r (par s) /\
  o_dyn K (ob (snd (set_frequency_range K r s))) = o_dyn K (ob s).
Proof.
  unfold set_frequency_range, bnd, gets, modo, modp, ret. destruct (fr_eq_dec K r _) as [->|N].
  - split; [reflexivity|]. split; [|reflexivity]. destruct s as [[]]; reflexivity.
  - split; [reflexivity|split; reflexivity].
Qed.
Lemma com_par auto s x s' : get_commensurate_points_data K auto s = (Some x, s') ->
  o_com K (ob s') = Some x /\
  par s' = match o_com K (ob s) with Some _ => par s | None => if auto then auto_range K (o_dyn K (ob s)) (par s) else par s end.
Proof.
  unfold get_commensurate_points_data. intros H. inv H. destruct (o_com K (ob s)) as [y|] eqn:Ey.
  - injection H as <- <-. split; [exact Ey|reflexivity].
  - set (first := if auto then _ else _) in H. apply bnd_Some in H as [[] [s1 [E1 H]]].
    assert (P1 : par s1 = if auto then auto_range K (o_dyn K (ob s)) (par s) else par s).
    { unfold first in E1. destruct auto; [|injection E1 as <-; reflexivity].
      unfold bnd at 1, gets at 1 in E1. cbn [QuasiModel.ob QuasiModel.par] in E1. unfold set_frequency_limits, bnd at 1, gets at 1 in E1.
      assert (Q := set_range_par (limits_range K 0%R (dos_max K (o_dyn K (ob s)) (p_other K (par s))) (p_res K (par s))) s).
      rewrite E1 in Q. exact (proj1 (proj2 Q)). }
    inv H. inv H. inv H. inv H. apply bnd_Some in H as [[] [s2 [E2 H]]]. injection H as <- <-.
    match type of E with com_loop _ _ _ _ = (_, ?s3) => assert (L : same_but_q s1 s3) by (exact (pres_eq _ _ _ _ _ (com_loop_q _ _) E)) end.
    assert (F : pres (fun a b => forall c, o_com K (ob a) = Some c -> o_com K (ob b) = Some c) (set_reduced_q_vector K (p_q K (par s1)))).
    { assert (HR : pre (fun a b : state => forall c, o_com K (ob a) = Some c -> o_com K (ob b) = Some c)) by (constructor; auto).
      unfold set_reduced_q_vector. walk HR; intros s3 c Hc; exact Hc. }
    split; [apply (pres_eq _ _ _ _ _ F E2); reflexivity|].
    match type of E2 with set_reduced_q_vector _ _ ?s3 = _ => assert (Q := set_q_par (p_q K (par s1)) s3) end. rewrite E2 in Q. cbn [fst snd QuasiModel.par] in Q.
    rewrite (proj1 Q). rewrite <- P1. apply with_q_back; exact L.
Qed.
Lemma rfc_par s x s' : get_renormalized_force_constants K s = (Some x, s') ->
  par s' = match o_com K (ob s) with Some _ => par s | None => auto_range K (o_dyn K (ob s)) (par s) end.
Proof.
  unfold get_renormalized_force_constants. intros H. apply bnd_Some in H as [c [s1 [E1 H]]]. destruct (com_par _ _ _ _ E1) as [_ P].
  inv H. destruct (o_rfc K (ob s1)); [injection H as <- <-; exact P|]. inv H. inv H. injection H as <- <-. exact P.
Qed.
Lemma fm_Some {A} (f : A -> value K) m s v s' : fm K f m s = (Some v, s') -> exists a, m s = (Some a, s') /\ v = f a.
Proof. unfold fm. intros H. apply bnd_Some in H as [a [s1 [E H]]]. injection H as <- <-. exists a. split; [exact E|reflexivity]. Qed.

Lemma wave_vector_restored c s s' x : visits_wave_vectors K c -> do_call K c s = (Some x, s') ->
  p_q K (par s') = p_q K (par s) /\ with_range K (p_range K (par s)) (par s') = par s /\ fst (do_call K (GetQ K) s') = fst (do_call K (GetQ K) s).
Proof.
  intros V H.
  assert (G : par s' = par s \/ exists r, par s' = with_range K r (par s)).
  { destruct c; cbn [visits_wave_vectors] in V; try contradiction; cbn [do_call] in H; apply fm_Some in H as [a [H _]].
    - left. exact (proj1 (phonon_par _ _ _ H)).
    - left. exact (proj1 (wave_par _ _ _ H)).
    - destruct (com_par _ _ _ _ H) as [_ P]. rewrite P. destruct (o_com K (ob s)); [left; reflexivity|]. destruct auto; [right; eexists; reflexivity|left; reflexivity].
    - rewrite (rfc_par _ _ _ H). destruct (o_com K (ob s)); [left; reflexivity|right; eexists; reflexivity]. }
  assert (Eq : p_q K (par s') = p_q K (par s)) by (destruct G as [->|[r ->]]; reflexivity).
  split; [exact Eq|]. split; [destruct G as [->|[r ->]]; destruct s as [[]]; reflexivity|].
  cbn. unfold fm, bnd, get_reduced_q_vector, gets, ret. cbn [fst]. rewrite Eq. reflexivity.
Qed.
Lemma user_range_lost s x : o_com K (ob s) = None -> fst (do_call K (GetRFC K) s) = Some x ->
  p_range K (par (snd (do_call K (GetRFC K) s))) = limits_range K 0%R (dos_max K (o_dyn K (ob s)) (p_other K (par s))) (p_res K (par s)).
Proof.
  intros Hc H. destruct (do_call K (GetRFC K) s) as [r s'] eqn:E. cbn [fst snd] in *. subst r. cbn [do_call] in E. apply fm_Some in E as [a [E _]].
  rewrite (rfc_par _ _ _ E), Hc. reflexivity.
Qed.

(** cached results *)
Definition cache (g : call K) (o : obj) : option (value K) :=
  match g with
  | GetVc _ => option_map (VVc K) (o_vc K o) | GetVq _ => option_map (VVq K) (o_vq K o) | GetPhonon _ => option_map (VPS K) (o_ph K o)
  | GetWave _ => option_map (VPS K) (o_wv K o) | GetFull _ _ => option_map (VPS K) (o_full K o) | GetPartials _ => option_map (VPS K) (o_part K o)
  | GetCom _ _ => option_map (VCom K) (o_com K o) | _ => None
  end.
Lemma cache_hit g s x : cache g (ob s) = Some x -> do_call K g s = (Some x, s).
Proof.
  destruct g; cbn [cache]; try discriminate; intros H; cbn [do_call];
  unfold fm, get_vc, get_vq, get_power_spectrum_phonon, get_power_spectrum_wave_vector, get_power_spectrum_full, get_power_spectrum_partials, get_commensurate_points_data, bnd, gets;
  match type of H with option_map _ ?f = _ => destruct f; [|discriminate] end; injection H as <-; reflexivity.
Qed.
Lemma cache_fill g s x s' : cache g (ob s) = cache g (ob s) -> match g with GetVc _ | GetVq _ | GetPhonon _ | GetWave _ | GetFull _ _ | GetPartials _ | GetCom _ _ => True | _ => False end ->
  do_call K g s = (Some x, s') -> cache g (ob s') = Some x.
Proof.
  intros _ V H. destruct g; try contradiction; cbn [do_call] in H; apply fm_Some in H as [a [H ->]]; cbn [cache].
  - unfold get_vc in H. inv H. destruct (o_vc K (ob s)) eqn:Ev; [injection H as <- <-; rewrite Ev; reflexivity|]. inv H. inv H. injection H as <- <-. reflexivity.
  - unfold get_vq in H. inv H. destruct (o_vq K (ob s)) eqn:Ev; [injection H as <- <-; rewrite Ev; reflexivity|]. inv H. inv H. inv H. injection H as <- <-. reflexivity.
  - rewrite (proj2 (phonon_par _ _ _ H)). reflexivity.
  - rewrite (proj2 (wave_par _ _ _ H)). reflexivity.
  - unfold get_power_spectrum_full in H. inv H. destruct (o_full K (ob s)) eqn:Ev; [injection H as <- <-; rewrite Ev; reflexivity|]. inv H. inv H. inv H. injection H as <- <-. reflexivity.
  - unfold get_power_spectrum_partials in H. inv H. destruct (o_part K (ob s)) eqn:Ev; [injection H as <- <-; rewrite Ev; reflexivity|]. inv H. inv H. inv H. injection H as <- <-. reflexivity.
  - rewrite (proj1 (com_par _ _ _ _ H)). reflexivity.
Qed.
Lemma fst_snd {A} (r : option A * state) x : fst r = Some x -> r = (Some x, snd r). Proof. destruct r; cbn; intros ->; reflexivity. Qed.
Lemma run_part h : forall s x, o_part K (ob s) = Some x -> o_part K (ob (run K h s)) = Some x.
Proof. induction h as [|c h IH]; intros s x H; [exact H|]. unfold run. cbn [fold_left]. apply IH. exact (call_part c s x H). Qed.
Lemma partials_frozen s x : fst (do_call K (GetPartials K) s) = Some x -> forall h, fst (do_call K (GetPartials K) (run K h (snd (do_call K (GetPartials K) s)))) = Some x.
Proof.
  intros H h. apply fst_snd in H. assert (C := cache_fill (GetPartials K) _ _ _ eq_refl I H). cbn [cache] in C.
  rewrite (cache_hit (GetPartials K) _ x); [reflexivity|]. cbn [cache].
  destruct (o_part K (ob (snd (do_call K (GetPartials K) s)))) as [y|] eqn:E; [|discriminate]. rewrite (run_part h _ y E). exact C.
Qed.
Lemma projection_ignored a g s x : spectrum_getter K g -> fst (do_call K g s) = Some x -> fst (do_call K g (snd (do_call K (SetProj K a) (snd (do_call K g s))))) = Some x.
Proof.
  intros V H. apply fst_snd in H. assert (C : cache g (ob (snd (do_call K g s))) = Some x) by (apply (cache_fill g _ _ _ eq_refl) in H; [exact H|destruct g; cbn in V; tauto]).
  rewrite (cache_hit g _ x); [reflexivity|]. set (s1 := snd (do_call K g s)) in *. cbn [do_call]. unfold fm, set_projection_onto_atom_type, bnd, gets.
  destruct ((0 <=? a) && _); exact C.
Qed.
Lemma crop_ignored n g s x : spectrum_getter K g -> g <> GetVc K -> fst (do_call K g s) = Some x -> fst (do_call K g (snd (do_call K (Crop K n) (snd (do_call K g s))))) = Some x.
Proof.
  intros V Ng H. apply fst_snd in H. assert (C : cache g (ob (snd (do_call K g s))) = Some x) by (apply (cache_fill g _ _ _ eq_refl) in H; [exact H|destruct g; cbn in V; tauto]).
  rewrite (cache_hit g _ x); [reflexivity|]. set (s1 := snd (do_call K g s)) in *. cbn [do_call]. unfold fm, crop_trajectory, bnd, gets.
  destruct (o_vc K (ob s1)); [destruct n; [|exact C]|destruct (crop K n _); [|exact C]]; destruct g; cbn in V; try contradiction; try exact C; congruence.
Qed.
Lemma coordinate_ignored c c' s x : fst (do_call K (GetFull K c) s) = Some x -> fst (do_call K (GetFull K c') (snd (do_call K (GetFull K c) s))) = Some x.
Proof.
  intros H. apply fst_snd in H. assert (C := cache_fill (GetFull K c) _ _ _ eq_refl I H). rewrite (cache_hit (GetFull K c') _ x); [reflexivity|exact C].
Qed.
Lemma data_ignores c auto auto' s x : ignored_by_data K c -> fst (do_call K (GetCom K auto) s) = Some x ->
  fst (do_call K (GetCom K auto') (snd (do_call K c (snd (do_call K (GetCom K auto) s))))) = Some x.
Proof.
  intros V H. apply fst_snd in H. assert (C := cache_fill (GetCom K auto) _ _ _ eq_refl I H). rewrite (cache_hit (GetCom K auto') _ x); [reflexivity|].
  set (s1 := snd (do_call K (GetCom K auto) s)) in *. destruct c; cbn in V; try contradiction; cbn [do_call]; unfold fm, crop_trajectory, set_projection_onto_atom_type, set_qha_force_constants, bnd, gets.
  - destruct (o_vc K (ob s1)); [destruct n; exact C|destruct (crop K n _); exact C].
  - destruct ((0 <=? a) && _); exact C.
  - exact C.
Qed.

(** two objects *)
Lemma shared_settings q (w : duo K) : p_q K (d_par K w) <> q -> fst (on_b K (GetQ K) (snd (on_a K (SetQ K q) w))) <> fst (on_b K (GetQ K) w).
Proof.
  intros Hq. unfold on_a. destruct (do_call K (SetQ K q) (MkS (d_par K w) (d_a K w))) as [r s] eqn:E.
  assert (Q := set_q_par q (MkS (d_par K w) (d_a K w))). cbn [do_call] in E. unfold fm, bnd in E.
  destruct (set_reduced_q_vector K q (MkS (d_par K w) (d_a K w))) as [r' s']. cbn in Q. destruct Q as [Q ->]. injection E as <- <-.
  cbn. rewrite Q. cbn. congruence.
Qed.
Lemma inconsistent q (w : duo K) x y : p_q K (d_par K w) <> q -> o_vc K (d_b K w) = Some x -> fst (on_b K (GetVc K) w) = Some y ->
  fst (on_b K (GetVc K) (snd (on_a K (SetQ K q) w))) = Some y /\ fst (on_b K (GetQ K) (snd (on_a K (SetQ K q) w))) = Some (VQv K q).
Proof.
  intros Hq Hx Hy. unfold on_a, on_b in *. rewrite (cache_hit (GetVc K) (MkS (d_par K w) (d_b K w)) (VVc K x)) in Hy by (cbn; rewrite Hx; reflexivity).
  cbn [fst] in Hy. injection Hy as <-.
  destruct (do_call K (SetQ K q) (MkS (d_par K w) (d_a K w))) as [r s] eqn:E.
  assert (Q := set_q_par q (MkS (d_par K w) (d_a K w))). cbn [do_call] in E. unfold fm, bnd in E.
  destruct (set_reduced_q_vector K q (MkS (d_par K w) (d_a K w))) as [r' s'] eqn:E'. cbn in Q. destruct Q as [Q ->]. injection E as <- <-. cbn [snd d_b d_par].
  rewrite (cache_hit (GetVc K) (MkS (par s') (d_b K w)) (VVc K x)) by (cbn; rewrite Hx; reflexivity). split; [reflexivity|].
  cbn. rewrite Q. reflexivity.
Qed.
Lemma own_data h : forall w : duo K, d_b K (fold_left (fun w c => snd (on_a K c w)) h w) = d_b K w.
Proof.
  induction h as [|c h IH]; intros w; [reflexivity|]. cbn [fold_left]. rewrite IH. unfold on_a. destruct (do_call K c _). reflexivity.
Qed.
Lemma temperature_settings s : par (snd (do_call K (GetTemp K) s)) = par s.
Proof.
  cbn [do_call]. unfold fm, get_temperature, bnd, gets, modo, modp, ret. cbv zeta.
  destruct (match o_temp K (ob s) with Some t => if Req_EM_T t 0 then None else Some t | None => None end); [reflexivity|]. destruct s as [[]]; reflexivity.
Qed.
Lemma getters_independent g c (w : duo K) : quiet_getter K g -> fst (on_a K g w) <> None -> fst (on_b K c (snd (on_a K g w))) = fst (on_b K c w).
Proof.
  intros V Hn. assert (P : d_par K (snd (on_a K g w)) = d_par K w /\ d_b K (snd (on_a K g w)) = d_b K w).
  { unfold on_a in *. destruct (do_call K g (MkS (d_par K w) (d_a K w))) as [[v|] s] eqn:E; cbn [fst snd d_par d_b] in *; [|congruence]. split; [|reflexivity].
    change (d_par K w) with (par (MkS (d_par K w) (d_a K w))).
    destruct g; cbn in V; try contradiction; try (cbn [do_call] in E; apply fm_Some in E as [a [E _]]).
    - unfold get_reduced_q_vector, gets in E. injection E as _ <-. reflexivity.
    - exact (pres_eq _ _ _ _ _ get_eig_p E).
    - exact (pres_eq _ _ _ _ _ get_freq_p E).
    - exact (pres_eq _ _ _ _ _ get_vc_p E).
    - exact (pres_eq _ _ _ _ _ get_vq_p E).
    - exact (proj1 (phonon_par _ _ _ E)).
    - exact (proj1 (wave_par _ _ _ E)).
    - assert (P : pres same_par (get_power_spectrum_full K c0)) by (unfold get_power_spectrum_full; walkp). exact (pres_eq _ _ _ _ _ P E).
    - assert (P : pres same_par (get_power_spectrum_partials K)) by (unfold get_power_spectrum_partials; walkp). exact (pres_eq _ _ _ _ _ P E).
    - assert (T := temperature_settings (MkS (d_par K w) (d_a K w))). cbn [do_call] in T. unfold fm, bnd in T. rewrite E in T. exact T. }
  destruct P as [P1 P2]. unfold on_b. rewrite P1, P2. destruct (do_call K c (MkS (d_par K w) (d_b K w))). reflexivity.
Qed.

(** C50 *)
Lemma selections n s :
  (do_call K (SelAlg K n) s = (None, s) <-> ~ (0 <= n <= 5)) /\
  (do_call K (SelFit K n) s = (None, s) <-> ~ (0 <= n <= 2)) /\
  (do_call K (SetProj K n) s = (None, s) <-> ~ (0 <= n < primitive_atoms K (o_dyn K (ob s)))) /\
  (0 <= n <= 5 -> fst (do_call K (SelAlg K n) s) = Some (VUnit K) /\ par (snd (do_call K (SelAlg K n) s)) = with_alg K n (par s)) /\
  (0 <= n <= 2 -> fst (do_call K (SelFit K n) s) = Some (VUnit K) /\ par (snd (do_call K (SelFit K n) s)) = with_fit K n (par s)) /\
  (0 <= n < primitive_atoms K (o_dyn K (ob s)) ->
     fst (do_call K (SetProj K n) s) = Some (VUnit K) /\ par (snd (do_call K (SetProj K n) s)) = with_proj K n (par s)).
Proof.
  cbn [do_call]. unfold fm, select_power_spectra_algorithm, select_fitting_function, set_projection_onto_atom_type, bnd, gets, modo, modp, ret, fail.
  assert (A : forall b c, (0 <=? n) && (n <=? b) = c -> if c then 0 <= n <= b else ~ (0 <= n <= b)).
  { intros b [] H; [apply andb_prop in H as [H1 H2]; lia|]. intros [H1 H2]. apply andb_false_iff in H as [H|H]; lia. }
  assert (B : forall b c, (0 <=? n) && (n <? b) = c -> if c then 0 <= n < b else ~ (0 <= n < b)).
  { intros b [] H; [apply andb_prop in H as [H1 H2]; lia|]. intros [H1 H2]. apply andb_false_iff in H as [H|H]; lia. }
  destruct ((0 <=? n) && (n <=? 5)) eqn:E1; apply A in E1;
  destruct ((0 <=? n) && (n <=? 2)) eqn:E2; apply A in E2;
  destruct ((0 <=? n) && (n <? primitive_atoms K (o_dyn K (ob s)))) eqn:E3; apply B in E3; cbn [fst snd QuasiModel.par QuasiModel.ob];
  (destruct (Z.eqb_spec n (p_alg K (par s))) as [Ea|Ea]; destruct (Z.eqb_spec n (p_fit K (par s))) as [Ef|Ef]; cbn [fst snd QuasiModel.par QuasiModel.ob];
   (split; [split; [intros H; first [discriminate|assumption]|intros H; first [contradiction|reflexivity]]|];
    split; [split; [intros H; first [discriminate|assumption]|intros H; first [contradiction|reflexivity]]|];
    split; [split; [intros H; first [discriminate|assumption]|intros H; first [contradiction|reflexivity]]|];
    split; [intros H; first [contradiction|split; [reflexivity|first [reflexivity|rewrite Ea; destruct s as [[]]; reflexivity]]]|];
    split; [intros H; first [contradiction|split; [reflexivity|first [reflexivity|rewrite Ef; destruct s as [[]]; reflexivity]]]|];
    intros H; first [contradiction|split; reflexivity])).
Qed.

(** C55 *)
Lemma run_temp h : forall s, Forall (fun c => match c with SetTemp _ _ => False | _ => True end) h -> forall t, o_temp K (ob s) = Some t -> t <> 0%R -> o_temp K (ob (run K h s)) = Some t.
Proof.
  induction h as [|c h IH]; intros s Hh t Ht Hn; [exact Ht|]. inversion Hh as [|? ? Hc Hr]; subst. unfold run. cbn [fold_left]. apply IH; [exact Hr| |exact Hn].
  destruct (match c with GetTemp _ => true | _ => false end) eqn:Ec.
  - destruct c; try discriminate. cbn [do_call]. unfold fm, get_temperature, bnd, gets. cbv zeta. rewrite Ht. destruct (Req_EM_T t 0); [contradiction|]. exact Ht.
  - assert (P : pres keeps_temp (do_call K c)) by (apply call_temp; destruct c; cbn in *; try tauto; discriminate). specialize (P s). unfold keeps_temp in P. rewrite P. exact Ht.
Qed.
Lemma temperature s : o_temp K (ob s) = None ->
  exists t s', do_call K (GetTemp K) s = (Some (VT K t), s') /\
  t = (maxwell_scale K (o_dyn K (ob s)) ^ 2 / (831446 / 1000000))%R /\ (0 <= t)%R /\ par s' = par s /\
  (t <> 0%R -> forall h, Forall (fun c => match c with SetTemp _ _ => False | _ => True end) h ->
     fst (do_call K (GetTemp K) (run K h s')) = Some (VT K t)).
Proof.
  intros Hn. destruct s as [p o]. cbn [QuasiModel.ob QuasiModel.par] in *.
  exists (maxwell_scale K (o_dyn K o) ^ 2 / kb_boltzmann)%R, (MkS p (put_temp K (Some (maxwell_scale K (o_dyn K o) ^ 2 / kb_boltzmann)%R) o)).
  split; [|split; [reflexivity|split; [|split; [reflexivity|]]]].
  - cbn [do_call]. unfold fm, get_temperature, bnd, gets. cbv zeta. cbn [QuasiModel.ob]. rewrite Hn. destruct p; reflexivity.
  - apply Rmult_le_pos; [apply pow2_ge_0|]. apply Rlt_le, Rinv_0_lt_compat. unfold kb_boltzmann. lra.
  - intros Ht h Hh. cbn [do_call]. unfold fm, get_temperature. unfold bnd at 1 2. unfold gets at 1. cbv zeta.
    rewrite (run_temp h (MkS p (put_temp K (Some (maxwell_scale K (o_dyn K o) ^ 2 / kb_boltzmann)%R) o)) Hh (maxwell_scale K (o_dyn K o) ^ 2 / kb_boltzmann)%R eq_refl Ht). destruct (Req_EM_T _ 0); [contradiction|]. reflexivity.
Qed.
End More.

(** histories with the cache invariant *)
Section Hist.
Context (K : kernels) (coord : Z).
Hypothesis H3 : three_d K.
Definition blank (o : obj K) : Prop :=
  o_vc K o = None /\ o_ev K o = None /\ o_fq K o = None /\ o_vq K o = None /\ o_ph K o = None /\ o_wv K o = None /\ o_full K o = None /\ o_com K o = None /\ o_rfc K o = None.
Lemma blank_Inv p o : length (p_q K p) = 3%nat -> blank o -> Inv K coord p o.
Proof.
  intros Hl [B1 [B2 [B3 [B4 [B5 [B6 [B7 [B8 B9]]]]]]]]. constructor; try exact Hl; intros x Hx; exfalso; congruence.
Qed.
Lemma setup_blank c p o : setup_call K c -> length (p_q K p) = 3%nat -> blank o ->
  exists r p' o', do_call K c (MkS K p o) = (r, MkS K p' o') /\ length (p_q K p') = 3%nat /\ blank o'.
Proof.
  intros Hc Hl B. assert (B' := B). destruct B as [B1 [B2 [B3 [B4 [B5 [B6 [B7 [B8 B9]]]]]]]].
  assert (BC : blank (power_spectra_clear K o)) by (unfold blank; cbn; tauto).
  assert (BF : blank (full_clear K o)) by (unfold blank; cbn; tauto).
  assert (BR : blank (force_constants_clear K o)) by (unfold blank; cbn; tauto).
  destruct c; cbn in Hc; try contradiction; cbn [do_call];
  unfold fm, crop_trajectory, set_NAC, set_number_of_mem_coefficients, set_projection_onto_atom_type, set_spectra_resolution, set_frequency_limits,
  set_frequency_range, set_reduced_q_vector, select_power_spectra_algorithm, select_fitting_function, set_temperature, set_qha_force_constants, bnd, gets, modo, modp, ret, fail; cbn [ob par].
  - rewrite B1. cbn [ob par]. destruct (crop K n (o_dyn K o)); (eexists _, _, _; split; [reflexivity|]; split; [exact Hl|assumption]).
  - eexists _, _, _; split; [reflexivity|]; split; [exact Hl|assumption].
  - eexists _, _, _; split; [reflexivity|]; split; [exact Hl|assumption].
  - destruct ((0 <=? a) && _); (eexists _, _, _; split; [reflexivity|]; split; [exact Hl|assumption]).
  - destruct (fr_eq_dec K _ _); (eexists _, _, _; split; [reflexivity|]; split; [exact Hl|assumption]).
  - destruct (fr_eq_dec K _ _); (eexists _, _, _; split; [reflexivity|]; split; [exact Hl|assumption]).
  - destruct (length q =? _)%nat; [destruct (qvec_eq_dec _ _)|]; (eexists _, _, _; split; [reflexivity|]; split; [exact Hc|assumption]).
  - destruct ((0 <=? a) && _); [destruct (a =? _)|]; (eexists _, _, _; split; [reflexivity|]; split; [exact Hl|assumption]).
  - destruct ((0 <=? f) && _); [destruct (f =? _)|]; (eexists _, _, _; split; [reflexivity|]; split; [exact Hl|assumption]).
  - eexists _, _, _; split; [reflexivity|]; split; [exact Hl|assumption].
  - eexists _, _, _; split; [reflexivity|]; split; [exact Hl|assumption].
Qed.
Lemma setup_run h : forall p o, Forall (setup_call K) h -> length (p_q K p) = 3%nat -> blank o ->
  exists p' o', run K h (MkS K p o) = MkS K p' o' /\ length (p_q K p') = 3%nat /\ blank o'.
Proof.
  induction h as [|c h IH]; intros p o Hh Hl B; [exists p, o; split; [reflexivity|split; assumption]|].
  inversion Hh as [|? ? Hc Ht]; subst. destruct (setup_blank c p o Hc Hl B) as [r [p1 [o1 [E1 [L1 B1]]]]].
  unfold run. cbn [fold_left]. rewrite E1. cbn [snd]. apply IH; assumption.
Qed.
Lemma whole_run p d setup h : length (p_q K p) = 3%nat -> Forall (setup_call K) setup -> Forall (ordinary K coord) h ->
  exists p' o', run K (setup ++ h) (MkS K p (new_obj K d None)) = MkS K p' o' /\ Inv K coord p' o'.
Proof.
  intros Hl Hs Hh. unfold run. rewrite fold_left_app. fold (run K setup (MkS K p (new_obj K d None))).
  destruct (setup_run setup p (new_obj K d None) Hs Hl) as [p1 [o1 [E1 [L1 B1]]]]; [unfold blank; cbn; tauto|]. rewrite E1.
  destruct (run_Inv K coord H3 h p1 o1 Hh (blank_Inv p1 o1 L1 B1)) as [p2 [o2 [E2 [I2 _]]]]. exists p2, o2. split; [exact E2|exact I2].
Qed.
Lemma history_fresh p d setup h : length (p_q K p) = 3%nat -> Forall (setup_call K) setup -> Forall (ordinary K coord) h ->
  let s := run K (setup ++ h) (MkS K p (new_obj K d None)) in
  let now := par K s in let traj := o_dyn K (ob K s) in
  fst (do_call K (GetEig K) s) = Some (VE K (fst (fresh_eig K traj now))) /\
  fst (do_call K (GetFreq K) s) = Some (VF K (snd (fresh_eig K traj now))) /\
  fst (do_call K (GetVc K) s) = Some (VVc K (fresh_vc K traj now)) /\
  fst (do_call K (GetVq K) s) = Some (VVq K (fresh_vq K traj now)) /\
  fst (do_call K (GetPhonon K) s) = option_map (VPS K) (fresh_phonon K traj now) /\
  fst (do_call K (GetWave K) s) = option_map (VPS K) (fresh_wave K traj now) /\
  fst (do_call K (GetFull K coord) s) = option_map (VPS K) (fresh_full K traj now coord).
Proof.
  intros Hl Hs Hh. destruct (whole_run p d setup h Hl Hs Hh) as [p' [o' [E I]]]. cbv zeta. rewrite E. cbn [par ob do_call]. clear E Hs Hh. unfold fm.
  split; [|split; [|split; [|split; [|split; [|split]]]]].
  - destruct (get_eig_ok K coord p' o' I) as [o1 [E1 _]]. unfold bnd. rewrite E1. reflexivity.
  - destruct (get_freq_ok K coord p' o' I) as [o1 [E1 _]]. unfold bnd. rewrite E1. reflexivity.
  - destruct (get_vc_ok K coord p' o' I) as [o1 [E1 _]]. unfold bnd. rewrite E1. reflexivity.
  - destruct (get_vq_ok K coord p' o' I) as [o1 [E1 _]]. unfold bnd. rewrite E1. reflexivity.
  - destruct (get_phonon_ok K coord H3 p' o' I) as [q1 [o1 [E1 _]]]. unfold bnd. rewrite E1. destruct (fresh_phonon K (o_dyn K o') p'); reflexivity.
  - destruct (get_wave_ok K coord H3 p' o' I) as [q1 [o1 [E1 _]]]. unfold bnd. rewrite E1. destruct (fresh_wave K (o_dyn K o') p'); reflexivity.
  - destruct (get_full_ok K coord p' o' I) as [q1 [o1 [E1 _]]]. unfold bnd. rewrite E1. destruct (fresh_full K (o_dyn K o') p' coord); reflexivity.
Qed.
Lemma history_com p d setup h : length (p_q K p) = 3%nat -> Forall (setup_call K) setup -> Forall (ordinary K coord) h ->
  let s := run K (setup ++ h) (MkS K p (new_obj K d None)) in
  forall auto,
  (forall c s', do_call K (GetCom K auto) s = (Some (VCom K c), s') ->
     fresh_com K (o_dyn K (ob K s')) (o_qha K (ob K s')) (par K s') = Some c) /\
  (forall f s', do_call K (GetRFC K) s = (Some (VFC K f), s') ->
     fresh_rfc K (o_dyn K (ob K s')) (o_qha K (ob K s')) (par K s') = Some f).
Proof.
  intros Hl Hs Hh. destruct (whole_run p d setup h Hl Hs Hh) as [p' [o' [E I]]]. cbv zeta. rewrite E. clear E Hs Hh. intros auto. cbn [do_call].
  split; intros c s' H; apply fm_Some in H as [a [H Ea]]; injection Ea as ->.
  - destruct (get_com_ok K coord H3 auto p' o' I) as [q1 [p1 [o1 [E1 [I1 [F1 [Q1 [S1 A1]]]]]]]]. rewrite E1 in H. injection H as Hc <-. cbn [ob par].
    rewrite (g_dyn _ _ _ F1), (g_qha _ _ _ F1), fresh_com_q. exact Hc.
  - destruct (get_rfc_ok K coord H3 p' o' I) as [q1 [p1 [o1 [E1 [I1 [F1 [Q1 [S1 A1]]]]]]]]. rewrite E1 in H. injection H as Hc <-. cbn [ob par].
    rewrite (g_dyn _ _ _ F1), (g_qha _ _ _ F1), fresh_rfc_q. exact Hc.
Qed.
End Hist.

(** Concrete kernels: results record what they were computed from. *)
Inductive psx := PAvg (l : list psx) | PVq (alg n : Z) (r : list R) (v : (Z * qvec * Z) * (Z * qvec)) (d : Z)
  | PVc (alg n : Z) (r : list R) (v : Z * qvec * Z) (d : Z) | PFull (alg n : Z) (r : list R) (a c d : Z) | PPart (alg n : Z) (r : list R) (d : Z).
Definition Kgen (vq_fails : bool) : kernels := {|
  D := Z; VC := Z * qvec * Z; VQ := (Z * qvec * Z) * (Z * qvec); E := Z * qvec; PS := psx; FC := list (list R); FR := list R;
  fr_eq_dec := list_eq_dec Req_EM_T; O := unit;
  crop := fun n d => match n with Some k => Some (Z.min k d) | None => Some d end;
  crop_vc := fun k v => v; primitive_atoms := fun _ => 2;
  eig := fun d q => ((d, q), [1; 2; 3]%R); project := fun d q a => (d, q, a); modes := fun v e => (v, e);
  spectrum_vq := fun alg n r _ v d => if vq_fails then None else Some (PVq alg n r v d);
  spectrum_vc := fun alg n r _ v d => Some (PVc alg n r v d);
  average := PAvg; spectrum_full := fun alg n r _ a c d => Some (PFull alg n r a c d); spectrum_partials := fun alg n r _ d => Some (PPart alg n r d);
  equivalent := fun _ q => [map Ropp q; q]; limits_range := fun lo hi res => [lo; hi]; respan := fun r res => r;
  com_points := fun _ _ => [gamma; [1/2; 0; 0]%R]; dos_max := fun _ _ => 10%R; qha_frequencies := fun _ _ _ => [1; 2; 3]%R;
  fit := fun _ _ f _ _ _ => (f, f); renormalize := fun f _ _ _ _ => f; maxwell_scale := fun _ => 3%R |}.
Definition Kfree := Kgen false.
Definition Kfail := Kgen true.
Lemma Kgen_3d b : three_d (Kgen b).
Proof.
  split.
  - intros d q Hq q' [<-|[<-|[]]]; [rewrite map_length|]; exact Hq.
  - intros d o q [<-|[<-|[]]]; reflexivity.
Qed.
Definition Kfree_3d : three_d Kfree := Kgen_3d false.
Definition p0 (K : kernels) (r : FR K) (o : O K) : params K := MkP K [1; 0; 0]%R 1 100 r 1%R (-1) true true 0 false false o.
Definition s0 : state Kfree := MkS Kfree (p0 Kfree [0; 1]%R tt) (new_obj Kfree 100 None).
Definition f0 : state Kfail := MkS Kfail (p0 Kfail [0; 1]%R tt) (new_obj Kfail 100 None).
Lemma com_example : exists c s', do_call Kfree (GetCom Kfree true) s0 = (Some (VCom Kfree c), s') /\ length (c_rows Kfree c) = 2%nat.
Proof.
  assert (I : Inv Kfree 0 (par Kfree s0) (ob Kfree s0)) by (apply new_Inv; reflexivity).
  destruct (get_com_ok Kfree 0 Kfree_3d true _ _ I) as [q1 [p1 [o1 [E1 [I1 [F1 [Q1 [S1 A1]]]]]]]].
  change (MkS Kfree (par Kfree s0) (ob Kfree s0)) with s0 in E1.
  assert (G : exists c, fresh_com Kfree (o_dyn Kfree (ob Kfree s0)) (o_qha Kfree (ob Kfree s0)) p1 = Some c /\ length (c_rows Kfree c) = 2%nat).
  { rewrite A1. cbn -[qvec_eq_dec gamma Rdiv]. unfold fresh_com. cbn -[qvec_eq_dec gamma Rdiv fresh_com_step].
    unfold fresh_com_step at 1. cbn -[qvec_eq_dec gamma Rdiv fresh_com_step fit_row].
    unfold fit_row. cbn -[qvec_eq_dec gamma Rdiv fresh_com_step]. destruct (qvec_eq_dec gamma gamma); [|congruence]. cbn -[qvec_eq_dec gamma Rdiv fresh_com_step].
    unfold fresh_com_step. cbn -[qvec_eq_dec gamma Rdiv fit_row].
    assert (Z0 : forall a b, (if qvec_eq_dec gamma a then 0%nat else if qvec_eq_dec gamma b then 0%nat else 0%nat) = 0%nat).
    { intros a b. destruct (qvec_eq_dec gamma a); [reflexivity|]. destruct (qvec_eq_dec gamma b); reflexivity. }
    match goal with |- context [match (if ?x then Some 0%nat else None) with _ => _ end] => destruct x end;
    try match goal with |- context [match (if ?x then Some 0%nat else None) with _ => _ end] => destruct x end; cbn -[qvec_eq_dec gamma Rdiv fit_row];
    (unfold fit_row; cbn -[qvec_eq_dec gamma Rdiv]; destruct (qvec_eq_dec _ gamma); cbn -[Rdiv]; eexists; (split; [reflexivity|reflexivity])). }
  destruct G as [c [G1 G2]]. exists c, (MkS Kfree (with_q Kfree q1 p1) o1). split; [|exact G2].
  cbn [do_call]. unfold fm, bnd. rewrite E1, G1. reflexivity.
Qed.
Lemma phonon_example : exists x s', do_call Kfree (GetPhonon Kfree) s0 = (Some x, s').
Proof.
  assert (I : Inv Kfree 0 (par Kfree s0) (ob Kfree s0)) by (apply new_Inv; reflexivity).
  destruct (get_phonon_ok Kfree 0 Kfree_3d _ _ I) as [q1 [o1 [E1 _]]]. change (MkS Kfree (par Kfree s0) (ob Kfree s0)) with s0 in E1.
  eexists _, _. cbn [do_call]. unfold fm, bnd. rewrite E1. reflexivity.
Qed.
Lemma exit_example : fst (do_call Kfail (GetPhonon Kfail) f0) = None /\
  fst (do_call Kfail (GetQ Kfail) (snd (do_call Kfail (GetPhonon Kfail) f0))) <> fst (do_call Kfail (GetQ Kfail) f0).
Proof.
  cbn -[qvec_eq_dec IZR Ropp]. unfold fm, bnd, get_power_spectrum_phonon, bnd, gets, get_reduced_q_vector, gets. cbn -[qvec_eq_dec IZR Ropp].
  unfold bnd, set_reduced_q_vector, bnd, gets. cbn -[qvec_eq_dec IZR Ropp].
  destruct (qvec_eq_dec [- (1); - 0; - 0]%R [1; 0; 0]%R) as [E|E]; [exfalso; injection E; intros; lra|].
  cbn -[qvec_eq_dec IZR Ropp]. split; [reflexivity|]. intros H. injection H. intros. lra.
Qed.
Section Rows.
Context (K : kernels).
Lemma index_of_some v l : forall i k, index_of v l k = Some i -> (k <= i)%nat /\ nth_error l (i - k) = Some v.
Proof.
  induction l as [|w l IH]; intros i k H; cbn in H; [discriminate|]. destruct (qvec_eq_dec w v) as [->|N].
  - injection H as <-. split; [lia|]. rewrite Nat.sub_diag. reflexivity.
  - apply IH in H. destruct H as [H1 H2]. split; [lia|]. replace (i - k)%nat with (S (i - S k)) by lia. exact H2.
Qed.
Lemma index_of_none v l : forall k, index_of v l k = None -> ~ In v l.
Proof.
  induction l as [|w l IH]; intros k H; cbn in *; [tauto|]. destruct (qvec_eq_dec w v) as [->|N]; [discriminate|]. intros [E|E]; [congruence|]. exact (IH _ H E).
Qed.
Lemma vector_in_list_some ts l : vector_in_list ts l <> 0%nat -> exists v, In v ts /\ nth_error l (vector_in_list ts l) = Some v.
Proof.
  induction ts as [|t ts IH]; cbn; [congruence|]. destruct (index_of t l 0) as [i|] eqn:E.
  - intros _. apply index_of_some in E. destruct E as [_ E]. rewrite Nat.sub_0_r in E. exists t. auto.
  - intros H. destruct (IH H) as (v & Hv & E'). exists v. auto.
Qed.
Lemma vector_in_list_zero ts l v : vector_in_list ts l = 0%nat -> In v ts -> In v l -> exists w, In w ts /\ nth_error l 0 = Some w.
Proof.
  induction ts as [|t ts IH]; cbn; [tauto|]. destruct (index_of t l 0) as [i|] eqn:E.
  - intros -> _ _. apply index_of_some in E. destruct E as [_ E]. exists t. auto.
  - intros H [->|Hv] Hl; [exfalso; exact (index_of_none _ _ _ E Hl)|]. destruct (IH H Hv Hl) as (w & Hw & E'). exists w. auto.
Qed.
Lemma zero3_spec l l' : zero3 l = Some l' -> l' = ([0; 0; 0]%R ++ skipn 3 l).
Proof. destruct l as [|a [|b [|c t]]]; cbn; try discriminate. intros H. injection H as <-. reflexivity. Qed.
Lemma fit_row_own d qha p q row : fit_row K d qha p q = Some row -> own_fit K d qha p q row.
Proof.
  unfold fit_row, own_fit. destruct (fresh_phonon K d (with_q K q p)) as [ps|]; [|discriminate]. intros H. exists ps. split; [reflexivity|]. cbv zeta in *.
  fold difference in *. change vminus with difference in *. 
  set (pw := fit K ps _ _ _ _ _) in *. change [0; 0; 0]%R with gamma. destruct (qvec_eq_dec q gamma) as [E|N].
  - destruct (zero3 (fst pw)) as [a|] eqn:Ea; [|discriminate]. destruct (zero3 (snd pw)) as [b|] eqn:Eb; [|discriminate]. injection H as <-.
    cbn [r_freq r_width r_shift]. apply zero3_spec in Ea, Eb. split; [congruence|]. split; [auto|]. reflexivity.
  - injection H as <-. cbn [r_freq r_width r_shift]. split; [auto|]. split; [congruence|reflexivity].
Qed.
Definition rows_ok d qha p (c : com_data K) := length (c_rows K c) = length (c_q K c) /\ length (c_eig K c) = length (c_q K c) /\
  (forall i q, nth_error (c_q K c) i = Some q -> nth_error (c_eig K c) i = Some (fst (eig K d q)) /\
     exists row, nth_error (c_rows K c) i = Some row /\ (own_fit K d qha p q row \/ reused K d p c i row) /\
     (p_sym K p = true -> (exists j q', (0 < j < i)%nat /\ nth_error (c_q K c) j = Some q' /\ In q' (equivalent K d q)) ->
        (forall q0, nth_error (c_q K c) 0 = Some q0 -> ~ In q0 (equivalent K d q)) -> reused K d p c i row)).
Lemma nth_error_snoc {A} (l : list A) x i y : nth_error (l ++ [x]) i = Some y -> nth_error l i = Some y \/ (i = length l /\ y = x).
Proof.
  intros H. destruct (Nat.lt_ge_cases i (length l)) as [L|L].
  - left. rewrite nth_error_app1 in H by exact L. exact H.
  - right. rewrite nth_error_app2 in H by exact L. destruct (i - length l)%nat as [|k] eqn:E; cbn in H; [|destruct k; discriminate]. split; [lia|congruence].
Qed.
Lemma nth_error_keep {A} (l m : list A) i y : nth_error l i = Some y -> nth_error (l ++ m) i = Some y.
Proof. intros H. rewrite nth_error_app1; [exact H|]. apply nth_error_Some. congruence. Qed.
Lemma reused_keep d p c row' e' q' i row : reused K d p c i row -> reused K d p (MkCom K (c_rows K c ++ [row']) (c_eig K c ++ [e']) (c_q K c ++ [q'])) i row.
Proof.
  intros (S & j & q & B & Hq & (q2 & Hq2 & Hin) & Hr). split; [exact S|]. exists j, q. cbn [c_q c_rows]. split; [exact B|]. split; [apply nth_error_keep, Hq|].
  split; [exists q2; split; [apply nth_error_keep, Hq2|exact Hin]|apply nth_error_keep, Hr].
Qed.
Lemma step_rows_ok d qha p c q c' : rows_ok d qha p c -> fresh_com_step K d qha p c q = Some c' -> rows_ok d qha p c' /\ c_q K c' = c_q K c ++ [q].
Proof.
  intros (Hl & Hle & Hr) H. unfold fresh_com_step in H. cbv zeta in H.
  set (i := vector_in_list (equivalent K d q) (c_q K c)) in *.
  destruct (if negb (i =? 0)%nat && p_sym K p then nth_error (c_rows K c) i else fit_row K d qha p q) as [row|] eqn:E; [|discriminate].
  cbn [option_map] in H. injection H as <-. cbn [c_q]. split; [|reflexivity]. split; [cbn [c_rows c_q]; rewrite !app_length, Hl; reflexivity|]. split; [cbn [c_eig c_q]; rewrite !app_length, Hle; reflexivity|].
  intros k qk Hk. cbn [c_q c_rows c_eig] in *. apply nth_error_snoc in Hk. destruct Hk as [Hk|[-> ->]].
  - destruct (Hr k qk Hk) as (He & row' & Hrow & Hor & Hre). split; [apply nth_error_keep, He|]. exists row'. split; [apply nth_error_keep, Hrow|].
    assert (Lk : (k < length (c_q K c))%nat) by (apply nth_error_Some; congruence).
    split; [destruct Hor as [Ho|Ho]; [left; exact Ho|right; apply reused_keep, Ho]|].
    intros S (j & q' & B & Hj & Hin) H0. apply reused_keep, Hre; [exact S| |].
    + exists j, q'. split; [exact B|]. split; [|exact Hin]. rewrite nth_error_app1 in Hj by lia. exact Hj.
    + intros q0 E0. apply H0. apply nth_error_keep, E0.
  - split; [rewrite nth_error_app2, Hle, Nat.sub_diag by lia; reflexivity|]. exists row.
    split; [rewrite nth_error_app2, Hl, Nat.sub_diag by lia; reflexivity|].
    assert (RE : (i =? 0)%nat = false -> p_sym K p = true -> reused K d p (MkCom K (c_rows K c ++ [row]) (c_eig K c ++ [fst (eig K d q)]) (c_q K c ++ [q])) (length (c_q K c)) row).
    { intros Ei S. rewrite Ei, S in E. cbn [negb andb] in E. apply Nat.eqb_neq in Ei. destruct (vector_in_list_some _ _ Ei) as (v & Hv & Ev). fold i in Ev.
      assert (Li : (i < length (c_q K c))%nat) by (apply nth_error_Some; congruence). split; [exact S|]. exists i, v. cbn [c_q c_rows]. split; [lia|].
      split; [apply nth_error_keep, Ev|]. split; [exists q; split; [rewrite nth_error_app2, Nat.sub_diag by lia; reflexivity|exact Hv]|apply nth_error_keep, E]. }
    split.
    + destruct (i =? 0)%nat eqn:Ei; [left; apply fit_row_own; exact E|]. destruct (p_sym K p) eqn:S; [right; apply RE; reflexivity|left; apply fit_row_own; exact E].
    + intros S (j & q' & B & Hj & Hin) H0. apply RE; [|exact S]. apply Nat.eqb_neq. intros Zi. rewrite nth_error_app1 in Hj by lia.
      destruct (vector_in_list_zero _ _ q' Zi Hin (nth_error_In _ _ Hj)) as (w & Hw & E0). apply (H0 w); [apply nth_error_keep, E0|exact Hw].
Qed.
Lemma from_rows_ok d qha p : forall l c c', rows_ok d qha p c -> fresh_com_from K d qha p l c = Some c' -> rows_ok d qha p c' /\ c_q K c' = c_q K c ++ l.
Proof.
  induction l as [|q l IH]; intros c c' Hc H; cbn [fresh_com_from] in H.
  - injection H as <-. rewrite app_nil_r. auto.
  - destruct (fresh_com_step K d qha p c q) as [a|] eqn:E; [|discriminate]. destruct (step_rows_ok _ _ _ _ _ _ Hc E) as [Ha Eq].
    destruct (IH _ _ Ha H) as [H1 H2]. split; [exact H1|]. rewrite H2, Eq, <- app_assoc. reflexivity.
Qed.
Lemma com_rows d qha p c : fresh_com K d qha p = Some c -> rows_ok d qha p c /\ c_q K c = com_points K d (p_other K p).
Proof.
  intros H. apply from_rows_ok in H; [exact H|]. split; [reflexivity|]. split; [reflexivity|]. intros [|i] q Hq; discriminate.
Qed.
Lemma crop_new n p d : match crop K n d with
  | Some d' => do_call K (Crop K n) (MkS K p (new_obj K d None)) = (Some (VUnit K), MkS K p (new_obj K d' None))
  | None => do_call K (Crop K n) (MkS K p (new_obj K d None)) = (None, MkS K p (new_obj K d None)) end.
Proof. cbn. unfold fm, crop_trajectory, bnd, gets, modo. cbn. destruct (crop K n d); reflexivity. Qed.
End Rows.
