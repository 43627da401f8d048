From Verif Require Import QuasiModel QuasiSpec.
From Coq Require Import Lia.
Open Scope Z_scope.

Section Proofs.
Context (K : kernels) (coord : Z).
Hypothesis H3 : three_d K.
Local Notation params := (params K). Local Notation obj := (obj K). Local Notation state := (state K).
Local Notation MkS := (MkS K). Local Notation with_q := (with_q K).
Local Notation par := (par K). Local Notation ob := (ob K). Local Notation dyn := (o_dyn K). Local Notation qha := (o_qha K).

Record Inv (p : params) (o : obj) : Prop := {
  i_len : length (p_q K p) = 3%nat;
  i_vc : forall x, o_vc K o = Some x -> x = fresh_vc K (dyn o) p;
  i_ev : forall x, o_ev K o = Some x -> x = fst (fresh_eig K (dyn o) p);
  i_fq : forall x, o_fq K o = Some x -> x = snd (fresh_eig K (dyn o) p);
  i_vq : forall x, o_vq K o = Some x -> x = fresh_vq K (dyn o) p;
  i_ph : forall x, o_ph K o = Some x -> fresh_phonon K (dyn o) p = Some x;
  i_wv : forall x, o_wv K o = Some x -> fresh_wave K (dyn o) p = Some x;
  i_full : forall x, o_full K o = Some x -> fresh_full K (dyn o) p coord = Some x;
  i_com : forall x, o_com K o = Some x -> fresh_com K (dyn o) (qha o) p = Some x;
  i_rfc : forall x, o_rfc K o = Some x -> fresh_rfc K (dyn o) (qha o) p = Some x }.
Record frame (o o' : obj) : Prop := {
  f_dyn : dyn o' = dyn o; f_qha : qha o' = qha o; f_temp : o_temp K o' = o_temp K o; f_part : o_part K o' = o_part K o;
  f_com : o_com K o' = o_com K o; f_rfc : o_rfc K o' = o_rfc K o }.
Lemma frame_refl o : frame o o. Proof. constructor; reflexivity. Qed.
Lemma frame_trans a b c : frame a b -> frame b c -> frame a c.
Proof. intros [] []. constructor; congruence. Qed.

Lemma with_q_same p : with_q (p_q K p) p = p. Proof. destruct p; reflexivity. Qed.
Lemma with_q_twice q q' p : with_q q (with_q q' p) = with_q q p. Proof. reflexivity. Qed.

Lemma fresh_com_step_ext d h p p' : p_alg K p' = p_alg K p -> p_ncoef K p' = p_ncoef K p -> p_range K p' = p_range K p ->
  p_proj K p' = p_proj K p -> p_sym K p' = p_sym K p -> p_fit K p' = p_fit K p -> p_other K p' = p_other K p ->
  forall acc q, fresh_com_step K d h p' acc q = fresh_com_step K d h p acc q.
Proof.
  destruct p, p'. cbn. intros -> -> -> -> -> -> -> acc q. reflexivity.
Qed.
Lemma fresh_com_from_ext d h p p' : (forall acc q, fresh_com_step K d h p' acc q = fresh_com_step K d h p acc q) ->
  forall l acc, fresh_com_from K d h p' l acc = fresh_com_from K d h p l acc.
Proof.
  intros H. induction l as [|x l IH]; intros a; [reflexivity|]. cbn [fresh_com_from]. rewrite H.
  destruct (fresh_com_step K d h p a x); [apply IH|reflexivity].
Qed.
Lemma fresh_com_ext d h p p' : p_alg K p' = p_alg K p -> p_ncoef K p' = p_ncoef K p -> p_range K p' = p_range K p ->
  p_proj K p' = p_proj K p -> p_sym K p' = p_sym K p -> p_fit K p' = p_fit K p -> p_other K p' = p_other K p ->
  fresh_com K d h p' = fresh_com K d h p.
Proof.
  intros A1 A2 A3 A4 A5 A6 A7. unfold fresh_com. rewrite A7. apply fresh_com_from_ext. apply fresh_com_step_ext; assumption.
Qed.
Lemma fresh_rfc_ext d h p p' : p_alg K p' = p_alg K p -> p_ncoef K p' = p_ncoef K p -> p_range K p' = p_range K p ->
  p_proj K p' = p_proj K p -> p_sym K p' = p_sym K p -> p_fit K p' = p_fit K p -> p_other K p' = p_other K p -> p_symmetrize K p' = p_symmetrize K p ->
  fresh_rfc K d h p' = fresh_rfc K d h p.
Proof. intros A1 A2 A3 A4 A5 A6 A7 A8. unfold fresh_rfc. rewrite (fresh_com_ext d h p p') by assumption. rewrite A7, A8. reflexivity. Qed.
Lemma fresh_com_q d h p q : fresh_com K d h (with_q q p) = fresh_com K d h p.
Proof. apply fresh_com_ext; reflexivity. Qed.
Lemma fresh_rfc_q d h p q : fresh_rfc K d h (with_q q p) = fresh_rfc K d h p.
Proof. apply fresh_rfc_ext; reflexivity. Qed.
(** settings that only differ in NAC, resolution and silent *)
Lemma Inv_ext p p' o : p_q K p' = p_q K p -> p_alg K p' = p_alg K p -> p_ncoef K p' = p_ncoef K p -> p_range K p' = p_range K p ->
  p_proj K p' = p_proj K p -> p_sym K p' = p_sym K p -> p_fit K p' = p_fit K p -> p_other K p' = p_other K p -> p_symmetrize K p' = p_symmetrize K p ->
  Inv p o -> Inv p' o.
Proof.
  intros A0 A1 A2 A3 A4 A5 A6 A7 A8 []. assert (C := fresh_com_ext (dyn o) (qha o) p p' A1 A2 A3 A4 A5 A6 A7). assert (R := fresh_rfc_ext (dyn o) (qha o) p p' A1 A2 A3 A4 A5 A6 A7 A8).
  constructor; rewrite ?C, ?R; try assumption; destruct p, p'; cbn in *; subst; assumption.
Qed.

Lemma set_q_ok q p o : Inv p o -> length q = 3%nat ->
  exists o', set_reduced_q_vector K q (MkS p o) = (Some tt, MkS (with_q q p) o') /\ Inv (with_q q p) o' /\ frame o o'.
Proof.
  intros I Hq. unfold set_reduced_q_vector, bnd, gets. cbn [par ob QuasiModel.par QuasiModel.ob].
  rewrite Hq, (i_len _ _ I). cbn [Nat.eqb].
  destruct (qvec_eq_dec q (p_q K p)) as [->|Ne].
  - exists o. rewrite with_q_same. split; [unfold ret, modp; cbn; rewrite with_q_same; reflexivity|]. split; [exact I|apply frame_refl].
  - exists (full_clear K o). split; [reflexivity|]. split; [|constructor; reflexivity].
    destruct I. constructor; cbn; try discriminate; try assumption.
    + intros x Hx. rewrite fresh_com_q. auto.
    + intros x Hx. rewrite fresh_rfc_q. auto.
Qed.
Lemma get_eig_ok p o : Inv p o -> exists o', get_eigenvectors K (MkS p o) = (Some (fst (fresh_eig K (dyn o) p)), MkS p o') /\ Inv p o' /\ frame o o'.
Proof.
  intros I. unfold get_eigenvectors, bnd, gets. cbn [QuasiModel.par QuasiModel.ob]. destruct (o_ev K o) as [e|] eqn:Ee.
  - exists o. rewrite <- (i_ev _ _ I e Ee). split; [reflexivity|]. split; [exact I|apply frame_refl].
  - eexists. split; [reflexivity|]. split; [|constructor; reflexivity].
    destruct I. constructor; cbn; try assumption; try (intros x [= <-]; reflexivity).
Qed.
Lemma get_freq_ok p o : Inv p o -> exists o', get_frequencies K (MkS p o) = (Some (snd (fresh_eig K (dyn o) p)), MkS p o') /\ Inv p o' /\ frame o o'.
Proof.
  intros I. unfold get_frequencies, bnd, gets. cbn [QuasiModel.par QuasiModel.ob]. destruct (o_fq K o) as [e|] eqn:Ee.
  - exists o. rewrite <- (i_fq _ _ I e Ee). split; [reflexivity|]. split; [exact I|apply frame_refl].
  - eexists. split; [reflexivity|]. split; [|constructor; reflexivity].
    destruct I. constructor; cbn; try assumption; try (intros x [= <-]; reflexivity).
Qed.
Lemma get_vc_ok p o : Inv p o -> exists o', get_vc K (MkS p o) = (Some (fresh_vc K (dyn o) p), MkS p o') /\ Inv p o' /\ frame o o'.
Proof.
  intros I. unfold get_vc, bnd, gets. cbn [QuasiModel.par QuasiModel.ob]. destruct (o_vc K o) as [e|] eqn:Ee.
  - exists o. rewrite <- (i_vc _ _ I e Ee). split; [reflexivity|]. split; [exact I|apply frame_refl].
  - eexists. split; [reflexivity|]. split; [|constructor; reflexivity].
    destruct I. constructor; cbn; try assumption; try (intros x [= <-]; reflexivity).
Qed.
Lemma get_vq_ok p o : Inv p o -> exists o', get_vq K (MkS p o) = (Some (fresh_vq K (dyn o) p), MkS p o') /\ Inv p o' /\ frame o o'.
Proof.
  intros I. unfold get_vq. unfold bnd at 1. unfold gets. cbn [QuasiModel.par QuasiModel.ob]. destruct (o_vq K o) as [e|] eqn:Ee.
  - exists o. rewrite <- (i_vq _ _ I e Ee). split; [reflexivity|]. split; [exact I|apply frame_refl].
  - destruct (get_vc_ok p o I) as [o1 [E1 [I1 F1]]]. unfold bnd at 1. rewrite E1.
    destruct (get_eig_ok p o1 I1) as [o2 [E2 [I2 F2]]]. unfold bnd at 1. rewrite E2. rewrite (f_dyn _ _ F1).
    eexists. split; [reflexivity|]. assert (F := frame_trans _ _ _ F1 F2). split.
    + destruct I2. constructor; cbn; try assumption; rewrite ?(f_dyn _ _ F); try (intros x [= <-]; reflexivity); rewrite <- ?(f_dyn _ _ F); assumption.
    + destruct F. constructor; cbn; assumption.
Qed.
Lemma run_spectrum_vq_eq v p o : run_spectrum_vq K v (MkS p o) =
  (spectrum_vq K (p_alg K p) (p_ncoef K p) (p_range K p) (p_other K p) v (dyn o), MkS p o).
Proof. reflexivity. Qed.
Lemma run_spectrum_vc_eq v p o : run_spectrum_vc K v (MkS p o) =
  (spectrum_vc K (p_alg K p) (p_ncoef K p) (p_range K p) (p_other K p) v (dyn o), MkS p o).
Proof. reflexivity. Qed.

(** the loops over equivalent wave vectors *)
Lemma sym_loop (body : M K (PS K)) (at_q : params -> D K -> qvec -> option (PS K)) :
  (forall p q p0, p = with_q q p0 -> forall d, at_q p d = at_q p0 d) ->
  (forall p o, Inv p o -> exists o', body (MkS p o) = (at_q p (dyn o) (p_q K p), MkS p o') /\ Inv p o' /\ frame o o') ->
  forall qs p o, Inv p o -> (forall q, In q qs -> length q = 3%nat) ->
  exists q' o', mapM K (fun q => bnd K (set_reduced_q_vector K q) (fun _ => body)) qs (MkS p o)
    = (all_some (map (at_q p (dyn o)) qs), MkS (with_q q' p) o') /\ Inv (with_q q' p) o' /\ frame o o'.
Proof.
  intros Hq Hb. induction qs as [|q qs IH]; intros p o I Hl.
  - exists (p_q K p), o. rewrite with_q_same. split; [reflexivity|]. split; [exact I|apply frame_refl].
  - cbn [mapM map all_some]. destruct (set_q_ok q p o I (Hl q (or_introl eq_refl))) as [o1 [E1 [I1 F1]]].
    unfold bnd at 1 2. rewrite E1.
    destruct (Hb _ _ I1) as [o2 [E2 [I2 F2]]]. rewrite E2. rewrite (Hq (with_q q p) q p eq_refl), (f_dyn _ _ F1).
    change (p_q K (with_q q p)) with q.
    assert (F := frame_trans _ _ _ F1 F2).
    destruct (at_q p (dyn o) q) as [x|].
    2:{ exists q, o2. split; [reflexivity|]. split; assumption. }
    destruct (IH (with_q q p) o2 I2 (fun a Ha => Hl a (or_intror Ha))) as [q' [o' [E' [I' F']]]].
    unfold bnd at 1. rewrite E'. rewrite (Hq (with_q q p) q p eq_refl), (f_dyn _ _ F).
    exists q', o'. rewrite with_q_twice in *. assert (F0 := frame_trans _ _ _ F F').
    destruct (all_some (map (at_q p (dyn o)) qs)); (split; [reflexivity|split; assumption]).
Qed.

(** what a spectrum getter guarantees *)
Definition getter_ok (m : M K (PS K)) (fresh : D K -> params -> option (PS K)) : Prop :=
  forall p o, Inv p o -> exists q' o', m (MkS p o) = (fresh (dyn o) p, MkS (with_q q' p) o') /\ Inv (with_q q' p) o' /\ frame o o' /\
  (fresh (dyn o) p <> None -> q' = p_q K p).

Lemma get_phonon_ok : getter_ok (get_power_spectrum_phonon K) (fresh_phonon K).
Proof.
  intros p o I. unfold get_power_spectrum_phonon. unfold bnd at 1. unfold gets at 1. cbn [QuasiModel.par QuasiModel.ob].
  destruct (o_ph K o) as [x|] eqn:Ex.
  - exists (p_q K p), o. rewrite with_q_same, (i_ph _ _ I x Ex). split; [reflexivity|]. split; [exact I|]. split; [apply frame_refl|]. reflexivity.
  - unfold bnd at 1. unfold gets at 1. cbn [QuasiModel.par QuasiModel.ob]. destruct (p_sym K p) eqn:Es.
    + unfold bnd at 1, get_reduced_q_vector, gets at 1. unfold bnd at 1. unfold gets at 1. cbn [QuasiModel.par QuasiModel.ob].
      destruct (sym_loop (bnd K (get_vq K) (run_spectrum_vq K)) (fun p d => phonon_at K d p)) with (qs := equivalent K (dyn o) (p_q K p)) (p := p) (o := o)
        as [q' [o1 [E1 [I1 F1]]]].
      * intros p' q p0 -> d. reflexivity.
      * intros p' o' I'. destruct (get_vq_ok p' o' I') as [o2 [E2 [I2 F2]]]. exists o2. unfold bnd. rewrite E2, run_spectrum_vq_eq, (f_dyn _ _ F2).
        split; [reflexivity|split; assumption].
      * exact I.
      * intros q. apply (proj1 H3). apply (i_len _ _ I).
      * unfold bnd at 1. rewrite E1. unfold fresh_phonon, by_symmetry. rewrite Es.
        destruct (all_some (map (phonon_at K (dyn o) p) (equivalent K (dyn o) (p_q K p)))) as [l|] eqn:El; cbn [option_map].
        -- destruct (set_q_ok (p_q K p) _ _ I1 (i_len _ _ I)) as [o2 [E2 [I2 F2]]]. unfold bnd at 1. rewrite E2.
           rewrite with_q_twice, with_q_same in *. exists (p_q K p). eexists. rewrite with_q_same. split; [reflexivity|].
           assert (F := frame_trans _ _ _ F1 F2). split; [|split; [destruct F; constructor; cbn; assumption|reflexivity]].
           destruct I2. constructor; cbn; try assumption. intros x [= <-]. rewrite (f_dyn _ _ F).
           unfold fresh_phonon, by_symmetry. rewrite Es, El. reflexivity.
        -- exists q', o1. split; [reflexivity|]. split; [assumption|]. split; [assumption|]. intros N. destruct (N eq_refl).
    + destruct (get_vq_ok p o I) as [o1 [E1 [I1 F1]]]. unfold bnd at 1. rewrite E1. unfold bnd at 1. rewrite run_spectrum_vq_eq, (f_dyn _ _ F1).
      assert (Ef : fresh_phonon K (dyn o) p = spectrum_vq K (p_alg K p) (p_ncoef K p) (p_range K p) (p_other K p) (fresh_vq K (dyn o) p) (dyn o)).
      { unfold fresh_phonon, by_symmetry. rewrite Es. reflexivity. }
      rewrite <- Ef. destruct (fresh_phonon K (dyn o) p) as [x|] eqn:Ep.
      * exists (p_q K p). eexists. rewrite with_q_same. split; [reflexivity|]. split; [|split; [destruct F1; constructor; cbn; assumption|reflexivity]].
        destruct I1. constructor; cbn; try assumption. intros y [= <-]. rewrite (f_dyn _ _ F1). exact Ep.
      * exists (p_q K p), o1. rewrite with_q_same. split; [reflexivity|]. split; [assumption|]. split; [assumption|]. reflexivity.
Qed.
Lemma get_wave_ok : getter_ok (get_power_spectrum_wave_vector K) (fresh_wave K).
Proof.
  intros p o I. unfold get_power_spectrum_wave_vector. unfold bnd at 1. unfold gets at 1. cbn [QuasiModel.par QuasiModel.ob].
  destruct (o_wv K o) as [x|] eqn:Ex.
  - exists (p_q K p), o. rewrite with_q_same, (i_wv _ _ I x Ex). split; [reflexivity|]. split; [exact I|]. split; [apply frame_refl|]. reflexivity.
  - destruct (get_vc_ok p o I) as [o0 [E0 [I0 F0]]]. unfold bnd at 1. rewrite E0.
    unfold bnd at 1. unfold gets at 1. cbn [QuasiModel.par QuasiModel.ob]. destruct (p_sym K p) eqn:Es.
    + unfold bnd at 1, get_reduced_q_vector, gets at 1. unfold bnd at 1. unfold gets at 1. cbn [QuasiModel.par QuasiModel.ob].
      destruct (sym_loop (bnd K (get_vc K) (run_spectrum_vc K)) (fun p d => wave_at K d p)) with (qs := equivalent K (dyn o0) (p_q K p)) (p := p) (o := o0)
        as [q' [o1 [E1 [I1 F1]]]].
      * intros p' q p0 -> d. reflexivity.
      * intros p' o' I'. destruct (get_vc_ok p' o' I') as [o2 [E2 [I2 F2]]]. exists o2. unfold bnd. rewrite E2, run_spectrum_vc_eq, (f_dyn _ _ F2).
        split; [reflexivity|split; assumption].
      * exact I0.
      * intros q. apply (proj1 H3). apply (i_len _ _ I).
      * unfold bnd at 1. rewrite E1. unfold fresh_wave, by_symmetry. rewrite Es. rewrite (f_dyn _ _ F0) in *.
        assert (F01 := frame_trans _ _ _ F0 F1).
        destruct (all_some (map (wave_at K (dyn o) p) (equivalent K (dyn o) (p_q K p)))) as [l|] eqn:El; cbn [option_map].
        -- destruct (set_q_ok (p_q K p) _ _ I1 (i_len _ _ I)) as [o2 [E2 [I2 F2]]]. unfold bnd at 1. rewrite E2.
           rewrite with_q_twice, with_q_same in *. exists (p_q K p). eexists. rewrite with_q_same. split; [reflexivity|].
           assert (F := frame_trans _ _ _ F01 F2). split; [|split; [destruct F; constructor; cbn; assumption|reflexivity]].
           destruct I2. constructor; cbn; try assumption. intros x [= <-]. rewrite (f_dyn _ _ F).
           unfold fresh_wave, by_symmetry. rewrite Es, El. reflexivity.
        -- exists q', o1. split; [reflexivity|]. split; [assumption|]. split; [assumption|]. intros N. destruct (N eq_refl).
    + destruct (get_vc_ok p o0 I0) as [o1 [E1 [I1 F1]]]. unfold bnd at 1. rewrite E1. unfold bnd at 1. rewrite run_spectrum_vc_eq, (f_dyn _ _ F1), (f_dyn _ _ F0).
      assert (F := frame_trans _ _ _ F0 F1).
      assert (Ef : fresh_wave K (dyn o) p = spectrum_vc K (p_alg K p) (p_ncoef K p) (p_range K p) (p_other K p) (fresh_vc K (dyn o) p) (dyn o)).
      { unfold fresh_wave, by_symmetry. rewrite Es. reflexivity. }
      rewrite <- Ef. destruct (fresh_wave K (dyn o) p) as [x|] eqn:Ep.
      * exists (p_q K p). eexists. rewrite with_q_same. split; [reflexivity|]. split; [|split; [destruct F; constructor; cbn; assumption|reflexivity]].
        destruct I1. constructor; cbn; try assumption. intros y [= <-]. rewrite (f_dyn _ _ F). exact Ep.
      * exists (p_q K p), o1. rewrite with_q_same. split; [reflexivity|]. split; [assumption|]. split; [assumption|]. reflexivity.
Qed.
Lemma get_full_ok : getter_ok (get_power_spectrum_full K coord) (fun d p => fresh_full K d p coord).
Proof.
  intros p o I. unfold get_power_spectrum_full. unfold bnd at 1. unfold gets at 1. cbn [QuasiModel.par QuasiModel.ob]. exists (p_q K p). rewrite with_q_same.
  destruct (o_full K o) as [x|] eqn:Ex.
  - exists o. rewrite (i_full _ _ I x Ex). split; [reflexivity|]. split; [exact I|]. split; [apply frame_refl|]. reflexivity.
  - unfold bnd at 1. unfold gets at 1. cbn [QuasiModel.par QuasiModel.ob]. fold (fresh_full K (dyn o) p coord). unfold bnd at 1, lift.
    destruct (fresh_full K (dyn o) p coord) as [x|] eqn:Ep.
    + eexists. split; [reflexivity|]. split; [|split; [constructor; reflexivity|reflexivity]].
      destruct I. constructor; cbn; try assumption. intros y [= <-]. exact Ep.
    + exists o. split; [reflexivity|]. split; [exact I|]. split; [apply frame_refl|]. reflexivity.
Qed.

(** commensurate points *)
Lemma get_qha_shift_ok q p o : Inv p o -> exists o',
  get_qha_shift K q (MkS p o) = (Some (option_map (fun fc => vminus (qha_frequencies K (dyn o) fc q) (snd (fresh_eig K (dyn o) p))) (qha o)), MkS p o') /\ Inv p o' /\ frame o o'.
Proof.
  intros I. unfold get_qha_shift. unfold bnd at 1. unfold gets at 1. cbn [QuasiModel.par QuasiModel.ob]. destruct (qha o) as [fc|] eqn:Eq.
  - unfold bnd at 1. unfold gets at 1. cbn [QuasiModel.par QuasiModel.ob].
    destruct (get_freq_ok p o I) as [o1 [E1 [I1 F1]]]. unfold bnd. rewrite E1. exists o1. split; [reflexivity|split; assumption].
  - exists o. split; [reflexivity|]. split; [exact I|apply frame_refl].
Qed.
Lemma fresh_com_step_q d h p q' acc q : fresh_com_step K d h (with_q q' p) acc q = fresh_com_step K d h p acc q.
Proof. reflexivity. Qed.
Lemma com_step_ok acc q p o : Inv p o -> length q = 3%nat ->
  exists q' o', com_step K acc q (MkS p o) = (fresh_com_step K (dyn o) (qha o) p acc q, MkS (with_q q' p) o') /\ Inv (with_q q' p) o' /\ frame o o'.
Proof.
  intros I Hl. unfold com_step.
  destruct (set_q_ok q p o I Hl) as [o1 [E1 [I1 F1]]]. unfold bnd at 1. rewrite E1.
  destruct (get_eig_ok _ _ I1) as [o2 [E2 [I2 F2]]]. unfold bnd at 1. rewrite E2.
  assert (F12 := frame_trans _ _ _ F1 F2).
  unfold bnd at 1. unfold gets at 1. cbn [QuasiModel.par QuasiModel.ob]. rewrite (f_dyn _ _ F12).
  unfold fresh_eig. rewrite (f_dyn _ _ F1). change (p_q K (with_q q p)) with q.
  cbv zeta. unfold bnd at 1. unfold gets at 1. cbn [QuasiModel.par QuasiModel.ob].
  change (p_sym K (with_q q p)) with (p_sym K p). unfold fresh_com_step. cbv zeta.
  destruct (negb (vector_in_list (equivalent K (dyn o) q) (c_q K acc) =? 0)%nat && p_sym K p) eqn:Ec.
  - unfold bnd, lift. exists q, o2. destruct (nth_error _ _); (split; [reflexivity|split; assumption]).
  - destruct (set_q_ok q _ _ I2 Hl) as [o3 [E3 [I3 F3]]]. unfold bnd at 1. rewrite E3. rewrite with_q_twice in *.
    assert (F13 := frame_trans _ _ _ F12 F3).
    destruct (get_phonon_ok _ _ I3) as [q4 [o4 [E4 [I4 [F4 Q4]]]]]. unfold bnd at 1. rewrite E4. rewrite with_q_twice in *.
    rewrite (f_dyn _ _ F13) in *. assert (F14 := frame_trans _ _ _ F13 F4).
    unfold fit_row. destruct (fresh_phonon K (dyn o) (with_q q p)) as [ps|] eqn:Eps.
    2:{ exists q4, o4. split; [reflexivity|split; assumption]. }
    assert (q4 = q) by (apply Q4; discriminate). subst q4.
    unfold bnd at 1. unfold gets at 1. cbn [QuasiModel.par QuasiModel.ob].
    destruct (get_freq_ok _ _ I4) as [o5 [E5 [I5 F5]]]. unfold bnd at 1. rewrite E5. assert (F15 := frame_trans _ _ _ F14 F5).
    destruct (get_qha_shift_ok q _ _ I5) as [o6 [E6 [I6 F6]]]. unfold bnd at 1. rewrite E6. assert (F16 := frame_trans _ _ _ F15 F6).
    unfold bnd at 1. unfold gets at 1. cbn [QuasiModel.par QuasiModel.ob].
    unfold fresh_eig. rewrite (f_dyn _ _ F14), (f_dyn _ _ F15), (f_qha _ _ F15).
    change (p_q K (with_q q p)) with q. change (p_range K (with_q q p)) with (p_range K p).
    change (p_fit K (with_q q p)) with (p_fit K p). change (p_sym K (with_q q p)) with (p_sym K p).
    set (pw := fit K ps (p_range K p) (snd (eig K (dyn o) q)) _ (p_fit K p) (p_sym K p)).
    destruct (get_freq_ok _ _ I6) as [o7 [E7 [I7 F7]]]. assert (F17 := frame_trans _ _ _ F16 F7).
    unfold fresh_eig in E7. rewrite (f_dyn _ _ F16) in E7. change (p_q K (with_q q p)) with q in E7.
    destruct (qvec_eq_dec q gamma) as [Eg|Eg].
    + unfold bnd at 1, lift at 1. destruct (zero3 (fst pw)) as [pos|]; cbn [option_map].
      * unfold bnd at 1, lift at 1. destruct (zero3 (snd pw)) as [wid|]; cbn [option_map].
        -- unfold bnd at 1. rewrite E7. exists q, o7. split; [reflexivity|split; assumption].
        -- exists q, o6. split; [reflexivity|split; assumption].
      * exists q, o6. split; [reflexivity|split; assumption].
    + unfold bnd at 1, ret at 1. unfold bnd at 1, ret at 1. unfold bnd at 1. rewrite E7. cbn [option_map].
      exists q, o7. split; [reflexivity|split; assumption].
Qed.
Lemma com_loop_ok l : forall acc p o, Inv p o -> (forall q, In q l -> length q = 3%nat) ->
  exists q' o', com_loop K l acc (MkS p o) = (fresh_com_from K (dyn o) (qha o) p l acc, MkS (with_q q' p) o') /\ Inv (with_q q' p) o' /\ frame o o'.
Proof.
  induction l as [|q l IH]; intros acc p o I Hl; cbn [com_loop fresh_com_from].
  - exists (p_q K p), o. rewrite with_q_same. split; [reflexivity|]. split; [exact I|apply frame_refl].
  - destruct (com_step_ok acc q p o I (Hl q (or_introl eq_refl))) as [q1 [o1 [E1 [I1 F1]]]]. unfold bnd at 1. rewrite E1.
    destruct (fresh_com_step K (dyn o) (qha o) p acc q) as [a|].
    + destruct (IH a _ _ I1 (fun x Hx => Hl x (or_intror Hx))) as [q2 [o2 [E2 [I2 F2]]]]. rewrite E2.
      rewrite with_q_twice in *. exists q2, o2. rewrite (f_dyn _ _ F1), (f_qha _ _ F1).
      split; [|split; [assumption|exact (frame_trans _ _ _ F1 F2)]].
      f_equal.
      assert (G : forall l a, fresh_com_from K (dyn o) (qha o) (with_q q1 p) l a = fresh_com_from K (dyn o) (qha o) p l a).
      { clear. induction l as [|x l IH]; intros a; [reflexivity|]. cbn [fresh_com_from]. rewrite fresh_com_step_q.
        destruct (fresh_com_step K (dyn o) (qha o) p a x); [apply IH|reflexivity]. }
      apply G.
    + exists q1, o1. split; [reflexivity|split; assumption].
Qed.
Lemma with_range_same p : with_range K (p_range K p) p = p. Proof. destruct p; reflexivity. Qed.
Lemma clear_Inv p o p' : Inv p o -> p_q K p' = p_q K p -> p_proj K p' = p_proj K p -> Inv p' (power_spectra_clear K o).
Proof.
  intros [] Eq Ep. constructor; cbn; try discriminate; unfold fresh_vc, fresh_vq, fresh_eig, fresh_vc, fresh_eig in *; rewrite ?Eq, ?Ep; assumption.
Qed.
Record frame' (o o' : obj) : Prop := { g_dyn : dyn o' = dyn o; g_qha : qha o' = qha o; g_temp : o_temp K o' = o_temp K o; g_part : o_part K o' = o_part K o }.
Lemma frame_frame' o o' : frame o o' -> frame' o o'. Proof. intros []. constructor; assumption. Qed.
Lemma frame'_trans a b c : frame' a b -> frame' b c -> frame' a c. Proof. intros [] []. constructor; congruence. Qed.
Lemma set_range_ok r p o : Inv p o -> exists o', set_frequency_range K r (MkS p o) = (Some tt, MkS (with_range K r p) o') /\ Inv (with_range K r p) o' /\ frame' o o' /\
  (o_com K o = None -> o_com K o' = None).
Proof.
  intros I. unfold set_frequency_range, bnd, gets. cbn [QuasiModel.par QuasiModel.ob]. destruct (fr_eq_dec K r (p_range K p)) as [->|Ne].
  - exists o. rewrite with_range_same. split; [reflexivity|]. split; [exact I|]. split; [constructor; reflexivity|auto].
  - exists (power_spectra_clear K o). split; [reflexivity|]. split; [apply (clear_Inv p); [exact I|reflexivity|reflexivity]|].
    split; [constructor; reflexivity|reflexivity].
Qed.
Lemma get_com_ok auto p o : Inv p o -> exists q' p1 o', get_commensurate_points_data K auto (MkS p o) = (fresh_com K (dyn o) (qha o) p1, MkS (with_q q' p1) o') /\
  Inv (with_q q' p1) o' /\ frame' o o' /\ p_q K p1 = p_q K p /\ (fresh_com K (dyn o) (qha o) p1 <> None -> q' = p_q K p /\ o_com K o' <> None) /\
  (p1 = if auto then match o_com K o with Some _ => p | None => auto_range K (dyn o) p end else p).
Proof.
  intros I. unfold get_commensurate_points_data. unfold bnd at 1. unfold gets at 1. cbn [QuasiModel.par QuasiModel.ob].
  destruct (o_com K o) as [c|] eqn:Ec.
  - exists (p_q K p), p, o. rewrite with_q_same, (i_com _ _ I c Ec). split; [reflexivity|]. split; [exact I|]. split; [constructor; reflexivity|].
    split; [reflexivity|]. split; [intros _; split; [reflexivity|congruence]|]. destruct auto; reflexivity.
  - set (p1 := if auto then auto_range K (dyn o) p else p).
    assert (S1 : exists o1, (if auto then bnd K (gets K (fun s => dos_max K (o_dyn K (ob s)) (p_other K (par s)))) (fun m => set_frequency_limits K 0 m) else ret K tt) (MkS p o)
       = (Some tt, MkS p1 o1) /\ Inv p1 o1 /\ frame' o o1 /\ o_com K o1 = None).
    { destruct auto.
      - unfold bnd at 1. unfold gets at 1. cbn [QuasiModel.par QuasiModel.ob]. unfold set_frequency_limits. unfold bnd at 1, gets at 1. cbn [QuasiModel.par QuasiModel.ob].
        destruct (set_range_ok (limits_range K 0%R (dos_max K (dyn o) (p_other K p)) (p_res K p)) p o I) as [o1 [E1 [I1 [F1 C1]]]].
        exists o1. split; [exact E1|]. split; [exact I1|]. split; [exact F1|exact (C1 Ec)].
      - exists o. split; [reflexivity|]. split; [exact I|]. split; [constructor; reflexivity|exact Ec]. }
    destruct S1 as [o1 [E1 [I1 [F1 C1]]]]. unfold bnd at 1. rewrite E1.
    unfold bnd at 1. unfold gets at 1. unfold bnd at 1. unfold get_reduced_q_vector, gets at 1. cbn [QuasiModel.par QuasiModel.ob].
    assert (Eq1 : p_q K p1 = p_q K p) by (unfold p1; destruct auto; reflexivity).
    destruct (com_loop_ok (com_points K (dyn o1) (p_other K p1)) (MkCom K [] [] []) p1 o1 I1) as [q2 [o2 [E2 [I2 F2]]]].
    { intros q Hq. exact (proj2 H3 _ _ _ Hq). }
    unfold bnd at 1. rewrite E2. fold (fresh_com K (dyn o1) (qha o1) p1). rewrite (g_dyn _ _ F1), (g_qha _ _ F1).
    assert (F := frame'_trans _ _ _ F1 (frame_frame' _ _ F2)).
    destruct (fresh_com K (dyn o) (qha o) p1) as [c|] eqn:Ef.
    + assert (I2' : Inv (with_q q2 p1) (put_com K (Some c) o2)).
      { destruct I2. constructor; cbn; try assumption. intros x [= <-]. rewrite (g_dyn _ _ F), (g_qha _ _ F), fresh_com_q. exact Ef. }
      destruct (set_q_ok (p_q K p1) _ _ I2') as [o3 [E3 [I3 F3]]]; [rewrite Eq1; apply (i_len _ _ I)|].
      unfold bnd at 1, modo at 1. cbn [QuasiModel.par QuasiModel.ob]. unfold bnd at 1. rewrite E3. rewrite with_q_twice in *.
      exists (p_q K p1), p1, o3. split; [rewrite Ef; reflexivity|]. split; [exact I3|].
      split; [apply (frame'_trans _ _ _ F); destruct F3; constructor; assumption|]. split; [exact Eq1|].
      split; [intros _; split; [exact Eq1|rewrite (f_com _ _ F3); discriminate]|]. unfold p1. destruct auto; reflexivity.
    + exists q2, p1, o2. split; [rewrite Ef; reflexivity|]. split; [exact I2|]. split; [exact F|]. split; [exact Eq1|].
      split; [intros N; congruence|]. unfold p1. destruct auto; reflexivity.
Qed.
Lemma get_rfc_ok p o : Inv p o -> exists q' p1 o', get_renormalized_force_constants K (MkS p o) = (fresh_rfc K (dyn o) (qha o) p1, MkS (with_q q' p1) o') /\
  Inv (with_q q' p1) o' /\ frame' o o' /\ p_q K p1 = p_q K p /\ (fresh_rfc K (dyn o) (qha o) p1 <> None -> q' = p_q K p) /\
  p1 = match o_com K o with Some _ => p | None => auto_range K (dyn o) p end.
Proof.
  intros I. destruct (get_com_ok true p o I) as [q1 [p1 [o1 [E1 [I1 [F1 [Q1 [S1 A1]]]]]]]].
  unfold get_renormalized_force_constants. unfold bnd at 1. rewrite E1. exists q1, p1.
  unfold fresh_rfc. destruct (fresh_com K (dyn o) (qha o) p1) as [c|] eqn:Ec; cbn [option_map].
  - destruct (S1 ltac:(discriminate)) as [-> _].
    unfold bnd at 1. unfold gets at 1. cbn [QuasiModel.par QuasiModel.ob]. destruct (o_rfc K o1) as [f|] eqn:Er.
    + exists o1. assert (Hr := i_rfc _ _ I1 f Er). rewrite fresh_rfc_q, (g_dyn _ _ F1), (g_qha _ _ F1) in Hr. unfold fresh_rfc in Hr. rewrite Ec in Hr. cbn [option_map] in Hr.
      split; [rewrite Hr; reflexivity|]. split; [exact I1|]. split; [exact F1|]. split; [exact Q1|]. split; [reflexivity|exact A1].
    + eexists. split; [unfold bnd, gets; cbn [QuasiModel.par QuasiModel.ob]; rewrite (g_dyn _ _ F1); reflexivity|].
      split.
      * assert (G : fresh_rfc K (dyn o1) (qha o1) (with_q (p_q K p) p1) = Some (renormalize K (map r_freq (c_rows K c)) (c_eig K c) (dyn o) (p_other K p1) (p_symmetrize K p1))).
        { rewrite fresh_rfc_q, (g_dyn _ _ F1), (g_qha _ _ F1). unfold fresh_rfc. rewrite Ec. reflexivity. }
        destruct I1. constructor; cbn [put_rfc o_dyn o_vc o_ev o_fq o_vq o_ph o_wv o_full o_part o_rfc o_com o_qha o_temp]; try assumption.
        intros x [= <-]. exact G.
      * split; [destruct F1; constructor; assumption|]. split; [exact Q1|]. split; [reflexivity|exact A1].
  - exists o1. split; [reflexivity|]. split; [exact I1|]. split; [exact F1|]. split; [exact Q1|]. split; [intros N; congruence|exact A1].
Qed.

(** every ordinary call preserves the invariant and the trajectory *)
Lemma call_Inv c p o : ordinary K coord c -> Inv p o ->
  exists r p' o', do_call K c (MkS p o) = (r, MkS p' o') /\ Inv p' o' /\ dyn o' = dyn o /\ qha o' = qha o.
Proof.
  intros Hc I. destruct c; cbn [ordinary] in Hc; try contradiction; cbn [do_call]; unfold fm.
  - (* SetNAC *) eexists _, _, _. split; [reflexivity|]. split; [|split; reflexivity]. apply (Inv_ext p); [reflexivity..|exact I].
  - (* SetMem *) eexists _, _, _. split; [reflexivity|]. split; [apply (clear_Inv p); [exact I|reflexivity|reflexivity]|split; reflexivity].
  - (* SetResolution *)
    unfold set_spectra_resolution. unfold bnd at 1 2. unfold gets at 1. unfold bnd at 1, modp at 1. cbn [QuasiModel.par QuasiModel.ob].
    assert (I0 : Inv (with_res K r p) o) by (apply (Inv_ext p); [reflexivity..|exact I]).
    destruct (set_range_ok (respan K (p_range K p) r) _ _ I0) as [o1 [E1 [I1 [F1 _]]]]. rewrite E1.
    eexists _, _, _. split; [reflexivity|]. split; [exact I1|]. split; [apply (g_dyn _ _ F1)|apply (g_qha _ _ F1)].
  - (* SetLimits *)
    unfold set_frequency_limits. unfold bnd at 1 2. unfold gets at 1. cbn [QuasiModel.par QuasiModel.ob].
    destruct (set_range_ok (limits_range K lo hi (p_res K p)) _ _ I) as [o1 [E1 [I1 [F1 _]]]]. rewrite E1.
    eexists _, _, _. split; [reflexivity|]. split; [exact I1|]. split; [apply (g_dyn _ _ F1)|apply (g_qha _ _ F1)].
  - (* SetQ *) destruct (set_q_ok q p o I Hc) as [o1 [E1 [I1 F1]]]. unfold bnd at 1. rewrite E1.
    eexists _, _, _. split; [reflexivity|]. split; [exact I1|]. split; [apply (f_dyn _ _ F1)|apply (f_qha _ _ F1)].
  - (* SelAlg *) unfold select_power_spectra_algorithm. destruct ((0 <=? a) && (a <=? 5)).
    + unfold bnd at 1 2, gets at 1. cbn [QuasiModel.par QuasiModel.ob]. destruct (a =? p_alg K p).
      * eexists _, _, _. split; [reflexivity|]. split; [exact I|split; reflexivity].
      * eexists _, _, _. split; [reflexivity|]. split; [apply (clear_Inv p); [exact I|reflexivity|reflexivity]|split; reflexivity].
    + eexists _, _, _. split; [reflexivity|]. split; [exact I|split; reflexivity].
  - (* SelFit *) unfold select_fitting_function. destruct ((0 <=? f) && (f <=? 2)).
    + unfold bnd at 1 2, gets at 1. cbn [QuasiModel.par QuasiModel.ob]. destruct (f =? p_fit K p).
      * eexists _, _, _. split; [reflexivity|]. split; [exact I|split; reflexivity].
      * eexists _, _, _. split; [reflexivity|]. split; [|split; reflexivity]. destruct I. constructor; cbn; try discriminate; assumption.
    + eexists _, _, _. split; [reflexivity|]. split; [exact I|split; reflexivity].
  - (* SetTemp *) eexists _, _, _. split; [reflexivity|]. split; [|split; reflexivity]. destruct I. constructor; cbn; assumption.
  - (* GetQ *) eexists _, _, _. split; [reflexivity|]. split; [exact I|split; reflexivity].
  - destruct (get_eig_ok p o I) as [o1 [E1 [I1 F1]]]. unfold bnd at 1. rewrite E1. eexists _, _, _. split; [reflexivity|]. split; [exact I1|]. split; [apply (f_dyn _ _ F1)|apply (f_qha _ _ F1)].
  - destruct (get_freq_ok p o I) as [o1 [E1 [I1 F1]]]. unfold bnd at 1. rewrite E1. eexists _, _, _. split; [reflexivity|]. split; [exact I1|]. split; [apply (f_dyn _ _ F1)|apply (f_qha _ _ F1)].
  - destruct (get_vc_ok p o I) as [o1 [E1 [I1 F1]]]. unfold bnd at 1. rewrite E1. eexists _, _, _. split; [reflexivity|]. split; [exact I1|]. split; [apply (f_dyn _ _ F1)|apply (f_qha _ _ F1)].
  - destruct (get_vq_ok p o I) as [o1 [E1 [I1 F1]]]. unfold bnd at 1. rewrite E1. eexists _, _, _. split; [reflexivity|]. split; [exact I1|]. split; [apply (f_dyn _ _ F1)|apply (f_qha _ _ F1)].
  - destruct (get_phonon_ok p o I) as [q1 [o1 [E1 [I1 [F1 _]]]]]. unfold bnd at 1. rewrite E1.
    destruct (fresh_phonon K (dyn o) p); (eexists _, _, _; split; [reflexivity|]; split; [exact I1|]; split; [apply (f_dyn _ _ F1)|apply (f_qha _ _ F1)]).
  - destruct (get_wave_ok p o I) as [q1 [o1 [E1 [I1 [F1 _]]]]]. unfold bnd at 1. rewrite E1.
    destruct (fresh_wave K (dyn o) p); (eexists _, _, _; split; [reflexivity|]; split; [exact I1|]; split; [apply (f_dyn _ _ F1)|apply (f_qha _ _ F1)]).
  - subst c. destruct (get_full_ok p o I) as [q1 [o1 [E1 [I1 [F1 _]]]]]. unfold bnd at 1. rewrite E1.
    destruct (fresh_full K (dyn o) p coord); (eexists _, _, _; split; [reflexivity|]; split; [exact I1|]; split; [apply (f_dyn _ _ F1)|apply (f_qha _ _ F1)]).
  - (* GetPartials *) unfold get_power_spectrum_partials. unfold bnd at 1 2, gets at 1. cbn [QuasiModel.par QuasiModel.ob]. destruct (o_part K o).
    + eexists _, _, _. split; [reflexivity|]. split; [exact I|split; reflexivity].
    + unfold bnd at 1, gets at 1, bnd at 1, lift at 1. cbn [QuasiModel.par QuasiModel.ob].
      destruct (spectrum_partials K (p_alg K p) (p_ncoef K p) (p_range K p) (p_other K p) (dyn o)).
      * eexists _, _, _. split; [reflexivity|]. split; [|split; reflexivity]. destruct I. constructor; cbn; assumption.
      * eexists _, _, _. split; [reflexivity|]. split; [exact I|split; reflexivity].
  - (* GetTemp *) unfold get_temperature. unfold bnd at 1 2, gets at 1. cbn [QuasiModel.par QuasiModel.ob]. cbv zeta.
    destruct (match o_temp K o with Some t => if Req_EM_T t 0 then None else Some t | None => None end).
    + eexists _, _, _. split; [reflexivity|]. split; [exact I|split; reflexivity].
    + eexists _, _, _. split; [reflexivity|]. split; [|split; reflexivity]. apply (Inv_ext p); [reflexivity..|]. destruct I. constructor; cbn; assumption.
  - destruct (get_com_ok auto p o I) as [q1 [p1 [o1 [E1 [I1 [F1 _]]]]]]. unfold bnd at 1. rewrite E1.
    destruct (fresh_com K (dyn o) (qha o) p1); (eexists _, _, _; split; [reflexivity|]; split; [exact I1|]; split; [apply (g_dyn _ _ F1)|apply (g_qha _ _ F1)]).
  - destruct (get_rfc_ok p o I) as [q1 [p1 [o1 [E1 [I1 [F1 _]]]]]]. unfold bnd at 1. rewrite E1.
    destruct (fresh_rfc K (dyn o) (qha o) p1); (eexists _, _, _; split; [reflexivity|]; split; [exact I1|]; split; [apply (g_dyn _ _ F1)|apply (g_qha _ _ F1)]).
Qed.
Lemma run_Inv h : forall p o, Forall (ordinary K coord) h -> Inv p o ->
  exists p' o', run K h (MkS p o) = MkS p' o' /\ Inv p' o' /\ dyn o' = dyn o /\ qha o' = qha o.
Proof.
  induction h as [|c h IH]; intros p o Hh I.
  - exists p, o. split; [reflexivity|]. split; [exact I|split; reflexivity].
  - inversion Hh as [|? ? Hc Ht]; subst. unfold run. cbn [fold_left].
    destruct (call_Inv c p o Hc I) as [r [p1 [o1 [E1 [I1 [D1 Q1]]]]]]. rewrite E1. cbn [snd].
    destruct (IH p1 o1 Ht I1) as [p2 [o2 [E2 [I2 [D2 Q2]]]]]. exists p2, o2. split; [exact E2|]. split; [exact I2|]. split; congruence.
Qed.
Lemma new_Inv p d : length (p_q K p) = 3%nat -> Inv p (new_obj K d None).
Proof. intros H. constructor; cbn; try discriminate. exact H. Qed.
End Proofs.
