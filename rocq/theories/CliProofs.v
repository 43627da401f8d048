From Verif Require Import QuasiModel QuasiSpec QuasiProofs QuasiMore CliModel CliSpec.
From Coq Require Import Lia Lra.
Open Scope Z_scope.

Section Proofs.
Context (K : kernels).
Hypothesis H3 : three_d K.
Local Notation params := (params K). Local Notation obj := (obj K). Local Notation MkS := (MkS K).
Local Notation exec := (exec K). Local Notation step := (step K).

(** setters on an object on which nothing was computed yet *)
Definition base (d : D K) (t : option R) (h : option (FC K)) : obj := MkO K d None None None None None None None None None None t h.
Ltac open_call := cbn [do_call]; unfold fm, crop_trajectory, set_projection_onto_atom_type, set_spectra_resolution, set_frequency_limits,
  set_frequency_range, set_reduced_q_vector, select_power_spectra_algorithm, select_fitting_function, set_temperature, set_qha_force_constants, bnd, gets, modo, modp, ret, fail, lift;
  cbn [ob par base o_vc o_dyn o_ev o_fq o_vq o_ph o_wv o_full o_part o_rfc o_com o_temp o_qha put_temp put_qha].
Lemma base_crop n d p t h : do_call K (Crop K n) (MkS p (base d t h)) =
  match crop K n d with Some d' => (Some (VUnit K), MkS p (base d' t h)) | None => (None, MkS p (base d t h)) end.
Proof. open_call. destruct (crop K n d); reflexivity. Qed.
Lemma base_fit f d p t h : do_call K (SelFit K f) (MkS p (base d t h)) =
  if (0 <=? f) && (f <=? 2) then (Some (VUnit K), MkS (with_fit K f p) (base d t h)) else (None, MkS p (base d t h)).
Proof. open_call. destruct ((0 <=? f) && _); [|reflexivity]. cbn [ob par]. destruct (f =? p_fit K p) eqn:E; [|reflexivity]. apply Z.eqb_eq in E. subst f. destruct p; reflexivity. Qed.
Lemma base_alg f d p t h : do_call K (SelAlg K f) (MkS p (base d t h)) =
  if (0 <=? f) && (f <=? 5) then (Some (VUnit K), MkS (with_alg K f p) (base d t h)) else (None, MkS p (base d t h)).
Proof. open_call. destruct ((0 <=? f) && _); [|reflexivity]. cbn [ob par]. destruct (f =? p_alg K p) eqn:E; [|reflexivity]. apply Z.eqb_eq in E. subst f. destruct p; reflexivity. Qed.
Lemma base_proj f d p t h : do_call K (SetProj K f) (MkS p (base d t h)) =
  if (0 <=? f) && (f <? primitive_atoms K d) then (Some (VUnit K), MkS (with_proj K f p) (base d t h)) else (None, MkS p (base d t h)).
Proof. open_call. destruct ((0 <=? f) && _); reflexivity. Qed.
Lemma base_temp x d p t h : do_call K (SetTemp K x) (MkS p (base d t h)) = (Some (VUnit K), MkS p (base d (Some x) h)).
Proof. reflexivity. Qed.
Lemma base_qha x d p t h : do_call K (SetQha K x) (MkS p (base d t h)) = (Some (VUnit K), MkS p (base d t (Some x))).
Proof. reflexivity. Qed.
Lemma base_q q d p t h : do_call K (SetQ K q) (MkS p (base d t h)) = (Some (VUnit K), MkS (with_q K q p) (base d t h)).
Proof. open_call. destruct (length q =? _)%nat; [destruct (qvec_eq_dec _ _)|]; reflexivity. Qed.
Lemma base_res r d p t h : do_call K (SetResolution K r) (MkS p (base d t h)) = (Some (VUnit K), MkS (with_range K (respan K (p_range K p) r) (with_res K r p)) (base d t h)).
Proof.
  open_call. cbn [p_range with_res]. destruct (fr_eq_dec K _ _) as [E|E]; [|reflexivity].
  rewrite E. reflexivity.
Qed.

(** outputs *)
Section Outs.
Context (a : args K) (d : D K).
Definition measured : R := (maxwell_scale K d ^ 2 / kb_boltzmann)%R.
Definition temp_of (o : option R) : R := match o with Some t => if Req_EM_T t 0 then measured else t | None => measured end.
Record Good (p : params) (o : obj) : Prop := {
  g_inv : Inv K (-1) p o; g_d : o_dyn K o = d; g_h : o_qha K o = a_qha K a; g_t : temp_of (o_temp K o) = temperature_asked K a d;
  g_p : o_part K o = None; g_c : o_com K o <> None -> auto_range K d p = p }.
Definition after (c : call K) (p : params) : params := match c with GetCom _ true | GetRFC _ => auto_range K d p | _ => p end.
Definition plain (c : call K) : Prop :=
  match c with
  | GetVc _ | GetVq _ | GetPhonon _ | GetWave _ | GetFreq _ | GetTemp _ | GetRFC _ => True
  | GetFull _ k => k = -1 | GetCom _ b => b = true | _ => False end.
Definition no_fc (c : call K) : Prop := match c with GetCom _ _ | GetRFC _ => False | _ => True end.
Definition no_fc_step (x : step) : Prop := match x with Out _ c => no_fc c | _ => True end.
Lemma auto_twice p : auto_range K d (auto_range K d p) = auto_range K d p. Proof. reflexivity. Qed.
Lemma good_frame p o o' : Good p o -> Inv K (-1) p o' -> frame K o o' -> Good p o'.
Proof. intros [] I []. constructor; try assumption; try congruence. intros N. apply g_c0. congruence. Qed.

Lemma out_ok c p o : Good p o -> plain c -> exists s', do_call K c (MkS p o) = (value_at K a d (after c p) c, s') /\
  (value_at K a d (after c p) c <> None -> exists o', s' = MkS (after c p) o' /\ Good (after c p) o' /\ (no_fc c -> o_com K o = None -> o_com K o' = None)).
Proof.
  intros G Hc. assert (I := g_inv _ _ G). destruct c; cbn [plain] in Hc; try contradiction; cbn [do_call after value_at]; unfold fm.
  - destruct (get_freq_ok K (-1) p o I) as [o1 [E1 [I1 F1]]]. unfold bnd. rewrite E1. rewrite (g_d _ _ G). eexists. split; [reflexivity|]. intros _.
    exists o1. split; [reflexivity|split; [apply (good_frame _ _ _ G I1 F1)|intros _ N; rewrite (f_com _ _ _ F1); exact N]].
  - destruct (get_vc_ok K (-1) p o I) as [o1 [E1 [I1 F1]]]. unfold bnd. rewrite E1. rewrite (g_d _ _ G). eexists. split; [reflexivity|]. intros _.
    exists o1. split; [reflexivity|split; [apply (good_frame _ _ _ G I1 F1)|intros _ N; rewrite (f_com _ _ _ F1); exact N]].
  - destruct (get_vq_ok K (-1) p o I) as [o1 [E1 [I1 F1]]]. unfold bnd. rewrite E1. rewrite (g_d _ _ G). eexists. split; [reflexivity|]. intros _.
    exists o1. split; [reflexivity|split; [apply (good_frame _ _ _ G I1 F1)|intros _ N; rewrite (f_com _ _ _ F1); exact N]].
  - destruct (get_phonon_ok K (-1) H3 p o I) as [q1 [o1 [E1 [I1 [F1 S1]]]]]. unfold bnd. rewrite E1. rewrite (g_d _ _ G) in *.
    destruct (fresh_phonon K d p) as [x|]; cbn [option_map]; (eexists; split; [reflexivity|]); [|congruence]. intros _.
    specialize (S1 ltac:(discriminate)). subst q1. rewrite with_q_same in *. exists o1. split; [reflexivity|split; [apply (good_frame _ _ _ G I1 F1)|intros _ N; rewrite (f_com _ _ _ F1); exact N]].
  - destruct (get_wave_ok K (-1) H3 p o I) as [q1 [o1 [E1 [I1 [F1 S1]]]]]. unfold bnd. rewrite E1. rewrite (g_d _ _ G) in *.
    destruct (fresh_wave K d p) as [x|]; cbn [option_map]; (eexists; split; [reflexivity|]); [|congruence]. intros _.
    specialize (S1 ltac:(discriminate)). subst q1. rewrite with_q_same in *. exists o1. split; [reflexivity|split; [apply (good_frame _ _ _ G I1 F1)|intros _ N; rewrite (f_com _ _ _ F1); exact N]].
  - subst c. destruct (get_full_ok K (-1) p o I) as [q1 [o1 [E1 [I1 [F1 S1]]]]]. unfold bnd. rewrite E1. rewrite (g_d _ _ G) in *.
    destruct (fresh_full K d p (-1)) as [x|]; cbn [option_map]; (eexists; split; [reflexivity|]); [|congruence]. intros _.
    specialize (S1 ltac:(discriminate)). subst q1. rewrite with_q_same in *. exists o1. split; [reflexivity|split; [apply (good_frame _ _ _ G I1 F1)|intros _ N; rewrite (f_com _ _ _ F1); exact N]].
  - (* temperature *)
    assert (Ht := g_t _ _ G). unfold temp_of in Ht. unfold get_temperature. unfold bnd at 1 2, gets at 1. cbn [par ob]. cbv zeta.
    destruct (match o_temp K o with Some t => if Req_EM_T t 0 then None else Some t | None => None end) as [t|] eqn:Et.
    + eexists. split.
      * f_equal. cbn. f_equal. f_equal. rewrite <- Ht. destruct (o_temp K o) as [t'|]; [|discriminate]. destruct (Req_EM_T t' 0); [discriminate|]. injection Et as ->. reflexivity.
      * intros _. exists o. split; [reflexivity|split; [exact G|auto]].
    + assert (Hm : measured = temperature_asked K a d).
      { destruct (o_temp K o) as [t'|]; [|exact Ht]. destruct (Req_EM_T t' 0); [exact Ht|discriminate]. }
      eexists. split.
      * unfold bnd, gets, modo, modp, ret. cbn [par ob put_temp o_dyn]. rewrite (g_d _ _ G). fold measured. rewrite Hm. reflexivity.
      * intros _. exists (put_temp K (Some (temperature_asked K a d)) o). split; [f_equal; destruct p; reflexivity|]. split; [|auto].
        destruct G. constructor; cbn [put_temp o_dyn o_qha o_temp o_part o_com]; try assumption; [destruct g_inv0; constructor; assumption|].
        unfold temp_of. destruct (Req_EM_T _ 0); [exact Hm|reflexivity].
  - (* commensurate data *)
    subst auto. destruct (get_com_ok K (-1) H3 true p o I) as [q1 [p1 [o1 [E1 [I1 [F1 [Q1 [S1 A1]]]]]]]]. unfold bnd. rewrite E1. rewrite (g_d _ _ G), (g_h _ _ G) in *.
    assert (P1 : p1 = auto_range K d p). { rewrite A1. destruct (o_com K o) eqn:Ec; [|reflexivity]. symmetry. apply (g_c _ _ G). congruence. }
    rewrite P1 in *. destruct (fresh_com K d (a_qha K a) (auto_range K d p)) as [x|]; cbn [option_map]; (eexists; split; [reflexivity|]); [|congruence]. intros _.
    destruct (S1 ltac:(discriminate)) as [-> C1]. change (p_q K p) with (p_q K (auto_range K d p)) in *. rewrite with_q_same in *.
    exists o1. split; [reflexivity|]. split; [|intros []]. destruct F1 as [F1 F2 F4 F5]. destruct G. constructor; try assumption; try congruence; reflexivity.
  - destruct (get_rfc_ok K (-1) H3 p o I) as [q1 [p1 [o1 [E1 [I1 [F1 [Q1 [S1 A1]]]]]]]]. unfold bnd. rewrite E1. rewrite (g_d _ _ G), (g_h _ _ G) in *.
    assert (P1 : p1 = auto_range K d p). { rewrite A1. destruct (o_com K o) eqn:Ec; [|reflexivity]. symmetry. apply (g_c _ _ G). congruence. }
    rewrite P1 in *. destruct (fresh_rfc K d (a_qha K a) (auto_range K d p)) as [x|]; cbn [option_map]; (eexists; split; [reflexivity|]); [|congruence]. intros _.
    specialize (S1 ltac:(discriminate)). rewrite S1 in *. change (p_q K p) with (p_q K (auto_range K d p)) in *. rewrite with_q_same in *.
    exists o1. split; [reflexivity|]. split; [|intros []]. destruct F1 as [F1 F2 F4 F5]. destruct G. constructor; try assumption; try congruence; reflexivity.
Qed.

(** ideal run of a list of outputs *)
Definition out_step (x : step) : Prop := match x with Out _ c => plain c | OutRange _ => True | _ => False end.
Fixpoint ideal (p : params) (l : list step) : list (emission K) * bool :=
  match l with
  | [] => ([], true)
  | Out _ c :: l => match value_at K a d (after c p) c with Some v => let '(r, b) := ideal (after c p) l in (Ev K c v :: r, b) | None => ([], false) end
  | OutRange _ :: l => let '(r, b) := ideal p l in (Er K (p_range K p) :: r, b)
  | _ => ([], false)
  end.
Fixpoint final (p : params) (l : list step) : params :=
  match l with [] => p | Out _ c :: l => final (after c p) l | _ :: l => final p l end.
Lemma exec_outs l : forall t p o, Good p o -> Forall out_step l ->
  exists o', exec (l ++ t) (MkS p o) = (if snd (ideal p l) then let '(r, b) := exec t (MkS (final p l) o') in (fst (ideal p l) ++ r, b) else ideal p l) /\
  (snd (ideal p l) = true -> Good (final p l) o' /\ (Forall no_fc_step l -> o_com K o = None -> o_com K o' = None)).
Proof.
  induction l as [|x l IH]; intros t p o G Hl.
  - exists o. cbn. split; [destruct (exec t (MkS p o)); reflexivity|]. intros _. split; [exact G|auto].
  - inversion Hl as [|? ? Hx Ht]; subst. destruct x as [c|n|c|]; cbn [out_step] in Hx; try contradiction.
    + destruct (out_ok c p o G Hx) as [s' [E S]]. cbn [app CliModel.exec ideal final]. rewrite E.
      destruct (value_at K a d (after c p) c) as [v|].
      * destruct (S ltac:(discriminate)) as [o1 [-> [G1 N1]]]. destruct (IH t _ _ G1 Ht) as [o2 [E2 G2]]. exists o2. rewrite E2.
        destruct (ideal (after c p) l) as [r b]. cbn [snd fst] in *. split; [|intros B; destruct (G2 B) as [G3 G4]; split; [exact G3|]; intros F N; inversion F; subst; apply G4; [assumption|]; apply N1; assumption]. destruct b; [|reflexivity]. destruct (exec t _) as [r' b']. reflexivity.
      * exists o. split; [reflexivity|discriminate].
    + destruct (IH t _ _ G Ht) as [o2 [E2 G2]]. exists o2. cbn [app CliModel.exec ideal final par]. rewrite E2.
      destruct (ideal p l) as [r b]. cbn [snd fst] in *. split; [|intros B; destruct (G2 B) as [G3 G4]; split; [exact G3|]; intros F N; inversion F; subst; apply G4; assumption]. destruct b; [|reflexivity]. destruct (exec t _) as [r' b']. reflexivity.
Qed.

Lemma ideal_app l : forall t p, ideal p (l ++ t) = if snd (ideal p l) then (fst (ideal p l) ++ fst (ideal (final p l) t), snd (ideal (final p l) t)) else ideal p l.
Proof.
  induction l as [|x l IH]; intros t p; cbn [app ideal final]; [destruct (ideal p t); reflexivity|].
  destruct x as [c|n|c|]; try reflexivity.
  - destruct (value_at K a d (after c p) c); [|reflexivity]. rewrite IH. destruct (ideal (after c p) l) as [r b]. cbn [fst snd]. destruct b; reflexivity.
  - rewrite IH. destruct (ideal p l) as [r b]. cbn [fst snd]. destruct b; reflexivity.
Qed.
(** outputs that do not move the settings *)
Definition still (p : params) (x : step) : Prop := match x with Out _ c => after c p = p | OutRange _ => True | _ => False end.
Lemma ideal_still p l : Forall (still p) l ->
  final p l = p /\
  (forall c v, In (Ev K c v) (fst (ideal p l)) -> value_at K a d p c = Some v /\ In (Out K c) l) /\ (forall r, In (Er K r) (fst (ideal p l)) -> r = p_range K p) /\
  (snd (ideal p l) = true <-> forall c, In (Out K c) l -> value_at K a d p c <> None) /\
  (snd (ideal p l) = true -> forall c, In (Out K c) l -> exists v, In (Ev K c v) (fst (ideal p l))).
Proof.
  induction 1 as [|x l Hx Hl (IH0 & IH1 & IH2 & IH3 & IH4)].
  - cbn. repeat split; try contradiction; auto.
  - destruct x as [c|n|c|]; cbn [still] in Hx; try contradiction; cbn [ideal final].
    + rewrite Hx. split; [exact IH0|]. destruct (value_at K a d p c) as [v|] eqn:Ev.
      * destruct (ideal p l) as [r b]. cbn [fst snd] in *. split; [|split; [|split; [split|]]].
        -- intros c' v' [E|H]; [injection E as <- <-; split; [exact Ev|left; reflexivity]|]. destruct (IH1 _ _ H). split; [assumption|right; assumption].
        -- intros r' [E|H]; [discriminate|apply IH2, H].
        -- intros B c' [E|H]; [injection E as <-; congruence|apply (proj1 IH3 B), H].
        -- intros H. apply IH3. intros c' H'. apply H. right. exact H'.
        -- intros B c' [E|H]; [injection E as <-; exists v; left; reflexivity|]. destruct (IH4 B c' H) as [v' Hv]. exists v'. right. exact Hv.
      * cbn [fst snd]. split; [|split; [|split; [split|]]]; try contradiction; try discriminate. intros H. exfalso. apply (H c); [left; reflexivity|exact Ev].
    + split; [exact IH0|]. destruct (ideal p l) as [r b]. cbn [fst snd] in *. split; [|split; [|split; [split|]]].
      * intros c' v' [E|H]; [discriminate|]. destruct (IH1 _ _ H). split; [assumption|right; assumption].
      * intros r' [E|H]; [injection E as <-; reflexivity|apply IH2, H].
      * intros B c' [E|H]; [discriminate|apply (proj1 IH3 B), H].
      * intros H. apply IH3. intros c' H'. apply H. right. exact H'.
      * intros B c' [E|H]; [discriminate|]. destruct (IH4 B c' H) as [v' Hv]. exists v'. right. exact Hv.
Qed.
End Outs.

(** the settings of the script *)
Definition asked0 (a : args K) (p : params) : params :=
  MkP K (given (a_q K a) (p_q K p)) (given (a_alg K a) (p_alg K p)) (given (a_ncoef K a) (p_ncoef K p))
    (match a_res K a with Some r => respan K (p_range K p) r | None => p_range K p end) (resolution K a p)
    (given (a_proj K a) (p_proj K p)) (p_sym K p) (p_nac K p) (a_fit K a) (p_silent K p) (p_symmetrize K p) (p_other K p).
Lemma settings_ok a d p t : valid K a d ->
  exec (settings_steps K a ++ t) (MkS p (base d None None)) = exec t (MkS (asked0 a p) (base d (a_temp K a) (a_qha K a))).
Proof.
  intros (Vf & Va & Vp & _). unfold settings_steps, asked0, resolution. rewrite <- !app_assoc. cbn [app CliModel.exec]. rewrite base_fit.
  replace ((0 <=? a_fit K a) && (a_fit K a <=? 2)) with true by (symmetry; apply andb_true_iff; split; apply Z.leb_le; lia).
  destruct (a_temp K a) as [x1|]; cbn [opt app CliModel.exec]; rewrite ?base_temp;
  (destruct (a_qha K a) as [x2|]; cbn [opt app CliModel.exec]; rewrite ?base_qha);
  (destruct (a_proj K a) as [x3|]; cbn [opt app CliModel.exec given]; rewrite ?base_proj;
    [replace ((0 <=? x3) && (x3 <? primitive_atoms K d)) with true by (symmetry; specialize (Vp x3 eq_refl); apply andb_true_iff; split; [apply Z.leb_le|apply Z.ltb_lt]; lia)|]);
  (destruct (a_res K a) as [x4|]; cbn [opt app CliModel.exec given]; rewrite ?base_res);
  (destruct (a_q K a) as [x5|]; cbn [opt app CliModel.exec given]; rewrite ?base_q);
  (destruct (a_alg K a) as [x6|]; cbn [opt app CliModel.exec given]; rewrite ?base_alg;
    [replace ((0 <=? x6) && (x6 <=? 5)) with true by (symmetry; specialize (Va x6 eq_refl); apply andb_true_iff; split; apply Z.leb_le; lia)|]);
  (destruct (a_ncoef K a) as [x7|]; cbn [opt app CliModel.exec given]); destruct p; reflexivity.
Qed.
Lemma settings_bad a d p t : ~ (0 <= a_fit K a <= 2 /\ (forall x, a_alg K a = Some x -> 0 <= x <= 5) /\ (forall x, a_proj K a = Some x -> 0 <= x < primitive_atoms K d)) ->
  exec (settings_steps K a ++ t) (MkS p (base d None None)) = ([], false).
Proof.
  intros V. unfold settings_steps. rewrite <- !app_assoc. cbn [app CliModel.exec]. rewrite base_fit.
  destruct ((0 <=? a_fit K a) && (a_fit K a <=? 2)) eqn:Ef; [|reflexivity]. apply andb_true_iff in Ef as [F1 F2]. apply Z.leb_le in F1, F2.
  assert (V' : ~ ((forall x, a_alg K a = Some x -> 0 <= x <= 5) /\ (forall x, a_proj K a = Some x -> 0 <= x < primitive_atoms K d))) by (intros V'; apply V; split; [lia|exact V']). clear V.
  destruct (a_temp K a) as [x1|]; cbn [opt app CliModel.exec]; rewrite ?base_temp;
  (destruct (a_qha K a) as [x2|]; cbn [opt app CliModel.exec]; rewrite ?base_qha);
  (destruct (a_proj K a) as [x3|]; cbn [opt app CliModel.exec]; rewrite ?base_proj;
    [destruct ((0 <=? x3) && (x3 <? primitive_atoms K d)) eqn:Ep; [|reflexivity]; apply andb_true_iff in Ep as [P1 P2]; apply Z.leb_le in P1; apply Z.ltb_lt in P2|]);
  (destruct (a_res K a) as [x4|]; cbn [opt app CliModel.exec]; rewrite ?base_res);
  (destruct (a_q K a) as [x5|]; cbn [opt app CliModel.exec]; rewrite ?base_q);
  (destruct (a_alg K a) as [x6|]; cbn [opt app CliModel.exec]; rewrite ?base_alg;
    [destruct ((0 <=? x6) && (x6 <=? 5)) eqn:Ea; [|reflexivity]; apply andb_true_iff in Ea as [A1 A2]; apply Z.leb_le in A1, A2|]);
  exfalso; apply V'; (split; [first [intros ? [= <-]; lia|discriminate]|first [intros ? [= <-]; lia|discriminate]]).
Qed.
Definition all_steps (a : args K) : list step := early_steps K a ++ main_steps K a ++ flag K (a_partials K a) [Out K (GetPartials K)].
Lemma Forall_flag (P : step -> Prop) b l : (b = true -> Forall P l) -> Forall P (flag K b l).
Proof. destruct b; cbn; auto. Qed.
Lemma in_flag (x : step) b l : In x (flag K b l) <-> b = true /\ In x l.
Proof. destruct b; cbn; intuition discriminate. Qed.
Ltac all_flags := repeat (apply Forall_app; split); repeat (apply Forall_flag; intros _); repeat constructor.
Lemma early_outs a : Forall out_step (early_steps K a) /\ Forall no_fc_step (early_steps K a).
Proof. unfold early_steps. split; all_flags. Qed.
Lemma thm_outs b b' : Forall out_step (thm_steps K b b').
Proof. unfold thm_steps. repeat (apply Forall_app; split); repeat (apply Forall_flag; intros _); repeat constructor. Qed.
Lemma main_outs a : Forall out_step (main_steps K a).
Proof.
  unfold main_steps, write_full, write_wave, write_phonon, peak_steps. repeat (apply Forall_app; split); (apply Forall_flag; intros _); try apply thm_outs; repeat constructor.
Qed.
Lemma ideal_early a d p p' : p_q K p' = p_q K p -> p_proj K p' = p_proj K p -> ideal a d p' (early_steps K a) = ideal a d p (early_steps K a) /\
  final d p (early_steps K a) = p /\ snd (ideal a d p (early_steps K a)) = true.
Proof.
  intros Eq Ep. unfold early_steps. destruct (a_save_vc_hdf5 K a), (a_save_vq K a), (a_save_vc K a); cbn; unfold fresh_vq, fresh_vc, fresh_eig; rewrite ?Eq, ?Ep; auto.
Qed.
Theorem program_ideal a p d d' : length (p_q K p) = 3%nat -> crop K (Some (a_n K a)) d = Some d' -> valid K a d' ->
  program K a p d = ideal a d' (asked K a p) (all_steps a).
Proof.
  intros Hq Hc V. unfold program, script. change (new_obj K d None) with (base d None None). cbn [app CliModel.exec]. rewrite base_crop, Hc.
  rewrite settings_ok by exact V. set (p1 := asked0 a p).
  assert (G1 : Good a d' p1 (base d' (a_temp K a) (a_qha K a))).
  { constructor; try reflexivity; [|intros N; exfalso; apply N; reflexivity]. apply blank_Inv; [|unfold blank; cbn; tauto].
    unfold p1, asked0. cbn [p_q]. destruct V as (_ & _ & _ & Vq). destruct (a_q K a) as [q|]; cbn [given]; [apply Vq; reflexivity|exact Hq]. }
  destruct (early_outs a) as [Ee En].
  destruct (exec_outs a d' (early_steps K a) (opt K (a_range K a) (fun r => Config K (SetLimits K (fst r) (snd r))) ++ main_steps K a ++ flag K (a_partials K a) [Out K (GetPartials K)]) p1 _ G1 Ee) as [o1 [E1 S1]].
  destruct (ideal_early a d' (asked K a p) p1 eq_refl eq_refl) as (I1 & F1 & B1). destruct (ideal_early a d' p1 p1 eq_refl eq_refl) as (_ & F1' & _).
  rewrite E1, I1, B1. rewrite I1, B1 in S1. destruct (S1 eq_refl) as [G2 N2]. rewrite F1' in *. specialize (N2 En eq_refl). clear E1 S1.
  assert (L : exists o2, Good a d' (asked K a p) o2 /\ forall t, exec (opt K (a_range K a) (fun r => Config K (SetLimits K (fst r) (snd r))) ++ t) (MkS p1 o1) = exec t (MkS (asked K a p) o2)).
  { destruct (a_range K a) as [[lo hi]|] eqn:Er.
    - destruct (set_range_ok K (-1) (limits_range K lo hi (p_res K p1)) p1 o1 (g_inv _ _ _ _ G2)) as (o2 & E2 & I2 & F2 & C2). exists o2.
      assert (P : with_range K (limits_range K lo hi (p_res K p1)) p1 = asked K a p) by (unfold asked, range_asked; rewrite Er; reflexivity). rewrite P in *. split.
      + destruct F2 as [Fd Fh Ft Fp]. destruct G2. constructor; try congruence. intros N. exfalso. apply N. apply C2, N2.
      + intros t. cbn [opt app CliModel.exec do_call fst snd]. unfold fm, set_frequency_limits. unfold bnd at 1 2. unfold gets at 1. cbn [par]. rewrite E2. reflexivity.
    - exists o1. assert (P : p1 = asked K a p) by (unfold asked, range_asked; rewrite Er; reflexivity). rewrite <- P. split; [exact G2|reflexivity]. }
  destruct L as (o2 & G3 & L). rewrite L. clear L. unfold all_steps. rewrite ideal_app, B1, F1.
  destruct (exec_outs a d' (main_steps K a) (flag K (a_partials K a) [Out K (GetPartials K)]) (asked K a p) o2 G3 (main_outs a)) as [o3 [E3 S3]].
  rewrite E3. rewrite ideal_app. destruct (ideal a d' (asked K a p) (main_steps K a)) as [r b]. cbn [fst snd] in *. destruct b; [|reflexivity].
  destruct (S3 eq_refl) as [G4 _]. set (p3 := final d' (asked K a p) (main_steps K a)) in *. clearbody p3.
  assert (E4 : exec (flag K (a_partials K a) [Out K (GetPartials K)]) (MkS p3 o3) = ideal a d' p3 (flag K (a_partials K a) [Out K (GetPartials K)])).
  { destruct (a_partials K a); [|reflexivity]. cbn [flag CliModel.exec do_call ideal after value_at]. unfold fm, get_power_spectrum_partials. unfold bnd at 1 2, gets at 1. cbn [ob par].
    rewrite (g_p _ _ _ _ G4). unfold bnd at 1, gets at 1, bnd at 1, lift at 1. cbn [ob par]. rewrite (g_d _ _ _ _ G4). fold (fresh_partials K d' p3).
    destruct (fresh_partials K d' p3); reflexivity. }
  rewrite E4. destruct (ideal a d' p3 _) as [r' b']. reflexivity.
Qed.
Lemma wants_in a c : In (Out K c) (all_steps a) <-> wants K a c.
Proof.
  unfold all_steps, early_steps, main_steps, write_full, write_wave, write_phonon, peak_steps, thm_steps. rewrite !in_app_iff, !in_flag, !in_app_iff, !in_flag. cbn [In].
  destruct c; cbn [wants]; split; intros H;
  repeat match goal with H : _ \/ _ |- _ => destruct H | H : _ /\ _ |- _ => destruct H | H : Out _ _ = Out _ _ |- _ => first [discriminate H|injection H; clear H; intros; subst] | H : OutRange _ = _ |- _ => discriminate H | H : False |- _ => destruct H end;
  try tauto; subst; try tauto; auto 30; discriminate.
Qed.
End Proofs.
