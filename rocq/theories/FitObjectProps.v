(** C135: one fit, one set of coefficients. *)
From Verif Require Import FitObjectModel.
From Coq Require Import Reals List Lia Lra.
Import ListNotations.
Open Scope R_scope.

(** one curve: what the object says at any moment is about the curve with coefficients p *)
Definition about (kind : shape) (grid : list R) (best : coefficients -> R) (p : coefficients) (err : xreal) (q : request) (r : response) : Prop :=
  match q, r with
  | _, Raised _ | AskFitting, NotGood => True
  | AskParameters, Parameters p' err' => p' = p /\ err' = err
  | AskFitting, Report rep => describe kind grid best p err = Some rep
  | AskCurve xs, Curve ys => length ys = length xs /\ forall k x y, nth_error xs k = Some x -> nth_error ys k = Some y -> y = evaluate kind p x
  | _, _ => False
  end.

Section Fit.
Context (kind : shape) (grid : list R) (guess_position guess_height : option R) (best : coefficients -> R).
Notation get := (get_fitting_parameters kind guess_position guess_height).
Notation ans := (answer kind grid guess_position guess_height).
Notation run := (answers kind grid guess_position guess_height).
Notation p0 := (start kind guess_position guess_height).

Lemma answer_cached optimise st q pe : cached st = Some pe -> fst (ans optimise best st q) = st /\ about kind grid best (fst pe) (snd pe) q (snd (ans optimise best st q)).
Proof.
  intros E. unfold answer, get_fitting_parameters. rewrite E. destruct pe as [p err]. cbn [fst snd]. split; [reflexivity|]. destruct q as [| |xs]; cbn [about]; auto.
  - destruct (describe _ _ _ _ _) eqn:Ed; cbn [about]; auto.
  - rewrite map_length. split; [reflexivity|]. intros k x y Hx Hy. rewrite nth_error_map, Hx in Hy. cbn in Hy. congruence.
Qed.
Lemma answer_empty optimise st q : cached st = None ->
  (exists e, optimise (length (starts st)) p0 = Raises e /\ fst (ans optimise best st q) = MkState (starts st ++ [p0]) None /\
             (snd (ans optimise best st q) = Raised e \/ q = AskFitting /\ e = RuntimeError /\ snd (ans optimise best st q) = NotGood)) \/
  (exists p err, optimise (length (starts st)) p0 = Converged p err /\ fst (ans optimise best st q) = MkState (starts st ++ [p0]) (Some (p, err)) /\
             about kind grid best p err q (snd (ans optimise best st q))).
Proof.
  intros E. unfold answer, get_fitting_parameters. rewrite E. destruct (optimise _ _) as [p err|e]; cbn [fst snd].
  - right. exists p, err. split; [reflexivity|]. split; [reflexivity|]. destruct q as [| |xs]; cbn [about]; auto.
    + destruct (describe _ _ _ _ _) eqn:Ed; cbn [about]; auto.
    + rewrite map_length. split; [reflexivity|]. intros k x y Hx Hy. rewrite nth_error_map, Hx in Hy. cbn in Hy. congruence.
  - left. exists e. split; [reflexivity|]. split; [reflexivity|]. destruct q, e; auto.
Qed.
Lemma run_cons optimise st q qs : run optimise best st (q :: qs) =
  (fst (run optimise best (fst (ans optimise best st q)) qs), snd (ans optimise best st q) :: snd (run optimise best (fst (ans optimise best st q)) qs)).
Proof. cbn [answers]. destruct (ans optimise best st q) as [st1 r]. cbn [fst snd]. destruct (run optimise best st1 qs); reflexivity. Qed.
Lemma run_cached optimise qs : forall st pe, cached st = Some pe -> fst (run optimise best st qs) = st /\ Forall2 (about kind grid best (fst pe) (snd pe)) qs (snd (run optimise best st qs)).
Proof.
  induction qs as [|q qs IH]; intros st pe E; [split; [reflexivity|constructor]|]. rewrite run_cons. cbn [fst snd]. destruct (answer_cached optimise st q pe E) as [H1 H2]. rewrite H1.
  destruct (IH st pe E) as [H3 H4]. split; [exact H3|constructor; assumption].
Qed.

(** all the answers of any history are about one curve *)
Theorem C135_same_coefficients : forall optimise qs, exists p err, Forall2 (about kind grid best p err) qs (snd (run optimise best fresh qs)).
Proof.
  intros optimise qs. assert (G : forall st, cached st = None -> exists p err, Forall2 (about kind grid best p err) qs (snd (run optimise best st qs))).
  { induction qs as [|q qs IH]; intros st E; [exists (Coef 0 0 0 0 0), NaN; constructor|]. rewrite run_cons. cbn [snd].
    destruct (answer_empty optimise st q E) as [(e & He & Hs & Hr)|(p & err & He & Hs & Hr)].
    - destruct (IH (MkState (starts st ++ [p0]) None) eq_refl) as (p & err & H). exists p, err. rewrite Hs. constructor; [|exact H].
      destruct Hr as [->|(-> & _ & ->)]; [destruct q; exact I|exact I].
    - exists p, err. constructor; [exact Hr|]. rewrite Hs. apply (run_cached optimise qs (MkState (starts st ++ [p0]) (Some (p, err))) (p, err) eq_refl). }
  apply G. reflexivity.
Qed.
(** the optimiser always starts from the same point and is not run again once it has converged *)
Theorem C135_one_optimisation : forall optimise qs, let runs := starts (fst (run optimise best fresh qs)) in
  (length runs <= length qs)%nat /\ Forall (fun s => s = p0) runs /\ forall k, (S k < length runs)%nat -> exists e, optimise k p0 = Raises e.
Proof.
  intros optimise qs. cbn zeta.
  assert (G : forall st, cached st = None -> Forall (fun s => s = p0) (starts st) -> (forall k, (k < length (starts st))%nat -> exists e, optimise k p0 = Raises e) ->
     let runs := starts (fst (run optimise best st qs)) in (length runs <= length (starts st) + length qs)%nat /\ Forall (fun s => s = p0) runs /\ forall k, (S k < length runs)%nat -> exists e, optimise k p0 = Raises e).
  { induction qs as [|q qs IH]; intros st E Hs Hk; cbn zeta.
    - cbn [answers fst length]. split; [lia|]. split; [exact Hs|]. intros k Hlt. apply Hk. lia.
    - rewrite run_cons. cbn [fst]. assert (Hs' : Forall (fun s => s = p0) (starts st ++ [p0])) by (apply Forall_app; split; [exact Hs|repeat constructor]).
      destruct (answer_empty optimise st q E) as [(e & He & Hst & _)|(p & err & He & Hst & _)]; rewrite Hst.
      + destruct (IH (MkState (starts st ++ [p0]) None) eq_refl Hs') as (A & B & D).
        * cbn [starts]. intros k Hlt. rewrite app_length in Hlt. cbn in Hlt. destruct (Nat.eq_dec k (length (starts st))) as [->|]; [eauto|apply Hk; lia].
        * cbn [starts] in A. rewrite app_length in A. cbn [length] in A |- *. split; [lia|]. split; [exact B|exact D].
      + destruct (run_cached optimise qs (MkState (starts st ++ [p0]) (Some (p, err))) (p, err) eq_refl) as [-> _]. cbn [starts]. rewrite app_length. cbn [length].
        split; [lia|]. split; [exact Hs'|]. intros k Hlt. apply Hk. lia. }
  exact (G fresh eq_refl (Forall_nil _) ltac:(intros k Hk; cbn in Hk; lia)).
Qed.
(** a failure leaves nothing behind but the time it took: the next requests are answered as by a new object *)
Theorem C135_failure_forgotten : forall optimise qs qs', (forall k, (k < length qs)%nat -> exists e, optimise k p0 = Raises e) ->
  snd (run optimise best fresh (qs ++ qs')) = snd (run optimise best fresh qs) ++ snd (run (fun k => optimise (length qs + k)%nat) best fresh qs').
Proof.
  intros optimise qs qs' H.
  assert (A : forall qs st, cached st = None -> (forall k, (k < length qs)%nat -> exists e, optimise (length (starts st) + k)%nat p0 = Raises e) ->
     exists st', fst (run optimise best st qs) = st' /\ cached st' = None /\ length (starts st') = (length (starts st) + length qs)%nat).
  { clear. induction qs as [|q qs IH]; intros st E H; [exists st; repeat split; [exact E|cbn; lia]|]. rewrite run_cons. cbn [fst].
    destruct (answer_empty optimise st q E) as [(e & He & Hst & _)|(p & err & He & Hst & _)].
    - rewrite Hst. destruct (IH (MkState (starts st ++ [p0]) None) eq_refl) as (st' & H1 & H2 & H3).
      + intros k Hk. cbn [starts]. rewrite app_length. cbn [length]. destruct (H (S k) ltac:(cbn; lia)) as [e' He']. exists e'. rewrite <- He'. f_equal. lia.
      + exists st'. split; [exact H1|]. split; [exact H2|]. rewrite H3. cbn [starts length]. rewrite app_length. cbn. lia.
    - destruct (H 0%nat ltac:(cbn; lia)) as [e' He']. rewrite Nat.add_0_r in He'. congruence. }
  assert (B : forall qs st qs', snd (run optimise best st (qs ++ qs')) = snd (run optimise best st qs) ++ snd (run optimise best (fst (run optimise best st qs)) qs')).
  { clear. induction qs as [|q qs IH]; intros st qs'; [reflexivity|]. cbn [app]. rewrite !run_cons. cbn [fst snd app]. rewrite IH. reflexivity. }
  rewrite B. f_equal. destruct (A qs fresh eq_refl) as (st' & H1 & H2 & H3); [intros k Hk; apply H, Hk|]. rewrite H1. cbn [fresh starts length] in H3.
  assert (K : forall qs' st1 st2, cached st1 = cached st2 -> length (starts st1) = (length qs + length (starts st2))%nat ->
     snd (run optimise best st1 qs') = snd (run (fun k => optimise (length qs + k)%nat) best st2 qs')).
  { clear. intros qs'. induction qs' as [|q qs' IH]; intros st1 st2 E L; [reflexivity|]. rewrite !run_cons. cbn [snd].
    unfold answer, get_fitting_parameters. rewrite E. destruct (cached st2) as [[p err]|] eqn:E2; cbn [fst snd].
    - f_equal. apply IH; congruence.
    - rewrite L. destruct (optimise _ _) as [p err|e]; cbn [fst snd]; f_equal; apply IH; cbn [cached starts]; try reflexivity; rewrite !app_length, L; cbn; lia. }
  apply K; [exact H2|cbn [fresh starts length]; lia].
Qed.
(** 'all_good': False is said only by get_fitting, when the optimiser gave up (RuntimeError) or the area cannot be computed; an exception is one of
    the optimiser's own, and from get_fitting never RuntimeError *)
Theorem C135_exceptions : forall optimise qs k q, nth_error qs k = Some q ->
  (forall e, nth_error (snd (run optimise best fresh qs)) k = Some (Raised e) -> (exists n, optimise n p0 = Raises e) /\ (q = AskFitting -> e <> RuntimeError)) /\
  (nth_error (snd (run optimise best fresh qs)) k = Some NotGood -> q = AskFitting /\ exists n, optimise n p0 = Raises RuntimeError \/ exists p err, optimise n p0 = Converged p err /\ describe kind grid best p err = None).
Proof.
  intros optimise qs k q Hq.
  assert (G : forall qs st k, (forall p err, cached st = Some (p, err) -> exists n, optimise n p0 = Converged p err) -> nth_error qs k = Some q ->
    (forall e, nth_error (snd (run optimise best st qs)) k = Some (Raised e) -> (exists n, optimise n p0 = Raises e) /\ (q = AskFitting -> e <> RuntimeError)) /\
    (nth_error (snd (run optimise best st qs)) k = Some NotGood -> q = AskFitting /\ exists n, optimise n p0 = Raises RuntimeError \/ exists p err, optimise n p0 = Converged p err /\ describe kind grid best p err = None)).
  { clear k qs Hq. induction qs as [|q1 qs IH]; intros st k Hst Hq; [destruct k; discriminate|]. rewrite run_cons. cbn [snd].
    assert (Step : forall p err, cached (fst (ans optimise best st q1)) = Some (p, err) -> exists n, optimise n p0 = Converged p err).
    { intros p err. unfold answer, get_fitting_parameters. destruct (cached st) as [[p1 err1]|] eqn:E; cbn [fst].
      - rewrite E. intros H. injection H as <- <-. apply Hst. reflexivity.
      - destruct (optimise (length (starts st)) p0) as [p1 err1|e1] eqn:Eo; cbn [fst cached]; intros H; [injection H as <- <-; eauto|discriminate]. }
    destruct k as [|k]; [|apply (IH _ k Step Hq)]. cbn in Hq. injection Hq as ->. cbn [nth_error]. clear IH Step. unfold answer, get_fitting_parameters.
    destruct (cached st) as [[p1 err1]|] eqn:E; cbn [snd].
    - destruct (Hst p1 err1 eq_refl) as [n Hn]. destruct q as [| |xs]; cbn; try (split; [intros e H|intros H]; discriminate).
      destruct (describe kind grid best p1 err1) eqn:Ed; split; try discriminate. intros _. split; [reflexivity|]. exists n. right. eauto.
    - destruct (optimise (length (starts st)) p0) as [p1 err1|e1] eqn:Eo; cbn [snd].
      + destruct q as [| |xs]; try (split; [intros e H|intros H]; discriminate).
        destruct (describe kind grid best p1 err1) eqn:Ed; split; try discriminate. intros _. split; [reflexivity|]. exists (length (starts st)). right. eauto.
      + destruct q as [| |xs]; (destruct e1; (split; [intros e H|intros H]); try discriminate; try (injection H as <-; split; [eauto|]; intros; discriminate)). split; [reflexivity|]. eauto. }
  apply (G qs fresh k); [discriminate|exact Hq].
Qed.
(** a failed fit says 'all_good': False, but asking for its curve raises *)
Theorem C135_curve_of_failed_fit_refuted : forall optimise xs, (forall k s, optimise k s = Raises RuntimeError) ->
  snd (run optimise best fresh [AskFitting; AskCurve xs]) = [NotGood; Raised RuntimeError].
Proof. intros optimise xs H. rewrite !run_cons. unfold answer, get_fitting_parameters. cbn [fresh cached starts length]. rewrite !H. cbn. reflexivity. Qed.
(** a report is of the drawn curve: at the reported position the curve has the reported height (above the base line for the Lorentzian) *)
Theorem C135_report_on_the_curve : forall optimise qs i j r xs ys k y, nth_error qs i = Some AskFitting -> nth_error (snd (run optimise best fresh qs)) i = Some (Report r) ->
  nth_error qs j = Some (AskCurve xs) -> nth_error (snd (run optimise best fresh qs)) j = Some (Curve ys) -> nth_error xs k = Some (r_position r) -> nth_error ys k = Some y ->
  r_width r <> 0 -> y = match kind with Lorentzian => r_base_line r + r_maximum r | _ => r_maximum r end.
Proof.
  intros optimise qs i j r xs ys k y Hi Hri Hj Hrj Hx Hy Hw. destruct (C135_same_coefficients optimise qs) as (p & err & F).
  assert (G : forall n q a, nth_error qs n = Some q -> nth_error (snd (run optimise best fresh qs)) n = Some a -> about kind grid best p err q a).
  { clear -F. intros n. revert F. generalize (snd (run optimise best fresh qs)). revert qs. induction n as [|n IH]; intros qs l F q a Hq Ha; destruct F; try discriminate; cbn in Hq, Ha; [congruence|eapply IH; eassumption]. }
  assert (Gi := G _ _ _ Hi Hri). assert (Gj := G _ _ _ Hj Hrj). cbn [about] in Gi, Gj. destruct Gj as [_ Gj]. rewrite (Gj _ _ _ Hx Hy).
  unfold describe in Gi. destruct kind; cbn [evaluate];
    (unfold lorentzian_fitting, asymmetric_fitting, damped_fitting, gaussian_fitting, finish in Gi; destruct (isnan _); [discriminate|]; injection Gi as <-; cbn [r_position r_maximum r_base_line r_width] in *); try reflexivity.
  unfold lorentzian. assert (Hb : co_b p <> 0) by (intros E; apply Hw; rewrite E; ring). replace (co_a p - co_a p) with 0 by ring. assert (P := PI_neq0). field. split; assumption.
Qed.
End Fit.

(** the starting point: the guesses are used when both are given *)
Theorem C135_start : forall kind position height, start kind (Some position) (Some height) = Some (match kind with Asymmetric => [position; 1 / 10; height; 0; 0] | _ => [position; 1 / 10; height; 0] end) /\
  start kind (Some position) None = None /\ start kind None (Some height) = None /\ start kind None None = None.
Proof. intros. repeat split. Qed.
(** the guess is not the height of the curve the search starts from: the curve at the guessed position is more than twice as high (the Lorentzians
    and the Gaussian), or 100 / position^2 times the guess (the damped oscillator) *)
Theorem C135_start_height_refuted : forall position height, 0 < height ->
  let at_guess kind := evaluate kind (Coef position (1 / 10) height 0 0) position in
  2 * height < at_guess Lorentzian /\ 2 * height < at_guess Asymmetric /\ 2 * height < at_guess Gaussian /\ (position <> 0 -> at_guess Damped = 100 / position ^ 2 * height).
Proof.
  intros x h Hh. cbn zeta. cbn [evaluate co_a co_b co_c co_d co_s]. assert (P0 := PI_RGT_0). assert (P4 := PI_4).
  assert (L : 2 * h < h * (10 / PI)).
  { rewrite Rmult_comm. apply Rmult_lt_compat_l; [exact Hh|]. apply (Rmult_lt_reg_r PI); [exact P0|]. unfold Rdiv. rewrite Rmult_assoc, Rinv_l by lra. lra. }
  repeat split.
  - unfold lorentzian. replace (h / (PI * (1 / 10) * (1 + ((x - x) / (1 / 10)) ^ 2)) + 0) with (h * (10 / PI)); [exact L|]. replace (x - x) with 0 by ring. field. apply PI_neq0.
  - unfold asymmetric, g_a. rewrite Rmult_0_l, exp_0. replace (h / (PI * (2 * (1 / 10) / (1 + 1)) * (1 + ((x - x) / (2 * (1 / 10) / (1 + 1))) ^ 2)) + 0) with (h * (10 / PI)); [exact L|]. replace (x - x) with 0 by ring. field. apply PI_neq0.
  - unfold gaussian. replace (- (x - x) ^ 2 / (2 * (1 / 10) ^ 2)) with 0 by (field). rewrite exp_0.
    replace (h / (1 / 10) * sqrt (2 * PI) * 1 + 0) with (h * (10 * sqrt (2 * PI))) by field. rewrite Rmult_comm. apply Rmult_lt_compat_l; [exact Hh|].
    assert (P3 := PI2_3_2). assert (1 <= sqrt (2 * PI)) by (rewrite <- sqrt_1; apply sqrt_le_1_alt; lra). lra.
  - intros Hx. unfold damped. replace (x ^ 2 - x ^ 2) with 0 by ring. field. exact Hx.
Qed.

(** a first attempt that fails, then a success: report and curve are of the same coefficients *)
Example C135_nonvacuous : forall best, let optimise n (s : option (list R)) := match n with O => Raises RuntimeError | _ => Converged (Coef 2 1 PI 1 0) (Fin 0) end in
  let out := snd (answers Lorentzian [0; 4] (Some 2) (Some 3) optimise best fresh [AskFitting; AskFitting; AskCurve [2; 3]]) in
  exists r, out = [NotGood; Report r; Curve [2; 1 + 1 / 2]] /\ r_position r = 2 /\ r_width r = 2 /\ r_maximum r = 1 /\ r_base_line r = 1.
Proof.
  intros best optimise out. eexists. split.
  - unfold out. rewrite !run_cons. unfold answer, get_fitting_parameters, optimise. cbn [fresh cached starts length app fst snd answers]. unfold describe, lorentzian_fitting, finish, div_sqrt. cbn [co_a co_b co_c co_d co_s].
    assert (P := PI_RGT_0). destruct (Rlt_dec PI 0); [lra|]. destruct (Req_EM_T PI 0); [lra|]. cbn [isnan]. unfold evaluate, lorentzian. cbn [co_a co_b co_c co_d map].
    replace (PI / (PI * 1 * (1 + ((2 - 2) / 1) ^ 2)) + 1) with 2 by (field; lra). replace (PI / (PI * 1 * (1 + ((3 - 2) / 1) ^ 2)) + 1) with (1 + 1 / 2) by (field; lra). reflexivity.
  - cbn [r_position r_width r_maximum r_base_line]. assert (P := PI_RGT_0). repeat split; field; lra.
Qed.
Print Assumptions C135_same_coefficients. Print Assumptions C135_one_optimisation. Print Assumptions C135_failure_forgotten. Print Assumptions C135_exceptions. Print Assumptions C135_curve_of_failed_fit_refuted.
Print Assumptions C135_report_on_the_curve. Print Assumptions C135_start. Print Assumptions C135_start_height_refuted. Print Assumptions C135_nonvacuous.
