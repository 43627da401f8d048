(** C114, end to end for the three peak shapes, with and without degenerate branches being averaged: what phonon_fitting_analysis returns for spectra
    that are exactly peaks. *)
From Coq Require Import Reals List Lra Lia.
From Verif Require Import FitFunctionsModel FittingSpec FittingProofs FittingProps ExactFitProps AsymmetricFitProofs AsymmetricFitProps.
Import ListNotations.
Open Scope R_scope.

(* ---------- specification ---------- *)
(** branches that are averaged together carry the same spectrum at the [n] frequencies *)
Definition equal_in_sets (original : nat -> nat -> R) (harmonic : nat -> R) (cutoff : R) (ncol n : nat) : Prop :=
  forall s i j w, In s (degenerate_sets harmonic cutoff ncol) -> In i s -> In j s -> (w < n)%nat -> original w i = original w j.
(** branch [i] is exactly [curve] at the frequencies *)
Definition exactly (original : nat -> nat -> R) (freqs : list R) (i : nat) (curve : R -> R) : Prop :=
  forall w, (w < length freqs)%nat -> original w i = curve (nth w freqs 0).
(** entry [i] of the result of the analysis *)
Definition nothing (r : result) (i : nat) : Prop :=
  nth i (positions r) 0 = 0 /\ nth i (widths r) 0 = 0 /\ nth i (errors r) 0 = 0 /\ nth i (dt_Q2 r) 0 = 0.

(** get_fitting of a fitting class built on the column of [n] samples: [kind] is curve_fit (and minimize_scalar) followed by the figures; the error column is
    left out as in ExactFitProps *)
Definition fitted_by (kind : list R -> option report) (n : nat) (ps : nat -> R) : option fitted :=
  option_map (fun r => MkFit (r_position r) (r_area r) (r_width r) (r_maximum r) (match r_error r with Fin e => e | _ => 0 end)) (kind (map ps (seq 0 n))).
Definition lorentzian_kind (solver : list R -> option (R * R * R * R * xreal)) (ys : list R) : option report :=
  match solver ys with Some (a, b, c, d, err) => lorentzian_fitting a b c d err | None => None end.
Definition damped_kind (solver : list R -> option (R * R * R * R * xreal)) (xmax : R) (ys : list R) : option report :=
  match solver ys with Some (a, b, c, d, err) => damped_fitting a b c d xmax err | None => None end.
Definition asymmetric_kind (solver : list R -> option (R * R * R * R * R * xreal)) (minimiser : (R -> R) -> R) (xmax : R) (ys : list R) : option report :=
  match solver ys with Some (a, b, c, d, s, err) => asymmetric_fitting a b c d s (minimiser (fun x => - asymmetric a b c d s x)) xmax err | None => None end.

(* ---------- the columns ---------- *)
Lemma constant_sum l (f : nat -> R) y : (forall k, In k l -> f k = y) -> rsum (map f l) = INR (length l) * y.
Proof.
  induction l as [|k l IH]; intros H; cbn [map rsum fold_right length]; [cbn; ring|]. rewrite S_INR. change (fold_right Rplus 0 (map f l)) with (rsum (map f l)).
  rewrite IH, (H k) by (cbn; auto; intros; apply H; right; assumption). ring.
Qed.
Lemma average_same i data deg w y : (forall s, In s deg -> In i s -> forall k, In k s -> data w k = y) -> (exists s, In s deg /\ In i s) -> average_phonon i data deg w = Some y.
Proof.
  intros H X. destruct (average_first i data deg w X) as (s & Hs & Hi & ->). rewrite (constant_sum s (data w) y (H s Hs Hi)). f_equal.
  assert (0 < INR (length s)). { apply lt_0_INR. destruct s; [destruct Hi|cbn; lia]. } field. lra.
Qed.
Lemma column_data original harmonic deg ncol cutoff i ps w n : (deg = true -> equal_in_sets original harmonic cutoff ncol n) ->
  column original harmonic deg ncol cutoff i = Some ps -> (w < n)%nat -> ps w = original w i.
Proof.
  intros HE HC Hw. unfold column in HC. destruct deg; [|injection HC as <-; reflexivity]. specialize (HE eq_refl).
  destruct (average_phonon i original (degenerate_sets harmonic cutoff ncol) 0) eqn:E0; [|discriminate]. injection HC as <-.
  assert (exists s, In s (degenerate_sets harmonic cutoff ncol) /\ In i s) as X.
  { clear - E0. induction (degenerate_sets harmonic cutoff ncol) as [|s l IH]; [discriminate E0|]. cbn [average_phonon] in E0. destruct (existsb (Nat.eqb i) s) eqn:E.
    - apply existsb_exists in E as (x & Hx & Q). apply Nat.eqb_eq in Q. subst x. exists s. split; [left; reflexivity|exact Hx].
    - destruct (IH E0) as (t & Ht & Hi). exists t. split; [right; exact Ht|exact Hi]. }
  rewrite (average_same i original _ w (original w i)); [reflexivity| |exact X]. intros s Hs Hi k Hk. apply (HE s k i w); assumption.
Qed.
Lemma analysed kind freqs original harmonic deg ncol cutoff shift r i curve : match shift with None => True | Some s => (ncol <= length s)%nat end ->
  (deg = true -> equal_in_sets original harmonic cutoff ncol (length freqs)) -> exactly original freqs i curve -> (i < ncol)%nat ->
  phonon_fitting_analysis (fitted_by kind (length freqs)) original harmonic deg ncol cutoff shift = Some r ->
  match kind (map curve freqs) with
  | Some f => nth i (positions r) 0 = r_position f + shift_of shift i /\ nth i (widths r) 0 = r_width f /\ nth i (dt_Q2 r) 0 = 2 * r_area f
  | None => nothing r i
  end.
Proof.
  intros Hs HE HX Hi E. destruct (C31_one_entry_per_branch (fitted_by kind (length freqs)) original harmonic deg ncol cutoff shift Hs) as (r' & E' & _ & _ & _ & _ & H).
  rewrite E in E'. injection E' as <-. destruct (H i Hi) as (ps & Ec & En).
  assert (map ps (seq 0 (length freqs)) = map curve freqs) as D.
  { apply (nth_ext _ _ (ps 0%nat) (curve 0)); [rewrite !map_length, seq_length; reflexivity|]. intros w Hw. rewrite map_length, seq_length in Hw.
    rewrite (map_nth ps (seq 0 (length freqs)) 0%nat w), seq_nth by exact Hw. rewrite (map_nth curve freqs 0 w). cbn [Nat.add].
    rewrite (column_data _ _ _ _ _ _ _ w (length freqs) HE Ec Hw). apply HX. exact Hw. }
  unfold entry, fitted_by in En. rewrite D in En. destruct (kind (map curve freqs)) as [f|]; cbn [option_map] in En; injection En as E1 E2 E3 E4.
  - cbn [peak_position width area] in *. rewrite E1, E2, E4. repeat split; reflexivity.
  - unfold nothing. rewrite E1, E2, E3, E4. repeat split; reflexivity.
Qed.

(* ---------- theorems ---------- *)
Section Analysis.
Context (freqs : list R) (original : nat -> nat -> R) (harmonic : nat -> R) (use_degeneracy : bool) (ncol : nat) (cutoff : R) (shift : option (list R)) (r : result).
Context (Hdistinct : NoDup freqs) (Hshift : match shift with None => True | Some s => (ncol <= length s)%nat end)
        (Hsets : use_degeneracy = true -> equal_in_sets original harmonic cutoff ncol (length freqs)).

(** Lorentzian, degenerate branches averaged or not *)
Theorem C114_analysis_degenerate : forall solver (a b c d : nat -> R), (5 <= length freqs)%nat ->
  (forall ys a' b' c' d' err, solver ys = Some (a', b', c', d', err) -> least_squares lorentzian freqs ys a' b' c' d') ->
  (forall i, (i < ncol)%nat -> 0 < b i /\ 0 < c i /\ exactly original freqs i (lorentzian (a i) (b i) (c i) (d i))) ->
  phonon_fitting_analysis (fitted_by (lorentzian_kind solver) (length freqs)) original harmonic use_degeneracy ncol cutoff shift = Some r ->
  forall i, (i < ncol)%nat ->
    nth i (positions r) 0 = a i + shift_of shift i /\ nth i (widths r) 0 = 2 * b i /\ nth i (dt_Q2 r) 0 = 2 * c i \/ nothing r i.
Proof.
  intros solver a b c d L HS HB E i Hi. destruct (HB i Hi) as (Hb & Hc & HX). assert (A := analysed _ freqs original harmonic use_degeneracy ncol cutoff shift r i _ Hshift Hsets HX Hi E).
  unfold lorentzian_kind in A. destruct (solver (map (lorentzian (a i) (b i) (c i) (d i)) freqs)) as [[[[[a' b'] c'] d'] err]|] eqn:Es; [|right; exact A].
  destruct (lorentzian_fitting a' b' c' d' err) as [f|] eqn:Ef; [|right; exact A]. left.
  destruct (C114_lorentzian freqs (a i) (b i) (c i) (d i) a' b' c' d' err Hdistinct L Hb Hc (HS _ _ _ _ _ _ Es)) as (G & _). destruct (G f Ef) as (G1 & G2 & G3 & _).
  rewrite G1, G2, G3 in A. exact A.
Qed.
(** damped oscillator: the reported width is the damping, the reported position is the frequency of the oscillator or its opposite *)
Theorem C114_analysis_damped_partial : forall solver xmax (a b c d : nat -> R), (5 <= length freqs)%nat -> (forall x, In x freqs -> 0 < x) ->
  (forall ys a' b' c' d' err, solver ys = Some (a', b', c', d', err) -> least_squares damped freqs ys a' b' c' d') ->
  (forall i, (i < ncol)%nat -> 0 < a i /\ 0 < b i /\ c i <> 0 /\ exactly original freqs i (damped (a i) (b i) (c i) (d i))) ->
  phonon_fitting_analysis (fitted_by (damped_kind solver xmax) (length freqs)) original harmonic use_degeneracy ncol cutoff shift = Some r ->
  forall i, (i < ncol)%nat ->
    Rabs (nth i (positions r) 0 - shift_of shift i) = a i /\ nth i (widths r) 0 = b i /\ nth i (dt_Q2 r) 0 = 2 * RInt (damped (a i) (b i) (c i) (d i)) 0 xmax \/ nothing r i.
Proof.
  intros solver xmax a b c d L Px HS HB E i Hi. destruct (HB i Hi) as (Ha & Hb & Hc & HX). assert (A := analysed _ freqs original harmonic use_degeneracy ncol cutoff shift r i _ Hshift Hsets HX Hi E).
  unfold damped_kind in A. destruct (solver (map (damped (a i) (b i) (c i) (d i)) freqs)) as [[[[[a' b'] c'] d'] err]|] eqn:Es; [|right; exact A].
  destruct (damped_fitting a' b' c' d' xmax err) as [f|] eqn:Ef; [|right; exact A]. left.
  destruct (C114_damped_partial freqs (a i) (b i) (c i) (d i) a' b' c' d' xmax err Hdistinct L Px Ha Hb Hc (HS _ _ _ _ _ _ Es)) as (A1 & B1 & C1 & D1 & G).
  destruct (G f Ef) as (G1 & _ & G3 & _). destruct A as (P1 & P2 & P3). rewrite P1, P2, P3, G1.
  split; [replace (r_position f + shift_of shift i - shift_of shift i) with (r_position f) by ring; exact G3|]. split; [reflexivity|].
  unfold damped_fitting, finish in Ef. destruct (isnan _); [discriminate|]. injection Ef as <-. cbn [r_area]. f_equal. apply RInt_ext. intros x _. rewrite C1, D1. unfold damped.
  replace (a' ^ 2) with (a i ^ 2) by (destruct A1 as [-> | ->]; ring). replace ((b' * x) ^ 2) with ((b i * x) ^ 2) by (destruct B1 as [-> | ->]; ring). reflexivity.
Qed.
(** asymmetric Lorentzian: the position is the place the minimiser of the negated true curve stops at, the width is, up to sign, the true one there, the area the
    true one up to the end of the range *)
Theorem C114_analysis_asymmetric_partial : forall solver minimiser xmax (a b c d s : nat -> R), (45 <= length freqs)%nat ->
  (forall f g, (forall x, f x = g x) -> minimiser f = minimiser g) ->
  (forall ys a' b' c' d' s' err, solver ys = Some (a', b', c', d', s', err) -> least_squares5 asymmetric freqs ys a' b' c' d' s') ->
  (forall i, (i < ncol)%nat -> 0 < b i /\ 0 < c i /\ exactly original freqs i (asymmetric (a i) (b i) (c i) (d i) (s i))) ->
  phonon_fitting_analysis (fitted_by (asymmetric_kind solver minimiser xmax) (length freqs)) original harmonic use_degeneracy ncol cutoff shift = Some r ->
  forall i, (i < ncol)%nat -> let x0 := minimiser (fun x => - asymmetric (a i) (b i) (c i) (d i) (s i) x) in
    nth i (positions r) 0 = x0 + shift_of shift i /\ Rabs (nth i (widths r) 0) = 2 * g_a (a i) (b i) (s i) x0 /\
    nth i (dt_Q2 r) 0 = 2 * RInt (asymmetric (a i) (b i) (c i) (d i) (s i)) 0 xmax \/ nothing r i.
Proof.
  intros solver minimiser xmax a b c d s L HM HS HB E i Hi x0. destruct (HB i Hi) as (Hb & Hc & HX). assert (A := analysed _ freqs original harmonic use_degeneracy ncol cutoff shift r i _ Hshift Hsets HX Hi E).
  unfold asymmetric_kind in A. destruct (solver (map (asymmetric (a i) (b i) (c i) (d i) (s i)) freqs)) as [[[[[[a' b'] c'] d'] s'] err]|] eqn:Es; [|right; exact A].
  destruct (C114_asymmetric_partial freqs (a i) (b i) (c i) (d i) (s i) a' b' c' d' s' Hdistinct L Hb Hc (HS _ _ _ _ _ _ _ Es)) as (_ & _ & _ & _ & HF & G).
  rewrite (HM _ (fun x => - asymmetric (a i) (b i) (c i) (d i) (s i) x)) in A by (intros x; rewrite HF; reflexivity). fold x0 in A.
  destruct (asymmetric_fitting a' b' c' d' s' x0 xmax err) as [f|] eqn:Ef; [|right; exact A]. left.
  destruct (G x0 xmax err f Ef) as (G1 & _ & G3 & _ & G5 & _). destruct A as (P1 & P2 & P3). rewrite P1, P2, P3, G1, G3. repeat split; [exact G5].
Qed.
End Analysis.
Print Assumptions C114_analysis_degenerate. Print Assumptions C114_analysis_damped_partial. Print Assumptions C114_analysis_asymmetric_partial.

(** Two degenerate branches with the same peak: averaged, fitted by a solver that finds the true parameters, both are reported with them. *)
Example C114_degenerate_nonvacuous : let fs := [1; 2; 3; 4; 5] in let data (w : nat) (_ : nat) := lorentzian 3 1 2 0 (nth w fs 0) in
  equal_in_sets data (fun _ => 3) (1 / 10) 2 5 /\ In [0%nat; 1%nat] (degenerate_sets (fun _ => 3) (1 / 10) 2) /\
  exists solver, (forall ys a' b' c' d' err, solver ys = Some (a', b', c', d', err) -> least_squares lorentzian fs ys a' b' c' d') /\
  exists r, phonon_fitting_analysis (fitted_by (lorentzian_kind solver) 5) data (fun _ => 3) true 2 (1 / 10) None = Some r /\ nth 1 (positions r) 0 = 3 /\ nth 1 (widths r) 0 = 2.
Proof.
  intros fs data. assert (equal_in_sets data (fun _ => 3) (1 / 10) 2 5) as HQ by (intros s i j w _ _ _ _; reflexivity). split; [exact HQ|]. split.
  { unfold degenerate_sets. cbn. replace (Rltb (Rabs (3 - 3)) (1 / 10)) with true; [cbn; left; reflexivity|]. unfold Rltb. rewrite Rminus_eq_0, Rabs_R0. destruct (Rlt_dec 0 (1 / 10)); [reflexivity|lra]. }
  exists (fun ys => if list_eq_dec Req_EM_T ys (map (lorentzian 3 1 2 0) fs) then Some (3, 1, 2, 0, Fin 0) else None). split.
  { intros ys a' b' c' d' err H. destruct (list_eq_dec _ _ _) as [E|]; [|discriminate]. injection H as <- <- <- <- _. rewrite E. apply C114_lorentzian_exists. lra. }
  match goal with |- exists r, phonon_fitting_analysis ?F ?o ?h ?u ?n ?k ?s = Some r /\ _ => destruct (C31_one_entry_per_branch F o h u n k s I) as (r & E & _) end.
  exists r. split; [exact E|].
  assert (A := analysed _ fs data (fun _ => 3) true 2 (1 / 10) None r 1 (lorentzian 3 1 2 0) I (fun _ => HQ) (fun w _ => eq_refl) ltac:(lia) E).
  unfold lorentzian_kind in A. destruct (list_eq_dec Req_EM_T (map (lorentzian 3 1 2 0) fs) (map (lorentzian 3 1 2 0) fs)) as [_|N]; [|contradiction N; reflexivity].
  unfold lorentzian_fitting, finish, div_sqrt in A. destruct (Rlt_dec 2 0); [lra|]. destruct (Req_EM_T 2 0); [lra|]. cbn [isnan r_position r_width shift_of] in A. destruct A as (-> & -> & _). split; lra.
Qed.
