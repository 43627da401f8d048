(** C136: each fitted peak has its own figure, with the analysed spectrum, the reported curve and the reported position. *)
From Verif Require FittingSpec FittingProofs.
From Verif Require Import FitObjectModel FitObjectProps PeakFiguresModel.
From Coq Require Import Reals List Lia Lra.
Import ListNotations.
Open Scope R_scope.

(** the guess: the largest value of the spectrum and the first place where it is reached *)
Theorem C136_guess : forall l h k, max_argmax l = Some (h, k) ->
  nth_error l k = Some h /\ (forall j x, nth_error l j = Some x -> x <= h) /\ (forall j x, (j < k)%nat -> nth_error l j = Some x -> x < h).
Proof.
  intros [|x l] h k H; [discriminate|]. cbn [max_argmax] in H. injection H as H.
  assert (G : forall l2 l1 b w h k, max_from b w (length l1) l2 = (h, k) -> nth_error l1 w = Some b -> (forall j y, nth_error l1 j = Some y -> y <= b) -> (forall j y, (j < w)%nat -> nth_error l1 j = Some y -> y < b) ->
     nth_error (l1 ++ l2) k = Some h /\ (forall j y, nth_error (l1 ++ l2) j = Some y -> y <= h) /\ (forall j y, (j < k)%nat -> nth_error (l1 ++ l2) j = Some y -> y < h)).
  { induction l2 as [|z l2 IH]; intros l1 b w h' k' E A B D; cbn [max_from] in E; [injection E as <- <-; rewrite app_nil_r; auto|].
    assert (Hw : (w < length l1)%nat) by (apply nth_error_Some; congruence).
    assert (Ez : forall j y, nth_error (l1 ++ [z]) j = Some y -> nth_error l1 j = Some y \/ j = length l1 /\ y = z).
    { intros j y Hj. destruct (Nat.lt_ge_cases j (length l1)) as [Hlt|Hge]; [left; rewrite nth_error_app1 in Hj by exact Hlt; exact Hj|right].
      rewrite nth_error_app2 in Hj by exact Hge. destruct (j - length l1)%nat as [|n] eqn:En; [split; [lia|cbn in Hj; congruence]|cbn in Hj; destruct n; discriminate]. }
    replace (l1 ++ z :: l2) with ((l1 ++ [z]) ++ l2) by (rewrite <- app_assoc; reflexivity). unfold Rltb in E.
    destruct (Rlt_dec b z) as [Hbz|Hbz]; (eapply IH; [rewrite app_length; cbn [length]; rewrite Nat.add_1_r; exact E| | |]).
    - rewrite nth_error_app2, Nat.sub_diag by lia. reflexivity.
    - intros j y Hj. destruct (Ez _ _ Hj) as [Hj'|[_ ->]]; [apply B in Hj'; lra|lra].
    - intros j y Hlt Hj. destruct (Ez _ _ Hj) as [Hj'|[-> _]]; [apply B in Hj'; lra|lia].
    - rewrite nth_error_app1 by exact Hw. exact A.
    - intros j y Hj. destruct (Ez _ _ Hj) as [Hj'|[_ ->]]; [apply (B _ _ Hj')|lra].
    - intros j y Hlt Hj. destruct (Ez _ _ Hj) as [Hj'|[-> _]]; [apply (D _ _ Hlt Hj')|lia]. }
  specialize (G l [x] x 0%nat h k H eq_refl). cbn [app] in G. apply G.
  - intros [|[|j]] y Hy; cbn in Hy; try discriminate. injection Hy as <-. lra.
  - intros j y Hj. lia.
Qed.

Section Analysis.
Context (kind : shape) (xs : list R) (spectra : list (list R)) (harmonic : option (list R)) (use_degeneracy alpha_accepted : bool) (cutoff : R)
        (optimise : nat -> nat -> option (list R) -> outcome) (best : coefficients -> R).
Notation analysis show := (peak_analysis kind xs spectra harmonic use_degeneracy show alpha_accepted cutoff optimise best).
Notation branch_of show := (one_branch kind xs spectra harmonic use_degeneracy show alpha_accepted cutoff optimise best).
Notation branches_of show := (branches kind xs spectra harmonic use_degeneracy show alpha_accepted cutoff optimise best).
Notation spectrum := (analysed xs spectra harmonic use_degeneracy cutoff).

Lemma branches_nth show shift is : forall bs, branches_of show shift is = Some bs -> length bs = length is /\ forall n i b, nth_error is n = Some i -> nth_error bs n = Some b -> branch_of show shift i = Some b.
Proof.
  induction is as [|i is IH]; intros bs H; cbn [branches] in H; [injection H as <-; split; [reflexivity|intros [|n] i b Hn; discriminate]|].
  destruct (branch_of show shift i) as [b|] eqn:Eb; [|discriminate]. destruct (branches_of show shift is) as [bs'|]; [|discriminate]. injection H as <-.
  destruct (IH _ eq_refl) as [L N]. split; [cbn; lia|]. intros [|n] i' b' Hi Hb; cbn in Hi, Hb; [congruence|apply (N n i' b' Hi Hb)].
Qed.

(** the analysed spectrum of branch i: its own column, or the mean of the columns of a set of branches of near frequencies that contains it *)
Theorem C136_spectrum : forall i ps, spectrum i = Some ps ->
  if use_degeneracy then
    exists hs set, harmonic = Some hs /\ In i set /\ FittingSpec.linked (fun k => nth k hs 0) cutoff set /\ length ps = length xs /\
      forall w y, nth_error ps w = Some y -> y * INR (length set) = rsum (map (fun k => nth w (nth k spectra []) 0) set)
  else nth_error spectra i = Some ps.
Proof.
  intros i ps. unfold analysed. destruct use_degeneracy; [|auto]. destruct harmonic as [hs|]; [|discriminate].
  destruct (existsb (existsb (Nat.eqb i)) (degenerate_sets (fun k => nth k hs 0) cutoff (length hs))) eqn:E; [|discriminate]. intros H. injection H as <-.
  apply existsb_exists in E as (s0 & Hs0 & Hi0). apply existsb_exists in Hi0 as (j & Hj & Ej). apply Nat.eqb_eq in Ej. subst j.
  assert (Ex : exists s, In s (degenerate_sets (fun k => nth k hs 0) cutoff (length hs)) /\ In i s) by eauto.
  assert (U : exists s, In s (degenerate_sets (fun k => nth k hs 0) cutoff (length hs)) /\ In i s /\ forall w, average_phonon i (datum spectra) (degenerate_sets (fun k => nth k hs 0) cutoff (length hs)) w = Some (rsum (map (datum spectra w) s) / INR (length s))).
  { clear - Ex. induction (degenerate_sets (fun k => nth k hs 0) cutoff (length hs)) as [|t deg IH]; [destruct Ex as (s & [] & _)|]. cbn [average_phonon]. destruct (existsb (Nat.eqb i) t) eqn:Et.
    - apply existsb_exists in Et as (j & Hj & Ej). apply Nat.eqb_eq in Ej. subst j. exists t. split; [left; reflexivity|]. split; [exact Hj|reflexivity].
    - destruct IH as (s & A & B & C0); [|exists s; split; [right; exact A|]; split; [exact B|exact C0]]. destruct Ex as (s & [->|Hs] & Hi); [|eauto].
      exfalso. assert (existsb (Nat.eqb i) s = true) by (apply existsb_exists; exists i; split; [exact Hi|apply Nat.eqb_refl]). congruence. }
  destruct U as (s & Hs & Hi & Hw). exists hs, s. split; [reflexivity|]. split; [exact Hi|]. split.
  { destruct (FittingProofs.sets_general (fun k => nth k hs 0) cutoff (length hs)) as [F _]. rewrite Forall_forall in F. apply F, Hs. }
  split; [rewrite map_length; apply seq_length|]. intros w y Hy. rewrite nth_error_map in Hy. destruct (nth_error (seq 0 (length xs)) w) as [w'|] eqn:Ew; [|discriminate].
  cbn [option_map] in Hy. injection Hy as <-. assert (Hlt : (w < length (seq 0 (length xs)))%nat) by (apply nth_error_Some; congruence). rewrite (nth_error_nth' _ 0%nat Hlt) in Ew. injection Ew as <-. rewrite seq_length in Hlt. rewrite seq_nth by exact Hlt. rewrite Hw.
  cbn [Nat.add]. unfold datum. field. apply not_0_INR. destruct s; [destruct Hi|discriminate].
Qed.

(** what a branch shows *)
Definition failed (b : branch) : Prop := b_printed b = None /\ b_position b = 0 /\ b_width b = 0 /\ b_figure b = None.
Definition shows (show : bool) (shift : option (list R)) (i : nat) (b : branch) (ps : list R) (p : coefficients) (err : xreal) (r : report) : Prop :=
  describe kind xs best p err = Some r /\
  (exists t, b_position b = r_position r + t /\ b_width b = r_width r /\ (shift = None -> t = 0) /\ (forall ts, shift = Some ts -> nth_error ts i = Some t)) /\
  match b_figure b with
  | None => show = false
  | Some f => show = true /\ fig_number f = (i + 1)%nat /\ fig_phonon f = (i + 1)%nat /\ fig_spectrum f = (xs, ps) /\
              fst (fig_fit f) = xs /\ snd (fig_fit f) = map (evaluate kind p) xs /\ fig_line f = b_position b /\ snd (fig_text f) = b_width b /\
              (exists top, In top ps /\ (forall x, In x ps -> x <= top) /\ fst (fig_text f) = (b_position b + b_width b, top / 2)) /\
              hd_error xs = Some (fst (fig_xlim f)) /\ hd_error (rev xs) = Some (snd (fig_xlim f)) /\
              (forall lo hi, fig_band f = Some (lo, hi) -> hi - lo = b_width b /\ (lo + hi) / 2 = b_position b)
  end.
(** one branch for every column in order, and each figure is of its own branch: the analysed spectrum, the curve with the reported coefficients, the
    line at the returned position *)
Theorem C136_figures : forall show shift bs, analysis show shift = Some bs -> length bs = length spectra /\
  forall i b, nth_error bs i = Some b -> exists ps, spectrum i = Some ps /\ (failed b \/ exists p err r, shows show shift i b ps p err r).
Proof.
  intros show shift bs H. unfold peak_analysis in H. destruct (branches_nth _ _ _ _ H) as [L N]. rewrite seq_length in L. split; [exact L|]. intros i b Hb.
  assert (Hi : (i < length spectra)%nat) by (rewrite <- L; apply nth_error_Some; congruence).
  assert (Hs : nth_error (seq 0 (length spectra)) i = Some i) by (rewrite (nth_error_nth' _ 0%nat) by (rewrite seq_length; exact Hi); rewrite seq_nth by exact Hi; reflexivity).
  specialize (N _ _ _ Hs Hb). unfold one_branch in N. destruct (spectrum i) as [ps|] eqn:Es; [|discriminate]. exists ps. split; [reflexivity|].
  destruct (max_argmax ps) as [[gh k]|] eqn:Em; [|discriminate]. destruct (nth_error xs k) as [gp|] eqn:Ek; [|discriminate].
  destruct (C135_same_coefficients kind xs (Some gp) (Some gh) best (optimise i) [AskFitting; AskCurve xs]) as (p & err & F). fold (requests kind xs optimise best [AskFitting; AskCurve xs] i gp gh) in F.
  destruct (requests _ _ _ _ _ _ _ _) as [|r1 rs1]; [discriminate|]. inversion F as [|? ? ? ? A1 F1]; subst. inversion F1 as [|? r2 ? rs2 A2 F2]; subst. inversion F2; subst.
  destruct r1 as [| r | |ys|e]; try discriminate; [|injection N as <-; left; repeat split].
  destruct r2 as [| | |ys|e]; try discriminate. right. exists p, err, r. cbn [about] in A1, A2. destruct A2 as [Ly Hy].
  assert (Ey : ys = map (evaluate kind p) xs).
  { apply nth_ext with (d := 0) (d' := 0); [rewrite map_length; exact Ly|]. intros n Hn. assert (Hx : (n < length xs)%nat) by lia.
    rewrite (nth_indep (map _ _) 0 (evaluate kind p 0)) by (rewrite map_length; exact Hx). rewrite map_nth. apply (Hy n); apply nth_error_nth'; [exact Hx|exact Hn]. }
  assert (T : exists t w, match (match harmonic with None => Some None | Some hs => option_map (fun h => Some (r_position r - h)) (nth_error hs i) end) with
     | None => None | Some f => match shift with None => Some (None, r_position r) | Some ts => match f, nth_error ts i with Some f, Some t => Some (Some (f + t), r_position r + t) | _, _ => None end end end = Some (w, r_position r + t)
     /\ (shift = None -> t = 0) /\ (forall ts, shift = Some ts -> nth_error ts i = Some t)).
  { destruct (match harmonic with None => _ | Some hs => _ end) as [f|]; [|discriminate]. destruct shift as [ts|].
    - destruct f as [f|]; [|discriminate]. destruct (nth_error ts i) as [t|] eqn:Et; [|discriminate]. exists t, (Some (f + t)). repeat split; [discriminate|]. intros ts' E'. injection E' as <-. exact Et.
    - exists 0, None. rewrite Rplus_0_r. repeat split. discriminate. }
  destruct T as (t & w & E & T1 & T2). destruct (match harmonic with None => _ | Some hs => _ end) as [f|]; [|discriminate].
  unfold shows. destruct show.
  all: rewrite E in N; injection N as <-; cbn [b_figure b_position b_width fig_number fig_phonon fig_spectrum fig_fit fig_line fig_text fig_band fst snd].
  all: split; [exact A1|]; split; [exists t; auto|].
  - destruct (C136_guess _ _ _ Em) as (G1 & G2 & _). repeat apply conj; try reflexivity; try exact Ey.
    + exists gh. split; [apply nth_error_In in G1; exact G1|]. split; [|reflexivity]. intros x Hx. apply In_nth_error in Hx as [j Hj]. apply (G2 j x Hj).
    + cbn [fig_xlim fst]. destruct xs; [destruct k; discriminate|reflexivity].
    + cbn [fig_xlim snd]. destruct xs as [|x0 l0] using rev_ind; [destruct k; discriminate|]. rewrite rev_app_distr, last_last. reflexivity.
    + destruct alpha_accepted; try discriminate; intros; cbn [fig_band] in *; try discriminate; match goal with H : Some _ = Some _ |- _ => injection H as <- <- end; lra.
  - reflexivity.
Qed.
(** hiding the figures changes nothing else *)
Definition no_figure (b : branch) : branch := MkBranch (b_printed b) (b_position b) (b_width b) None.
Theorem C136_figures_change_nothing : forall shift, analysis false shift = option_map (map no_figure) (analysis true shift).
Proof.
  intros shift. unfold peak_analysis. assert (G : forall i, branch_of false shift i = option_map no_figure (branch_of true shift i)).
  { intros i. unfold one_branch. destruct (spectrum i) as [ps|]; [|reflexivity]. destruct (max_argmax ps) as [[h k]|]; [|reflexivity]. destruct (nth_error xs k); [|reflexivity].
    destruct (requests _ _ _ _ _ _ _ _) as [|r1 [|r2 [|r3 rs]]]; try destruct r1; try reflexivity; destruct r2; try reflexivity.
    destruct (match harmonic with None => _ | Some hs => _ end) as [f|]; [|reflexivity]. destruct (match shift with None => _ | Some ts => _ end) as [[w q]|]; reflexivity. }
  induction (seq 0 (length spectra)) as [|i is IH]; [reflexivity|]. cbn [branches]. rewrite G. destruct (branch_of true shift i) as [b|]; [|reflexivity]. cbn [option_map]. rewrite IH. destruct (branches_of true shift is); reflexivity.
Qed.
(** printed: the frequency shift with thermal expansion leads from the harmonic frequency to the returned position, the one without to the printed position *)
Theorem C136_printed_shifts : forall show shift bs i b q, analysis show shift = Some bs -> nth_error bs i = Some b -> b_printed b = Some q ->
  pr_width q = b_width b /\ (shift = None -> pr_position q = b_position b /\ pr_shift_texp q = None) /\
  (forall hs, harmonic = Some hs -> exists h, nth_error hs i = Some h /\ pr_shift q = Some (pr_position q - h) /\ forall ts, shift = Some ts -> exists f, pr_shift_texp q = Some f /\ h + f = b_position b).
Proof.
  intros show shift bs i b q H Hb Hq. unfold peak_analysis in H. destruct (branches_nth _ _ _ _ H) as [L N]. rewrite seq_length in L.
  assert (Hi : (i < length spectra)%nat) by (rewrite <- L; apply nth_error_Some; congruence).
  assert (Hs : nth_error (seq 0 (length spectra)) i = Some i) by (rewrite (nth_error_nth' _ 0%nat) by (rewrite seq_length; exact Hi); rewrite seq_nth by exact Hi; reflexivity).
  specialize (N _ _ _ Hs Hb). unfold one_branch in N. destruct (spectrum i) as [ps|] eqn:Es; [|discriminate].
  destruct (max_argmax ps) as [[gh k]|]; [|discriminate]. destruct (nth_error xs k) as [gp|]; [|discriminate].
  destruct (requests _ _ _ _ _ _ _ _) as [|r1 [|r2 [|r3 rs]]]; try destruct r1; try discriminate; try (injection N as <-; discriminate); destruct r2; try discriminate.
  destruct harmonic as [hs|].
  - destruct (nth_error hs i) as [h|] eqn:Eh; [|discriminate]. cbn [option_map] in N. destruct shift as [ts|].
    + destruct (nth_error ts i) as [t|] eqn:Et; [|discriminate]. injection N as <-. cbn in Hq. injection Hq as <-. cbn. split; [reflexivity|]. split; [discriminate|].
      intros hs' E. injection E as <-. exists h. split; [exact Eh|]. split; [reflexivity|]. intros _ _. eexists. split; [reflexivity|]. ring.
    + injection N as <-. cbn in Hq. injection Hq as <-. cbn. split; [reflexivity|]. split; [auto|]. intros hs' E. injection E as <-. exists h. split; [exact Eh|]. split; [reflexivity|]. discriminate.
  - destruct shift as [ts|]; [discriminate|]. injection N as <-. cbn in Hq. injection Hq as <-. cbn. split; [reflexivity|]. split; [auto|]. discriminate.
Qed.
End Analysis.

(** a Lorentzian falls away from its centre *)
Lemma lorentzian_falls a b c d x : 0 < b -> 0 < c -> x <> a -> lorentzian a b c d x < lorentzian a b c d a.
Proof.
  intros Hb Hc Hx. unfold lorentzian. apply Rplus_lt_compat_r. unfold Rdiv at 1 3. apply Rmult_lt_compat_l; [exact Hc|]. assert (P := PI_RGT_0).
  assert (Hp : 0 < PI * b) by (apply Rmult_lt_0_compat; assumption). apply Rinv_lt_contravar.
  - apply Rmult_lt_0_compat; apply Rmult_lt_0_compat; try exact Hp; assert (Q := pow2_ge_0 ((a - a) / b)); assert (Q' := pow2_ge_0 ((x - a) / b)); lra.
  - apply Rmult_lt_compat_l; [exact Hp|]. apply Rplus_lt_compat_l. replace (((a - a) / b) ^ 2) with 0 by (field; lra). rewrite <- Rsqr_pow2. apply Rlt_0_sqr.
    intros E. apply Hx. assert (x - a = 0); [|lra]. replace (x - a) with ((x - a) / b * b) by (field; lra). rewrite E. ring.
Qed.
Section Line.
Context (xs : list R) (spectra : list (list R)) (harmonic : option (list R)) (use_degeneracy alpha_accepted : bool) (cutoff : R)
        (optimise : nat -> nat -> option (list R) -> outcome) (best : coefficients -> R).
Notation analysis shift := (peak_analysis Lorentzian xs spectra harmonic use_degeneracy true alpha_accepted cutoff optimise best shift).
Lemma line shift bs i b f : analysis shift = Some bs -> nth_error bs i = Some b -> b_figure b = Some f ->
  exists p t, snd (fig_fit f) = map (evaluate Lorentzian p) xs /\ fig_line f = co_a p + t /\ b_width b = 2 * co_b p /\ (shift = None -> t = 0) /\ (forall ts, shift = Some ts -> nth_error ts i = Some t).
Proof.
  intros H Hb Hf. destruct (C136_figures _ _ _ _ _ _ _ _ _ _ _ _ H) as [_ G]. destruct (G i b Hb) as (ps & _ & [(_ & _ & _ & F)|(p & err & r & D & (t & T1 & T2 & T3 & T4) & F)]); [congruence|].
  rewrite Hf in F. destruct F as (_ & _ & _ & _ & _ & F1 & F2 & _ & _). cbn [describe] in D. unfold lorentzian_fitting, finish in D. destruct (isnan _); [discriminate|]. injection D as <-. cbn [r_position r_width] in *.
  exists p, t. split; [exact F1|]. split; [congruence|]. auto.
Qed.
(** without thermal expansion the dashed line is at the top of the drawn curve; with one it is beside it *)
Theorem C136_line_partial : forall bs i b f, analysis None = Some bs -> nth_error bs i = Some b -> b_figure b = Some f -> 0 < b_width b ->
  exists p, snd (fig_fit f) = map (evaluate Lorentzian p) xs /\ (0 < co_c p -> forall x, x <> fig_line f -> evaluate Lorentzian p x < evaluate Lorentzian p (fig_line f)).
Proof.
  intros bs i b f H Hb Hf Hw. destruct (line _ _ _ _ _ H Hb Hf) as (p & t & F1 & F2 & F3 & F4 & _). exists p. split; [exact F1|]. intros Hc x Hx. rewrite F2, (F4 eq_refl), Rplus_0_r in *.
  cbn [evaluate]. apply lorentzian_falls; lra.
Qed.
Theorem C136_line_refuted : forall ts bs i b f t, analysis (Some ts) = Some bs -> nth_error bs i = Some b -> b_figure b = Some f -> 0 < b_width b -> nth_error ts i = Some t -> t <> 0 ->
  exists p, snd (fig_fit f) = map (evaluate Lorentzian p) xs /\ (0 < co_c p -> evaluate Lorentzian p (fig_line f) < evaluate Lorentzian p (fig_line f - t)).
Proof.
  intros ts bs i b f t H Hb Hf Hw Ht Hnz. destruct (line _ _ _ _ _ H Hb Hf) as (p & t' & F1 & F2 & F3 & _ & F5). specialize (F5 _ eq_refl). assert (t' = t) by congruence. subst t'.
  exists p. split; [exact F1|]. intros Hc. rewrite F2. replace (co_a p + t - t) with (co_a p) by ring. cbn [evaluate]. apply lorentzian_falls; lra.
Qed.
End Line.

(** two branches, the first fit fails, the second converges, with a thermal expansion shift of 1 *)
Example C136_nonvacuous : forall best, let optimise i (k : nat) (s : option (list R)) := match i with O => Raises RuntimeError | _ => Converged (Coef 2 1 PI 1 0) (Fin 0) end in
  exists f, peak_analysis Lorentzian [0; 2; 4] [[1; 3; 2]; [1; 2; 1]] (Some [1; 1]) false true true (1 / 100) optimise best (Some [1; 1]) =
    Some [MkBranch None 0 0 None; MkBranch (Some (MkPrinted 2 (2 * 1) (Some (2 - 1)) (Some (2 - 1 + 1)))) (2 + 1) (2 * 1) (Some f)] /\ fig_number f = 2%nat /\ fig_line f = 2 + 1 /\ fig_spectrum f = ([0; 2; 4], [1; 2; 1]).
Proof.
  intros best optimise. eexists. split.
  - unfold peak_analysis. cbn [length seq branches]. unfold one_branch, analysed. cbn [nth_error max_argmax max_from]. unfold Rltb.
    repeat match goal with |- context [Rlt_dec ?x ?y] => destruct (Rlt_dec x y); [try lra|try lra] end. cbn [nth_error]. unfold requests. rewrite !run_cons. unfold answer, get_fitting_parameters, optimise.
    cbn [fresh cached starts length app fst snd answers]. unfold describe, lorentzian_fitting, finish, div_sqrt. cbn [co_a co_b co_c co_d co_s].
    assert (P := PI_RGT_0). destruct (Rlt_dec PI 0); [lra|]. destruct (Req_EM_T PI 0); [lra|]. cbn [isnan nth_error option_map r_position r_width]. reflexivity.
  - repeat split.
Qed.
Print Assumptions C136_guess. Print Assumptions C136_spectrum. Print Assumptions C136_figures. Print Assumptions C136_figures_change_nothing. Print Assumptions C136_printed_shifts. Print Assumptions C136_line_partial. Print Assumptions C136_line_refuted. Print Assumptions C136_nonvacuous.
