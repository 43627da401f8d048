(** C19, C20: the maximum entropy routine of c/mem.c. *)
From Verif Require Import MemModel MemSpec MemProofs.
From Coq Require Import Lra Lia.
Open Scope R_scope.

(** C19, full statement false, for every input: called as MaximumEntropyMethod calls it - a buffer
    holding exactly the N samples - the routine reads outside the buffer, whatever N and M are. *)
Theorem C19_out_of_bounds_refuted :
  forall (samples : list R) (M : nat), GetCoefficients (of_list samples) (length samples) M = None.
Proof. intros s M. apply GetCoefficients_oob. reflexivity. Qed.
Print Assumptions C19_out_of_bounds_refuted.

(** What holds: if one more readable element followed the N samples, every access to the data and
    to the work arrays would be in bounds and initialised, for every N >= 2 and every M; the result
    is Burg's recursion on elements 1..N: the first sample is never used and the element after the
    buffer always is. *)
Theorem C19_in_bounds_partial :
  forall (buffer : list R) (N M : nat), (2 <= N)%nat -> (N + 1 <= length buffer)%nat ->
  exists msd coefs, GetCoefficients (of_list buffer) N M = Some (msd, coefs) /\
  (let b := burg (fun j => nth j buffer 0) N M in
   msd = b_msd b /\ (b_dead b = false -> forall i, (1 <= i <= M)%nat -> rd coefs i = Some (b_a b i))).
Proof.
  intros buffer N M HN HL.
  destruct (GetCoefficients_ok (fun j => nth j buffer 0) (of_list buffer) N M HN) as [v [c [E [Ev [Sc [Hc Hd]]]]]].
  - intros j Hj. rewrite rd_of_list. apply nth_error_nth'. lia.
  - exists v, c. split; [exact E|]. cbv zeta. split; [exact Ev|exact Hc].
Qed.
Print Assumptions C19_in_bounds_partial.
(** In particular the first sample has no influence on the result ... *)
Theorem C19_first_sample_ignored_partial :
  forall (s s' : R) (rest : list R) (N M : nat), (2 <= N)%nat -> (N <= length rest)%nat ->
  exists msd coefs coefs', GetCoefficients (of_list (s :: rest)) N M = Some (msd, coefs) /\
  GetCoefficients (of_list (s' :: rest)) N M = Some (msd, coefs') /\
  (msd <> 0 -> forall i, (1 <= i <= M)%nat -> rd coefs i = rd coefs' i).
Proof.
  intros s s' rest N M HN HL.
  set (x := fun j => nth j (0 :: rest) 0).
  assert (H : forall q j, (1 <= j <= N)%nat -> rd (of_list (q :: rest)) j = Some (x j)).
  { intros q j Hj. rewrite rd_of_list. destruct j as [|j]; [lia|]. unfold x. simpl. apply nth_error_nth'. lia. }
  destruct (GetCoefficients_ok x _ N M HN (H s)) as [v [c [E [Ev [Sc [Hc Hd]]]]]].
  destruct (GetCoefficients_ok x _ N M HN (H s')) as [v' [c' [E' [Ev' [Sc' [Hc' Hd']]]]]].
  exists v, c, c'. split; [exact E|]. split; [rewrite E', Ev, Ev'; reflexivity|].
  intros Hv i Hi. rewrite Ev in Hv. destruct (msd_nonzero_strict _ _ _ Hv) as [D _]. rewrite Hc, Hc' by assumption. reflexivity.
Qed.
Print Assumptions C19_first_sample_ignored_partial.
(** ... while the element after the samples does: with samples 0,0,0 the returned discrepancy is the
    square of the out-of-bounds element over 2 (order 0). *)
Example C19_nonvacuous : forall g : R, exists c, GetCoefficients (of_list [0; 0; g]) 2 0 = Some (g ^ 2 / 2, c).
Proof.
  intros g. destruct (C19_in_bounds_partial [0; 0; g] 2 0 ltac:(lia) ltac:(simpl; lia)) as [v [c [E [Ev _]]]].
  exists c. rewrite E, Ev. f_equal. f_equal. cbn. unfold mean_square. cbn [sum_from nth]. simpl INR. field.
Qed.

(** C20.  [x 1 .. x N] are the values the routine reads. *)
Section C20.
Variables (x : nat -> R) (data : arr R) (N : nat).
Hypothesis HN : (2 <= N)%nat.
Hypothesis Hread : forall j, (1 <= j <= N)%nat -> rd data j = Some (x j).
Theorem C20_residual_power_of_the_code :
  (forall M, exists msd c, GetCoefficients data N M = Some (msd, c) /\ 0 <= msd) /\
  (forall M M' msd msd' c c', (M <= M')%nat -> GetCoefficients data N M = Some (msd, c) ->
     GetCoefficients data N M' = Some (msd', c') -> msd' <= msd).
Proof.
  split.
  - intros M. destruct (GetCoefficients_ok x data N M HN Hread) as [v [c [E [Ev _]]]]. exists v, c. split; [exact E|].
    rewrite Ev. apply burg_msd_nonneg.
  - intros M M' m m' c c' HM E1 E2.
    destruct (GetCoefficients_ok x data N M HN Hread) as [v [d [E [Ev _]]]]. rewrite E in E1. injection E1 as <- <-.
    destruct (GetCoefficients_ok x data N M' HN Hread) as [v' [d' [E' [Ev' _]]]]. rewrite E' in E2. injection E2 as <- <-.
    rewrite Ev, Ev'. apply burg_msd_mono_le. assumption.
Qed.
(** the last coefficient of order M is the reflection coefficient: it lies in [-1,1] *)
Theorem C20_reflection_coefficients :
  forall M msd c r, (1 <= M)%nat -> GetCoefficients data N M = Some (msd, c) -> msd <> 0 -> rd c M = Some r -> -1 < r < 1.
Proof.
  intros M m c r HM E Hm Hr. destruct (GetCoefficients_ok x data N M HN Hread) as [v [d [E' [Ev [_ [Hc _]]]]]]. rewrite E' in E.
  injection E as <- <-. assert (Hm' := Hm). rewrite Ev in Hm'. destruct (msd_nonzero_strict _ _ _ Hm') as [D S].
  rewrite (Hc D M) in Hr by lia. injection Hr as <-.
  assert (Sr := S M ltac:(lia)). destruct M as [|M]; [lia|]. replace (Datatypes.S M - 1)%nat with M in Sr by lia.
  cbn [burg] in *. unfold burg_step in *. destruct (b_dead (burg x N M)) eqn:Ed; [congruence|].
  destruct (Rlt_dec _ _) as [L|L]; [exfalso; apply Hm'; reflexivity|]. cbv zeta. cbn [b_a]. rewrite Nat.eqb_refl. apply Rabs_def2 in Sr. lra.
Qed.
(** Whenever the code evaluates the spectrum of that series (it skips it when the discrepancy is 0)
    the denominator is strictly positive: the quotient is always defined, at every phase. *)
Theorem C20_spectrum_always_defined :
  forall M msd c phase, GetCoefficients data N M = Some (msd, c) -> msd <> 0 ->
  exists a, (forall i, (1 <= i <= M)%nat -> rd c i = Some (a i)) /\
  0 < Cmod (error_filter a M (cexp (Cbuild 0 phase))) /\
  FrequencyEvaluation phase c M msd = Some (msd / (Cmod (error_filter a M (cexp (Cbuild 0 phase)))) ^ 2).
Proof.
  intros M m c w E Hm. destruct (GetCoefficients_ok x data N M HN Hread) as [v [d [E' [Ev [_ [Hc _]]]]]]. rewrite E' in E.
  injection E as <- <-. assert (Hm' := Hm). rewrite Ev in Hm'. destruct (msd_nonzero_strict _ _ _ Hm') as [D S].
  exists (b_a (burg x N M)). split; [exact (Hc D)|]. split; [apply stable; [apply unit_phase|assumption|assumption]|].
  apply FrequencyEvaluation_ok, Hc, D.
Qed.
End C20.
Print Assumptions C20_residual_power_of_the_code.
Print Assumptions C20_reflection_coefficients.
Print Assumptions C20_spectrum_always_defined.
(** the whole routine: the returned spectrum is non-negative at every frequency *)
Theorem C20_spectrum_nonnegative :
  forall (x y : nat -> R) dr di N M dt freq, (2 <= N)%nat -> 0 <= dt ->
  (forall j, (1 <= j <= N)%nat -> rd dr j = Some (x j)) -> (forall j, (1 <= j <= N)%nat -> rd di j = Some (y j)) ->
  exists s, mem_frequency dr di N M dt freq = Some s /\ 0 <= s.
Proof.
  intros x y dr di N M dt freq HN Hdt H1 H2. eexists. split; [apply (mem_frequency_ok x y); assumption|].
  apply Rmult_le_pos; [|assumption]. apply Rplus_le_le_0_compat; apply half_nonneg.
Qed.
Print Assumptions C20_spectrum_nonnegative.
(** and it is dt times the sum of the Burg spectra of the real and imaginary series at phase 2 pi f dt *)
Theorem C20_spectrum_formula :
  forall (x y : nat -> R) dr di N M dt freq, (2 <= N)%nat ->
  (forall j, (1 <= j <= N)%nat -> rd dr j = Some (x j)) -> (forall j, (1 <= j <= N)%nat -> rd di j = Some (y j)) ->
  let z := (cos (2 * PI * freq * dt), sin (2 * PI * freq * dt)) in
  mem_frequency dr di N M dt freq = Some (dt * (burg_spectrum x N M z + burg_spectrum y N M z)).
Proof.
  intros x y dr di N M dt freq HN H1 H2 z. rewrite (mem_frequency_ok x y) by assumption.
  replace (cexp (Cbuild 0 (freq * 2 * PI * dt))) with z; [f_equal; ring|].
  unfold z, cexp, Cbuild. cbn [fst snd]. rewrite exp_0, !Rmult_1_l. replace (freq * 2 * PI * dt) with (2 * PI * freq * dt) by ring. reflexivity.
Qed.
Print Assumptions C20_spectrum_formula.
(** and does not depend on the schedule of the parallel loop over frequencies *)
Theorem C20_schedule_independent :
  forall dr di N M dt freqs schedule,
  (forall i, (i < length freqs)%nat -> (2 <= count_occ Nat.eq_dec schedule i)%nat) ->
  forall i, (i < length freqs)%nat ->
  out (par_run (fun i => nth i freqs 0) (fun f => mem_frequency dr di N M dt f) schedule) i =
  nth_error (map (fun f => mem_frequency dr di N M dt f) freqs) i.
Proof.
  intros dr di N M dt freqs sch H i Hi. rewrite (par_result _ _ sch (length freqs) H i Hi).
  symmetry. apply map_nth_error. apply nth_error_nth'. assumption.
Qed.
Print Assumptions C20_schedule_independent.
(** a case: samples 1, 0 (after the ignored element): order 1 has reflection coefficient 0 *)
Example C20_nonvacuous : exists c, GetCoefficients (of_list [7; 1; 0]) 2 1 = Some (1 / 2, c) /\ rd c 1 = Some 0.
Proof.
  destruct (C19_in_bounds_partial [7; 1; 0] 2 1 ltac:(lia) ltac:(simpl; lia)) as [v [c [E [Ev Hc]]]].
  assert (B : burg_den 2 1 (burg_init (fun j => nth j [7; 1; 0] 0) 2) = 1) by (unfold burg_den; cbn [burg_init b_fwd b_bwd Nat.sub sum_from nth Nat.add]; ring).
  assert (P : burg_num 2 1 (burg_init (fun j => nth j [7; 1; 0] 0) 2) = 0) by (unfold burg_num; cbn [burg_init b_fwd b_bwd Nat.sub sum_from nth Nat.add]; ring).
  cbv zeta in Hc. cbn [burg] in *. unfold burg_step, reflection in *. rewrite B in *. rewrite P in *. cbn [b_dead burg_init] in *.
  destruct (Rlt_dec (Rabs 1) (1 / 1000000)) as [L|L]; [rewrite Rabs_R1 in L; lra|].
  exists c. split.
  - rewrite E, Ev. cbv zeta. cbn [b_msd burg_init]. unfold mean_square. cbn [sum_from nth]. f_equal. f_equal. simpl INR. field.
  - rewrite Hc by (reflexivity || lia). cbv zeta. cbn [b_a]. rewrite Nat.eqb_refl. f_equal. field.
Qed.
