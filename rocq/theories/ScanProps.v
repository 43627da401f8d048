(** C94: scan of the number of maximum entropy coefficients. *)
From Verif Require Import ScanModel FitFunctionsSpec FitFunctionsProofs.
From Coq Require Import Reals Lra Lia List Arith.
From Coquelicot Require Import Coquelicot.
Import ListNotations.
Open Scope R_scope.

(** ** Specification *)
(** an error is at most another one; infinite means "unknown" *)
Definition no_worse (x y : xreal) : Prop :=
  match x, y with Fin a, Fin b => a <= b | Fin _, Inf => True | Inf, Inf => True | _, _ => False end.
Definition better (x y : xreal) : Prop :=
  match x, y with Fin a, Fin b => a < b | Fin _, Inf => True | _, _ => False end.

(** ** Lemmas *)
Definition regular (l : list point) : Prop := forall p, In p l -> p_error p <> NaN.
Lemma xlt_better x y : xlt x y = true <-> better x y.
Proof. destruct x as [a| |], y as [b| |]; simpl; try destruct (Rlt_dec a b); intuition (try discriminate; lra). Qed.
Lemma not_xlt x y : xlt x y = false -> x <> NaN -> y <> NaN -> no_worse y x.
Proof. destruct x as [a| |], y as [b| |]; simpl; try destruct (Rlt_dec a b); try congruence; try tauto; intros; lra. Qed.
Lemma no_worse_refl x : x <> NaN -> no_worse x x.
Proof. destruct x; simpl; try tauto; lra. Qed.
Lemma no_worse_trans x y z : no_worse x y -> no_worse y z -> no_worse x z.
Proof. destruct x, y, z; simpl; try tauto; lra. Qed.
Lemma better_no_worse x y : better x y -> no_worse x y.
Proof. destruct x, y; simpl; try tauto; lra. Qed.
Lemma better_trans x y z : better x y -> no_worse y z -> better x z.
Proof. destruct x, y, z; simpl; try tauto; lra. Qed.

Lemma argmin_from_spec : forall (whole pre l : list point) best value, whole = pre ++ l -> regular whole -> (best < length pre)%nat ->
  option_map p_error (nth_error whole best) = Some value ->
  (forall j q, (j < length pre)%nat -> nth_error whole j = Some q -> no_worse value (p_error q)) ->
  (forall j q, (j < best)%nat -> nth_error whole j = Some q -> better value (p_error q)) ->
  let k := argmin_from l (length pre) best value in
  exists p, nth_error whole k = Some p /\ (forall j q, nth_error whole j = Some q -> no_worse (p_error p) (p_error q)) /\
  (forall j q, (j < k)%nat -> nth_error whole j = Some q -> better (p_error p) (p_error q)).
Proof.
  intros whole pre l. revert pre. induction l as [|p t IH]; intros pre best value E Rg Hb Hv H1 H2.
  - cbn [argmin_from]. destruct (nth_error whole best) as [p|] eqn:Ep; [|discriminate]. injection Hv as <-. exists p. split; [first [exact Ep|reflexivity]|]. split; [|exact H2].
    intros j q Hq. apply (H1 j q); [|exact Hq]. rewrite app_nil_r in E. subst whole. apply nth_error_Some. congruence.
  - cbn [argmin_from]. assert (Ep : nth_error whole (length pre) = Some p) by (rewrite E, nth_error_app2, Nat.sub_diag by lia; reflexivity).
    assert (E' : whole = (pre ++ [p]) ++ t) by (rewrite <- app_assoc; exact E).
    assert (L : length (pre ++ [p]) = S (length pre)) by (rewrite app_length; simpl; lia).
    destruct (nth_error whole best) as [b|] eqn:Eb; [|discriminate]. injection Hv as Hv.
    assert (Nb : value <> NaN) by (subst value; apply Rg; apply nth_error_In with best; exact Eb).
    assert (Np : p_error p <> NaN) by (apply Rg; apply nth_error_In with (length pre); exact Ep).
    destruct (xlt (p_error p) value) eqn:X.
    + apply xlt_better in X. specialize (IH (pre ++ [p]) (length pre) (p_error p) E' Rg). rewrite L in IH. cbv zeta in IH. apply IH; [lia|rewrite Ep; reflexivity| |].
      * intros j q Hj Hq. destruct (Nat.eq_dec j (length pre)) as [->|N].
        -- rewrite Ep in Hq. injection Hq as <-. apply no_worse_refl; exact Np.
        -- apply no_worse_trans with value; [apply better_no_worse; exact X|]. apply (H1 j q); [lia|exact Hq].
      * intros j q Hj Hq. apply better_trans with value; [exact X|]. apply (H1 j q); [lia|exact Hq].
    + apply not_xlt in X; [|assumption|assumption]. specialize (IH (pre ++ [p]) best value E' Rg). rewrite L in IH. cbv zeta in IH. apply IH; [lia|rewrite Eb; simpl; congruence| |exact H2].
      intros j q Hj Hq. destruct (Nat.eq_dec j (length pre)) as [->|N]; [rewrite Ep in Hq; injection Hq as <-; exact X|].
      apply (H1 j q); [lia|exact Hq].
Qed.
Lemma argmin_spec l : l <> [] -> regular l ->
  exists p, nth_error l (argmin l) = Some p /\ (forall j q, nth_error l j = Some q -> no_worse (p_error p) (p_error q)) /\
  (forall j q, (j < argmin l)%nat -> nth_error l j = Some q -> better (p_error p) (p_error q)).
Proof.
  destruct l as [|p t]; [congruence|]. intros _ Rg. unfold argmin.
  apply (argmin_from_spec (p :: t) [p] t 0 (p_error p)); [reflexivity|exact Rg|simpl; lia|reflexivity| |intros; lia].
  intros j q Hj Hq. destruct j; [injection Hq as <-; apply no_worse_refl; apply Rg; left; reflexivity|simpl in Hj; lia].
Qed.

(** sums with positive finite errors *)
Definition finite_errors (l : list point) : Prop := forall p, In p l -> exists e, p_error p = Fin e /\ 0 < e.
Lemma sums_finite l : finite_errors l ->
  exists a b, sums l = Some (a, b) /\ (l <> [] -> 0 < b) /\ 0 <= b /\
  (forall lo hi, (forall p, In p l -> lo <= p_width p <= hi) -> lo * b <= a <= hi * b).
Proof.
  induction l as [|p t IH]; intros F.
  - exists 0, 0. split; [reflexivity|]. split; [congruence|]. split; [lra|]. intros; lra.
  - destruct IH as [a [b [E [_ [Hb H]]]]]; [intros q Hq; apply F; right; exact Hq|].
    destruct (F p) as [e [Ee He]]; [left; reflexivity|].
    cbn [sums]. rewrite Ee, E. cbn [weight]. destruct (Req_EM_T e 0) as [Z|_]; [lra|]. destruct (Rlt_dec e 0) as [Z|_]; [lra|].
    assert (W : 0 < sqrt (1 / e)) by (apply sqrt_lt_R0; apply Rdiv_lt_0_compat; lra).
    exists (sqrt (1 / e) * p_width p + a), (sqrt (1 / e) + b). split; [reflexivity|]. split; [intros _; lra|]. split; [lra|].
    intros lo hi B. destruct (H lo hi) as [H1 H2]; [intros q Hq; apply B; right; exact Hq|]. destruct (B p) as [B1 B2]; [left; reflexivity|].
    assert (A1 : sqrt (1 / e) * lo <= sqrt (1 / e) * p_width p) by (apply Rmult_le_compat_l; lra).
    assert (A2 : sqrt (1 / e) * p_width p <= sqrt (1 / e) * hi) by (apply Rmult_le_compat_l; lra). lra.
Qed.

Section Props.
Context {spectrum : Type} (mem : nat -> nat -> option spectrum) (get_fitting : spectrum -> option (report * R)).
(** fits never report an error that is not a number (fitting_functions.py raises in that case) *)
Hypothesis no_nan : forall ps r first, get_fitting ps = Some (r, first) -> r_error r <> NaN.

(** with n coefficients the branch has a spectrum and it was fitted: report r, first fit parameter *)
Definition fitted (branch n : nat) (r : report) (first : R) : Prop :=
  exists ps, mem branch n = Some ps /\ get_fitting ps = Some (r, first).
Definition scan := mem_coefficient_scan_analysis mem get_fitting.

Lemma in_fit_data range i p : In p (fit_data mem get_fitting range i) <->
  exists n r first, In n range /\ fitted i n r first /\ p = MkPoint n (r_width r) (r_error r) (r_area r) first.
Proof.
  unfold fit_data. rewrite in_flat_map. split.
  - intros [n [Hn Hp]]. unfold scan_point in Hp. destruct (mem i n) as [ps|] eqn:E; [|destruct Hp].
    destruct (get_fitting ps) as [[r first]|] eqn:E2; [|destruct Hp]. destruct Hp as [<-|[]].
    exists n, r, first. split; [exact Hn|]. split; [exists ps; split; assumption|reflexivity].
  - intros [n [r [first [Hn [[ps [E1 E2]] ->]]]]]. exists n. split; [exact Hn|]. unfold scan_point. rewrite E1, E2. left. reflexivity.
Qed.
Lemma fit_data_regular range i : regular (fit_data mem get_fitting range i).
Proof. intros p Hp. apply in_fit_data in Hp. destruct Hp as [n [r [f [_ [[ps [_ E]] ->]]]]]. exact (no_nan _ _ _ E). Qed.
Lemma in_dict range : forall branches out pr, mem_full_dict mem get_fitting range branches = Some out ->
  (In pr out <-> exists i, In i branches /\ fit_data mem get_fitting range i <> [] /\ pr = print_branch i (fit_data mem get_fitting range i)).
Proof.
  induction branches as [|i t IH]; intros out pr E; cbn [mem_full_dict] in E.
  - injection E as <-. split; [intros []|intros [j [[] _]]].
  - destruct (fit_data mem get_fitting range i) as [|p l] eqn:D.
    + rewrite (IH out pr E). split; intros [j [Hj [Nj ->]]]; exists j; (split; [|split; [exact Nj|reflexivity]]); [right; exact Hj|].
      destruct Hj as [<-|Hj]; [congruence|exact Hj].
    + assert (K : forall r, mem_full_dict mem get_fitting range t = Some r -> out = print_branch i (p :: l) :: r ->
        (In pr out <-> exists j, In j (i :: t) /\ fit_data mem get_fitting range j <> [] /\ pr = print_branch j (fit_data mem get_fitting range j))).
      { intros r Er ->. cbn [In]. rewrite (IH r pr Er). split.
        - intros [<-|[j [Hj [Nj ->]]]]; [exists i; rewrite D; split; [left; reflexivity|split; [congruence|reflexivity]]|exists j; auto].
        - intros [j [[<-|Hj] [Nj ->]]]; [left; rewrite D; reflexivity|right; exists j; auto]. }
      destruct (best_width (p :: l)); [| |discriminate];
      (destruct (mem_full_dict mem get_fitting range t) as [r|] eqn:Er; [|discriminate]; injection E as <-; apply (K r); reflexivity).
Qed.

(** Each printed peak is the successful fit with the least error, the first of them in the scan's order if there are several; its number of coefficients, area and
    error are printed together. *)
Theorem C94_best_fit : forall range branches out pr, scan range branches = Some out -> In pr out ->
  exists i r first before after, (i < branches)%nat /\ peak pr = S i /\ range = before ++ coefficients pr :: after /\ fitted i (coefficients pr) r first /\
  area pr = r_area r /\ global_error pr = r_error r /\ position pr = first /\
  (forall n r' first', In n range -> fitted i n r' first' -> no_worse (r_error r) (r_error r')) /\
  (forall n r' first', In n before -> fitted i n r' first' -> better (r_error r) (r_error r')).
Proof.
  intros range branches out pr E Hpr. apply (in_dict _ _ _ _ E) in Hpr. destruct Hpr as [i [Hi [N ->]]]. apply in_seq in Hi.
  destruct (argmin_spec _ N (fit_data_regular range i)) as [p [Ep [H1 H2]]].
  assert (S0 : exists r first before after, range = before ++ p_coefficients p :: after /\ fitted i (p_coefficients p) r first /\ p = MkPoint (p_coefficients p) (r_width r) (r_error r) (r_area r) first /\
    length (fit_data mem get_fitting before i) = argmin (fit_data mem get_fitting range i)).
  { clear H1 H2 N E. revert Ep. generalize (argmin (fit_data mem get_fitting range i)) as k. unfold fit_data. induction range as [|n range IH]; intros k Ep; [destruct k; discriminate|].
    cbn [flat_map] in Ep. unfold scan_point at 1 in Ep.
    assert (Skip : forall q, scan_point mem get_fitting i n = q -> q = [] -> nth_error (flat_map (scan_point mem get_fitting i) range) k = Some p ->
      exists r first before after, n :: range = before ++ p_coefficients p :: after /\ fitted i (p_coefficients p) r first /\ p = MkPoint (p_coefficients p) (r_width r) (r_error r) (r_area r) first /\
      length (flat_map (scan_point mem get_fitting i) before) = k).
    { intros q Hq -> Hk. destruct (IH k Hk) as [r [f [b [a [-> [F [Ep' L]]]]]]]. exists r, f, (n :: b), a. split; [reflexivity|]. split; [exact F|]. split; [exact Ep'|]. cbn [flat_map]. rewrite Hq. exact L. }
    destruct (mem i n) as [ps|] eqn:Em; [|apply (Skip []); [unfold scan_point; rewrite Em; reflexivity|reflexivity|exact Ep]].
    destruct (get_fitting ps) as [[r f]|] eqn:Eg; [|apply (Skip []); [unfold scan_point; rewrite Em, Eg; reflexivity|reflexivity|exact Ep]].
    destruct k as [|k].
    - injection Ep as <-. exists r, f, [], range. split; [reflexivity|]. split; [exists ps; split; assumption|]. split; reflexivity.
    - cbn [app nth_error] in Ep. destruct (IH k Ep) as [r' [f' [b [a [-> [F [Ep' L]]]]]]]. exists r', f', (n :: b), a. split; [reflexivity|]. split; [exact F|]. split; [exact Ep'|].
      cbn [flat_map]. rewrite app_length, L. unfold scan_point. rewrite Em, Eg. reflexivity. }
  destruct S0 as [r [f [b [a [Er [Fr [Epr L]]]]]]]. exists i, r, f, b, a. unfold print_branch. rewrite (nth_error_nth _ _ _ Ep). cbn [peak coefficients area global_error position].
  split; [lia|]. split; [reflexivity|]. split; [exact Er|]. split; [exact Fr|]. rewrite Epr at 1 2 3. cbn [p_area p_error p_first]. split; [reflexivity|]. split; [reflexivity|]. split; [reflexivity|].
  assert (Pe : p_error p = r_error r) by (rewrite Epr; reflexivity). rewrite Pe in H1, H2. split.
  - intros n r' f' Hn F'. assert (I : In (MkPoint n (r_width r') (r_error r') (r_area r') f') (fit_data mem get_fitting range i)) by (apply in_fit_data; exists n, r', f'; auto).
    apply In_nth_error in I. destruct I as [j Hj]. exact (H1 j _ Hj).
  - intros n r' f' Hn F'. assert (I : In (MkPoint n (r_width r') (r_error r') (r_area r') f') (fit_data mem get_fitting b i)) by (apply in_fit_data; exists n, r', f'; auto).
    apply In_nth_error in I. destruct I as [j Hj].
    assert (Lj : (j < length (fit_data mem get_fitting b i))%nat) by (apply nth_error_Some; congruence).
    apply (H2 j (MkPoint n (r_width r') (r_error r') (r_area r') f')); [lia|].
    rewrite Er. unfold fit_data. rewrite flat_map_app. rewrite nth_error_app1 by exact Lj. exact Hj.
Qed.

(** Exactly the branches with at least one successful fit are printed. *)
Theorem C94_branches_printed : forall range branches out, scan range branches = Some out ->
  forall i, (exists pr, In pr out /\ peak pr = S i) <-> (i < branches)%nat /\ exists n r first, In n range /\ fitted i n r first.
Proof.
  intros range branches out E i. split.
  - intros [pr [Hpr Hp]]. apply (in_dict _ _ _ _ E) in Hpr. destruct Hpr as [j [Hj [N ->]]]. apply in_seq in Hj. injection Hp as <-. split; [lia|].
    destruct (fit_data mem get_fitting range j) as [|p l] eqn:D; [congruence|]. assert (I : In p (fit_data mem get_fitting range j)) by (rewrite D; left; reflexivity).
    apply in_fit_data in I. destruct I as [n [r [f [Hn [F _]]]]]. exists n, r, f. auto.
  - intros [Hi [n [r [f [Hn F]]]]]. exists (print_branch i (fit_data mem get_fitting range i)). split; [|reflexivity]. apply (in_dict _ _ _ _ E). exists i. split; [apply in_seq; lia|]. split; [|reflexivity].
    intros D. assert (I : In (MkPoint n (r_width r) (r_error r) (r_area r) f) (fit_data mem get_fitting range i)) by (apply in_fit_data; exists n, r, f; auto). rewrite D in I. destruct I.
Qed.

(** The estimated width of a branch whose fits all have a finite non zero error lies between the widths of those fits. *)
Theorem C94_width_between_partial : forall range branches out pr i lo hi, scan range branches = Some out -> In pr out -> peak pr = S i ->
  (forall n r first, In n range -> fitted i n r first -> (exists e, r_error r = Fin e /\ 0 < e) /\ lo <= r_width r <= hi) ->
  exists w, estimated_width pr = Average w /\ lo <= w <= hi.
Proof.
  intros range branches out pr i lo hi E Hpr Hp B. apply (in_dict _ _ _ _ E) in Hpr. destruct Hpr as [j [Hj [N ->]]]. injection Hp as ->.
  unfold print_branch. cbn [estimated_width]. set (l := fit_data mem get_fitting range i) in *.
  destruct (sums_finite l) as [a [b [Es [Hb [_ H]]]]].
  { intros p Hp. apply in_fit_data in Hp. destruct Hp as [n [r [f [Hn [F ->]]]]]. exact (proj1 (B n r f Hn F)). }
  specialize (Hb N). unfold best_width. rewrite Es. destruct (Req_EM_T b 0) as [Z|_]; [lra|]. exists (a / b). split; [reflexivity|].
  destruct (H lo hi) as [H1 H2]. { intros p Hp. apply in_fit_data in Hp. destruct Hp as [n [r [f [Hn [F ->]]]]]. exact (proj2 (B n r f Hn F)). }
  split; [apply Rmult_le_reg_r with b|apply Rmult_le_reg_r with b]; try assumption; replace (a / b * b) with a by (field; lra); assumption.
Qed.

(** A number of coefficients whose spectrum or fit fails changes nothing that is printed. *)
Theorem C94_failures_leave_no_trace : forall before after n branches,
  (forall i r first, (i < branches)%nat -> ~ fitted i n r first) -> scan (before ++ n :: after) branches = scan (before ++ after) branches.
Proof.
  intros before after n branches H. unfold scan, mem_coefficient_scan_analysis.
  assert (G : forall l, (forall i, In i l -> (i < branches)%nat) -> mem_full_dict mem get_fitting (before ++ n :: after) l = mem_full_dict mem get_fitting (before ++ after) l).
  { induction l as [|i l IH]; intros Hl; [reflexivity|]. cbn [mem_full_dict]. rewrite IH by (intros j Hj; apply Hl; right; exact Hj).
    replace (fit_data mem get_fitting (before ++ n :: after) i) with (fit_data mem get_fitting (before ++ after) i); [reflexivity|].
    unfold fit_data. rewrite !flat_map_app. cbn [flat_map]. f_equal.
    assert (S0 : scan_point mem get_fitting i n = []).
    { unfold scan_point. destruct (mem i n) as [ps|] eqn:E1; [|reflexivity]. destruct (get_fitting ps) as [[r f]|] eqn:E2; [|reflexivity].
      exfalso. apply (H i r f); [apply Hl; left; reflexivity|]. exists ps. split; assumption. }
    rewrite S0. reflexivity. }
  apply G. intros i Hi. apply in_seq in Hi. lia.
Qed.

(** Refuted: one branch whose fits all come without an error estimate (infinite error) stops the scan of every branch: nothing is printed. *)
Theorem C94_unknown_errors_stop_everything_refuted : forall range branches i, (i < branches)%nat ->
  (exists n r first, In n range /\ fitted i n r first) -> (forall n r first, In n range -> fitted i n r first -> r_error r = Inf) ->
  scan range branches = None.
Proof.
  intros range branches i Hi [n [r [f [Hn F]]]] H. unfold scan, mem_coefficient_scan_analysis.
  assert (D : fit_data mem get_fitting range i <> []).
  { intros D. assert (I : In (MkPoint n (r_width r) (r_error r) (r_area r) f) (fit_data mem get_fitting range i)) by (apply in_fit_data; exists n, r, f; auto). rewrite D in I. destruct I. }
  assert (Z : forall l, (forall p, In p l -> p_error p = Inf) -> exists a, sums l = Some (a, 0)).
  { induction l as [|p t IH]; intros Hl; [exists 0; reflexivity|]. destruct IH as [a E]; [intros q Hq; apply Hl; right; exact Hq|].
    cbn [sums]. rewrite (Hl p), E by (left; reflexivity). cbn [weight]. rewrite Rplus_0_l. eexists. reflexivity. }
  destruct (Z (fit_data mem get_fitting range i)) as [a E].
  { intros p Hp. apply in_fit_data in Hp. destruct Hp as [m [q [g [Hm [G ->]]]]]. exact (H m q g Hm G). }
  assert (W : best_width (fit_data mem get_fitting range i) = ZeroDivisionError) by (unfold best_width; rewrite E; destruct (Req_EM_T 0 0); [reflexivity|congruence]).
  assert (I : In i (seq 0 branches)) by (apply in_seq; lia). revert I. generalize (seq 0 branches). induction l as [|j l IH]; intros I; [destruct I|].
  cbn [mem_full_dict]. destruct I as [->|I].
  - destruct (fit_data mem get_fitting range i); [congruence|]. rewrite W. reflexivity.
  - rewrite IH by exact I. destruct (fit_data mem get_fitting range j) as [|p t]; [reflexivity|]. destruct (best_width (p :: t)); reflexivity.
Qed.
(** Refuted: a single exact fit (zero error) makes the estimated width of its branch "nan". *)
Theorem C94_exact_fit_refuted : forall range branches out pr i, scan range branches = Some out -> In pr out -> peak pr = S i ->
  (exists n r first, In n range /\ fitted i n r first /\ r_error r = Fin 0) -> estimated_width pr = NotANumber.
Proof.
  intros range branches out pr i E Hpr Hp [n [r [f [Hn [F Z]]]]]. apply (in_dict _ _ _ _ E) in Hpr. destruct Hpr as [j [Hj [N ->]]]. injection Hp as ->.
  unfold print_branch. cbn [estimated_width].
  assert (I : In (MkPoint n (r_width r) (r_error r) (r_area r) f) (fit_data mem get_fitting range i)) by (apply in_fit_data; exists n, r, f; auto).
  unfold best_width. replace (sums (fit_data mem get_fitting range i)) with (@None (R * R)); [reflexivity|].
  revert I. generalize (fit_data mem get_fitting range i). induction l as [|p t IH]; intros I; [destruct I|]. cbn [sums]. destruct I as [->|I].
  - cbn [p_error]. rewrite Z. cbn [weight]. destruct (Req_EM_T 0 0); [reflexivity|congruence].
  - rewrite <- IH by exact I. destruct (weight (p_error p)); reflexivity.
Qed.
End Props.

(** ** The printed position *)
Lemma asym_not_max a b c d s eps : 0 < b -> 0 < c -> s <> 0 -> 0 < eps -> exists x, Rabs (x - a) < eps /\ asymmetric a b c d s a < asymmetric a b c d s x.
Proof.
  intros Hb Hc Hs He.
  assert (S2 : 0 < s^2) by (apply pow2_gt_0; exact Hs). assert (As : 0 < Rabs s) by (apply Rabs_pos_lt; exact Hs).
  assert (B2 : 0 < b^2) by (apply pow_lt; exact Hb).
  set (t := Rmin 1 (Rmin (b^2 * s^2 / 16) (eps * Rabs s / 2))).
  assert (T1 : t <= 1) by apply Rmin_l.
  assert (T2 : t <= b^2 * s^2 / 16) by (eapply Rle_trans; [apply Rmin_r|apply Rmin_l]).
  assert (T3 : t <= eps * Rabs s / 2) by (eapply Rle_trans; [apply Rmin_r|apply Rmin_r]).
  assert (T0 : 0 < t).
  { apply Rmin_glb_lt; [lra|]. apply Rmin_glb_lt.
    - apply Rmult_lt_0_compat; [apply Rmult_lt_0_compat; assumption|lra].
    - apply Rmult_lt_0_compat; [apply Rmult_lt_0_compat; assumption|lra]. }
  clearbody t. exists (a + t / s). split.
  - replace (a + t / s - a) with (t / s) by ring. unfold Rdiv. rewrite Rabs_mult, Rabs_inv, (Rabs_right t) by lra.
    apply Rmult_lt_reg_r with (Rabs s); [exact As|]. rewrite Rmult_assoc, Rinv_l, Rmult_1_r by lra.
    assert (0 < eps * Rabs s) by (apply Rmult_lt_0_compat; lra). lra.
  - unfold asymmetric, g_a. replace (s * (a - a)) with 0 by ring. rewrite exp_0.
    replace (s * (a + t / s - a)) with t by (field; exact Hs). replace (a + t / s - a) with (t / s) by ring. replace (a - a) with 0 by ring.
    set (E := exp t). assert (E1 : 1 + t <= E) by (left; apply exp_ineq1; lra).
    assert (E3 : E <= 3). { apply Rle_trans with (exp 1); [|apply exp_le_3]. destruct T1 as [T1| ->]; [left; apply exp_increasing; exact T1|right; reflexivity]. }
    clearbody E. assert (P := PI_RGT_0).
    set (u2 := (t / s)^2). assert (U : u2 * s^2 = t^2) by (unfold u2; field; exact Hs). assert (U0 : 0 <= u2) by apply pow2_ge_0.
    replace (c / (PI * (2 * b / (1 + E)) * (1 + (t / s / (2 * b / (1 + E)))^2))) with (c / PI * ((2 * b / (1 + E)) / ((2 * b / (1 + E))^2 + u2))).
    2:{ unfold u2 in *. clear u2. assert (0 < (2 * b / (1 + E))^2) by (apply pow_lt; apply Rdiv_lt_0_compat; lra).
        assert (0 < 2 * b / (1 + E)) by (apply Rdiv_lt_0_compat; lra). set (g := 2 * b / (1 + E)) in *. 
        clearbody g. clear U. revert U0. generalize (t / s). intros v Hv.
        replace (1 + (v / g) ^ 2) with ((g^2 + v^2) / g^2) by (field; lra). field. repeat split; lra. }
    replace (c / (PI * (2 * b / (1 + 1)) * (1 + (0 / (2 * b / (1 + 1))) ^ 2))) with (c / PI * (1 / b)) by (field; split; lra).
    apply Rplus_lt_compat_r. apply Rmult_lt_compat_l; [apply Rdiv_lt_0_compat; lra|].
    set (g := 2 * b / (1 + E)). assert (G0 : 0 < g) by (apply Rdiv_lt_0_compat; lra). assert (G : g * (1 + E) = 2 * b) by (unfold g; field; lra).
    assert (D : 0 < g^2 + u2) by (assert (0 < g^2) by (apply pow_lt; exact G0); lra).
    assert (K : u2 < g * (b - g)).
    { apply Rmult_lt_reg_r with (s^2 * (1 + E)^2); [apply Rmult_lt_0_compat; [exact S2|apply pow_lt; lra]|].
      replace (u2 * (s^2 * (1 + E)^2)) with (t^2 * (1 + E)^2) by (rewrite <- U; ring).
      replace (g * (b - g) * (s^2 * (1 + E)^2)) with ((g * (1 + E)) * (b * (1 + E) - g * (1 + E)) * s^2) by ring. rewrite G.
      replace (2 * b * (b * (1 + E) - 2 * b) * s^2) with (2 * (b^2 * s^2) * (E - 1)) by ring.
      set (q := b^2 * s^2) in *. assert (Q : 0 < q) by lra.
      assert (L1 : t^2 * (1 + E)^2 <= t^2 * 16).
      { apply Rmult_le_compat_l; [apply pow2_ge_0|]. replace 16 with (4^2) by ring. apply pow_incr. lra. }
      assert (L2 : t^2 * 16 <= t * q) by (replace (t^2 * 16) with (t * (16 * t)) by ring; apply Rmult_le_compat_l; lra).
      assert (L3 : 2 * q * t <= 2 * q * (E - 1)) by (apply Rmult_le_compat_l; lra).
      assert (0 < t * q) by (apply Rmult_lt_0_compat; assumption). lra. }
    apply Rmult_lt_reg_r with (b * (g^2 + u2)); [apply Rmult_lt_0_compat; assumption|].
    replace (1 / b * (b * (g^2 + u2))) with (g^2 + u2) by (field; lra). replace (g / (g^2 + u2) * (b * (g^2 + u2))) with (g * b) by (field; lra).
    lra.
Qed.

Section Position.
Context {spectrum : Type} (mem : nat -> nat -> option spectrum) (get_fitting : spectrum -> option (report * R)).
Hypothesis no_nan : forall ps r first, get_fitting ps = Some (r, first) -> r_error r <> NaN.
(** With the symmetric Lorentzian the printed position is the peak position of the best fit. *)
Theorem C94_position_partial : forall range branches out pr,
  (forall ps r first, get_fitting ps = Some (r, first) -> exists a b c d err, lorentzian_fitting a b c d err = Some r /\ first = a) ->
  mem_coefficient_scan_analysis mem get_fitting range branches = Some out -> In pr out ->
  exists i r first, fitted mem get_fitting i (coefficients pr) r first /\ peak pr = S i /\ position pr = r_position r.
Proof.
  intros range branches out pr L E Hpr. destruct (C94_best_fit mem get_fitting no_nan range branches out pr E Hpr) as [i [r [f [b [a [_ [Hp [_ [F [_ [_ [Hf _]]]]]]]]]]]].
  exists i, r, f. split; [exact F|]. split; [exact Hp|]. rewrite Hf. destruct F as [ps [_ G]]. destruct (L ps r f G) as [a0 [b0 [c0 [d0 [err [K ->]]]]]]. apply finish_Some in K. symmetry. apply K.
Qed.
(** Refuted with the asymmetric curve: the printed position is the curve's centre parameter, around which there are always higher points, not the
    position of the peak that the fit reports. *)
Theorem C94_position_refuted : forall range branches out pr,
  (forall ps r first, get_fitting ps = Some (r, first) -> exists a b c d s x0 xmax err, asymmetric_fitting a b c d s x0 xmax err = Some r /\ first = a /\ 0 < b /\ 0 < c /\ s <> 0) ->
  mem_coefficient_scan_analysis mem get_fitting range branches = Some out -> In pr out ->
  exists i r first a b c d s x0 xmax err, fitted mem get_fitting i (coefficients pr) r first /\ peak pr = S i /\ asymmetric_fitting a b c d s x0 xmax err = Some r /\
  forall eps, 0 < eps -> exists x, Rabs (x - position pr) < eps /\ asymmetric a b c d s (position pr) < asymmetric a b c d s x.
Proof.
  intros range branches out pr L E Hpr. destruct (C94_best_fit mem get_fitting no_nan range branches out pr E Hpr) as [i [r [f [bb [aa [_ [Hp [_ [F [_ [_ [Hf _]]]]]]]]]]]].
  destruct F as [ps [G1 G2]]. destruct (L ps r f G2) as [a [b [c [d [s [x0 [xmax [err [K [-> [Hb [Hc Hs]]]]]]]]]]]].
  exists i, r, a, a, b, c, d, s, x0, xmax, err. split; [exists ps; split; assumption|]. split; [exact Hp|]. split; [exact K|].
  intros eps He. rewrite Hf. apply asym_not_max; assumption.
Qed.
End Position.

Print Assumptions C94_best_fit.
Print Assumptions C94_branches_printed.
Print Assumptions C94_width_between_partial.
Print Assumptions C94_failures_leave_no_trace.
Print Assumptions C94_unknown_errors_stop_everything_refuted.
Print Assumptions C94_exact_fit_refuted.
Print Assumptions C94_position_partial.
Print Assumptions C94_position_refuted.

(** ** Concrete cases *)
(** two branches, three numbers of coefficients; the first one fails, the other two fit with errors 2 and 1 *)
Definition demo_mem (branch n : nat) : option nat := if (n =? 40)%nat then None else Some n.
Definition demo_fit (ps : nat) : option (report * R) :=
  match lorentzian_fitting 5 1 (if (ps =? 50)%nat then 1 else 4) 0 (Fin 2) with Some r => Some (r, 5) | None => None end.
Example C94_nonvacuous : exists out pr, mem_coefficient_scan_analysis demo_mem demo_fit [40; 50; 60]%nat 2 = Some out /\ In pr out /\ coefficients pr = 60%nat /\
  (forall ps r first, demo_fit ps = Some (r, first) -> r_error r <> NaN /\ exists a b c d err, lorentzian_fitting a b c d err = Some r /\ first = a) /\
  (forall i n r first, In n [40; 50; 60]%nat -> fitted demo_mem demo_fit i n r first -> exists e, r_error r = Fin e /\ 0 < e).
Proof.
  assert (S4 : sqrt 4 = 2) by (replace 4 with (2 * 2) by ring; apply sqrt_square; lra).
  assert (F1 : demo_fit 50 = Some (MkReport (1 / (1 * PI)) (2 * 1) 5 (Fin (2 / sqrt 1)) 1 0, 5)) by (unfold demo_fit; cbn [Nat.eqb]; unfold lorentzian_fitting; rewrite finish_good by lra; reflexivity).
  assert (F2 : demo_fit 60 = Some (MkReport (4 / (1 * PI)) (2 * 1) 5 (Fin (2 / sqrt 4)) 4 0, 5)) by (unfold demo_fit; cbn [Nat.eqb]; unfold lorentzian_fitting; rewrite finish_good by lra; reflexivity).
  rewrite sqrt_1 in F1. rewrite S4 in F2.
  assert (G : forall ps r first, demo_fit ps = Some (r, first) -> (exists e, r_error r = Fin e /\ 0 < e) /\ exists a b c d err, lorentzian_fitting a b c d err = Some r /\ first = a).
  { intros ps r f. unfold demo_fit. set (c := if (ps =? 50)%nat then 1 else 4). assert (Hc : 0 < c) by (unfold c; destruct (ps =? 50)%nat; lra). clearbody c.
    destruct (lorentzian_fitting 5 1 c 0 (Fin 2)) as [q|] eqn:Q; [|discriminate]. intros H. injection H as <- <-. split.
    - unfold lorentzian_fitting in Q. rewrite finish_good in Q by exact Hc. injection Q as <-. exists (2 / sqrt c). split; [reflexivity|]. apply Rdiv_lt_0_compat; [lra|apply sqrt_lt_R0; exact Hc].
    - exists 5, 1, c, 0, (Fin 2). split; [exact Q|reflexivity]. }
  set (l := [MkPoint 50 (2 * 1) (Fin (2 / 1)) 1 5; MkPoint 60 (2 * 1) (Fin (2 / 2)) 4 5]).
  assert (D : forall i, fit_data demo_mem demo_fit [40; 50; 60]%nat i = l) by (intros i; unfold fit_data, flat_map, scan_point, demo_mem; cbn [Nat.eqb]; rewrite F1, F2; reflexivity).
  assert (W : exists w, best_width l = Average w).
  { unfold best_width, l, sums, weight. cbn [p_error p_width]. destruct (Req_EM_T (2/1) 0) as [Z|_]; [lra|]. destruct (Rlt_dec (2/1) 0) as [Z|_]; [lra|]. destruct (Req_EM_T (2/2) 0) as [Z|_]; [lra|]. destruct (Rlt_dec (2/2) 0) as [Z|_]; [lra|].
    assert (0 < sqrt (1 / (2/1))) by (apply sqrt_lt_R0; lra). assert (0 < sqrt (1 / (2/2))) by (apply sqrt_lt_R0; lra).
    destruct (Req_EM_T _ _) as [Z|_]; [lra|]. eexists. reflexivity. }
  destruct W as [w W].
  exists [print_branch 0 l; print_branch 1 l], (print_branch 0 l). split.
  - unfold mem_coefficient_scan_analysis. cbn [seq mem_full_dict]. rewrite !D. unfold l in *. cbv iota. rewrite W. reflexivity.
  - split; [left; reflexivity|]. split.
    + unfold print_branch, l, argmin, argmin_from. cbn [p_error xlt]. destruct (Rlt_dec (2/2) (2/1)); [reflexivity|lra].
    + split; [intros ps r f H; destruct (G ps r f H) as [[e [He _]] K]; split; [congruence|exact K]|]. intros i n r f _ [ps [_ H]]. exact (proj1 (G ps r f H)).
Qed.
(** the asymmetric curve of the refutation is reported as good *)
Example C94_nonvacuous_asymmetric : exists r, asymmetric_fitting 5 1 3 0 1 5 10 (Fin 1) = Some r.
Proof.
  assert (P := PI_RGT_0). assert (G : forall x, 0 < g_a 5 1 1 x) by (intros x; unfold g_a; apply Rdiv_lt_0_compat; [lra|]; assert (H := exp_pos (1 * (x - 5))); lra).
  eexists. apply finish_good. apply RInt_gt_0; [lra| |].
  - intros x _. unfold asymmetric. rewrite Rplus_0_r. apply Rdiv_lt_0_compat; [lra|]. apply Rmult_lt_0_compat; [apply Rmult_lt_0_compat; [exact P|apply G]|].
    assert (0 <= ((x - 5) / g_a 5 1 1 x)^2) by apply pow2_ge_0. lra.
  - intros x _. apply (ex_derive_continuous (K := R_AbsRing) (V := R_NormedModule)). assert (Gx := G x). unfold asymmetric, g_a in *. assert (E := exp_pos (1 * (x - 5))).
    set (gx := 2 * 1 / (1 + exp (1 * (x - 5)))) in Gx. assert (Q : 0 <= ((x - 5) / gx)^2) by apply pow2_ge_0.
    auto_derive. replace (x + - (5)) with (x - 5) by ring. assert (D : 1 + exp (1 * (x - 5)) <> 0) by lra.
    assert (Gx' : 0 < 2 * 1 * / (1 + exp (1 * (x - 5)))) by exact Gx. split; [exact D|]. split; [exact D|]. split; [lra|]. split; [|exact I].
    assert (Q' : 0 <= (x - 5) * / (2 * 1 * / (1 + exp (1 * (x - 5)))) * ((x - 5) * / (2 * 1 * / (1 + exp (1 * (x - 5)))) * 1)) by exact Q.
    apply Rgt_not_eq. apply Rmult_lt_0_compat; [apply Rmult_lt_0_compat; assumption|]. lra.
Qed.
