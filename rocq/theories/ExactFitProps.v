(** C114: a spectrum that is exactly a Lorentzian (or damped oscillator) curve is recovered by the fit. *)
From Coq Require Import Reals List Lra Lia Psatz.
Import ListNotations.
From Verif Require Import FitFunctionsModel FittingSpec FittingProps.
Open Scope R_scope.

(* ---------- specification ---------- *)
(** Sum of squares of the differences between the data and a curve; scipy's curve_fit looks for the parameters with the smallest one. *)
Definition residual (f : R -> R) (xs ys : list R) : R := fold_right Rplus 0 (map (fun p => (snd p - f (fst p)) ^ 2) (combine xs ys)).
(** The parameters are a least-squares solution: no other admissible parameters fit better. *)
Definition least_squares (curve : R -> R -> R -> R -> R -> R) (xs ys : list R) (a b c d : R) : Prop :=
  b <> 0 /\ forall a' b' c' d', b' <> 0 -> residual (curve a b c d) xs ys <= residual (curve a' b' c' d') xs ys.

(* ---------- polynomials with many roots ---------- *)
Fixpoint ev (p : list R) (x : R) : R := match p with [] => 0 | a :: q => a + x * ev q x end.
Fixpoint quo (p : list R) (r : R) : list R := match p with [] => [] | _ :: q => match q with [] => [] | _ => ev q r :: quo q r end end.
Lemma quo_length p r : length (quo p r) = (length p - 1)%nat.
Proof. induction p as [|a [|b q] IH]; [reflexivity|reflexivity|]. cbn [quo length] in *. rewrite IH. lia. Qed.
Lemma quo_spec p r x : ev p x = ev p r + (x - r) * ev (quo p r) x.
Proof.
  induction p as [|a q IH]; [cbn; ring|]. destruct q as [|b q]; [cbn; ring|].
  change (quo (a :: b :: q) r) with (ev (b :: q) r :: quo (b :: q) r).
  change (ev (a :: b :: q) x) with (a + x * ev (b :: q) x). change (ev (a :: b :: q) r) with (a + r * ev (b :: q) r).
  change (ev (ev (b :: q) r :: quo (b :: q) r) x) with (ev (b :: q) r + x * ev (quo (b :: q) r) x). rewrite IH. ring.
Qed.
Lemma ev_zero p x : List.Forall (fun a => a = 0) p -> ev p x = 0.
Proof. induction 1 as [|a p H _ IH]; cbn; [reflexivity|]. rewrite H, IH. ring. Qed.
Lemma quo_zero p r : ev p r = 0 -> List.Forall (fun a => a = 0) (quo p r) -> List.Forall (fun a => a = 0) p.
Proof.
  induction p as [|a q IH]; intros E H; [constructor|]. destruct q as [|b q].
  - constructor; [|constructor]. cbn in E. lra.
  - change (quo (a :: b :: q) r) with (ev (b :: q) r :: quo (b :: q) r) in H. inversion H as [|? ? H1 H2]; subst.
    specialize (IH H1 H2). constructor; [|exact IH]. change (ev (a :: b :: q) r) with (a + r * ev (b :: q) r) in E. change (ev (b :: q) r = 0) in H1. rewrite H1 in E. lra.
Qed.
Lemma many_roots xs : forall p, NoDup xs -> (length p <= length xs)%nat -> (forall x, In x xs -> ev p x = 0) -> List.Forall (fun a => a = 0) p.
Proof.
  induction xs as [|r xs IH]; intros p N L H.
  - destruct p; [constructor|cbn in L; lia].
  - inversion N as [|? ? N1 N2]; subst. assert (Hr := H r (or_introl eq_refl)). apply (quo_zero p r Hr). apply IH; [exact N2|rewrite quo_length; cbn in L; lia|].
    intros x Hx. assert (E := quo_spec p r x). rewrite (H x (or_intror Hx)), Hr in E. assert (x <> r) by (intros ->; contradiction). nra.
Qed.

(* ---------- rational curves ---------- *)
(** A / (u + v y + y^2) + d with a positive denominator, at five or more places *)
Lemma same_rational ys A u v d A' u' v' d' : NoDup ys -> (5 <= length ys)%nat -> A <> 0 ->
  (forall y, In y ys -> u + v * y + y ^ 2 <> 0 /\ u' + v' * y + y ^ 2 <> 0 /\ A / (u + v * y + y ^ 2) + d = A' / (u' + v' * y + y ^ 2) + d') ->
  A' = A /\ u' = u /\ v' = v /\ d' = d.
Proof.
  intros N L HA H. set (e := d - d').
  set (p := [A * u' - A' * u + e * (u * u'); A * v' - A' * v + e * (u * v' + v * u'); A - A' + e * (u + u' + v * v'); e * (v + v'); e]).
  assert (Z : List.Forall (fun a => a = 0) p).
  { apply (many_roots ys); [exact N|exact L|]. intros y Hy. destruct (H y Hy) as (D1 & D2 & E).
    assert (Q : A * (u' + v' * y + y ^ 2) + e * ((u + v * y + y ^ 2) * (u' + v' * y + y ^ 2)) - A' * (u + v * y + y ^ 2) = 0).
    { unfold e. assert (E' : (A / (u + v * y + y ^ 2) + d) * ((u + v * y + y ^ 2) * (u' + v' * y + y ^ 2)) = (A' / (u' + v' * y + y ^ 2) + d') * ((u + v * y + y ^ 2) * (u' + v' * y + y ^ 2))) by (rewrite E; reflexivity).
      replace ((A / (u + v * y + y ^ 2) + d) * ((u + v * y + y ^ 2) * (u' + v' * y + y ^ 2))) with (A * (u' + v' * y + y ^ 2) + d * ((u + v * y + y ^ 2) * (u' + v' * y + y ^ 2))) in E' by (field; exact D1).
      replace ((A' / (u' + v' * y + y ^ 2) + d') * ((u + v * y + y ^ 2) * (u' + v' * y + y ^ 2))) with (A' * (u + v * y + y ^ 2) + d' * ((u + v * y + y ^ 2) * (u' + v' * y + y ^ 2))) in E' by (field; exact D2). lra. }
    rewrite <- Q. unfold p. cbn [ev]. ring. }
  unfold p in Z. inversion Z as [|? ? Z0 Y0]; subst. inversion Y0 as [|? ? Z1 Y1]; subst. inversion Y1 as [|? ? Z2 Y2]; subst. inversion Y2 as [|? ? Z3 Y3]; subst. inversion Y3 as [|? ? Z4 _]; subst.
  assert (D : d' = d) by (unfold e in Z4; lra). rewrite Z4 in Z0, Z1, Z2. assert (EA : A' = A) by lra. rewrite EA in *.
  split; [reflexivity|]. split; [|split; [|exact D]]; apply (Rmult_eq_reg_l A); lra.
Qed.

(* ---------- least squares ---------- *)
Lemma residual_nonneg f xs : forall ys, 0 <= residual f xs ys.
Proof. unfold residual. induction xs as [|x xs IH]; intros [|y ys]; cbn [map combine fold_right fst snd]; try lra. assert (H := pow2_ge_0 (y - f x)). specialize (IH ys). lra. Qed.
Lemma residual_self f xs : residual f xs (map f xs) = 0.
Proof. unfold residual. induction xs as [|x xs IH]; [reflexivity|]. cbn [map combine fold_right fst snd]. rewrite IH. ring. Qed.
Lemma residual_zero f g xs : residual f xs (map g xs) <= 0 -> forall x, In x xs -> g x = f x.
Proof.
  induction xs as [|x xs IH]; intros H y Hy; [contradiction|]. unfold residual in *. cbn [map combine fold_right fst snd] in H.
  assert (A := pow2_ge_0 (g x - f x)). assert (B := residual_nonneg f xs (map g xs)). unfold residual in B. destruct Hy as [<-|Hy]; [|apply IH; [lra|exact Hy]].
  assert ((g x - f x) ^ 2 = 0) by lra. assert (g x - f x = 0) by nra. lra.
Qed.

(* ---------- the Lorentzian ---------- *)
Lemma lorentz_rational a b c d x : b <> 0 -> lorentzian a b c d x = (c * b / PI) / (a ^ 2 + b ^ 2 + (- 2 * a) * x + x ^ 2) + d /\ a ^ 2 + b ^ 2 + (- 2 * a) * x + x ^ 2 <> 0.
Proof.
  intros Hb. assert (P := PI_RGT_0). assert (D : 0 < a ^ 2 + b ^ 2 + (- 2 * a) * x + x ^ 2).
  { replace (a ^ 2 + b ^ 2 + (- 2 * a) * x + x ^ 2) with ((x - a) ^ 2 + b ^ 2) by ring. assert (0 < b ^ 2) by (apply pow2_gt_0, Hb). assert (Q := pow2_ge_0 (x - a)). lra. }
  split; [|lra]. unfold lorentzian. f_equal.
  assert (D1 : 0 < 1 + ((x - a) / b) ^ 2) by (assert (Q := pow2_ge_0 ((x - a) / b)); lra).
  assert (E : b ^ 2 * (1 + ((x - a) / b) ^ 2) = a ^ 2 + b ^ 2 + -2 * a * x + x ^ 2) by (field; exact Hb).
  rewrite <- E. field. repeat split; try lra; try exact Hb.
  all: intros Z; assert (0 < b ^ 2) by (apply pow2_gt_0, Hb); assert (Q := pow2_ge_0 (x - a)); lra.
Qed.
Lemma lorentz_same xs a b c d a' b' c' d' : NoDup xs -> (5 <= length xs)%nat -> b <> 0 -> b' <> 0 -> c <> 0 ->
  (forall x, In x xs -> lorentzian a b c d x = lorentzian a' b' c' d' x) -> a' = a /\ d' = d /\ (b' = b /\ c' = c \/ b' = - b /\ c' = - c).
Proof.
  intros N L Hb Hb' Hc H. assert (P := PI_RGT_0).
  destruct (same_rational xs (c * b / PI) (a ^ 2 + b ^ 2) (-2 * a) d (c' * b' / PI) (a' ^ 2 + b' ^ 2) (-2 * a') d' N L) as (E1 & E2 & E3 & E4).
  - unfold Rdiv. apply Rmult_integral_contrapositive_currified; [apply Rmult_integral_contrapositive_currified; assumption|apply Rinv_neq_0_compat; lra].
  - intros x Hx. specialize (H x Hx). destruct (lorentz_rational a b c d x Hb) as (R1 & D1). destruct (lorentz_rational a' b' c' d' x Hb') as (R2 & D2). rewrite R1, R2 in H. auto.
  - assert (a' = a) by lra. subst a'. split; [reflexivity|]. split; [exact E4|].
    assert (E5 : c' * b' = c * b). { apply (Rmult_eq_reg_r (/ PI)); [exact E1|apply Rinv_neq_0_compat; lra]. }
    assert (E6 : (b' - b) * (b' + b) = 0) by nra. destruct (Rmult_integral _ _ E6) as [Q|Q].
    + left. assert (b' = b) by lra. subst b'. split; [reflexivity|]. apply (Rmult_eq_reg_r b); assumption.
    + right. assert (b' = - b) by lra. subst b'. split; [reflexivity|]. apply (Rmult_eq_reg_r b); [lra|exact Hb].
Qed.

(* ---------- theorems ---------- *)
(** A spectrum that is exactly the Lorentzian of position a, half width b, area c on base line d, sampled at five or more different frequencies: every
    least-squares solution that is reported as good is reported with exactly these values, and the sign-flipped solution is the only other one. *)
Theorem C114_lorentzian : forall xs a b c d a' b' c' d' err, NoDup xs -> (5 <= length xs)%nat -> 0 < b -> 0 < c ->
  least_squares lorentzian xs (map (lorentzian a b c d) xs) a' b' c' d' ->
  (forall r, lorentzian_fitting a' b' c' d' err = Some r ->
     r_position r = a /\ r_width r = 2 * b /\ r_area r = c /\ r_base_line r = d /\ r_maximum r = c / (b * PI)) /\
  (lorentzian_fitting a' b' c' d' err = None -> err = NaN \/ b' = - b /\ c' = - c).
Proof.
  intros xs a b c d a' b' c' d' err N L Hb Hc (Hb' & M).
  assert (Z : residual (lorentzian a' b' c' d') xs (map (lorentzian a b c d) xs) <= 0) by (apply Rle_trans with (residual (lorentzian a b c d) xs (map (lorentzian a b c d) xs)); [apply M; lra|rewrite residual_self; lra]).
  destruct (lorentz_same xs a b c d a' b' c' d' N L ltac:(lra) Hb' ltac:(lra) (residual_zero _ _ xs Z)) as (-> & -> & [(-> & ->)|(-> & ->)]).
  - split.
    + intros r E. unfold lorentzian_fitting, finish in E. destruct (isnan (div_sqrt err c)); [discriminate|]. injection E as <-. cbn. auto.
    + intros E. left. unfold lorentzian_fitting, finish in E. destruct (isnan (div_sqrt err c)) eqn:F; [|discriminate]. unfold div_sqrt in F. destruct err as [e| |]; [| |reflexivity].
      * destruct (Rlt_dec c 0); [lra|]. destruct (Req_EM_T c 0); [lra|]. discriminate F.
      * destruct (Rlt_dec c 0); [lra|]. discriminate F.
  - split; [|auto]. intros r E. unfold lorentzian_fitting, finish, div_sqrt in E. destruct err as [e| |].
    + destruct (Rlt_dec (- c) 0); [discriminate E|lra].
    + destruct (Rlt_dec (- c) 0); [discriminate E|lra].
    + discriminate E.
Qed.
Print Assumptions C114_lorentzian.
(** Such a solution exists: the true parameters. *)
Theorem C114_lorentzian_exists : forall xs a b c d, b <> 0 -> least_squares lorentzian xs (map (lorentzian a b c d) xs) a b c d.
Proof. intros xs a b c d Hb. split; [exact Hb|]. intros. rewrite residual_self. apply residual_nonneg. Qed.
Print Assumptions C114_lorentzian_exists.

(** End to end: every branch of the spectrum is exactly a Lorentzian.  [solver] is any least-squares solver (scipy's curve_fit; None: it raised), [fitting_of] the
    Lorentzian class of analysis/fitting/fitting_functions.py:57-90 around it (the error column is left out: it is only divided by the maximum). *)
Definition fitting_of (solver : list R -> option (R * R * R * R * xreal)) (nw : nat) (ps : nat -> R) : option fitted :=
  match solver (map ps (seq 0 nw)) with
  | None => None
  | Some (a, b, c, d, err) => option_map (fun r => MkFit (r_position r) (r_area r) (r_width r) (r_maximum r) (match r_error r with Fin e => e | _ => 0 end)) (lorentzian_fitting a b c d err)
  end.
Theorem C114_analysis : forall solver freqs original harmonic ncol cutoff shift r (a b c d : nat -> R), NoDup freqs -> (5 <= List.length freqs)%nat ->
  (forall ys a' b' c' d' err, solver ys = Some (a', b', c', d', err) -> least_squares lorentzian freqs ys a' b' c' d') ->
  (forall i w, (i < ncol)%nat -> (w < List.length freqs)%nat -> original w i = lorentzian (a i) (b i) (c i) (d i) (nth w freqs 0)) ->
  (forall i, (i < ncol)%nat -> 0 < b i /\ 0 < c i) -> match shift with None => True | Some s => (ncol <= List.length s)%nat end ->
  phonon_fitting_analysis (fitting_of solver (List.length freqs)) original harmonic false ncol cutoff shift = Some r ->
  forall i, (i < ncol)%nat ->
    nth i (positions r) 0 = a i + shift_of shift i /\ nth i (widths r) 0 = 2 * b i /\ nth i (dt_Q2 r) 0 = 2 * c i \/
    nth i (positions r) 0 = 0 /\ nth i (widths r) 0 = 0 /\ nth i (errors r) 0 = 0 /\ nth i (dt_Q2 r) 0 = 0.
Proof.
  intros solver fs orig harm ncol cut shift r a b c d N L HS HO HB Hs E i Hi.
  destruct (C31_one_entry_per_branch (fitting_of solver (List.length fs)) orig harm false ncol cut shift Hs) as (r' & E' & _ & _ & _ & _ & H).
  rewrite E in E'. injection E' as <-. destruct (H i Hi) as (ps & Ec & En). cbn in Ec. injection Ec as <-.
  assert (Data : map (fun w => orig w i) (seq 0 (List.length fs)) = map (lorentzian (a i) (b i) (c i) (d i)) fs).
  { apply (nth_ext _ _ (orig 0%nat i) (lorentzian (a i) (b i) (c i) (d i) 0)); [rewrite !map_length, seq_length; reflexivity|].
    intros w Hw. rewrite map_length, seq_length in Hw. rewrite (map_nth (fun w => orig w i) (seq 0 (List.length fs)) 0%nat w), seq_nth by exact Hw.
    rewrite (map_nth (lorentzian (a i) (b i) (c i) (d i)) fs 0 w). apply HO; assumption. }
  unfold entry, fitting_of in En. rewrite Data in En. destruct (solver _) as [[[[[a' b'] c'] d'] err]|] eqn:Es; [|right; injection En; auto].
  destruct (HB i Hi) as (Hb & Hc). destruct (C114_lorentzian fs (a i) (b i) (c i) (d i) a' b' c' d' err N L Hb Hc (HS _ _ _ _ _ _ Es)) as (G & _).
  destruct (lorentzian_fitting a' b' c' d' err) as [f|] eqn:Ef; cbn [option_map] in En; [|right; injection En; auto].
  destruct (G f eq_refl) as (G1 & G2 & G3 & _). left. injection En as E1 E2 _ E4. cbn [peak_position width area] in *. rewrite E1, E2, E4, G1, G2, G3. auto.
Qed.
Print Assumptions C114_analysis.

Lemma damped_rational a b c d x : b <> 0 -> x <> 0 -> damped a b c d x = c / (a ^ 4 + (b ^ 2 - 2 * a ^ 2) * x ^ 2 + (x ^ 2) ^ 2) + d /\ a ^ 4 + (b ^ 2 - 2 * a ^ 2) * x ^ 2 + (x ^ 2) ^ 2 <> 0.
Proof.
  intros Hb Hx. assert (D : a ^ 4 + (b ^ 2 - 2 * a ^ 2) * x ^ 2 + (x ^ 2) ^ 2 = (a ^ 2 - x ^ 2) ^ 2 + (b * x) ^ 2) by ring. rewrite D. split; [reflexivity|].
  assert (0 < (b * x) ^ 2) by (apply pow2_gt_0, Rmult_integral_contrapositive_currified; assumption). assert (Q := pow2_ge_0 (a ^ 2 - x ^ 2)). lra.
Qed.
(** The damped oscillator curve, sampled at five or more different positive frequencies: area parameter and base line are recovered, position and width
    up to their sign; the reported width is right in every case. *)
Theorem C114_damped_partial : forall xs a b c d a' b' c' d' xmax err, NoDup xs -> (5 <= length xs)%nat -> (forall x, In x xs -> 0 < x) -> 0 < a -> 0 < b -> c <> 0 ->
  least_squares damped xs (map (damped a b c d) xs) a' b' c' d' ->
  (a' = a \/ a' = - a) /\ (b' = b \/ b' = - b) /\ c' = c /\ d' = d /\
  (forall r, damped_fitting a' b' c' d' xmax err = Some r -> r_width r = b /\ r_base_line r = d /\ Rabs (r_position r) = a /\ r_maximum r = damped a b c d a).
Proof.
  intros xs a b c d a' b' c' d' xm err N L Px Ha Hb Hc (Hb' & M).
  assert (Z : residual (damped a' b' c' d') xs (map (damped a b c d) xs) <= 0) by (apply Rle_trans with (residual (damped a b c d) xs (map (damped a b c d) xs)); [apply M; lra|rewrite residual_self; lra]).
  assert (H := residual_zero _ _ xs Z).
  destruct (same_rational (map (fun x => x ^ 2) xs) c (a ^ 4) (b ^ 2 - 2 * a ^ 2) d c' (a' ^ 4) (b' ^ 2 - 2 * a' ^ 2) d') as (E1 & E2 & E3 & E4).
  - clear - N Px. induction N as [|x xs H N IH]; [constructor|]. cbn [map]. constructor; [|apply IH; intros y Hy; apply Px; right; exact Hy].
    intros I. apply in_map_iff in I as (y & E & Hy). apply H. assert (A := Px x (or_introl eq_refl)). assert (B := Px y (or_intror Hy)). assert (y = x) by nra. subst y. exact Hy.
  - rewrite map_length. exact L.
  - exact Hc.
  - intros y Hy. apply in_map_iff in Hy as (x & <- & Hx). specialize (H x Hx). assert (X := Px x Hx).
    destruct (damped_rational a b c d x ltac:(lra) ltac:(lra)) as (R1 & D1). destruct (damped_rational a' b' c' d' x Hb' ltac:(lra)) as (R2 & D2). rewrite R1, R2 in H. auto.
  - assert (A4 : a' ^ 2 = a ^ 2). { assert (P1 := pow2_ge_0 a'). assert (P2 : 0 < a ^ 2) by (apply pow_lt, Ha). assert (F : (a' ^ 2 - a ^ 2) * (a' ^ 2 + a ^ 2) = 0) by (replace ((a' ^ 2 - a ^ 2) * (a' ^ 2 + a ^ 2)) with (a' ^ 4 - a ^ 4) by ring; lra). destruct (Rmult_integral _ _ F); lra. }
    assert (B2 : b' ^ 2 = b ^ 2) by lra.
    assert (A5 : a' = a \/ a' = - a). { assert (F : (a' - a) * (a' + a) = 0) by (replace ((a' - a) * (a' + a)) with (a' ^ 2 - a ^ 2) by ring; lra). destruct (Rmult_integral _ _ F); [left|right]; lra. }
    assert (B5 : b' = b \/ b' = - b). { assert (F : (b' - b) * (b' + b) = 0) by (replace ((b' - b) * (b' + b)) with (b' ^ 2 - b ^ 2) by ring; lra). destruct (Rmult_integral _ _ F); [left|right]; lra. }
    split; [exact A5|]. split; [exact B5|]. split; [exact E1|]. split; [exact E4|].
    intros r E. unfold damped_fitting, finish in E. destruct (isnan _); [discriminate|]. injection E as <-. cbn [r_width r_base_line r_position r_maximum].
    split; [|split; [exact E4|split]].
    + destruct B5 as [-> | ->]; [apply Rabs_right; lra|rewrite Rabs_Ropp; apply Rabs_right; lra].
    + destruct A5 as [-> | ->]; [apply Rabs_right; lra|rewrite Rabs_Ropp; apply Rabs_right; lra].
    + subst c' d'. unfold damped. f_equal. f_equal. rewrite A4. replace ((b' * a') ^ 2) with (b' ^ 2 * a' ^ 2) by ring. rewrite A4, B2. ring.
Qed.
Print Assumptions C114_damped_partial.
(** Refuted for the position of the damped oscillator: the mirrored parameters fit equally well and are reported as a peak at the negative frequency. *)
Theorem C114_damped_mirror_refuted : forall xs a b c d xmax err r, 0 < a -> b <> 0 -> damped_fitting (- a) b c d xmax err = Some r ->
  least_squares damped xs (map (damped a b c d) xs) (- a) b c d /\ r_position r = - a.
Proof.
  intros xs a b c d xm err r Ha Hb E. assert (S : forall x, damped (- a) b c d x = damped a b c d x) by (intros x; unfold damped; replace ((- a) ^ 2) with (a ^ 2) by ring; reflexivity).
  split; [split; [exact Hb|]|].
  - intros. rewrite <- (map_ext _ _ S). rewrite residual_self. apply residual_nonneg.
  - unfold damped_fitting, finish in E. destruct (isnan _); [discriminate|]. injection E as <-. reflexivity.
Qed.
Print Assumptions C114_damped_mirror_refuted.

Example C114_nonvacuous : NoDup [1; 2; 3; 4; 5] /\ (5 <= length [1; 2; 3; 4; 5])%nat /\ exists r, lorentzian_fitting 3 1 2 0 (Fin 0) = Some r /\ r_position r = 3.
Proof.
  split; [|split; [cbn; lia|]].
  - repeat constructor; cbn; intros H; repeat destruct H as [H|H]; try lra; exact H.
  - unfold lorentzian_fitting, finish, div_sqrt. destruct (Rlt_dec 2 0); [lra|]. destruct (Req_EM_T 2 0); [lra|]. eexists. split; reflexivity.
Qed.
(** A solver that satisfies the hypothesis of the end-to-end theorem and a one-branch spectrum for which the left case of its conclusion happens. *)
Example C114_analysis_nonvacuous : let fs := [1; 2; 3; 4; 5] in
  exists solver, (forall ys a' b' c' d' err, solver ys = Some (a', b', c', d', err) -> least_squares lorentzian fs ys a' b' c' d') /\
  exists r, phonon_fitting_analysis (fitting_of solver 5) (fun w _ => lorentzian 3 1 2 0 (nth w fs 0)) (fun _ => 3) false 1 (1 / 10) None = Some r /\ positions r = (3 :: nil)%list /\ widths r = (2 * 1 :: nil)%list.
Proof.
  intros fs. exists (fun ys => if list_eq_dec Req_EM_T ys (map (lorentzian 3 1 2 0) fs) then Some (3, 1, 2, 0, Fin 0) else None). split.
  - intros ys a' b' c' d' err H. destruct (list_eq_dec _ _ _) as [E|]; [|discriminate]. injection H as <- <- <- <- _. rewrite E. apply C114_lorentzian_exists. lra.
  - unfold phonon_fitting_analysis. cbn [seq fold_left]. unfold analyse, column, fitting_of. cbn [seq map nth].
    destruct (list_eq_dec _ _ _) as [_|E]; [|exfalso; apply E; reflexivity].
    unfold lorentzian_fitting, finish, div_sqrt. destruct (Rlt_dec 2 0); [lra|]. destruct (Req_EM_T 2 0); [lra|]. cbn [isnan option_map]. unfold append. cbn. eexists. split; [reflexivity|]. split; reflexivity.
Qed.
