(** Lemmas for C116, second part: autocorrelation and transform of a real oscillation. *)
From Verif Require Import SpectraModel SpectraSpec SpectraProofs FftModel FftSpec FftProofs RealToneProofs.
From Coq Require Import Lra Lia Permutation.
From Coq Require Import List. Import ListNotations.
Open Scope R_scope.

Definition is_real_tone (A phi : R) (n : nat) (s : Z) (x : list C) : Prop :=
  length x = n /\ forall j, (j < n)%nat -> nth j x (RtoC 0) = RtoC (A * cos (2 * PI * IZR s / INR n * INR j + phi)).

Lemma csumn_prefix n N f : (N <= n)%nat -> (forall j, (N <= j < n)%nat -> f j = RtoC 0) -> csumn n f = csumn N f.
Proof.
  intros HN H. replace n with (N + (n - N))%nat by lia. rewrite csumn_app, (csumn_ext (n - N) _ (fun _ => RtoC 0)), csumn_zero.
  - generalize (csumn N f). intros c. cring.
  - intros i Hi. apply H. lia.
Qed.
Lemma csumn_suffix n k f : (k <= n)%nat -> (forall j, (j < k)%nat -> f j = RtoC 0) -> csumn n f = csumn (n - k) (fun i => f (k + i)%nat).
Proof.
  intros HN H. replace n with (k + (n - k))%nat at 1 by lia. rewrite csumn_app, (csumn_ext k _ (fun _ => RtoC 0)), csumn_zero by exact H.
  generalize (csumn (n - k) (fun i => f (k + i)%nat)). intros c. cring.
Qed.
(** sum of cosines in arithmetic progression *)
Lemma cos_sum th de N : 2 * sin th * rsumn N (fun j => cos (2 * th * INR j + de)) = sin (2 * th * INR N + de - th) - sin (de - th).
Proof.
  induction N as [|N IH].
  - rewrite rsumn_0. cbn [INR]. replace (2 * th * 0 + de - th) with (de - th) by ring. ring.
  - rewrite rsumn_S, Rmult_plus_distr_l, IH, S_INR. replace (2 * th * (INR N + 1) + de - th) with ((2 * th * INR N + de) + th) by ring.
    replace (2 * th * INR N + de - th) with ((2 * th * INR N + de) - th) by ring.
    rewrite (sin_plus (2 * th * INR N + de)), (sin_minus (2 * th * INR N + de)). ring.
Qed.
Section Tone.
Context (A phi : R) (n : nat) (s : Z) (x : list C) (HT : is_real_tone A phi n s x) (Hn : (2 <= n)%nat).
Let th := 2 * PI * IZR s / INR n.
Context (Hth : sin th <> 0).
Let gam := cos (2 * phi - th).
Let n0 : 0 < INR n.
Proof. apply lt_0_INR. lia. Qed.
Let Len : length x = n := proj1 HT.
Lemma overlap k : (k <= n)%nat ->
  rsumn (n - k) (fun j => A * cos (th * INR (k + j) + phi) * (A * cos (th * INR j + phi))) =
  A ^ 2 / 2 * ((INR n - INR k) * cos (th * INR k) - gam / sin th * sin (th * INR k)).
Proof.
  intros Hk.
  rewrite (rsumn_ext _ _ (fun j => A ^ 2 / 2 * (cos (th * INR k) + cos (2 * th * INR j + (th * INR k + 2 * phi))))).
  2:{ intros j _. rewrite plus_INR. replace (th * (INR k + INR j) + phi) with ((th * INR j + phi) + th * INR k) by ring.
      replace (2 * th * INR j + (th * INR k + 2 * phi)) with ((th * INR j + phi) + ((th * INR j + phi) + th * INR k)) by ring.
      set (u := th * INR j + phi). set (w := th * INR k). rewrite (cos_plus u (u + w)). rewrite (cos_plus u w), (sin_plus u w).
      pose proof (sin2_cos2 u) as H. unfold Rsqr in H.
      transitivity (A ^ 2 / 2 * (cos w * (sin u * sin u + cos u * cos u) + (cos u * (cos u * cos w - sin u * sin w) - sin u * (sin u * cos w + cos u * sin w)))); [field|]. rewrite H. field. }
  rewrite rsumn_scal. f_equal. rewrite rsumn_plus.
  assert (E1 : rsumn (n - k) (fun _ => cos (th * INR k)) = (INR n - INR k) * cos (th * INR k)).
  { rewrite <- minus_INR by exact Hk. generalize (n - k)%nat, (cos (th * INR k)). intros m c. induction m as [|m IH]; [rewrite rsumn_0; cbn [INR]; ring|]. rewrite rsumn_S, IH, S_INR. ring. }
  assert (E2 : rsumn (n - k) (fun j => cos (2 * th * INR j + (th * INR k + 2 * phi))) = - (gam / sin th * sin (th * INR k))).
  { apply (Rmult_eq_reg_l (2 * sin th)); [|lra]. rewrite cos_sum, minus_INR by exact Hk.
    assert (P : sin (2 * th * (INR n - INR k) + (th * INR k + 2 * phi) - th) = sin ((2 * phi - th) - th * INR k)).
    { pose proof (f_equal snd (cis_period ((2 * phi - th) - th * INR k) (2 * s))) as C2. unfold cis in C2. cbn [snd] in C2. rewrite <- C2. f_equal.
      rewrite mult_IZR. unfold th. field. lra. }
    rewrite P. replace (th * INR k + 2 * phi - th) with ((2 * phi - th) + th * INR k) by ring. rewrite sin_minus, (sin_plus (2 * phi - th)). unfold gam. field. exact Hth. }
  rewrite E1, E2. ring.
Qed.
Definition lag (k : nat) : R := A ^ 2 / (2 * INR n) * ((INR n - INR k) * cos (th * INR k) - gam / sin th * sin (th * INR k)).
Lemma cget_in j : (j < n)%nat -> cget x (Z.of_nat j) = RtoC (A * cos (th * INR j + phi)).
Proof. intros Hj. rewrite cget_nat. apply (proj2 HT), Hj. Qed.
Lemma cget_out i : (i < 0)%Z \/ (Z.of_nat n <= i)%Z -> cget x i = RtoC 0.
Proof.
  intros Hi. unfold cget. destruct (Z.leb_spec 0 i); [|reflexivity]. apply nth_overflow. rewrite Len. lia.
Qed.
Lemma acorr_forward k : (n / 2 + k < n)%nat -> acorr x (n / 2 + k) = RtoC (lag k).
Proof.
  intros Hk. unfold acorr. rewrite Len. replace (Z.of_nat (n / 2 + k) - Z.of_nat (n / 2))%Z with (Z.of_nat k) by lia.
  rewrite (csumn_prefix n (n - k)) by (lia || (intros j Hj; rewrite (cget_out (Z.of_nat j + Z.of_nat k)) by lia; generalize (Cconj (cget x (Z.of_nat j))); intros c; cring)).
  rewrite (csumn_ext _ _ (fun j => RtoC (A * cos (th * INR (k + j) + phi) * (A * cos (th * INR j + phi))))).
  - rewrite csumn_RtoC, overlap by lia. rewrite <- RtoC_div by lra. f_equal. unfold lag. field. split; (exact Hth || lra).
  - intros j Hj. replace (Z.of_nat j + Z.of_nat k)%Z with (Z.of_nat (k + j)) by lia. rewrite !cget_in by lia. cring.
Qed.
Lemma acorr_backward k : (k <= n / 2)%nat -> acorr x (n / 2 - k) = RtoC (lag k).
Proof.
  intros Hk. assert (Hh : (n / 2 < n)%nat) by (apply Nat.div_lt; lia). unfold acorr. rewrite Len. replace (Z.of_nat (n / 2 - k) - Z.of_nat (n / 2))%Z with (- Z.of_nat k)%Z by lia.
  rewrite (csumn_suffix n k) by (lia || (intros j Hj; rewrite (cget_out (Z.of_nat j + - Z.of_nat k)) by lia; generalize (Cconj (cget x (Z.of_nat j))); intros c; cring)).
  rewrite (csumn_ext _ _ (fun j => RtoC (A * cos (th * INR (k + j) + phi) * (A * cos (th * INR j + phi))))).
  - rewrite csumn_RtoC, overlap by lia. rewrite <- RtoC_div by lra. f_equal. unfold lag. field. split; (exact Hth || lra).
  - intros j Hj. replace (Z.of_nat (k + j) + - Z.of_nat k)%Z with (Z.of_nat j) by lia. rewrite !cget_in by lia. cring.
Qed.
Lemma dft_halves l : let h := (n / 2)%nat in let be := 2 * PI * IZR l / INR n in
  dft x l = Cmult (cis (- (be * INR h))) (Cplus (csumn h (fun i => Cmult (RtoC (lag (S i))) (cis (be * INR (S i))))) (csumn (n - h) (fun i => Cmult (RtoC (lag i)) (cis (- (be * INR i)))))).
Proof.
  intros h be. assert (Hh : (h < n)%nat) by (apply Nat.div_lt; lia). unfold dft. rewrite Len. replace n with (h + (n - h))%nat at 1 by lia.
  rewrite csumn_app, csumn_rev.
  transitivity (Cplus (Cmult (cis (- (be * INR h))) (csumn h (fun i => Cmult (RtoC (lag (S i))) (cis (be * INR (S i)))))) (Cmult (cis (- (be * INR h))) (csumn (n - h) (fun i => Cmult (RtoC (lag i)) (cis (- (be * INR i))))))).
  - rewrite <- !csumn_scal. f_equal; apply csumn_ext; intros i Hi.
    + replace (h - 1 - i)%nat with (h - S i)%nat by lia. unfold h at 1. rewrite acorr_backward by (fold h; lia). fold h.
      replace (- (2 * PI * IZR l * INR (h - S i) / INR n)) with (- (be * INR h) + be * INR (S i)) by (rewrite minus_INR by lia; unfold be; field; lra).
      rewrite cis_add. generalize (cis (- (be * INR h))), (cis (be * INR (S i))). intros a b. cring.
    + unfold h at 1. rewrite acorr_forward by (fold h; lia). fold h.
      replace (- (2 * PI * IZR l * INR (h + i) / INR n)) with (- (be * INR h) + - (be * INR i)) by (rewrite plus_INR; unfold be; field; lra).
      rewrite cis_add. generalize (cis (- (be * INR h))), (cis (- (be * INR i))). intros a b. cring.
  - generalize (cis (- (be * INR h))). intros a. generalize (csumn h (fun i => Cmult (RtoC (lag (S i))) (cis (be * INR (S i))))). intros b.
    generalize (csumn (n - h) (fun i => Cmult (RtoC (lag i)) (cis (- (be * INR i))))). intros c. cring.
Qed.
(** the transform is, up to a phase, a real number *)
Lemma halves_real h be (o : bool) : (o = false -> sin (be * INR h) = 0) ->
  Cplus (csumn h (fun i => Cmult (RtoC (lag (S i))) (cis (be * INR (S i))))) (csumn (h + (if o then 1 else 0)) (fun i => Cmult (RtoC (lag i)) (cis (- (be * INR i))))) =
  RtoC (lags h o (fun k => lag k * cos (be * INR k))).
Proof.
  intros Ho.
  assert (E : Cplus (csumn h (fun i => Cmult (RtoC (lag (S i))) (cis (be * INR (S i))))) (csumn h (fun i => Cmult (RtoC (lag i)) (cis (- (be * INR i))))) =
     (rsumn h (fun k => lag k * cos (be * INR k) + lag (S k) * cos (be * INR (S k))), lag h * sin (be * INR h))).
  { clear Ho. induction h as [|h IH].
    - rewrite !csumn_0. unfold rsumn. cbn [seq map rsum fold_right INR]. rewrite Rmult_0_r, sin_0. apply Ceq; cbn; ring.
    - rewrite !csumn_S, rsumn_S.
      replace (Cplus (Cplus (csumn h (fun i => Cmult (RtoC (lag (S i))) (cis (be * INR (S i))))) (Cmult (RtoC (lag (S h))) (cis (be * INR (S h)))))
                     (Cplus (csumn h (fun i => Cmult (RtoC (lag i)) (cis (- (be * INR i))))) (Cmult (RtoC (lag h)) (cis (- (be * INR h))))))
        with (Cplus (Cplus (csumn h (fun i => Cmult (RtoC (lag (S i))) (cis (be * INR (S i))))) (csumn h (fun i => Cmult (RtoC (lag i)) (cis (- (be * INR i))))))
                     (Cplus (Cmult (RtoC (lag (S h))) (cis (be * INR (S h)))) (Cmult (RtoC (lag h)) (cis (- (be * INR h))))))
        by (generalize (csumn h (fun i => Cmult (RtoC (lag (S i))) (cis (be * INR (S i))))), (csumn h (fun i => Cmult (RtoC (lag i)) (cis (- (be * INR i)))));
            generalize (cis (be * INR (S h))), (cis (- (be * INR h))); intros; cring).
      rewrite IH. unfold cis. rewrite cos_neg, sin_neg. generalize (lag h), (lag (S h)). intros. apply Ceq; cbn [fst snd Cplus Cmult RtoC]; ring. }
  unfold lags. destruct o.
  - rewrite Nat.add_1_r, csumn_S.
    replace (Cplus (csumn h (fun i => Cmult (RtoC (lag (S i))) (cis (be * INR (S i))))) (Cplus (csumn h (fun i => Cmult (RtoC (lag i)) (cis (- (be * INR i))))) (Cmult (RtoC (lag h)) (cis (- (be * INR h))))))
      with (Cplus (Cplus (csumn h (fun i => Cmult (RtoC (lag (S i))) (cis (be * INR (S i))))) (csumn h (fun i => Cmult (RtoC (lag i)) (cis (- (be * INR i)))))) (Cmult (RtoC (lag h)) (cis (- (be * INR h)))))
      by (generalize (csumn h (fun i => Cmult (RtoC (lag (S i))) (cis (be * INR (S i))))), (csumn h (fun i => Cmult (RtoC (lag i)) (cis (- (be * INR i)))));
            generalize (cis (- (be * INR h))); intros; cring).
    rewrite E. unfold cis. rewrite cos_neg, sin_neg. generalize (lag h). intros. apply Ceq; cbn [fst snd Cplus Cmult RtoC]; ring.
  - rewrite Nat.add_0_r, E, (Ho eq_refl). apply Ceq; cbn; ring.
Qed.
Lemma dft_mod l (o : bool) : n = (2 * (n / 2) + (if o then 1 else 0))%nat -> Cmod (dft x l) = A ^ 2 / (2 * INR n) * Rabs (M n (n / 2) o (gam / sin th) s l).
Proof.
  intros Eo. rewrite dft_halves, Cmod_mult, cis_mod, Rmult_1_l. set (h := (n / 2)%nat) in *. replace (n - h)%nat with (h + (if o then 1 else 0))%nat by lia.
  rewrite halves_real.
  - rewrite (lags_ext _ _ _ (fun k => A ^ 2 / (2 * INR n) * (((INR n - INR k) * cos (2 * PI * IZR s / INR n * INR k) - gam / sin th * sin (2 * PI * IZR s / INR n * INR k)) * cos (2 * PI * IZR l / INR n * INR k))))
      by (intros k; unfold lag; fold th; ring).
    rewrite lags_scal, Cmod_R, Rabs_mult, Rabs_pos_eq; [reflexivity|]. apply Rmult_le_pos; [apply pow2_ge_0|left; apply Rinv_0_lt_compat; lra].
  - intros ->. rewrite even_angle by lia. apply sin_pi.
Qed.
End Tone.

Lemma even_or_odd_half n : (n = 2 * (n / 2) + (if false then 1 else 0) \/ n = 2 * (n / 2) + (if true then 1 else 0))%nat.
Proof. pose proof (Nat.div_mod n 2 ltac:(lia)) as H. pose proof (Nat.mod_upper_bound n 2 ltac:(lia)). destruct (n mod 2)%nat as [|[|k]]; [left|right|]; cbn iota; lia. Qed.
Section Peak.
Context (A phi : R) (n : nat) (s : Z) (x : list C) (HT : is_real_tone A phi n s x) (E : (2 * s mod Z.of_nat n <> 0)%Z) (Hn : (1 <= n)%nat).
Let n0 : 0 < INR n.
Proof. apply lt_0_INR. lia. Qed.
Let n2 : (2 <= n)%nat.
Proof. destruct n as [|[|k]]; try lia. exfalso. apply E. apply Z.mod_1_r. Qed.
Let Th : sin (2 * PI * IZR s / INR n) <> 0.
Proof. replace (2 * PI * IZR s / INR n) with (PI * IZR (2 * s) / INR n) by (rewrite mult_IZR; unfold Rdiv; ring). apply sin_nonzero; assumption. Qed.
Let Pos : 0 <= A ^ 2 / (2 * INR n).
Proof. apply Rmult_le_pos; [apply pow2_ge_0|left; apply Rinv_0_lt_compat; lra]. Qed.
Let g := cos (2 * phi - 2 * PI * IZR s / INR n) / sin (2 * PI * IZR s / INR n).
Let Hg : Rabs (g * sin (2 * PI * IZR s / INR n)) <= 1.
Proof.
  unfold g. replace (cos (2 * phi - 2 * PI * IZR s / INR n) / sin (2 * PI * IZR s / INR n) * sin (2 * PI * IZR s / INR n)) with (cos (2 * phi - 2 * PI * IZR s / INR n)) by (field; first [exact Th | split; exact Th || lra]).
  apply Rabs_le. apply COS_bound.
Qed.
Lemma rest l : ((l - s) mod Z.of_nat n <> 0)%Z -> ((l + s) mod Z.of_nat n <> 0)%Z -> Cmod (dft x l) <= margin n * Cmod (dft x s).
Proof.
  intros E1 E2. assert (Len := proj1 HT).
  assert (Main : forall (o : bool) l', n = (2 * (n / 2) + (if o then 1 else 0))%nat -> Rabs (2 * M n (n / 2) o g s l') <= margin n * (2 * M n (n / 2) o g s s) -> Cmod (dft x l') <= margin n * Cmod (dft x s)).
  { intros o l' Eo B. rewrite !(dft_mod A phi n s x HT n2 Th _ o Eo). fold g. replace (margin n * (A ^ 2 / (2 * INR n) * Rabs (M n (n / 2) o g s s))) with (A ^ 2 / (2 * INR n) * (margin n * Rabs (M n (n / 2) o g s s))) by ring.
    apply Rmult_le_compat_l; [exact Pos|]. assert (0 <= margin n) by (unfold margin; destruct (Nat.eq_dec n 3); lra).
    rewrite Rabs_mult, (Rabs_pos_eq 2) in B by lra. pose proof (Rle_abs (M n (n / 2) o g s s)). nra. }
  destruct (even_or_odd_half n) as [Eh|Eh].
  - apply (Main false); [exact Eh|]. cbn iota in Eh. rewrite Nat.add_0_r in Eh.
    rewrite (M_even_peak n (n / 2) Eh ltac:(lia) s E g).
    eapply Rle_trans; [apply (M_even_off n (n / 2) Eh ltac:(lia) s E); assumption|].
    assert (0 <= INR n ^ 2) by (apply pow2_ge_0). unfold margin. destruct (Nat.eq_dec n 3); lra.
  - cbn iota in Eh. destruct (Z.Even_or_Odd (l - s)) as [Ev|Od].
    + rewrite <- (dft_period x l 1) by lia. rewrite Len, Z.mul_1_l. apply (Main true); [exact Eh|].
      apply (M_odd_off n (n / 2) Eh s E); [exact Hg| | |].
      * destruct Ev as [q Eq]. exists (q + Z.of_nat (n / 2))%Z. lia.
      * replace (l + Z.of_nat n - s)%Z with (l - s + 1 * Z.of_nat n)%Z by lia. rewrite Z.mod_add by lia. exact E1.
      * replace (l + Z.of_nat n + s)%Z with (l + s + 1 * Z.of_nat n)%Z by lia. rewrite Z.mod_add by lia. exact E2.
    + apply (Main true); [exact Eh|]. apply (M_odd_off n (n / 2) Eh s E); assumption.
Qed.
Lemma peak_high : 3 / 20 * (INR n * A ^ 2) <= Cmod (dft x s).
Proof.
  assert (Main : forall o : bool, n = (2 * (n / 2) + (if o then 1 else 0))%nat -> 3 / 5 * INR n ^ 2 <= 2 * M n (n / 2) o g s s -> 3 / 20 * (INR n * A ^ 2) <= Cmod (dft x s)).
  { intros o Eo B. rewrite (dft_mod A phi n s x HT n2 Th _ o Eo). fold g. pose proof (Rle_abs (M n (n / 2) o g s s)).
    apply Rle_trans with (A ^ 2 / (2 * INR n) * (3 / 10 * INR n ^ 2)); [right; field; lra|]. apply Rmult_le_compat_l; [exact Pos|]. lra. }
  destruct (even_or_odd_half n) as [Eh|Eh]; [apply (Main false); [exact Eh|]|apply (Main true); [exact Eh|]]; cbn iota in Eh.
  - rewrite Nat.add_0_r in Eh. rewrite (M_even_peak n (n / 2) Eh ltac:(lia) s E g). assert (0 <= INR n ^ 2) by (apply pow2_ge_0). lra.
  - apply (M_odd_positive n (n / 2) Eh s E), Hg.
Qed.
End Peak.
(** the largest value of the transform is at s *)
Lemma real_tone_peak A phi n s x l : (1 <= n)%nat -> is_real_tone A phi n s x -> Cmod (dft x l) <= Cmod (dft x s).
Proof.
  intros Hn HT. assert (n0 : 0 < INR n) by (apply lt_0_INR; lia).
  destruct (Z.eq_dec (2 * s mod Z.of_nat n) 0) as [E|E].
  - (* the oscillation is a complex tone *)
    assert (Th : sin (2 * PI * IZR s / INR n) = 0).
    { apply Z.mod_divide in E; [|lia]. destruct E as [z E]. replace (2 * PI * IZR s / INR n) with (PI * IZR z); [apply sin_pi|].
      apply (f_equal IZR) in E. rewrite !mult_IZR, <- INR_IZR_INZ in E. replace (2 * PI * IZR s) with (PI * (2 * IZR s)) by ring. rewrite E. field. lra. }
    assert (T : is_tone (RtoC (A * cos phi)) n s x).
    { destruct HT as [L H]. split; [exact L|]. intros j Hj. rewrite (H j Hj).
      assert (S0 : forall j, sin (2 * PI * IZR s / INR n * INR j) = 0).
      { clear j Hj. induction j as [|j IH]; [cbn [INR]; rewrite Rmult_0_r; apply sin_0|]. rewrite S_INR, Rmult_plus_distr_l, Rmult_1_r, sin_plus, IH, Th. ring. }
      rewrite cos_plus, S0. unfold cis. replace (2 * PI * IZR s * INR j / INR n) with (2 * PI * IZR s / INR n * INR j) by (unfold Rdiv; ring). rewrite S0.
      apply Ceq; cbn; ring. }
    rewrite (tone_dft_peak _ _ _ _ Hn T). apply (tone_dft_le _ _ _ _ _ Hn T).
  - assert (Len := proj1 HT).
    destruct (Z.eq_dec ((l - s) mod Z.of_nat n) 0) as [E1|E1].
    { apply Z.mod_divide in E1; [|lia]. destruct E1 as [z E1]. replace l with (s + z * Z.of_nat (length x))%Z by (rewrite Len; lia). rewrite dft_period by lia. lra. }
    destruct (Z.eq_dec ((l + s) mod Z.of_nat n) 0) as [E2|E2].
    { apply Z.mod_divide in E2; [|lia]. destruct E2 as [z E2]. replace l with (- s + z * Z.of_nat (length x))%Z by (rewrite Len; lia). rewrite dft_period by lia.
      rewrite real_symmetric; [lra|]. intros y Hy. apply (In_nth _ _ (RtoC 0)) in Hy as [j [Hj <-]]. rewrite (proj2 HT j) by lia. reflexivity. }
    eapply Rle_trans; [apply (rest A phi n s x HT E Hn l E1 E2)|]. pose proof (Cmod_ge_0 (dft x s)). unfold margin. destruct (Nat.eq_dec n 3); lra.
Qed.
