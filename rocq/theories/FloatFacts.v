(** The binary64 arithmetic of ArithModel (Coq's SpecFloat) is correctly rounded: the link with Flocq's theorems.
    Nothing here models /repo; it is proof infrastructure for C21 and C22. *)
From Coq Require Import ZArith Reals Lra Lia SpecFloat.
From Flocq Require Import Core.Core Relative BinarySingleNaN.
From Verif Require Import ArithModel.
Open Scope R_scope.

Local Instance Hprec53 : FLX.Prec_gt_0 53 := eq_refl _.
Local Instance Hmax1024 : Prec_lt_emax 53 1024 := eq_refl _.

Lemma round_nearest_even_equiv s m l : round_nearest_even m l = choice_mode mode_NE s m l.
Proof. case l; [reflexivity|intro c]. case c; [|reflexivity..]. now simpl; unfold Round.cond_incr; case Z.even. Qed.
Lemma round_aux_equiv sx mx ex lx :
  SpecFloat.binary_round_aux 53 1024 sx mx ex lx = BinarySingleNaN.binary_round_aux 53 1024 mode_NE sx mx ex lx.
Proof.
  unfold SpecFloat.binary_round_aux, BinarySingleNaN.binary_round_aux. set (mrse' := shr_fexp _ _ _ _ _).
  case mrse'; intros mrs' e'; simpl. now rewrite (round_nearest_even_equiv sx).
Qed.
Lemma round_equiv s m e : SpecFloat.binary_round 53 1024 s m e = BinarySingleNaN.binary_round 53 1024 mode_NE s m e.
Proof.
  unfold SpecFloat.binary_round, BinarySingleNaN.binary_round, shl_align_fexp. set (mez := shl_align _ _ _); case mez as [mz ez].
  apply round_aux_equiv.
Qed.
Lemma normalize_equiv m e szero :
  SpecFloat.binary_normalize 53 1024 m e szero = B2SF (BinarySingleNaN.binary_normalize 53 1024 Hprec53 Hmax1024 mode_NE m e szero).
Proof. case m as [|p|p]; [reflexivity|simpl; rewrite B2SF_SF2B; apply round_equiv..]. Qed.
Notation b64 := (binary_float 53 1024).
Lemma mul_equiv (x y : b64) : SFmul 53 1024 (B2SF x) (B2SF y) = B2SF (Bmult mode_NE x y).
Proof.
  case x as [sx|sx| |sx mx ex Bx]; case y as [sy|sy| |sy my ey By]; [now trivial..|]. simpl. rewrite B2SF_SF2B. apply round_aux_equiv.
Qed.
Lemma add_equiv (x y : b64) : SFadd 53 1024 (B2SF x) (B2SF y) = B2SF (Bplus mode_NE x y).
Proof.
  case x as [sx|sx| |sx mx ex Bx]; case y as [sy|sy| |sy my ey By]; [now (trivial || simpl; case Bool.eqb)..|]. apply normalize_equiv.
Qed.
Lemma sub_equiv (x y : b64) : SFsub 53 1024 (B2SF x) (B2SF y) = B2SF (Bminus mode_NE x y).
Proof.
  case x as [sx|sx| |sx mx ex Bx]; case y as [sy|sy| |sy my ey By]; [now (trivial || simpl; case Bool.eqb)..|].
  simpl. unfold Zminus. rewrite <- cond_Zopp_negb. apply normalize_equiv.
Qed.
Lemma div_equiv (x y : b64) : SFdiv 53 1024 (B2SF x) (B2SF y) = B2SF (Bdiv mode_NE x y).
Proof.
  case x as [sx|sx| |sx mx ex Bx]; case y as [sy|sy| |sy my ey By]; [now (trivial || simpl; case Bool.eqb)..|].
  simpl. rewrite B2SF_SF2B. set (melz := SFdiv_core_binary _ _ _ _ _ _). case melz as [[mz ez] lz]. apply round_aux_equiv.
Qed.

(** [x] is a finite binary64 number with the value [r] *)
Definition is64 (x : spec_float) (r : R) : Prop := exists b : b64, x = B2SF b /\ is_finite b = true /\ B2R b = r.
Notation fexp64 := (FLT_exp (-1074) 53).
(** rounding to nearest even *)
Definition rn (r : R) : R := round radix2 fexp64 ZnearestE r.

Lemma fexp64_eq : SpecFloat.fexp 53 1024 = fexp64.
Proof. reflexivity. Qed.
Lemma rn_le x y : x <= y -> rn x <= rn y.
Proof. apply round_le; auto with typeclass_instances. Qed.
Lemma rn_0 : rn 0 = 0. Proof. apply round_0; auto with typeclass_instances. Qed.
Lemma rn_opp x : rn (- x) = - rn x.
Proof. unfold rn. apply round_NE_opp. Qed.
Lemma is64_rn x r : is64 x r -> rn r = r.
Proof. intros (b & _ & _ & <-). unfold rn. apply round_generic; auto with typeclass_instances. apply (generic_format_B2R 53 1024 b). Qed.
(** error: half a unit in the 53rd place, or half the smallest number *)
Lemma rn_err x : Rabs (rn x - x) <= bpow radix2 (-53) * Rabs x + bpow radix2 (-1075).
Proof.
  unfold rn. destruct (error_N_FLT radix2 (-1074) 53 ltac:(reflexivity) (fun z => negb (Z.even z)) x) as (e & d & He & Hd & _ & E).
  rewrite E. replace (x * (1 + e) + d - x) with (x * e + d) by ring.
  eapply Rle_trans; [apply Rabs_triang|]. rewrite Rabs_mult. apply Rplus_le_compat.
  - rewrite Rmult_comm. apply Rmult_le_compat_r; [apply Rabs_pos|]. eapply Rle_trans; [exact He|]. apply Req_le. change (bpow radix2 (-53)) with (bpow radix2 (-1 + (-(53) + 1))). rewrite (bpow_plus radix2 (-1)). f_equal; simpl; lra.
  - eapply Rle_trans; [exact Hd|]. apply Req_le. change (bpow radix2 (-1075)) with (bpow radix2 (-1 + -1074)). rewrite (bpow_plus radix2 (-1)). f_equal; simpl; lra.
Qed.
(** a convenient form, with small numerals *)
Lemma rn_err' x : Rabs (rn x - x) <= / 9007199254740992 * Rabs x + / 1000000000000000000000000.
Proof.
  eapply Rle_trans; [apply rn_err|]. apply Rplus_le_compat.
  - apply Rmult_le_compat_r; [apply Rabs_pos|]. apply Req_le. simpl. lra.
  - eapply Rle_trans; [apply (bpow_le radix2 (-1075) (-100)); lia|]. simpl. lra.
Qed.
(** multiples of 1/2 up to 2^52 are exact *)
Lemma rn_half_int z : (Z.abs z <= 9007199254740992)%Z -> rn (IZR z / 2) = IZR z / 2.
Proof.
  intros H. apply round_generic; [auto with typeclass_instances|].
  replace (IZR z / 2) with (F2R (Float radix2 z (-1))) by (unfold F2R; simpl; lra).
  destruct (Z.eq_dec z 0) as [->|Nz]; [rewrite F2R_0; apply generic_format_0|].
  destruct (Z.eq_dec (Z.abs z) 9007199254740992) as [E|NE].
  - apply generic_format_abs_inv. rewrite <- F2R_Zabs, E.
    replace (F2R (Float radix2 9007199254740992 (-1))) with (bpow radix2 52) by (unfold F2R; simpl; lra).
    apply generic_format_bpow. unfold FLT_exp. lia.
  - apply generic_format_F2R. intros _. unfold cexp, FLT_exp. apply Z.max_lub; [|lia].
    assert (mag radix2 (F2R (Float radix2 z (-1))) <= 52)%Z; [|lia].
    apply mag_le_bpow; [apply F2R_neq_0; exact Nz|]. rewrite <- F2R_Zabs. unfold F2R. cbn [Fnum Fexp].
    replace (bpow radix2 52) with (IZR 9007199254740992 * bpow radix2 (-1)) by (simpl; lra).
    apply Rmult_lt_compat_r; [apply bpow_gt_0|]. apply IZR_lt. lia.
Qed.
Lemma rn_int z : (Z.abs z <= 4503599627370496)%Z -> rn (IZR z) = IZR z.
Proof. intros H. replace (IZR z) with (IZR (2 * z) / 2) by (rewrite mult_IZR; lra). apply rn_half_int. lia. Qed.

Lemma lt_emax x : Rabs x <= IZR (2 ^ 1000) -> Rlt_bool (Rabs (rn x)) (bpow radix2 1024) = true.
Proof.
  intros H. apply Rlt_bool_true. pose proof (rn_err' x) as E.
  apply Rle_lt_trans with (2 * IZR (2 ^ 1000) + 1).
  - assert (Rabs (rn x) <= Rabs (rn x - x) + Rabs x) by (replace (rn x) with ((rn x - x) + x) at 1 by ring; apply Rabs_triang).
    pose proof (Rabs_pos x). nra.
  - change (bpow radix2 1024) with (IZR (2 ^ 1024)). rewrite <- mult_IZR, <- plus_IZR. apply IZR_lt. reflexivity.
Qed.

Lemma is64_of_Z z : (Z.abs z <= 4503599627370496)%Z -> is64 (sf_of_Z z) (IZR z).
Proof.
  intros H. unfold sf_of_Z. rewrite normalize_equiv. eexists. split; [reflexivity|].
  pose proof (binary_normalize_correct 53 1024 Hprec53 Hmax1024 mode_NE z 0 false) as C. cbv zeta in C.
  replace (F2R (Float radix2 z 0)) with (IZR z) in C by (unfold F2R; simpl; ring).
  change (round radix2 (SpecFloat.fexp 53 1024) (round_mode mode_NE)) with rn in C.
  rewrite lt_emax in C; [|rewrite <- abs_IZR; apply IZR_le; eapply Z.le_trans; [exact H|]; discriminate].
  destruct C as (C1 & C2 & _). split; [exact C2|]. rewrite C1. apply rn_int; exact H.
Qed.
Lemma is64_add x y a b : is64 x a -> is64 y b -> Rabs (a + b) <= IZR (2 ^ 1000) -> is64 (SFadd 53 1024 x y) (rn (a + b)).
Proof.
  intros (u & -> & Fu & <-) (v & -> & Fv & <-) H. rewrite add_equiv. eexists. split; [reflexivity|].
  pose proof (Bplus_correct 53 1024 Hprec53 Hmax1024 mode_NE u v Fu Fv) as C.
  change (round radix2 (SpecFloat.fexp 53 1024) (round_mode mode_NE)) with rn in C. rewrite (lt_emax _ H) in C.
  destruct C as (C1 & C2 & _). split; assumption.
Qed.
Lemma is64_sub x y a b : is64 x a -> is64 y b -> Rabs (a - b) <= IZR (2 ^ 1000) -> is64 (SFsub 53 1024 x y) (rn (a - b)).
Proof.
  intros (u & -> & Fu & <-) (v & -> & Fv & <-) H. rewrite sub_equiv. eexists. split; [reflexivity|].
  pose proof (Bminus_correct 53 1024 Hprec53 Hmax1024 mode_NE u v Fu Fv) as C.
  change (round radix2 (SpecFloat.fexp 53 1024) (round_mode mode_NE)) with rn in C. rewrite (lt_emax _ H) in C.
  destruct C as (C1 & C2 & _). split; assumption.
Qed.
Lemma is64_mul x y a b : is64 x a -> is64 y b -> Rabs (a * b) <= IZR (2 ^ 1000) -> is64 (SFmul 53 1024 x y) (rn (a * b)).
Proof.
  intros (u & -> & Fu & <-) (v & -> & Fv & <-) H. rewrite mul_equiv. eexists. split; [reflexivity|].
  pose proof (Bmult_correct 53 1024 Hprec53 Hmax1024 mode_NE u v) as C.
  change (round radix2 (SpecFloat.fexp 53 1024) (round_mode mode_NE)) with rn in C. rewrite (lt_emax _ H) in C.
  destruct C as (C1 & C2 & _). rewrite Fu, Fv in C2. split; assumption.
Qed.
Lemma is64_div x y a b : is64 x a -> is64 y b -> b <> 0 -> Rabs (a / b) <= IZR (2 ^ 1000) -> is64 (SFdiv 53 1024 x y) (rn (a / b)).
Proof.
  intros (u & -> & Fu & <-) (v & -> & Fv & <-) Hb H. rewrite div_equiv. eexists. split; [reflexivity|].
  pose proof (Bdiv_correct 53 1024 Hprec53 Hmax1024 mode_NE u v Hb) as C.
  change (round radix2 (SpecFloat.fexp 53 1024) (round_mode mode_NE)) with rn in C. rewrite (lt_emax _ H) in C.
  destruct C as (C1 & C2 & _). rewrite Fu in C2. split; assumption.
Qed.

(** int(), ceil() and round() of a finite number *)
Lemma parts_value m e : let '(q, r, d) := sf_parts m e in
  (0 <= r < d)%Z /\ (0 <= q)%Z /\ F2R (Float radix2 (Zpos m) e) = IZR q + IZR r / IZR d.
Proof.
  unfold sf_parts. destruct (Z.leb_spec 0 e) as [He|He].
  - split; [lia|]. split; [apply Z.mul_nonneg_nonneg; [lia|apply Z.pow_nonneg; lia]|].
    unfold F2R. cbn [Fnum Fexp]. rewrite mult_IZR. change (IZR (2 ^ e)) with (IZR (radix2 ^ e)). rewrite (IZR_Zpower radix2 e He). lra.
  - pose proof (Z.pow_pos_nonneg 2 (- e) ltac:(lia) ltac:(lia)) as P.
    split; [apply Z.mod_pos_bound; exact P|]. split; [apply Z.div_pos; lia|].
    pose proof (Z.div_mod (Zpos m) (2 ^ (- e)) ltac:(lia)) as E.
    unfold F2R. cbn [Fnum Fexp]. replace e with (- (- e))%Z at 1 by lia. rewrite bpow_opp, <- (IZR_Zpower radix2 (- e)) by lia.
    change (radix_val radix2) with 2%Z. rewrite E at 1. rewrite plus_IZR, mult_IZR. field. apply IZR_neq. lia.
Qed.
Lemma trunc64 x r : is64 x r -> sf_trunc x = Some (Ztrunc r).
Proof.
  intros (b & -> & F & <-). destruct b as [s|s| |s m e B]; try discriminate F; cbn [B2SF sf_trunc B2R].
  - rewrite (Ztrunc_IZR 0). reflexivity.
  - pose proof (parts_value m e) as P. destruct (sf_parts m e) as [[q t] d]. destruct P as (T & Q & V). f_equal.
    assert (Ht : 0 <= IZR t / IZR d < 1).
    { assert (0 < IZR d) by (apply IZR_lt; lia). split; [apply Rmult_le_pos; [apply IZR_le; lia|left; apply Rinv_0_lt_compat; lra]|].
      apply (Rmult_lt_reg_r (IZR d)); [lra|]. unfold Rdiv. rewrite Rmult_assoc, Rinv_l, Rmult_1_l, Rmult_1_r by lra. apply IZR_lt. lia. }
    assert (G : Ztrunc (F2R (Float radix2 (Zpos m) e)) = q).
    { rewrite V. rewrite Ztrunc_floor; [|pose proof (IZR_le 0 q Q); lra]. apply Zfloor_imp. rewrite plus_IZR. lra. }
    destruct s; cbn [cond_Zopp signed]; [change (Z.neg m) with (- Z.pos m)%Z; rewrite F2R_Zopp, Ztrunc_opp|]; rewrite G; reflexivity.
Qed.
Lemma ceil64 x r : is64 x r -> sf_ceil x = Some (Zceil r).
Proof.
  intros (b & -> & F & <-). destruct b as [s|s| |s m e B]; try discriminate F; cbn [B2SF sf_ceil B2R].
  - rewrite (Zceil_IZR 0). reflexivity.
  - pose proof (parts_value m e) as P. destruct (sf_parts m e) as [[q t] d]. destruct P as (T & Q & V). f_equal.
    assert (Hd : 0 < IZR d) by (apply IZR_lt; lia).
    assert (Ht : 0 <= IZR t / IZR d < 1).
    { split; [apply Rmult_le_pos; [apply IZR_le; lia|left; apply Rinv_0_lt_compat; lra]|].
      apply (Rmult_lt_reg_r (IZR d)); [lra|]. unfold Rdiv. rewrite Rmult_assoc, Rinv_l, Rmult_1_l, Rmult_1_r by lra. apply IZR_lt. lia. }
    destruct s; cbn [cond_Zopp].
    + change (Z.neg m) with (- Z.pos m)%Z. rewrite F2R_Zopp, V. symmetry. unfold Zceil. rewrite Ropp_involutive. f_equal. apply Zfloor_imp. rewrite plus_IZR. lra.
    + rewrite V. symmetry. destruct (Z.eqb_spec t 0) as [->|Nt].
      * replace (IZR q + 0 / IZR d) with (IZR q) by (unfold Rdiv; ring). apply Zceil_IZR.
      * apply Zceil_imp. rewrite minus_IZR, plus_IZR. assert (0 < IZR t / IZR d) by (apply Rdiv_lt_0_compat; [apply IZR_lt; lia|exact Hd]). lra.
Qed.
Lemma round64 x r : is64 x r -> sf_round x = Some (ZnearestE r).
Proof.
  intros (b & -> & F & <-). destruct b as [s|s| |s m e B]; try discriminate F; cbn [B2SF sf_round B2R].
  - rewrite (Zrnd_IZR ZnearestE 0). reflexivity.
  - pose proof (parts_value m e) as P. destruct (sf_parts m e) as [[q t] d]. destruct P as (T & Q & V). f_equal.
    assert (Hd : 0 < IZR d) by (apply IZR_lt; lia).
    assert (Ht : 0 <= IZR t / IZR d < 1).
    { split; [apply Rmult_le_pos; [apply IZR_le; lia|left; apply Rinv_0_lt_compat; lra]|].
      apply (Rmult_lt_reg_r (IZR d)); [lra|]. unfold Rdiv. rewrite Rmult_assoc, Rinv_l, Rmult_1_l, Rmult_1_r by lra. apply IZR_lt. lia. }
    assert (Fl : Zfloor (F2R (Float radix2 (Zpos m) e)) = q) by (rewrite V; apply Zfloor_imp; rewrite plus_IZR; lra).
    assert (Ec : t <> 0%Z -> Zceil (F2R (Float radix2 (Zpos m) e)) = (q + 1)%Z).
    { intros Nt. rewrite V. apply Zceil_imp. rewrite minus_IZR, plus_IZR. assert (0 < IZR t / IZR d) by (apply Rdiv_lt_0_compat; [apply IZR_lt; lia|exact Hd]). lra. }
    assert (Cmp : Rcompare (F2R (Float radix2 (Zpos m) e) - IZR q) (/ 2) = (2 * t ?= d)%Z).
    { rewrite V. replace (IZR q + IZR t / IZR d - IZR q) with (IZR t / IZR d) by ring. rewrite <- (Rcompare_mult_r (2 * IZR d)) by lra.
      replace (IZR t / IZR d * (2 * IZR d)) with (IZR (2 * t)) by (rewrite mult_IZR; field; lra).
      replace (/ 2 * (2 * IZR d)) with (IZR d) by field. apply Rcompare_IZR. }
    assert (G : ZnearestE (F2R (Float radix2 (Zpos m) e)) = match (2 * t ?= d)%Z with Lt => q | Gt => (q + 1)%Z | Eq => if Z.even q then q else (q + 1)%Z end).
    { unfold Znearest. rewrite Fl, Cmp. destruct (Z.compare_spec (2 * t) d) as [E|E|E]; [|reflexivity|apply Ec; lia].
      destruct (Z.even q); cbn [negb]; [reflexivity|apply Ec; lia]. }
    destruct s; cbn [cond_Zopp signed]; [|symmetry; exact G].
    change (Z.neg m) with (- Z.pos m)%Z. rewrite F2R_Zopp. rewrite <- G.
    generalize (F2R (Float radix2 (Z.pos m) e)). intros u. rewrite Znearest_opp. f_equal. unfold Znearest. destruct (Rcompare (u - IZR (Zfloor u)) (/ 2)); try reflexivity.
    replace (- (Zfloor u + 1))%Z with (- Z.succ (Zfloor u))%Z by lia. rewrite Z.even_opp, Z.even_succ, <- Z.negb_even, Bool.negb_involutive.
    destruct (Z.even (Zfloor u)); reflexivity.
Qed.
