(** C21, C22 in the binary64 arithmetic that Python really uses: what is left of the two properties after rounding. *)
From Coq Require Import ZArith Reals Lra Lia SpecFloat.
From Verif Require Import SpectraModel SpectraSpec SpectraProofs FloatFacts FloatPieces FloatAxis.
Open Scope R_scope.

(** For every length up to 2^24 samples, every finite resolution and time step asking for at most 2^24 samples per piece: the function
    returns, the pieces are in range, not empty, leave no gap, start at sample 0, their number is the exact one, and only the last
    sample can be lost and the lengths be off by one (both happen: C21_last_sample_lost_refuted, C21_unequal_pieces_refuted). *)
Theorem C21_binary64_partial :
  forall (resolution time_step : num binary64) (a b : R) (N : Z), (1 <= N <= 2 ^ 24)%Z ->
  float_is time_step a -> float_is resolution b -> / 16777216 <= a * b <= 1 ->
  exists p pieces, division_of_data binary64 resolution N time_step = Some pieces /\
  Rabs (IZR p - 1 / (a * b)) <= / 2 + / 2 ^ 51 * (1 / (a * b)) /\
  good_pieces_up_to_one N (piece_length N p) pieces /\
  Z.of_nat (length pieces) = (if p <=? N - 1 then (N - 1) / p + 1 else 2)%Z.
Proof.
  intros res dt a b N HN Ha Hb Hab. apply float_is_64 in Ha, Hb.
  destruct (piece_size64 dt res a b Ha Hb Hab) as (p & Ep & Hp & Hr).
  destruct (division64 res dt N p) as (l & El & G & L); [lia|exact Ep|lia|].
  exists p, l. split; [exact El|]. split; [eapply Rle_trans; [exact Hr|]; apply Req_le; simpl; lra|]. split; [exact G|].
  rewrite L. rewrite Z2Nat.id; [reflexivity|]. destruct (Z.leb_spec p (N - 1)); [|lia]. assert (0 <= (N - 1) / p)%Z by (apply Z.div_pos; lia). lia.
Qed.
Print Assumptions C21_binary64_partial.
Lemma five : float_is (sf_of_Z 5) 5.
Proof. apply float_is_64. apply (is64_of_Z 5). lia. Qed.
Lemma eighth : float_is (S754_finite false 4503599627370496 (-55)) (/ 8).
Proof. split; [reflexivity|]. simpl. lra. Qed.
(** 107 samples, time step 1, resolution 1/8: pieces of 8 samples, 14 of them *)
Example C21_binary64_nonvacuous :
  float_is (S754_finite false 4503599627370496 (-52)) 1 /\ float_is (S754_finite false 4503599627370496 (-55)) (/ 8) /\
  (/ 16777216 <= 1 * / 8 <= 1) /\
  option_map (@length _) (division_of_data binary64 (S754_finite false 4503599627370496 (-55)) 107 (S754_finite false 4503599627370496 (-52))) = Some 14%nat.
Proof. split; [split; [reflexivity|simpl; lra]|]. split; [apply eighth|]. split; [lra|vm_compute; reflexivity]. Qed.

(** For every axis of at most about 2^20 points: it starts exactly at lo, every entry is within r/1024 of its place, it reaches hi up to
    r/512 and exceeds it by at most r + r/512 (C22_overshoot_refuted: it does exceed it by r); repeating the call changes nothing. *)
Theorem C22_binary64_limits_partial :
  forall (xlo xhi : num binary64) (s : axis binary64) (lo hi r : R),
  float_is xlo lo -> float_is xhi hi -> float_is (resol s) r -> 0 <= lo <= hi -> hi <= 2 ^ 20 * r -> / 2 ^ 20 <= r <= 2 ^ 20 ->
  exists s' vals, set_frequency_limits xlo xhi s = Some s' /\ resol s' = resol s /\
  List.Forall2 float_is (frange s') vals /\ good_axis_up_to (/ 1024 * r) lo hi r vals /\
  set_frequency_limits xlo xhi s' = Some s'.
Proof.
  intros xlo xhi s lo hi r Flo Fhi Fr Hlo Hhi Hr. apply float_is_64 in Flo, Fhi, Fr.
  destruct (arange64_good lo hi r Hlo ltac:(simpl in *; lra) ltac:(simpl in *; lra) xlo xhi (resol s) Flo Fhi Fr) as (l & vals & E & V & G).
  exists (MkAxis l (resol s)), vals. unfold set_frequency_limits. cbn [resol]. rewrite E. cbn [obind frange].
  split; [reflexivity|]. split; [reflexivity|]. split; [|split; [exact G|reflexivity]].
  clear -V. induction V; constructor; [apply float_is_64; assumption|assumption].
Qed.
Print Assumptions C22_binary64_limits_partial.
(** A new resolution: the lower end is kept exactly and the previous upper end is reached and exceeded by at most one new step, up to r/512. *)
Theorem C22_binary64_resolution_partial :
  forall (s : axis binary64) (xr : num binary64) (old : list R) (lo hi r : R),
  List.Forall2 float_is (frange s) old -> old <> [] -> hd 0 old = lo -> last old 0 = hi ->
  float_is xr r -> 0 <= lo <= hi -> hi <= 2 ^ 20 * r -> / 2 ^ 20 <= r <= 2 ^ 20 ->
  exists s' vals, set_spectra_resolution xr s = Some s' /\ resol s' = xr /\
  List.Forall2 float_is (frange s') vals /\ good_axis_up_to (/ 1024 * r) lo hi r vals.
Proof.
  intros [f rs] xr old lo hi r F Ne Hh Hl Fr Hlo Hhi Hr. cbn [frange] in F. apply float_is_64 in Fr.
  destruct F as [|x v f old Fx F]; [contradiction Ne; reflexivity|]. cbn [hd] in Hh. subst v.
  assert (FL : float_is (last (x :: f) x) (last (lo :: old) 0)).
  { assert (Q : forall (g : list spec_float) (o : list R) y w d e, float_is y w -> List.Forall2 float_is g o -> float_is (last (y :: g) d) (last (w :: o) e)).
    { induction g as [|y' g IH]; intros o y w d e Fy Fg; inversion Fg; subst; [exact Fy|]. change (last (y :: y' :: g) d) with (last (y' :: g) d).
      change (last (w :: y0 :: l') e) with (last (y0 :: l') e). apply IH; assumption. }
    apply Q; assumption. }
  rewrite Hl in FL. apply float_is_64 in FL, Fx.
  destruct (arange64_good lo hi r Hlo ltac:(simpl in *; lra) ltac:(simpl in *; lra) x _ xr Fx FL Fr) as (l & vals & E & V & G).
  exists (MkAxis l xr), vals. unfold set_spectra_resolution. cbn [frange]. cbv zeta.
  assert (E' : @arange binary64 x (add (@last (num binary64) (x :: f) x) xr) xr = Some l) by exact E. rewrite E'. cbn [obind frange]. split; [reflexivity|]. split; [reflexivity|]. split; [|exact G].
  clear -V. induction V; constructor; [apply float_is_64; assumption|assumption].
Qed.
Print Assumptions C22_binary64_resolution_partial.
Example C22_binary64_nonvacuous : float_is (sf_of_Z 0) 0 /\ float_is (sf_of_Z 5) 5 /\ float_is (S754_finite false 4503599627370496 (-55)) (/ 8) /\
  0 <= 0 <= 5 /\ 5 <= 2 ^ 20 * / 8 /\ / 2 ^ 20 <= / 8 <= 2 ^ 20 /\
  option_map (fun s' => length (frange s')) (@set_frequency_limits binary64 (sf_of_Z 0) (sf_of_Z 5) (@MkAxis binary64 [] (S754_finite false 4503599627370496 (-55)))) = Some 41%nat.
Proof.
  split; [apply float_is_64; apply (is64_of_Z 0); lia|]. split; [apply five|]. split; [apply eighth|]. split; [lra|]. split; [lra|]. split; [lra|].
  vm_compute. reflexivity.
Qed.
