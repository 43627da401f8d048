(** Proofs for C22 in binary64, and for the piece size of C21. *)
From Coq Require Import ZArith Reals Lra Lia Psatz.
From Flocq Require Import Core.Core BinarySingleNaN.
From Verif Require Import SpectraModel SpectraSpec SpectraProofs FloatFacts FloatPieces.
Open Scope R_scope.

Lemma float_is_64 x r : float_is x r <-> is64 x r.
Proof.
  split.
  - intros [V H]. exists (SF2B x V). rewrite B2SF_SF2B. split; [reflexivity|].
    destruct x as [s|s| |s m e]; try contradiction H; cbn [SF2B is_finite B2R].
    + split; [reflexivity|symmetry; exact H].
    + split; [reflexivity|]. unfold F2R. cbn [Fnum Fexp]. rewrite H, bpow_powerRZ. destruct s; reflexivity.
  - intros (b & -> & F & <-). split; [apply valid_binary_B2SF|].
    destruct b as [s|s| |s m e B]; try discriminate F; cbn [B2SF B2R]; [reflexivity|].
    unfold F2R. cbn [Fnum Fexp]. rewrite bpow_powerRZ. destruct s; reflexivity.
Qed.

(** piece size *)
Lemma piece_size64 x y a b : is64 x a -> is64 y b -> / 16777216 <= a * b <= 1 -> 
  exists p, @rnd binary64 (div (of_int 1) (@mul binary64 x y)) = Some p /\ (1 <= p <= 1125899906842624)%Z /\
  Rabs (IZR p - 1 / (a * b)) <= / 2 + / 2251799813685248 * (1 / (a * b)).
Proof.
  intros X Y H. set (t := a * b) in *. change (@rnd binary64) with sf_round. cbn [binary64 of_int mul div].
  assert (BIG : 1125899906842624 <= IZR (2 ^ 1000)) by (apply IZR_le; discriminate).
  pose proof (rn_err' t) as E1. rewrite (Rabs_pos_eq t) in E1 by lra. apply Rabs_le_inv in E1.
  assert (T1 : is64 (SFmul 53 1024 x y) (rn t)) by (apply is64_mul; [exact X|exact Y|fold t; rewrite Rabs_pos_eq; lra]).
  set (t' := rn t) in *. assert (Pt : / 16777217 <= t' <= 2) by lra.
  assert (Ht : 0 < / t') by (apply Rinv_0_lt_compat; lra). assert (Ht0 : 0 < / t) by (apply Rinv_0_lt_compat; lra).
  assert (B1 : 1 / t' <= 16777217).
  { unfold Rdiv. rewrite Rmult_1_l. rewrite <- (Rinv_inv 16777217). apply Rinv_le; lra. }
  assert (T2 : is64 (SFdiv 53 1024 (sf_of_Z 1) (SFmul 53 1024 x y)) (rn (1 / t'))).
  { apply (is64_div _ _ 1 t'); [apply (is64_of_Z 1); lia|exact T1|apply Rgt_not_eq; lra|]. rewrite Rabs_pos_eq by (unfold Rdiv; lra). lra. }
  pose proof (rn_err' (1 / t')) as E2. rewrite (Rabs_pos_eq (1 / t')) in E2 by (unfold Rdiv; lra). apply Rabs_le_inv in E2.
  set (u := rn (1 / t')) in *.
  assert (D : Rabs (1 / t' - 1 / t) <= / 4000000000000000 * (1 / t)).
  { replace (1 / t' - 1 / t) with ((t - t') / (t' * t)) by (field; lra). unfold Rdiv. rewrite Rabs_mult.
    rewrite (Rabs_pos_eq (/ (t' * t))) by (left; apply Rinv_0_lt_compat; nra). rewrite Rinv_mult.
    assert (Q : Rabs (t - t') <= / 4000000000000000 * t').
    { apply Rabs_le. split; lra. }
    apply (Rmult_le_compat_r (/ t' * / t)) in Q; [|nra]. eapply Rle_trans; [exact Q|]. apply Req_le. field. lra. }
  apply Rabs_le_inv in D. assert (G1 : 1 <= 1 / t) by (unfold Rdiv; rewrite Rmult_1_l, <- Rinv_1; apply Rinv_le; lra).
  assert (G2 : 1 / t <= 16777216).
  { unfold Rdiv. rewrite Rmult_1_l. rewrite <- (Rinv_inv 16777216). apply Rinv_le; lra. }
  exists (ZnearestE u). split; [apply round64; exact T2|].
  pose proof (Znearest_half (fun z => negb (Z.even z)) u) as N. apply Rabs_le_inv in N.
  assert (Z1 : 0 < IZR (ZnearestE u)) by lra. assert (Z2 : IZR (ZnearestE u) < 1125899906842625) by lra.
  apply (lt_IZR 0) in Z1. apply (lt_IZR _ 1125899906842625) in Z2.
  split; [lia|]. apply Rabs_le. split; lra.
Qed.

(** arange *)
Notation M := 1048576.
Section Axis.
Context (lo hi r : R).
Context (Hlo : 0 <= lo <= hi) (Hhi : hi <= M * r) (Hr : / M <= r <= M).
Let stop := rn (hi + r).
Let diff := rn (stop - lo).
Let q := rn (diff / r).
Let first := rn (lo + r).
Let delta := rn (first - lo).
Let r0 : 0 < r. Proof. lra. Qed.
(* all errors are measured in units of r *)
Let err (x b : R) : Rabs x <= b * r -> Rabs (rn x - x) <= (b * U + / 100000000000000000) * r.
Proof. intros H. eapply Rle_trans; [apply (rn_err_le _ _ H)|]. nra. Qed.
Let stop_err : Rabs (stop - (hi + r)) <= / 8000000000 * r.
Proof.
  assert (B : Rabs (hi + r) <= (M + 1) * r) by (rewrite Rabs_pos_eq by lra; lra). pose proof (err _ _ B). eapply Rle_trans; [exact H|]. apply Rmult_le_compat_r; lra.
Qed.
Let diff_err : Rabs (diff - (hi + r - lo)) <= / 4000000000 * r.
Proof.
  pose proof stop_err as A. apply Rabs_le_inv in A.
  assert (B : Rabs (stop - lo) <= (M + 2) * r) by (apply Rabs_le; split; lra).
  pose proof (err _ _ B) as C. assert (C' : Rabs (rn (stop - lo) - (stop - lo)) <= / 8000000000 * r) by (eapply Rle_trans; [exact C|]; apply Rmult_le_compat_r; lra).
  fold diff in C'. apply Rabs_le_inv in C'. apply Rabs_le. split; lra.
Qed.
Let X := (hi - lo) / r + 1.
Let Xr : X * r = hi - lo + r. Proof. unfold X. field. lra. Qed.
Let X1 : 1 <= X. Proof. unfold X. assert (0 <= (hi - lo) / r); [|lra]. apply Rmult_le_pos; [lra|]. left. apply Rinv_0_lt_compat. lra. Qed.
Let XM : X <= M + 1. Proof. apply (Rmult_le_reg_r r); [lra|]. rewrite Xr. lra. Qed.
Let q_err : Rabs (q - X) <= / 1000000000.
Proof.
  pose proof diff_err as A. assert (D : Rabs (diff / r - X) <= / 4000000000).
  { replace (diff / r - X) with ((diff - (hi + r - lo)) * / r) by (unfold X; field; lra). rewrite Rabs_mult, (Rabs_pos_eq (/ r)) by (left; apply Rinv_0_lt_compat; lra).
    apply (Rmult_le_compat_r (/ r)) in A; [|left; apply Rinv_0_lt_compat; lra]. eapply Rle_trans; [exact A|]. rewrite Rmult_assoc, Rinv_r by lra. lra. }
  apply Rabs_le_inv in D.
  assert (B : Rabs (diff / r) <= M + 2) by (apply Rabs_le; split; lra). pose proof (rn_err_le _ _ B) as C. fold q in C. apply Rabs_le_inv in C.
  apply Rabs_le. split; lra.
Qed.
Definition axis_n : Z := Zceil q.
Let n := axis_n.
Lemma axis_n_bounds : X - / 1000000000 <= IZR n <= X + 1 + / 1000000000.
Proof.
  pose proof q_err as A. apply Rabs_le_inv in A. unfold n, axis_n. pose proof (Zceil_ub q). pose proof (Zceil_lb q). lra.
Qed.
Let n_nat : (1 <= n <= 1048578)%Z.
Proof.
  pose proof axis_n_bounds. split.
  - assert (0 < IZR n) by lra. apply (lt_IZR 0) in H0. lia.
  - assert (IZR n < 1048579) by lra. apply (lt_IZR _ 1048579) in H0. lia.
Qed.
Let first_err : Rabs (first - (lo + r)) <= / 8000000000 * r.
Proof.
  assert (B : Rabs (lo + r) <= (M + 1) * r) by (rewrite Rabs_pos_eq by lra; lra). pose proof (err _ _ B). eapply Rle_trans; [exact H|]. apply Rmult_le_compat_r; lra.
Qed.
Let delta_err : Rabs (delta - r) <= / 7900000000 * r.
Proof.
  pose proof first_err as A. apply Rabs_le_inv in A.
  assert (B : Rabs (first - lo) <= 2 * r) by (apply Rabs_le; split; lra).
  pose proof (err _ _ B) as C. fold delta in C. apply Rabs_le_inv in C. apply Rabs_le. split; lra.
Qed.
Definition axis_entry (k : Z) : R := match k with 0%Z => lo | 1%Z => first | _ => rn (lo + rn (IZR k * delta)) end.
Lemma axis_entry_err k : (0 <= k < n)%Z -> Rabs (axis_entry k - (lo + IZR k * r)) <= / 1024 * r.
Proof.
  intros Hk. assert (K : 0 <= IZR k <= 1048577) by (split; apply IZR_le; lia).
  assert (G : Rabs (rn (lo + rn (IZR k * delta)) - (lo + IZR k * r)) <= / 1024 * r).
  { pose proof delta_err as D. assert (A : Rabs (IZR k * delta - IZR k * r) <= / 7000 * r).
    { rewrite <- Rmult_minus_distr_l, Rabs_mult, (Rabs_pos_eq (IZR k)) by lra.
      eapply Rle_trans; [apply Rmult_le_compat_l; [lra|exact D]|]. nra. }
    apply Rabs_le_inv in A.
    assert (KR : 0 <= IZR k * r <= 1048577 * r) by (split; [apply Rmult_le_pos; lra|apply Rmult_le_compat_r; lra]).
    assert (B : Rabs (IZR k * delta) <= 1048578 * r) by (apply Rabs_le; split; lra).
    pose proof (err _ _ B) as C. apply Rabs_le_inv in C.
    assert (B2 : Rabs (lo + rn (IZR k * delta)) <= 2097156 * r) by (apply Rabs_le; split; lra).
    pose proof (err _ _ B2) as C2. apply Rabs_le_inv in C2. apply Rabs_le. split; lra. }
  unfold axis_entry. destruct k as [|[k|k|]|k]; try exact G.
  - simpl. rewrite Rmult_0_l, Rplus_0_r, Rminus_diag_eq by reflexivity. rewrite Rabs_R0. nra.
  - pose proof first_err as A. replace (lo + 1 * r) with (lo + r) by ring. lra.
Qed.
Context (xlo xhi xr : spec_float) (Flo : is64 xlo lo) (Fhi : is64 xhi hi) (Fr : is64 xr r).
Let BIG : IZR 10000000000000 <= IZR (2 ^ 1000). Proof. apply IZR_le. discriminate. Qed.
Let MM : 1099511627776 = M * M. Proof. lra. Qed.
Let rM : r <= M. Proof. lra. Qed.
Let big x : Rabs x <= 4194304 * r -> Rabs x <= IZR (2 ^ 1000).
Proof. intros H. eapply Rle_trans; [exact H|]. eapply Rle_trans; [|exact BIG]. nra. Qed.
Lemma arange64 : exists l, @arange binary64 xlo (@add binary64 xhi xr) xr = Some l /\
  List.length l = Z.to_nat n /\ forall k, (k < Z.to_nat n)%nat -> exists x, nth_error l k = Some x /\ is64 x (axis_entry (Z.of_nat k)).
Proof.
  pose proof stop_err as A1. pose proof diff_err as A2. pose proof first_err as A3. pose proof delta_err as A4. apply Rabs_le_inv in A1, A2, A3, A4.
  unfold arange. change (@ceiling binary64) with sf_ceil. cbn [binary64 add sub div of_int mul].
  assert (S1 : is64 (SFadd 53 1024 xhi xr) stop) by (apply is64_add; [exact Fhi|exact Fr|apply big; apply Rabs_le; split; lra]).
  assert (S2 : is64 (SFsub 53 1024 (SFadd 53 1024 xhi xr) xlo) diff) by (apply is64_sub; [exact S1|exact Flo|apply big; apply Rabs_le; split; lra]).
  assert (Q : Rabs (diff / r) <= IZR (2 ^ 1000)).
  { eapply Rle_trans; [|exact BIG]. unfold Rdiv. rewrite Rabs_mult, (Rabs_pos_eq (/ r)) by (left; apply Rinv_0_lt_compat; lra).
    apply (Rmult_le_reg_r r); [lra|]. rewrite Rmult_assoc, Rinv_l, Rmult_1_r by lra. apply Rabs_le. split; nra. }
  assert (S3 : is64 (SFdiv 53 1024 (SFsub 53 1024 (SFadd 53 1024 xhi xr) xlo) xr) q) by (apply is64_div; [exact S2|exact Fr|apply Rgt_not_eq; lra|exact Q]).
  assert (S4 : is64 (SFadd 53 1024 xlo xr) first) by (apply is64_add; [exact Flo|exact Fr|apply big; apply Rabs_le; split; lra]).
  assert (S5 : is64 (SFsub 53 1024 (SFadd 53 1024 xlo xr) xlo) delta) by (apply is64_sub; [exact S4|exact Flo|apply big; apply Rabs_le; split; lra]).
  rewrite (ceil64 _ _ S3). cbn [obind]. fold axis_n. fold n. eexists. split; [reflexivity|].
  split; [rewrite map_length, zrange_length; reflexivity|]. intros k Hk.
  assert (E : nth_error (zrange n) k = Some (Z.of_nat k)).
  { rewrite <- (zrange_nth n k 0%Z Hk). apply nth_error_nth'. rewrite zrange_length. exact Hk. }
  eexists. split; [rewrite nth_error_map, E; reflexivity|]. clear E. set (z := Z.of_nat k). assert (Hz : (0 <= z < n)%Z) by lia.
  assert (Gz : is64 (SFadd 53 1024 xlo (SFmul 53 1024 (sf_of_Z z) (SFsub 53 1024 (SFadd 53 1024 xlo xr) xlo))) (rn (lo + rn (IZR z * delta)))).
  { assert (K : 0 <= IZR z <= 1048577) by (split; apply IZR_le; lia).
    assert (B : Rabs (IZR z * delta) <= 1048578 * r) by (rewrite Rabs_mult, !Rabs_pos_eq by lra; nra).
    pose proof (err _ _ B) as C. apply Rabs_le_inv in B, C.
    apply is64_add; [exact Flo| |apply big; apply Rabs_le; split; lra]. apply is64_mul; [apply is64_of_Z; lia|exact S5|apply big; apply Rabs_le; split; lra]. }
  unfold axis_entry. destruct z as [|[z|z|]|z]; try exact Gz; [exact Flo|exact S4].
Qed.
Lemma arange64_good : exists l vals, @arange binary64 xlo (@add binary64 xhi xr) xr = Some l /\
  List.Forall2 is64 l vals /\ good_axis_up_to (/ 1024 * r) lo hi r vals.
Proof.
  destruct arange64 as (l & E & L & V). exists l, (map axis_entry (zrange n)). split; [exact E|].
  assert (Nth : forall k d, (k < Z.to_nat n)%nat -> nth k (map axis_entry (zrange n)) d = axis_entry (Z.of_nat k)).
  { intros k d Hk. rewrite (nth_indep _ d (axis_entry 0%Z)) by (rewrite map_length, zrange_length; exact Hk). rewrite map_nth, zrange_nth by exact Hk. reflexivity. }
  split.
  - assert (G : forall (l : list spec_float) m, List.length l = List.length m -> (forall k, (k < List.length l)%nat -> exists x, nth_error l k = Some x /\ is64 x (nth k m 0)) -> List.Forall2 is64 l m).
    { clear. induction l as [|x l IH]; intros [|y m] Q H; try discriminate Q; constructor.
      - destruct (H 0%nat ltac:(simpl; lia)) as (x' & Ex & I). injection Ex as ->. exact I.
      - apply IH; [injection Q as Q; exact Q|]. intros k Hk. apply (H (S k)). simpl. lia. }
    apply G; [rewrite map_length, zrange_length; exact L|]. intros k Hk0. assert (Hk : (k < Z.to_nat n)%nat) by (rewrite <- L; exact Hk0). destruct (V k Hk) as (x & Ex & I). exists x. split; [exact Ex|]. rewrite Nth by exact Hk. exact I.
  - unfold good_axis_up_to. rewrite map_length, zrange_length. split; [lia|]. split; [rewrite Nth by lia; reflexivity|]. split.
    + intros k Hk. rewrite Nth by exact Hk. rewrite INR_IZR_INZ. apply axis_entry_err. lia.
    + assert (LN : forall (l : list R) d, last l d = nth (List.length l - 1) l d).
      { clear. induction l as [|a l IH]; intros d; [reflexivity|]. destruct l as [|b l]; [reflexivity|].
        change (last (a :: b :: l) d) with (last (b :: l) d). rewrite IH. simpl. rewrite Nat.sub_0_r. reflexivity. }
      rewrite LN, map_length, zrange_length, Nth by lia. replace (Z.of_nat (Z.to_nat n - 1)) with (n - 1)%Z by lia.
      pose proof (axis_entry_err (n - 1) ltac:(lia)) as A. apply Rabs_le_inv in A. rewrite minus_IZR in A. pose proof axis_n_bounds as Bn.
      assert (C : (X - / 1000000000) * r <= IZR n * r <= (X + 1 + / 1000000000) * r) by (split; apply Rmult_le_compat_r; lra).
      rewrite !Rmult_plus_distr_r in C. unfold Rminus in C. rewrite Rmult_plus_distr_r in C. rewrite Xr in C. split; lra.
Qed.
End Axis.
