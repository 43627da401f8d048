(** Proofs for C21 in binary64: error analysis of the data segmentation. *)
From Coq Require Import ZArith Reals Lra Lia Psatz.
From Flocq Require Import Core.Core.
From Verif Require Import SpectraModel SpectraSpec SpectraProofs FloatFacts.
Open Scope R_scope.

Notation U := (/ 9007199254740992).
Notation H0 := (/ 1000000000000000000000000).
Notation LIM := 16777216%Z.

(** values of the intermediate results for piece number i *)
Definition centre64 (h v : R) (i : Z) : R := rn (h + rn (IZR i * v)).
Definition ini64 (h v : R) (i : Z) : R := rn (centre64 h v i - h).
Definition fin64 (h v : R) (i : Z) : R := rn (centre64 h v i + h).

Lemma rn_err_le x b : Rabs x <= b -> Rabs (rn x - x) <= U * b + H0.
Proof. intros H. eapply Rle_trans; [apply rn_err'|]. pose proof (Rabs_pos x). lra. Qed.

Section Piece.
Context (N p n i : Z).
Context (HN : (1 <= N <= LIM)%Z) (Hp : (1 <= p <= N)%Z) (Hn : (1 <= n <= LIM)%Z) (Hi : (0 <= i <= n)%Z).
Let w := IZR (N - p) / IZR n.
Let v := rn w.
Let h := IZR p / 2.
Notation E := (/ 67108864).

Let Hn' : 1 <= IZR n <= 16777216. Proof. split; apply IZR_le; lia. Qed.
Let Hp' : 1 <= IZR p <= 16777216. Proof. split; apply IZR_le; lia. Qed.
Let Hi' : 0 <= IZR i <= IZR n. Proof. split; apply IZR_le; lia. Qed.
Let HNp : 0 <= IZR (N - p) <= 16777216. Proof. split; apply IZR_le; lia. Qed.
Let HN' : IZR (N - p) + IZR p <= 16777216. Proof. rewrite <- plus_IZR. apply IZR_le. lia. Qed.
Let nw : IZR n * w = IZR (N - p). Proof. unfold w. field. lra. Qed.
Let w0 : 0 <= w. Proof. unfold w. apply Rmult_le_pos; [lra|]. left. apply Rinv_0_lt_compat. lra. Qed.
Let iw : 0 <= IZR i * w <= IZR (N - p). Proof. rewrite <- nw. split; [apply Rmult_le_pos; lra|]. apply Rmult_le_compat_r; lra. Qed.
Let h_exact : rn h = h. Proof. apply rn_half_int. lia. Qed.

Let v_err : Rabs (v - w) <= U * w + H0.
Proof. apply rn_err_le. rewrite Rabs_pos_eq; lra. Qed.
Let v0 : 0 <= v. Proof. unfold v. rewrite <- rn_0. apply rn_le. exact w0. Qed.
Let iv_err : Rabs (IZR i * v - IZR i * w) <= U * 16777216 + 16777216 * H0.
Proof.
  rewrite <- Rmult_minus_distr_l, Rabs_mult, (Rabs_pos_eq (IZR i)) by lra.
  eapply Rle_trans; [apply Rmult_le_compat_l; [lra|exact v_err]|]. nra.
Qed.
Let m_err : Rabs (rn (IZR i * v) - IZR i * w) <= 3 * U * 16777216.
Proof.
  pose proof iv_err as A. apply Rabs_def2b in A || idtac.
  assert (B : Rabs (IZR i * v) <= 16777217).
  { replace (IZR i * v) with ((IZR i * v - IZR i * w) + IZR i * w) by ring. eapply Rle_trans; [apply Rabs_triang|]. rewrite (Rabs_pos_eq (IZR i * w)) by lra. pose proof iv_err. lra. }
  replace (rn (IZR i * v) - IZR i * w) with ((rn (IZR i * v) - IZR i * v) + (IZR i * v - IZR i * w)) by ring.
  eapply Rle_trans; [apply Rabs_triang|]. pose proof (rn_err_le _ _ B). pose proof iv_err. lra.
Qed.
Let c_err : Rabs (centre64 h v i - (h + IZR i * w)) <= 5 * U * 16777216.
Proof.
  unfold centre64. pose proof m_err as A.
  assert (B : Rabs (h + rn (IZR i * v)) <= 16777217).
  { replace (h + rn (IZR i * v)) with ((rn (IZR i * v) - IZR i * w) + (h + IZR i * w)) by ring. eapply Rle_trans; [apply Rabs_triang|].
    rewrite (Rabs_pos_eq (h + IZR i * w)) by (unfold h; lra). unfold h. lra. }
  replace (rn (h + rn (IZR i * v)) - (h + IZR i * w)) with ((rn (h + rn (IZR i * v)) - (h + rn (IZR i * v))) + (rn (IZR i * v) - IZR i * w)) by ring.
  eapply Rle_trans; [apply Rabs_triang|]. pose proof (rn_err_le _ _ B). lra.
Qed.
Lemma ini_err : Rabs (ini64 h v i - IZR i * w) <= E.
Proof.
  unfold ini64. pose proof c_err as A.
  assert (B : Rabs (centre64 h v i - h) <= 16777217).
  { replace (centre64 h v i - h) with ((centre64 h v i - (h + IZR i * w)) + IZR i * w) by ring. eapply Rle_trans; [apply Rabs_triang|].
    rewrite (Rabs_pos_eq (IZR i * w)) by lra. lra. }
  replace (rn (centre64 h v i - h) - IZR i * w) with ((rn (centre64 h v i - h) - (centre64 h v i - h)) + (centre64 h v i - (h + IZR i * w))) by ring.
  eapply Rle_trans; [apply Rabs_triang|]. pose proof (rn_err_le _ _ B). lra.
Qed.
Lemma fin_err : Rabs (fin64 h v i - (IZR i * w + IZR p)) <= E.
Proof.
  unfold fin64. pose proof c_err as A.
  assert (B : Rabs (centre64 h v i + h) <= 16777217).
  { replace (centre64 h v i + h) with ((centre64 h v i - (h + IZR i * w)) + (IZR i * w + IZR p)) by (unfold h; lra). eapply Rle_trans; [apply Rabs_triang|].
    rewrite (Rabs_pos_eq (IZR i * w + IZR p)) by lra. lra. }
  replace (rn (centre64 h v i + h) - (IZR i * w + IZR p)) with ((rn (centre64 h v i + h) - (centre64 h v i + h)) + (centre64 h v i - (h + IZR i * w))) by (unfold h; lra).
  eapply Rle_trans; [apply Rabs_triang|]. pose proof (rn_err_le _ _ B). lra.
Qed.
Lemma ini_nonneg : 0 <= ini64 h v i.
Proof.
  unfold ini64. rewrite <- rn_0. apply rn_le. unfold centre64.
  assert (h <= rn (h + rn (IZR i * v))); [|lra]. rewrite <- h_exact at 1. apply rn_le.
  assert (0 <= rn (IZR i * v)); [|lra]. rewrite <- rn_0. apply rn_le. apply Rmult_le_pos; lra.
Qed.
(** integer spacing: no rounding at all *)
Lemma exact_spacing z : w = IZR z -> ini64 h v i = IZR (i * z) /\ fin64 h v i = IZR (i * z + p).
Proof.
  intros Ez. assert (B : (0 <= i * z <= N - p)%Z).
  { pose proof iw as B. rewrite Ez, <- mult_IZR in B. split; apply le_IZR; lra. }
  assert (Z0 : (0 <= z)%Z) by (apply le_IZR; rewrite <- Ez; exact w0).
  assert (Z1 : (z <= LIM)%Z).
  { apply le_IZR. rewrite <- Ez. pose proof nw. nra. }
  assert (V : v = IZR z) by (unfold v; rewrite Ez; apply rn_int; lia).
  assert (C : centre64 h v i = IZR (2 * (i * z) + p) / 2).
  { unfold centre64. rewrite V, <- mult_IZR, rn_int by lia. replace (h + IZR (i * z)) with (IZR (2 * (i * z) + p) / 2) by (unfold h; rewrite plus_IZR, (mult_IZR 2); lra).
    apply rn_half_int. lia. }
  unfold ini64, fin64. rewrite C. split.
  - replace (IZR (2 * (i * z) + p) / 2 - h) with (IZR (i * z)) by (unfold h; rewrite plus_IZR, (mult_IZR 2); lra). apply rn_int. lia.
  - replace (IZR (2 * (i * z) + p) / 2 + h) with (IZR (i * z + p)) by (unfold h; rewrite !plus_IZR, (mult_IZR 2); lra). apply rn_int. lia.
Qed.
Lemma ini_mono j : (i <= j <= n)%Z -> ini64 h v i <= ini64 h v j.
Proof.
  intros Hj. unfold ini64. apply rn_le. apply Rplus_le_compat_r. unfold centre64. apply rn_le. apply Rplus_le_compat_l. apply rn_le.
  apply Rmult_le_compat_r; [exact v0|]. apply IZR_le. lia.
Qed.
(** the computations of the code yield these values *)
Lemma piece_values : 
  let half := SFdiv 53 1024 (sf_of_Z p) (sf_of_Z 2) in
  let interval := SFdiv 53 1024 (sf_of_Z (N - p)) (sf_of_Z n) in
  let centre := SFadd 53 1024 half (SFmul 53 1024 (sf_of_Z i) interval) in
  is64 (SFsub 53 1024 centre half) (ini64 h v i) /\ is64 (SFadd 53 1024 centre half) (fin64 h v i).
Proof.
  intros half interval centre.
  assert (BIG : 100000000 <= IZR (2 ^ 1000)) by (apply IZR_le; discriminate).
  assert (Hh : is64 half h).
  { rewrite <- h_exact. apply is64_div; [apply is64_of_Z; lia|apply (is64_of_Z 2); lia|discrR|]. rewrite Rabs_pos_eq by lra. lra. }
  assert (Hv : is64 interval v).
  { apply is64_div; [apply is64_of_Z; lia|apply is64_of_Z; lia|apply Rgt_not_eq; lra|]. rewrite Rabs_pos_eq by exact w0. fold w.
    assert (w <= 16777216) by (clear - nw w0 Hn' HNp; clearbody w; nra). lra. }
  assert (Hm : is64 (SFmul 53 1024 (sf_of_Z i) interval) (rn (IZR i * v))).
  { apply is64_mul; [apply is64_of_Z; lia|exact Hv|]. pose proof iv_err as A.
    replace (IZR i * v) with ((IZR i * v - IZR i * w) + IZR i * w) by ring. eapply Rle_trans; [apply Rabs_triang|]. rewrite (Rabs_pos_eq (IZR i * w)) by lra. lra. }
  assert (Hc : is64 centre (centre64 h v i)).
  { apply is64_add; [exact Hh|exact Hm|]. pose proof m_err as A.
    replace (h + rn (IZR i * v)) with ((rn (IZR i * v) - IZR i * w) + (h + IZR i * w)) by ring. eapply Rle_trans; [apply Rabs_triang|].
    rewrite (Rabs_pos_eq (h + IZR i * w)) by (unfold h; lra). unfold h. lra. }
  pose proof c_err as A. split.
  - apply is64_sub; [exact Hc|exact Hh|].
    replace (centre64 h v i - h) with ((centre64 h v i - (h + IZR i * w)) + IZR i * w) by ring. eapply Rle_trans; [apply Rabs_triang|].
    rewrite (Rabs_pos_eq (IZR i * w)) by lra. lra.
  - apply is64_add; [exact Hc|exact Hh|].
    replace (centre64 h v i + h) with ((centre64 h v i - (h + IZR i * w)) + (IZR i * w + IZR p)) by (unfold h; lra). eapply Rle_trans; [apply Rabs_triang|].
    rewrite (Rabs_pos_eq (IZR i * w + IZR p)) by lra. lra.
Qed.
End Piece.

(** number of pieces: the floating quotient truncates to the integer quotient *)
Lemma quotient64 a p : (0 <= a < LIM)%Z -> (1 <= p <= 1125899906842624)%Z ->
  sf_trunc (SFdiv 53 1024 (sf_of_Z a) (sf_of_Z p)) = Some (a / p)%Z.
Proof.
  intros Ha Hp. assert (P1 : 1 <= IZR p <= 1125899906842624) by (split; apply IZR_le; lia).
  assert (A1 : 0 <= IZR a <= 16777216) by (split; apply IZR_le; lia).
  set (q := (a / p)%Z). assert (D : (a = p * q + a mod p)%Z) by (apply Z.div_mod; lia). pose proof (Z.mod_pos_bound a p ltac:(lia)) as M.
  assert (Q0 : (0 <= q)%Z) by (apply Z.div_pos; lia). assert (Q1 : (q <= a)%Z) by (unfold q; apply Z.div_le_upper_bound; nia).
  assert (V1 : IZR q <= IZR a / IZR p).
  { apply (Rmult_le_reg_r (IZR p)); [lra|]. unfold Rdiv. rewrite Rmult_assoc, Rinv_l, Rmult_1_r by lra. rewrite <- mult_IZR. apply IZR_le. lia. }
  assert (V2 : IZR a / IZR p <= IZR q + 1 - / IZR p).
  { apply (Rmult_le_reg_r (IZR p)); [lra|]. unfold Rdiv. rewrite Rmult_assoc, Rinv_l, Rmult_1_r by lra.
    replace ((IZR q + 1 - / IZR p) * IZR p) with (IZR ((q + 1) * p - 1)) by (rewrite minus_IZR, mult_IZR, plus_IZR; field; lra). apply IZR_le. lia. }
  assert (V3 : 0 <= IZR a / IZR p <= 16777216).
  { pose proof (IZR_le 0 q Q0). split; [lra|]. apply (Rmult_le_reg_r (IZR p)); [lra|]. unfold Rdiv. rewrite Rmult_assoc, Rinv_l, Rmult_1_r by lra. nra. }
  erewrite trunc64; [|apply is64_div; [apply is64_of_Z; lia|apply is64_of_Z; lia|apply Rgt_not_eq; lra|]].
  2:{ rewrite Rabs_pos_eq by lra. eapply Rle_trans; [apply V3|]. apply IZR_le. discriminate. }
  f_equal. assert (L : IZR q <= rn (IZR a / IZR p)) by (rewrite <- (rn_int q) by lia; apply rn_le; exact V1).
  pose proof (IZR_le 0 q Q0). rewrite Ztrunc_floor by lra. apply Zfloor_imp. split; [exact L|]. rewrite plus_IZR.
  pose proof (rn_err' (IZR a / IZR p)) as R. rewrite (Rabs_pos_eq (IZR a / IZR p)) in R by lra.
  assert (X : IZR a / IZR p * U + H0 < / IZR p).
  { apply (Rmult_lt_reg_r (IZR p)); [lra|]. rewrite Rinv_l by lra. replace ((IZR a / IZR p * U + H0) * IZR p) with (IZR a * U + H0 * IZR p) by (field; lra). lra. }
  assert (rn (IZR a / IZR p) - IZR a / IZR p <= Rabs (rn (IZR a / IZR p) - IZR a / IZR p)) by apply Rle_abs. lra.
Qed.

Lemma last_nth_Z (l : list (Z * Z)) d : last l d = nth (length l - 1) l d.
Proof.
  induction l as [|a l IH]; [reflexivity|]. destruct l as [|b l]; [reflexivity|].
  change (last (a :: b :: l) d) with (last (b :: l) d). rewrite IH. simpl. rewrite Nat.sub_0_r. reflexivity.
Qed.
Lemma floor_range x (z : Z) : (Zfloor x <= z)%Z <-> x < IZR z + 1.
Proof.
  split; intros H.
  - pose proof (Zfloor_ub x). pose proof (IZR_le _ _ H). lra.
  - pose proof (Zfloor_lb x). assert (Q : IZR (Zfloor x) < IZR (z + 1)) by (rewrite plus_IZR; lra). apply lt_IZR in Q. lia.
Qed.
Lemma floor_range' x (z : Z) : (z <= Zfloor x)%Z <-> IZR z <= x.
Proof.
  split; intros H; [|apply Zfloor_lub; exact H]. pose proof (Zfloor_lb x). pose proof (IZR_le _ _ H). lra.
Qed.

Section Pieces.
Context (N p n : Z).
Context (HN : (1 <= N <= LIM)%Z) (Hp : (1 <= p <= N)%Z) (Hn : (1 <= n <= LIM)%Z).
Context (Hcover : (N - p <= n * p)%Z) (Hone : (p = 1 -> n = N - 1 \/ N = 1)%Z).
Let w := IZR (N - p) / IZR n.
Let v := rn w.
Let h := IZR p / 2.
Definition piece_of (i : Z) : Z * Z := (Zfloor (ini64 (IZR p / 2) (rn (IZR (N - p) / IZR n)) i), Zfloor (fin64 (IZR p / 2) (rn (IZR (N - p) / IZR n)) i)).
Notation E := (/ 67108864).
Let Hn' : 1 <= IZR n <= 16777216. Proof. split; apply IZR_le; lia. Qed.
Let Hp' : 1 <= IZR p. Proof. apply IZR_le; lia. Qed.
Let nw : IZR n * w = IZR (N - p). Proof. unfold w. field. lra. Qed.
Let NpR : IZR (N - p) + IZR p = IZR N. Proof. rewrite <- plus_IZR. f_equal. lia. Qed.
Let w0 : 0 <= w. Proof. unfold w. apply Rmult_le_pos; [apply IZR_le; lia|]. left. apply Rinv_0_lt_compat. lra. Qed.
Let w_gap : w = IZR p \/ w <= IZR p - / IZR n.
Proof.
  destruct (Z.eq_dec (N - p) (n * p)) as [Q|Q].
  - left. unfold w. rewrite Q, mult_IZR. field. lra.
  - right. apply (Rmult_le_reg_l (IZR n)); [lra|]. rewrite nw.
    replace (IZR n * (IZR p - / IZR n)) with (IZR (n * p - 1)) by (rewrite minus_IZR, mult_IZR; field; lra). apply IZR_le. lia.
Qed.
Let errs i : (0 <= i <= n)%Z -> - E <= ini64 h v i - IZR i * w <= E /\ - E <= fin64 h v i - (IZR i * w + IZR p) <= E.
Proof.
  intros Hi. pose proof (ini_err N p n i HN Hp Hn Hi) as A. pose proof (fin_err N p n i HN Hp Hn Hi) as B.
  fold w v h in A, B. apply Rabs_le_inv in A, B. split; assumption.
Qed.
Let upper i : (0 <= i <= n)%Z -> IZR i * w + IZR p <= IZR N.
Proof. intros Hi. rewrite <- NpR, <- nw. apply Rplus_le_compat_r. apply Rmult_le_compat_r; [exact w0|]. apply IZR_le. lia. Qed.

Lemma pieces64_good : good_pieces_up_to_one N p (map piece_of (zrange (n + 1))).
Proof.
  assert (L : forall d k, (k < Z.to_nat (n + 1))%nat -> nth k (map piece_of (zrange (n + 1))) d = piece_of (Z.of_nat k)).
  { intros d k Hk. rewrite (nth_indep _ d (piece_of 0%Z)) by (rewrite map_length, zrange_length; exact Hk). rewrite map_nth, zrange_nth by exact Hk. reflexivity. }
  assert (Piece : forall i, (0 <= i <= n)%Z -> (0 <= fst (piece_of i))%Z /\ (fst (piece_of i) < snd (piece_of i))%Z /\ (snd (piece_of i) <= N)%Z /\
    (Z.abs (snd (piece_of i) - fst (piece_of i) - p) <= 1)%Z).
  { intros i Hi. unfold piece_of. cbn [fst snd]. fold w v h. destruct (errs i Hi) as [A B]. pose proof (upper i Hi) as Up.
    pose proof (ini_nonneg N p n i HN Hp Hn Hi) as I0. fold w v h in I0.
    assert (F1 : (0 <= Zfloor (ini64 h v i))%Z) by (apply floor_range'; exact I0).
    assert (F2 : (Zfloor (fin64 h v i) <= N)%Z) by (apply floor_range; lra).
    pose proof (Zfloor_lb (ini64 h v i)). pose proof (Zfloor_ub (ini64 h v i)).
    assert (F3 : (Zfloor (fin64 h v i) <= Zfloor (ini64 h v i) + p + 1)%Z) by (apply floor_range; rewrite !plus_IZR; lra).
    assert (F4 : (Zfloor (ini64 h v i) + p - 1 <= Zfloor (fin64 h v i))%Z) by (apply floor_range'; rewrite minus_IZR, plus_IZR; lra).
    split; [exact F1|]. split; [|split; [exact F2|lia]].
    destruct (Z.eq_dec p 1) as [P1|P1]; [|lia].
    destruct (Hone P1) as [P2|P2].
    - assert (W1 : w = IZR 1) by (unfold w; replace (N - p)%Z with n by lia; apply Rinv_r; lra).
      destruct (exact_spacing N p n i HN Hp Hn Hi 1 W1) as [X Y]. fold w v h in X, Y. rewrite X, Y, !Zfloor_IZR. lia.
    - assert (W1 : w = IZR 0) by (unfold w; replace (N - p)%Z with 0%Z by lia; simpl; unfold Rdiv; ring).
      destruct (exact_spacing N p n i HN Hp Hn Hi 0 W1) as [X Y]. fold w v h in X, Y. rewrite X, Y, !Zfloor_IZR. lia. }
  unfold good_pieces_up_to_one. rewrite map_length, zrange_length. split; [lia|]. split; [|split; [|split; [|split; [|split]]]].
  - intros q Hq. apply in_map_iff in Hq as (i & <- & Hi). apply zrange_in in Hi. destruct (Piece i ltac:(lia)) as (A & B & C & _). auto.
  - intros q Hq. apply in_map_iff in Hq as (i & <- & Hi). apply zrange_in in Hi. apply (Piece i ltac:(lia)).
  - rewrite L by lia. unfold piece_of. cbn [fst Z.of_nat]. unfold ini64, centre64.
    replace (IZR 0 * rn (IZR (N - p) / IZR n)) with 0 by (simpl; ring). rewrite rn_0, Rplus_0_r, rn_half_int by lia. rewrite Rminus_diag_eq by reflexivity. rewrite rn_0. apply (Zfloor_IZR 0).
  - rewrite L by lia. unfold piece_of. cbn [snd Z.of_nat]. unfold fin64, centre64.
    replace (IZR 0 * rn (IZR (N - p) / IZR n)) with 0 by (simpl; ring). rewrite rn_0, Rplus_0_r, rn_half_int by lia.
    replace (IZR p / 2 + IZR p / 2) with (IZR p) by lra. rewrite rn_int by lia. apply Zfloor_IZR.
  - rewrite last_nth_Z, map_length, zrange_length, L by lia. replace (Z.of_nat (Z.to_nat (n + 1) - 1)) with n by lia.
    unfold piece_of. cbn [snd]. fold w v h. destruct (errs n ltac:(lia)) as [_ B]. rewrite nw, NpR in B. apply floor_range'. rewrite minus_IZR. lra.
  - intros k Hk. rewrite !L by lia. set (i := Z.of_nat k). replace (Z.of_nat (S k)) with (i + 1)%Z by lia.
    unfold piece_of. cbn [fst snd]. fold w v h. split.
    + apply Zfloor_le. apply (ini_mono N p n i HN Hp Hn); lia.
    + destruct w_gap as [G|G].
      * destruct (exact_spacing N p n i HN Hp Hn ltac:(lia) p G) as [_ Y]. destruct (exact_spacing N p n (i + 1) HN Hp Hn ltac:(lia) p G) as [X _].
        fold w v h in X, Y. rewrite X, Y, !Zfloor_IZR. lia.
      * apply Zfloor_le. destruct (errs i ltac:(lia)) as [_ B]. destruct (errs (i + 1)%Z ltac:(lia)) as [A _]. rewrite plus_IZR in A.
        assert (/ 16777216 <= / IZR n) by (apply Rinv_le; lra). lra.
Qed.
End Pieces.

Lemma division64 (resolution dt : num binary64) (N p : Z) : (1 <= N <= LIM)%Z ->
  @rnd binary64 (div (of_int 1) (mul dt resolution)) = Some p -> (1 <= p <= 1125899906842624)%Z ->
  exists l, division_of_data binary64 resolution N dt = Some l /\ good_pieces_up_to_one N (piece_length N p) l /\
  length l = Z.to_nat (if p <=? N - 1 then (N - 1) / p + 1 else 2)%Z.
Proof.
  intros HN R Hp. unfold division_of_data. rewrite R. cbn [obind]. destruct (Z.eqb_spec p 0) as [E|_]; [lia|].
  change (@trunc binary64 (div (of_int (N - 1)) (of_int p))) with (sf_trunc (SFdiv 53 1024 (sf_of_Z (N - 1)) (sf_of_Z p))).
  rewrite quotient64 by lia. cbn [obind]. unfold piece_length.
  assert (Gen : forall q n (iv : num binary64), (1 <= q <= N)%Z -> (1 <= n <= LIM)%Z -> (N - q <= n * q)%Z ->
     (forall i, (0 <= i <= n)%Z -> let half := SFdiv 53 1024 (sf_of_Z q) (sf_of_Z 2) in let centre := SFadd 53 1024 half (SFmul 53 1024 (sf_of_Z i) iv) in
        is64 (SFsub 53 1024 centre half) (ini64 (IZR q / 2) (rn (IZR (N - q) / IZR n)) i) /\ is64 (SFadd 53 1024 centre half) (fin64 (IZR q / 2) (rn (IZR (N - q) / IZR n)) i)) ->
     omap_list (fun i => let half := @div binary64 (of_int q) (of_int 2) in let centre := add half (mul (of_int i) iv) in
       obind (trunc (sub centre half)) (fun ini => obind (trunc (add centre half)) (fun fin => Some (ini, fin)))) (zrange (n + 1))
     = Some (map (piece_of N q n) (zrange (n + 1)))).
  { intros q n iv Hq Hn Hc V. apply omap_list_some. intros i Hi. apply zrange_in in Hi. destruct (V i ltac:(lia)) as [A B]. cbv zeta in A, B. cbv zeta.
    pose proof (ini_nonneg N q n i HN Hq Hn ltac:(lia)) as I0. pose proof (fin_err N q n i HN Hq Hn ltac:(lia)) as F0. apply Rabs_le_inv in F0.
    change (@trunc binary64) with sf_trunc. cbn [binary64 of_int add sub mul div]. rewrite (trunc64 _ _ A), (trunc64 _ _ B). cbn [obind]. unfold piece_of.
    rewrite !Ztrunc_floor; [reflexivity| |exact I0].
    assert (0 <= IZR i * (IZR (N - q) / IZR n)).
    { apply Rmult_le_pos; [apply IZR_le; lia|]. apply Rmult_le_pos; [apply IZR_le; lia|]. left. apply Rinv_0_lt_compat. apply IZR_lt. lia. }
    pose proof (IZR_le 1 q ltac:(lia)). lra. }
  destruct (Z.leb_spec p (N - 1)) as [C|C].
  - assert (Q : (0 < (N - 1) / p)%Z) by (apply Z.div_str_pos; lia). destruct (Z.ltb_spec 0 ((N - 1) / p)) as [_|]; [|lia].
    assert (Hn : (1 <= (N - 1) / p <= LIM)%Z) by (split; [lia|]; apply Z.div_le_upper_bound; nia).
    pose proof (Z.div_mod (N - 1) p ltac:(lia)). pose proof (Z.mod_pos_bound (N - 1) p ltac:(lia)).
    assert (Hc : (N - p <= (N - 1) / p * p)%Z) by lia. assert (H1 : (p = 1 -> (N - 1) / p = N - 1)%Z) by (intros ->; apply Z.div_1_r).
    exists (map (piece_of N p ((N - 1) / p)) (zrange ((N - 1) / p + 1))). split; [|split].
    + apply (Gen p ((N - 1) / p)%Z); [lia|exact Hn|exact Hc|]. intros i Hi. apply (piece_values N p ((N - 1) / p) i HN ltac:(lia) Hn Hi).
    + apply pieces64_good; [exact HN|lia|exact Hn|exact Hc|intros Q1; left; exact (H1 Q1)].
    + rewrite map_length, zrange_length. reflexivity.
  - rewrite Z.div_small by lia. change (0 <? 0)%Z with false. cbv iota.
    exists (map (piece_of N N 1) (zrange (1 + 1))). split; [|split].
    + apply (Gen N 1%Z); [lia|lia|lia|]. intros i Hi.
      rewrite Z.sub_diag. pose proof (piece_values N N 1 i HN ltac:(lia) ltac:(lia) Hi) as V. rewrite Z.sub_diag in V. exact V.
    + apply pieces64_good; lia.
    + reflexivity.
Qed.
