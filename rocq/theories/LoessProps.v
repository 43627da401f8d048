(** C99: the smoothing of the script fitdata is a local straight line fit *)
From Verif Require Import LoessModel.
From Coq Require Import Reals List ZArith Lia Lra Permutation.
Import ListNotations.
Open Scope R_scope.

(** ---------- specification ---------- *)
Definition total (n : nat) (f : nat -> R) : R := fold_right Rplus 0 (map f (seq 0 n)).
(** how many of the rows satisfy a test *)
Definition how_many (n : nat) (test : nat -> bool) : nat := length (filter test (seq 0 n)).
Definition closer (x : nat -> R) (i : nat) (h : R) (j : nat) : bool := if Rlt_dec (Rabs (x j - x i)) h then true else false.
Definition within (x : nat -> R) (i : nat) (h : R) (j : nat) : bool := if Rle_dec (Rabs (x j - x i)) h then true else false.
(** h is the distance from row i to its k-th nearest row (the row itself is the 0-th) *)
Definition kth_distance (n : nat) (x : nat -> R) (i k : nat) (h : R) : Prop :=
  (exists j, (j < n)%nat /\ h = Rabs (x j - x i)) /\ (how_many n (closer x i h) <= k)%nat /\ (k < how_many n (within x i h))%nat.
Definition tricube (u : R) : R := if Rle_dec u 1 then (1 - u ^ 3) ^ 3 else 0.
(** squared deviations from the line a0 + a1 x, rows near row i count more *)
Definition misfit (n : nat) (x y : nat -> R) (i : nat) (h a0 a1 : R) : R :=
  total n (fun j => tricube (Rabs (x j - x i) / h) * (y j - (a0 + a1 * x j)) ^ 2).
(** smallest integer not below f n *)
Definition window_size (f : R) (n k : nat) : Prop := INR k - 1 < f * INR n <= INR k.

(** ---------- sums ---------- *)
Lemma total_S n f : total (S n) f = total n f + f n.
Proof.
  unfold total. rewrite seq_S, map_app, fold_right_app. cbn. generalize (map f (seq 0 n)). intros l. induction l as [|a l IH]; cbn; [ring|]. rewrite IH. ring.
Qed.
Lemma rows_sum_total n f : rows_sum n f = total n f.
Proof. induction n as [|n IH]; [reflexivity|]. rewrite total_S. cbn [rows_sum]. rewrite IH. reflexivity. Qed.
Lemma rows_ext n f g : (forall j, (j < n)%nat -> f j = g j) -> rows_sum n f = rows_sum n g.
Proof. intros H. induction n as [|n IH]; [reflexivity|]. cbn [rows_sum]. rewrite IH, H; [reflexivity|lia|]. intros j Hj. apply H. lia. Qed.
Lemma rows_plus n f g : rows_sum n (fun j => f j + g j) = rows_sum n f + rows_sum n g.
Proof. induction n as [|n IH]; cbn [rows_sum]; [ring|]. rewrite IH. ring. Qed.
Lemma rows_scal n c f : rows_sum n (fun j => c * f j) = c * rows_sum n f.
Proof. induction n as [|n IH]; cbn [rows_sum]; [ring|]. rewrite IH. ring. Qed.
Lemma rows_nonneg n f : (forall j, (j < n)%nat -> 0 <= f j) -> 0 <= rows_sum n f.
Proof. intros H. induction n as [|n IH]; cbn [rows_sum]; [lra|]. assert (0 <= rows_sum n f) by (apply IH; intros j Hj; apply H; lia). assert (0 <= f n) by (apply H; lia). lra. Qed.
Lemma rows_one_le n f i : (i < n)%nat -> (forall j, (j < n)%nat -> 0 <= f j) -> f i <= rows_sum n f.
Proof.
  intros Hi H. induction n as [|n IH]; [lia|]. cbn [rows_sum]. assert (0 <= f n) by (apply H; lia). assert (0 <= rows_sum n f) by (apply rows_nonneg; intros j Hj; apply H; lia).
  destruct (Nat.eq_dec i n) as [->|Ne]; [lra|]. assert (f i <= rows_sum n f) by (apply IH; [lia|]; intros j Hj; apply H; lia). lra.
Qed.
Lemma rows_zero n f : (forall j, (j < n)%nat -> f j = 0) -> rows_sum n f = 0.
Proof. intros H. induction n as [|n IH]; [reflexivity|]. cbn [rows_sum]. rewrite IH, H; [ring|lia|]. intros j Hj. apply H. lia. Qed.

(** ---------- sorting ---------- *)
Inductive sorted : list R -> Prop := s_nil : sorted [] | s_cons a l : (forall b, In b l -> a <= b) -> sorted l -> sorted (a :: l).
Lemma insert_perm a l : Permutation (insert_sorted a l) (a :: l).
Proof. induction l as [|b l IH]; cbn; [reflexivity|]. destruct (Rle_dec a b); [reflexivity|]. rewrite IH. apply perm_swap. Qed.
Lemma sort_perm l : Permutation (np_sort l) l.
Proof. induction l as [|a l IH]; cbn; [reflexivity|]. rewrite insert_perm, IH. reflexivity. Qed.
Lemma insert_sorted_ok a l : sorted l -> sorted (insert_sorted a l).
Proof.
  intros H. induction H as [|b l Hb Hl IH]; cbn. { constructor; [intros b []|constructor]. }
  destruct (Rle_dec a b) as [L|L]. { constructor; [intros c [->|Hc]; [exact L|specialize (Hb c Hc); lra]|constructor; assumption]. }
  constructor; [|exact IH]. intros c Hc. apply (Permutation_in c (insert_perm a l)) in Hc. destruct Hc as [->|Hc]; [lra|apply Hb; exact Hc].
Qed.
Lemma sort_sorted l : sorted (np_sort l). Proof. induction l as [|a l IH]; cbn; [constructor|]. apply insert_sorted_ok. exact IH. Qed.
Definition lt_test (h a : R) : bool := if Rlt_dec a h then true else false.
Definition le_test (h a : R) : bool := if Rle_dec a h then true else false.
Lemma count_perm (t : R -> bool) l l' : Permutation l l' -> length (filter t l) = length (filter t l').
Proof.
  intros H. induction H as [|a l l' H IH|a b l|l1 l2 l3 _ IH1 _ IH2]; cbn.
  - reflexivity.
  - destruct (t a); cbn; rewrite IH; reflexivity.
  - destruct (t a), (t b); reflexivity.
  - congruence.
Qed.
Lemma sorted_nth l : sorted l -> forall k h, nth_error l k = Some h -> (length (filter (lt_test h) l) <= k)%nat /\ (k < length (filter (le_test h) l))%nat.
Proof.
  intros H. induction H as [|a l Ha Hl IH]; intros k h E; [destruct k; discriminate|]. destruct k as [|k]; cbn in E.
  - injection E as <-. cbn. unfold lt_test at 1. destruct (Rlt_dec a a); [lra|]. unfold le_test at 1. destruct (Rle_dec a a); [|lra]. cbn. split; [|lia].
    assert (Z : filter (lt_test a) l = []). { clear - Ha. induction l as [|b l IH]; [reflexivity|]. cbn. unfold lt_test at 1. destruct (Rlt_dec b a) as [L|_]; [exfalso; assert (a <= b) by (apply Ha; left; reflexivity); lra|]. apply IH. intros c Hc. apply Ha. right. exact Hc. }
    rewrite Z. cbn. lia.
  - destruct (IH k h E) as [A B]. cbn. assert (Hin : In h l) by (apply nth_error_In with k; exact E). unfold lt_test at 1, le_test at 1. destruct (Rle_dec a h) as [_|N]; [|exfalso; apply N, Ha, Hin].
    destruct (Rlt_dec a h); cbn; lia.
Qed.
Lemma filter_map {X Y} (t : Y -> bool) (g : X -> Y) l : length (filter t (map g l)) = length (filter (fun a => t (g a)) l).
Proof. induction l as [|a l IH]; cbn; [reflexivity|]. destruct (t (g a)); cbn; rewrite IH; reflexivity. Qed.

(** ---------- the window ---------- *)
Lemma window_is f n k : window_size f n k -> window n f = Z.of_nat k.
Proof. intros [A B]. unfold window. apply rceil_unique. rewrite <- INR_IZR_INZ. lra. Qed.
Lemma bandwidth_spec n x i k h : bandwidth n x (Z.of_nat k) i = Some h -> kth_distance n x i k h.
Proof.
  unfold bandwidth, py_item. set (l := map (fun j => Rabs (x j - x i)) (seq 0 n)). destruct (Z.ltb_spec (Z.of_nat k) 0); [lia|]. destruct (Z.ltb_spec (Z.of_nat k) 0); [lia|]. rewrite Nat2Z.id. intros E.
  assert (P := sort_perm l). assert (S := sort_sorted l). destruct (sorted_nth _ S k h E) as [A B]. rewrite (count_perm _ _ _ P) in A. rewrite (count_perm _ _ _ P) in B. unfold l in A, B. rewrite filter_map in A. rewrite filter_map in B. split; [|split; assumption].
  apply nth_error_In in E. apply (Permutation_in h P) in E. unfold l in E. apply in_map_iff in E. destruct E as [j [E1 E2]]. apply in_seq in E2. exists j. split; [lia|]. symmetry. exact E1.
Qed.
Lemma bandwidth_some n x i k : (k < n)%nat -> exists h, bandwidth n x (Z.of_nat k) i = Some h.
Proof.
  intros Hk. unfold bandwidth, py_item. destruct (Z.ltb_spec (Z.of_nat k) 0); [lia|]. destruct (Z.ltb_spec (Z.of_nat k) 0); [lia|]. rewrite Nat2Z.id. set (l := map _ _).
  assert (L : length (np_sort l) = n) by (rewrite (Permutation_length (sort_perm l)); unfold l; rewrite map_length, seq_length; reflexivity).
  destruct (nth_error (np_sort l) k) as [h|] eqn:E; [exists h; reflexivity|]. apply nth_error_None in E. lia.
Qed.
Lemma bandwidth_none n x i k : (n <= k)%nat -> bandwidth n x (Z.of_nat k) i = None.
Proof.
  intros Hk. unfold bandwidth, py_item. destruct (Z.ltb_spec (Z.of_nat k) 0); [lia|]. destruct (Z.ltb_spec (Z.of_nat k) 0); [lia|]. rewrite Nat2Z.id. set (l := map _ _). apply nth_error_None.
  rewrite (Permutation_length (sort_perm l)). unfold l. rewrite map_length, seq_length. exact Hk.
Qed.
Lemma weight_tricube x h j i : 0 < h -> loess_weight x h j i = tricube (Rabs (x j - x i) / h).
Proof.
  intros H. unfold loess_weight, tricube, clip01. unfold Rdiv at 1. rewrite Rabs_mult, (Rabs_pos_eq (/ h)) by (left; apply Rinv_0_lt_compat; exact H). change (Rabs (x j - x i) * / h) with (Rabs (x j - x i) / h).
  assert (0 <= Rabs (x j - x i) / h). { apply Rmult_le_pos; [apply Rabs_pos|]. left. apply Rinv_0_lt_compat. exact H. } set (u := Rabs (x j - x i) / h) in *.
  destruct (Rle_dec u 1); [rewrite (Rmin_left u 1), (Rmax_right 0 u) by lra; reflexivity|]. rewrite (Rmin_right u 1), (Rmax_right 0 1) by lra. ring.
Qed.
Lemma tricube_nonneg u : 0 <= u -> 0 <= tricube u.
Proof. intros H. unfold tricube. destruct (Rle_dec u 1) as [L|]; [|lra]. apply pow_le. assert (u ^ 3 <= 1 ^ 3) by (apply pow_incr; lra). lra. Qed.
Lemma tricube_pos u : 0 <= u -> u < 1 -> 0 < tricube u.
Proof. intros H L. unfold tricube. destruct (Rle_dec u 1) as [_|]; [|lra]. apply pow_lt. assert (u ^ 3 < 1). { replace (u ^ 3) with (u * (u * u)) by ring. nra. } lra. Qed.
Lemma tricube_out u : 1 <= u -> tricube u = 0.
Proof. intros L. unfold tricube. destruct (Rle_dec u 1) as [L'|]; [|lra]. replace u with 1 by lra. ring. Qed.
Lemma ratio_nonneg (x : nat -> R) (j i : nat) h : 0 < h -> 0 <= Rabs (x j - x i) / h.
Proof. intros H. apply Rmult_le_pos; [apply Rabs_pos|]. left. apply Rinv_0_lt_compat. exact H. Qed.

(** ---------- the 2x2 system ---------- *)
Section System.
Context (n : nat) (x y : nat -> R) (i : nat) (h : R).
Context (Hh : 0 < h).
Let w (j : nat) := loess_weight x h j i.
Let a00 := rows_sum n w.
Let a01 := rows_sum n (fun j => w j * x j).
Let a11 := rows_sum n (fun j => w j * x j * x j).
Let b0 := rows_sum n (fun j => w j * y j).
Let b1 := rows_sum n (fun j => w j * y j * x j).
Definition det : R := a00 * a11 - a01 * a01.
Definition beta0 : R := (b0 * a11 - a01 * b1) / det.
Definition beta1 : R := (a00 * b1 - a01 * b0) / det.
Lemma row_eq : loess_row n x y h i = if Req_EM_T det 0 then LinAlgError else Number (beta0 + beta1 * x i).
Proof. unfold loess_row. destruct (Req_EM_T h 0); [lra|]. reflexivity. Qed.
Lemma w_nonneg j : 0 <= w j. Proof. unfold w. rewrite weight_tricube by exact Hh. apply tricube_nonneg, ratio_nonneg, Hh. Qed.
Lemma quadratic d0 d1 : rows_sum n (fun j => w j * (d0 + d1 * x j) ^ 2) = a00 * d0 ^ 2 + 2 * a01 * d0 * d1 + a11 * d1 ^ 2.
Proof.
  unfold a00, a01, a11. rewrite (rows_ext n _ (fun j => d0 ^ 2 * w j + (2 * d0 * d1 * (w j * x j) + d1 ^ 2 * (w j * x j * x j)))) by (intros; ring). rewrite !rows_plus, !rows_scal. ring.
Qed.
Lemma quadratic_nonneg d0 d1 : 0 <= a00 * d0 ^ 2 + 2 * a01 * d0 * d1 + a11 * d1 ^ 2.
Proof. rewrite <- quadratic. apply rows_nonneg. intros j _. apply Rmult_le_pos; [apply w_nonneg|apply pow2_ge_0]. Qed.
Lemma misfit_expand a0 a1 : misfit n x y i h a0 a1 = rows_sum n (fun j => w j * y j ^ 2) - 2 * (a0 * b0 + a1 * b1) + (a00 * a0 ^ 2 + 2 * a01 * a0 * a1 + a11 * a1 ^ 2).
Proof.
  unfold misfit. rewrite <- rows_sum_total, <- quadratic. unfold b0, b1.
  rewrite (rows_ext n _ (fun j => w j * y j ^ 2 + ((-2 * a0) * (w j * y j) + ((-2 * a1) * (w j * y j * x j) + w j * (a0 + a1 * x j) ^ 2)))).
  - rewrite !rows_plus, !rows_scal. ring.
  - intros j _. unfold w. rewrite weight_tricube by exact Hh. ring.
Qed.
Lemma a00_pos : (i < n)%nat -> 0 < a00.
Proof.
  intros Hi. assert (W : w i = 1). { unfold w. rewrite weight_tricube by exact Hh. replace (x i - x i) with 0 by ring. rewrite Rabs_R0. unfold Rdiv. rewrite Rmult_0_l. unfold tricube. destruct (Rle_dec 0 1); [ring|lra]. }
  assert (L := rows_one_le n w i Hi (fun j _ => w_nonneg j)). fold a00 in L. lra.
Qed.
Lemma det_nonneg : (i < n)%nat -> 0 <= det.
Proof.
  intros Hi. assert (Q := quadratic_nonneg (- a01) a00). assert (P := a00_pos Hi). unfold det. replace (a00 * (- a01) ^ 2 + 2 * a01 * - a01 * a00 + a11 * a00 ^ 2) with (a00 * (a00 * a11 - a01 * a01)) in Q by ring. nra.
Qed.
Lemma det_pos_iff : (i < n)%nat -> (0 < det <-> exists j, (j < n)%nat /\ x j <> x i /\ Rabs (x j - x i) < h).
Proof.
  intros Hi. assert (P := a00_pos Hi). split.
  - intros D. destruct (Classical_Prop.classic (exists j, (j < n)%nat /\ x j <> x i /\ Rabs (x j - x i) < h)) as [E|N]; [exact E|]. exfalso.
    assert (Z : forall j, (j < n)%nat -> w j * (x j - x i) = 0).
    { intros j Hj. destruct (Req_dec (x j) (x i)) as [->|Ne]; [ring|]. destruct (Rlt_dec (Rabs (x j - x i)) h) as [L|L]; [exfalso; apply N; exists j; auto|].
      unfold w. rewrite weight_tricube by exact Hh. rewrite tricube_out; [ring|]. apply Rmult_le_reg_r with h; [exact Hh|]. unfold Rdiv. rewrite Rmult_assoc, Rinv_l by lra. lra. }
    assert (E1 : a01 = x i * a00). { unfold a01, a00. rewrite <- rows_scal. apply rows_ext. intros j Hj. specialize (Z j Hj). lra. }
    assert (E2 : a11 = x i * x i * a00). { unfold a11, a00. rewrite <- rows_scal. apply rows_ext. intros j Hj. specialize (Z j Hj). replace (w j * x j) with (w j * x i) by lra. replace (w j * x i * x j) with (x i * (w j * x j)) by ring. replace (w j * x j) with (w j * x i) by lra. ring. }
    unfold det in D. rewrite E1, E2 in D. lra.
  - intros [j [Hj [Ne L]]]. destruct (det_nonneg Hi) as [D|D]; [exact D|]. exfalso.
    assert (Q : rows_sum n (fun k => w k * (- a01 + a00 * x k) ^ 2) = 0). { rewrite quadratic. unfold det in D. replace (a00 * (- a01) ^ 2 + 2 * a01 * - a01 * a00 + a11 * a00 ^ 2) with (a00 * (a00 * a11 - a01 * a01)) by ring. rewrite <- D. ring. }
    assert (K : forall k, (k < n)%nat -> Rabs (x k - x i) < h -> a00 * x k = a01).
    { intros k Hk Lk. assert (A := rows_one_le n (fun k => w k * (- a01 + a00 * x k) ^ 2) k Hk (fun k _ => Rmult_le_pos _ _ (w_nonneg k) (pow2_ge_0 _))). cbv beta in A. rewrite Q in A.
      assert (Wk : 0 < w k). { unfold w. rewrite weight_tricube by exact Hh. apply tricube_pos; [apply ratio_nonneg, Hh|]. apply Rmult_lt_reg_r with h; [exact Hh|]. unfold Rdiv. rewrite Rmult_assoc, Rinv_l by lra. lra. }
      assert (B := pow2_ge_0 (- a01 + a00 * x k)). assert (Z : (- a01 + a00 * x k) ^ 2 = 0) by nra. assert (- a01 + a00 * x k = 0) by nra. lra. }
    assert (K1 := K j Hj L). assert (K2 := K i Hi). replace (x i - x i) with 0 in K2 by ring. rewrite Rabs_R0 in K2. specialize (K2 Hh). apply Ne. apply Rmult_eq_reg_l with a00; lra.
Qed.
Lemma minimal : det <> 0 -> (i < n)%nat -> forall a0 a1, misfit n x y i h beta0 beta1 <= misfit n x y i h a0 a1 /\ (misfit n x y i h beta0 beta1 = misfit n x y i h a0 a1 -> a0 = beta0 /\ a1 = beta1).
Proof.
  intros D Hi a0 a1. assert (Dp : 0 < det) by (assert (0 <= det) by (apply det_nonneg; exact Hi); lra). assert (P := a00_pos Hi).
  assert (N0 : a00 * beta0 + a01 * beta1 = b0) by (unfold beta0, beta1; unfold det in *; field; exact D).
  assert (N1 : a01 * beta0 + a11 * beta1 = b1) by (unfold beta0, beta1; unfold det in *; field; exact D).
  assert (E : misfit n x y i h a0 a1 - misfit n x y i h beta0 beta1 = a00 * (a0 - beta0) ^ 2 + 2 * a01 * (a0 - beta0) * (a1 - beta1) + a11 * (a1 - beta1) ^ 2).
  { rewrite !misfit_expand. rewrite <- N0, <- N1. ring. }
  assert (Q := quadratic_nonneg (a0 - beta0) (a1 - beta1)). split; [lra|]. intros M.
  assert (Z : a00 * (a0 - beta0) ^ 2 + 2 * a01 * (a0 - beta0) * (a1 - beta1) + a11 * (a1 - beta1) ^ 2 = 0) by lra. set (d0 := a0 - beta0) in *. set (d1 := a1 - beta1) in *.
  assert (F : (a00 * d0 + a01 * d1) ^ 2 + det * d1 ^ 2 = 0). { unfold det. replace ((a00 * d0 + a01 * d1) ^ 2 + (a00 * a11 - a01 * a01) * d1 ^ 2) with (a00 * (a00 * d0 ^ 2 + 2 * a01 * d0 * d1 + a11 * d1 ^ 2)) by ring. rewrite Z. ring. }
  assert (S0 := pow2_ge_0 (a00 * d0 + a01 * d1)). assert (S1 := pow2_ge_0 d1). assert (Z1 : d1 ^ 2 = 0) by nra. assert (d1 = 0) by nra. rewrite H in *. assert (Z0 : (a00 * d0) ^ 2 = 0) by (replace (a00 * d0) with (a00 * d0 + a01 * 0) by ring; nra). assert (a00 * d0 = 0) by nra.
  assert (d0 = 0) by nra. unfold d0, d1 in *. lra.
Qed.
Lemma line_exact a b : det <> 0 -> (forall j, (j < n)%nat -> y j = a + b * x j) -> beta0 = a /\ beta1 = b.
Proof.
  intros D H. assert (E0 : b0 = a * a00 + b * a01). { unfold b0, a00, a01. rewrite <- !rows_scal, <- rows_plus. apply rows_ext. intros j Hj. rewrite H by exact Hj. ring. }
  assert (E1 : b1 = a * a01 + b * a11). { unfold b1, a11, a01. rewrite <- !rows_scal, <- rows_plus. apply rows_ext. intros j Hj. rewrite H by exact Hj. ring. }
  unfold beta0, beta1. rewrite E0, E1. unfold det in *. split; field; exact D.
Qed.
End System.

(** ---------- the loop ---------- *)
Lemma bandwidths_spec n x r l hs : bandwidths n x r l = Some hs -> length hs = length l /\ forall k i h, nth_error l k = Some i -> nth_error hs k = Some h -> bandwidth n x r i = Some h.
Proof.
  revert hs. induction l as [|i l IH]; intros hs E; cbn in E. { injection E as <-. split; [reflexivity|]. intros [|k] i h H; discriminate. }
  destruct (bandwidth n x r i) as [h|] eqn:B; [|discriminate]. destruct (bandwidths n x r l) as [t|]; [|discriminate]. injection E as <-. destruct (IH t eq_refl) as [L R]. split; [cbn; lia|].
  intros [|k] j g Hj Hg; cbn in Hj, Hg; [injection Hj as <-; injection Hg as <-; exact B|]. apply (R k); assumption.
Qed.
Lemma bandwidths_some n x r l : (forall i, In i l -> exists h, bandwidth n x r i = Some h) -> exists hs, bandwidths n x r l = Some hs.
Proof.
  intros H. induction l as [|i l IH]; [exists []; reflexivity|]. cbn. destruct (H i (or_introl eq_refl)) as [h ->]. destruct IH as [t ->]; [intros j Hj; apply H; right; exact Hj|]. eexists. reflexivity.
Qed.
Lemma loop_smooth n x y l rows : loess_loop n x y l = Smooth rows -> length rows = length l /\
  forall k i h, nth_error l k = Some (i, h) -> (exists v, loess_row n x y h i = Number v /\ nth_error rows k = Some (Some v)) \/ (loess_row n x y h i = NotANumber /\ nth_error rows k = Some None).
Proof.
  revert rows. induction l as [|[i h] l IH]; intros rows E; cbn in E. { injection E as <-. split; [reflexivity|]. intros [|k] i h H; discriminate. }
  destruct (loess_row n x y h i) as [v| |] eqn:Rw; [| |discriminate]; (destruct (loess_loop n x y l) as [t| |]; try discriminate); injection E as <-; destruct (IH t eq_refl) as [L H]; (split; [cbn; lia|]).
  - intros [|k] j g Hj; cbn in Hj; [injection Hj as <- <-; left; exists v; split; [exact Rw|reflexivity]|]. apply (H k). exact Hj.
  - intros [|k] j g Hj; cbn in Hj; [injection Hj as <- <-; right; split; [exact Rw|reflexivity]|]. apply (H k). exact Hj.
Qed.
Lemma loop_good n x y l : (forall i h, In (i, h) l -> exists v, loess_row n x y h i = Number v) -> exists vs, loess_loop n x y l = Smooth (map Some vs) /\ length vs = length l.
Proof.
  intros H. induction l as [|[i h] l IH]; [exists []; split; reflexivity|]. cbn. destruct (H i h (or_introl eq_refl)) as [v ->]. destruct IH as [vs [-> L]]; [intros j g Hj; apply H; right; exact Hj|]. exists (v :: vs). split; [reflexivity|cbn; lia].
Qed.
Lemma loop_bad n x y l i h : In (i, h) l -> loess_row n x y h i = LinAlgError -> loess_loop n x y l = LinAlgErrorRaised.
Proof.
  intros Hin B. assert (G : forall l, (forall rows, loess_loop n x y l <> Smooth rows) -> loess_loop n x y l = LinAlgErrorRaised).
  { intros t. induction t as [|[j g] t IHt]; intros Hn; [exfalso; apply (Hn []); reflexivity|]. cbn in *. destruct (loess_row n x y g j); [| |reflexivity]; (destruct (loess_loop n x y t) as [rs| |]; [exfalso; eapply Hn; reflexivity| |reflexivity]; apply IHt; intros rows F; discriminate). }
  apply G. intros rows E. apply loop_smooth in E. destruct E as [_ E]. apply In_nth_error in Hin. destruct Hin as [k Hk]. destruct (E k i h Hk) as [[v [F _]]|[F _]]; congruence.
Qed.
Lemma combine_nth_seq (n : nat) (hs : list R) i h : length hs = n -> (nth_error (combine (seq 0 n) hs) i = Some (i, h) <-> (i < n)%nat /\ nth_error hs i = Some h).
Proof.
  intros L. assert (G : forall s m (hs : list R), length hs = m -> forall k, nth_error (combine (seq s m) hs) k = match nth_error hs k with Some a => Some ((s + k)%nat, a) | None => None end).
  { intros s m. revert s. induction m as [|m IH]; intros s [|a t] L' k; cbn in L'; try lia; [destruct k; reflexivity|]. destruct k as [|k]; cbn; [rewrite Nat.add_0_r; reflexivity|]. rewrite IH by lia. destruct (nth_error t k); [|reflexivity]. replace (s + Datatypes.S k)%nat with (Datatypes.S s + k)%nat by lia. reflexivity. }
  rewrite (G 0%nat n hs L i). destruct (nth_error hs i) as [a|] eqn:E.
  - assert (i < length hs)%nat by (apply nth_error_Some; congruence). cbn. split; [intros F; injection F as <-; split; [lia|reflexivity]|intros [_ F]; congruence].
  - split; [discriminate|intros [_ F]; discriminate].
Qed.
Lemma loess_rows n x y f rows : loess n x y f = Smooth rows -> length rows = n /\
  forall i, (i < n)%nat -> exists h, bandwidth n x (window n f) i = Some h /\
    ((exists v, loess_row n x y h i = Number v /\ nth_error rows i = Some (Some v)) \/ (loess_row n x y h i = NotANumber /\ nth_error rows i = Some None)).
Proof.
  unfold loess. destruct (bandwidths n x (window n f) (seq 0 n)) as [hs|] eqn:B; [|discriminate]. intros E. apply bandwidths_spec in B. destruct B as [L B]. rewrite seq_length in L. apply loop_smooth in E. destruct E as [LL E].
  rewrite combine_length, seq_length, L, Nat.min_id in LL. split; [exact LL|]. intros i Hi. destruct (nth_error hs i) as [h|] eqn:Hh; [|apply nth_error_None in Hh; lia].
  exists h. split.
  - apply (B i i h); [|exact Hh]. rewrite (nth_error_nth' _ 0%nat) by (rewrite seq_length; exact Hi). rewrite seq_nth by exact Hi. reflexivity.
  - apply (E i i h). apply combine_nth_seq; [exact L|]. auto.
Qed.
Lemma loess_good n x y f : (forall i, (i < n)%nat -> exists h v, bandwidth n x (window n f) i = Some h /\ loess_row n x y h i = Number v) -> exists vs, loess n x y f = Smooth (map Some vs) /\ length vs = n.
Proof.
  intros H. unfold loess. destruct (bandwidths_some n x (window n f) (seq 0 n)) as [hs B]. { intros i Hi. apply in_seq in Hi. destruct (H i) as [h [v [E _]]]; [lia|]. exists h. exact E. }
  rewrite B. apply bandwidths_spec in B. destruct B as [L B]. rewrite seq_length in L. destruct (loop_good n x y (combine (seq 0 n) hs)) as [vs [E Lv]].
  - intros i h Hin. apply In_nth_error in Hin. destruct Hin as [k Hk]. assert (K : k = i /\ (i < n)%nat /\ nth_error hs i = Some h).
    { destruct (Nat.lt_ge_cases k n) as [Kn|Kn]; [|assert (F : nth_error (combine (seq 0 n) hs) k = None) by (apply nth_error_None; rewrite combine_length, seq_length; lia); congruence].
      destruct (nth_error hs k) as [g|] eqn:G; [|apply nth_error_None in G; lia]. assert (F := proj2 (combine_nth_seq n hs k g L) (conj Kn G)). rewrite Hk in F. injection F as -> ->. auto. }
    destruct K as [-> [Hi Hh]]. destruct (H i Hi) as [g [v [E1 E2]]]. assert (E3 : bandwidth n x (window n f) i = Some h). { apply (B i i h); [|exact Hh]. rewrite (nth_error_nth' _ 0%nat) by (rewrite seq_length; exact Hi). rewrite seq_nth by exact Hi. reflexivity. }
    exists v. congruence.
  - exists vs. split; [exact E|]. rewrite Lv, combine_length, seq_length, L, Nat.min_id. reflexivity.
Qed.
Lemma loess_bad n x y f i h : (i < n)%nat -> (forall i, (i < n)%nat -> exists h, bandwidth n x (window n f) i = Some h) -> bandwidth n x (window n f) i = Some h -> loess_row n x y h i = LinAlgError -> loess n x y f = LinAlgErrorRaised.
Proof.
  intros Hi HB Bi R. unfold loess. destruct (bandwidths_some n x (window n f) (seq 0 n)) as [hs B]. { intros j Hj. apply in_seq in Hj. apply HB. lia. }
  rewrite B. apply bandwidths_spec in B. destruct B as [L B]. rewrite seq_length in L. apply (loop_bad n x y _ i h); [|exact R]. destruct (nth_error hs i) as [g|] eqn:G; [|apply nth_error_None in G; lia].
  assert (E : bandwidth n x (window n f) i = Some g). { apply (B i i g); [|exact G]. rewrite (nth_error_nth' _ 0%nat) by (rewrite seq_length; exact Hi). rewrite seq_nth by exact Hi. reflexivity. }
  assert (g = h) as -> by congruence. apply nth_error_In with i. apply combine_nth_seq; auto.
Qed.
Lemma kth_nonneg n x i k h : kth_distance n x i k h -> 0 <= h.
Proof. intros [[j [_ ->]] _]. apply Rabs_pos. Qed.
Lemma row_number n x y h i v : 0 <= h -> loess_row n x y h i = Number v -> 0 < h /\ det n x i h <> 0 /\ v = beta0 n x y i h + beta1 n x y i h * x i.
Proof.
  intros H E. assert (P : 0 < h). { unfold loess_row in E. destruct (Req_EM_T h 0); [discriminate|]. lra. } rewrite row_eq in E by exact P. destruct (Req_EM_T (det n x i h) 0); [discriminate|]. injection E as <-. auto.
Qed.

(** ---------- C99 ---------- *)
(** each number returned is the value at its own abscissa of the straight line that best fits the data, weighted with the tricube of the distance in units of the distance to the
    k-th nearest row, k the smallest integer not below f n; the line is unique *)
Theorem C99_local_line : forall n x y f k rows i v, window_size f n k -> (i < n)%nat -> loess n x y f = Smooth rows -> nth_error rows i = Some (Some v) ->
  exists h b0 b1, kth_distance n x i k h /\ 0 < h /\ v = b0 + b1 * x i /\
    forall a0 a1, misfit n x y i h b0 b1 <= misfit n x y i h a0 a1 /\ (misfit n x y i h b0 b1 = misfit n x y i h a0 a1 -> a0 = b0 /\ a1 = b1).
Proof.
  intros n x y f k rows i v W Hi E V. apply loess_rows in E. destruct E as [_ E]. destruct (E i Hi) as [h [B [[v' [R N]]|[_ N]]]]; rewrite V in N; [|discriminate]. injection N as <-. rewrite (window_is f n k W) in B. apply bandwidth_spec in B.
  destruct (row_number n x y h i v (kth_nonneg _ _ _ _ _ B) R) as [P [D ->]]. exists h, (beta0 n x y i h), (beta1 n x y i h). split; [exact B|]. split; [exact P|]. split; [reflexivity|]. apply minimal; assumption.
Qed.
Print Assumptions C99_local_line.
(** data on a straight line are not changed *)
Theorem C99_straight_lines_unchanged : forall n x y f a b k rows i v, window_size f n k -> (forall j, (j < n)%nat -> y j = a + b * x j) -> (i < n)%nat -> loess n x y f = Smooth rows -> nth_error rows i = Some (Some v) -> v = y i.
Proof.
  intros n x y f a b k rows i v W H Hi E V. apply loess_rows in E. destruct E as [_ E]. destruct (E i Hi) as [h [B [[v' [R N]]|[_ N]]]]; rewrite V in N; [|discriminate]. injection N as <-. rewrite (window_is f n k W) in B. apply bandwidth_spec in B.
  destruct (row_number n x y h i v (kth_nonneg _ _ _ _ _ B) R) as [P [D ->]]. destruct (line_exact n x y i h a b D H) as [-> ->]. rewrite (H i Hi). reflexivity.
Qed.
Print Assumptions C99_straight_lines_unchanged.
(** smoothing is linear in the data; whether it succeeds does not depend on them *)
Theorem C99_linear : forall n x y y' c c' f k rows, window_size f n k -> loess n x y f = Smooth rows ->
  exists rows' rows'', loess n x y' f = Smooth rows' /\ loess n x (fun j => c * y j + c' * y' j) f = Smooth rows'' /\
    forall i v, (i < n)%nat -> nth_error rows i = Some (Some v) -> exists v', nth_error rows' i = Some (Some v') /\ nth_error rows'' i = Some (Some (c * v + c' * v')).
Proof.
  intros n x y y' c c' f k rows W E.
  assert (T : forall z, exists rz, loess n x z f = Smooth rz).
  { intros z. unfold loess in *. destruct (bandwidths n x (window n f) (seq 0 n)) as [hs|]; [|discriminate]. clear W. revert rows E. generalize (combine (seq 0 n) hs). intros l. induction l as [|[j h] l IH]; intros rows E; [exists []; reflexivity|].
    cbn in *. unfold loess_row in *. destruct (Req_EM_T h 0) as [H0|H0].
    - destruct (loess_loop n x y l) as [t| |]; try discriminate. destruct (IH t eq_refl) as [rz ->]. eexists. reflexivity.
    - cbv zeta in *. destruct (Req_EM_T _ 0) as [D0|D0]; [discriminate|]. destruct (loess_loop n x y l) as [t| |]; try discriminate. destruct (IH t eq_refl) as [rz ->]. eexists. reflexivity. }
  destruct (T y') as [r1 E1]. destruct (T (fun j => c * y j + c' * y' j)) as [r2 E2]. exists r1, r2. split; [exact E1|]. split; [exact E2|]. intros i v Hi V.
  apply loess_rows in E, E1, E2. destruct E as [_ E], E1 as [_ E1], E2 as [_ E2]. destruct (E i Hi) as [h [B [[v0 [R N]]|[_ N]]]]; rewrite V in N; [|discriminate]. injection N as <-.
  destruct (E1 i Hi) as [h1 [B1 O1]], (E2 i Hi) as [h2 [B2 O2]]. assert (h1 = h) as -> by congruence. assert (h2 = h) as -> by congruence.
  assert (HK := B). rewrite (window_is f n k W) in HK. apply bandwidth_spec in HK. destruct (row_number n x y h i v (kth_nonneg _ _ _ _ _ HK) R) as [P [D Ev]].
  assert (Rz : forall z, loess_row n x z h i = Number (beta0 n x z i h + beta1 n x z i h * x i)). { intros z. rewrite row_eq by exact P. destruct (Req_EM_T (det n x i h) 0); [contradiction|reflexivity]. }
  rewrite (Rz y') in O1. rewrite (Rz (fun j => c * y j + c' * y' j)) in O2. destruct O1 as [[v1 [F1 N1]]|[F1 _]]; [|discriminate]. destruct O2 as [[v2 [F2 N2]]|[F2 _]]; [|discriminate]. injection F1 as <-. injection F2 as <-.
  exists (beta0 n x y' i h + beta1 n x y' i h * x i). split; [exact N1|]. rewrite N2, Ev. do 2 f_equal. unfold beta0, beta1.
  assert (A0 : rows_sum n (fun j => loess_weight x h j i * (c * y j + c' * y' j)) = c * rows_sum n (fun j => loess_weight x h j i * y j) + c' * rows_sum n (fun j => loess_weight x h j i * y' j)) by (rewrite <- !rows_scal, <- rows_plus; apply rows_ext; intros; ring).
  assert (A1 : rows_sum n (fun j => loess_weight x h j i * (c * y j + c' * y' j) * x j) = c * rows_sum n (fun j => loess_weight x h j i * y j * x j) + c' * rows_sum n (fun j => loess_weight x h j i * y' j * x j)) by (rewrite <- !rows_scal, <- rows_plus; apply rows_ext; intros; ring).
  rewrite A0, A1. field. exact D.
Qed.
Print Assumptions C99_linear.
(** ---------- units ---------- *)
Lemma sort_scaled c l : 0 < c -> np_sort (map (Rmult c) l) = map (Rmult c) (np_sort l).
Proof.
  intros Hc. assert (I : forall a t, insert_sorted (c * a) (map (Rmult c) t) = map (Rmult c) (insert_sorted a t)).
  { intros a t. induction t as [|b t IH]; [reflexivity|]. cbn. destruct (Rle_dec (c * a) (c * b)) as [L|L], (Rle_dec a b) as [M|M]; try (exfalso; nra); [reflexivity|]. cbn. rewrite IH. reflexivity. }
  induction l as [|a l IH]; [reflexivity|]. cbn. rewrite IH. apply I.
Qed.
Lemma bandwidth_units n x a b r i : a <> 0 -> bandwidth n (fun j => a * x j + b) r i = option_map (Rmult (Rabs a)) (bandwidth n x r i).
Proof.
  intros Ha. unfold bandwidth. replace (map (fun j => Rabs (a * x j + b - (a * x i + b))) (seq 0 n)) with (map (Rmult (Rabs a)) (map (fun j => Rabs (x j - x i)) (seq 0 n))).
  - rewrite sort_scaled by (apply Rabs_pos_lt; exact Ha). unfold py_item. rewrite map_length. set (l := np_sort _). cbv zeta. destruct (_ <? 0)%Z; [reflexivity|]. symmetry. generalize (Z.to_nat (if (r <? 0)%Z then (r + Z.of_nat (length l))%Z else r)). clearbody l. intros k. revert k. induction l as [|c l IH]; intros [|k]; cbn; try reflexivity. apply IH.
  - rewrite map_map. apply map_ext. intros j. rewrite <- Rabs_mult. f_equal. ring.
Qed.
Lemma row_units n x y a b h i : a <> 0 -> 0 <= h -> loess_row n (fun j => a * x j + b) y (Rabs a * h) i = loess_row n x y h i.
Proof.
  intros Ha Hh. assert (A : 0 < Rabs a) by (apply Rabs_pos_lt; exact Ha). destruct Hh as [Hh|<-].
  2: { unfold loess_row. rewrite Rmult_0_r. destruct (Req_EM_T 0 0); [reflexivity|contradiction]. }
  assert (P : 0 < Rabs a * h) by nra. rewrite (row_eq n (fun j => a * x j + b) y i (Rabs a * h) P), (row_eq n x y i h Hh).
  assert (Wt : forall j, loess_weight (fun j => a * x j + b) (Rabs a * h) j i = loess_weight x h j i).
  { intros j. rewrite !weight_tricube by assumption. f_equal. cbv beta. replace (a * x j + b - (a * x i + b)) with (a * (x j - x i)) by ring. rewrite Rabs_mult. field. lra. }
  unfold beta0, beta1, det. rewrite !(rows_ext n (fun j => loess_weight (fun j => a * x j + b) (Rabs a * h) j i) (fun j => loess_weight x h j i)) by (intros; apply Wt).
  set (w := fun j => loess_weight x h j i).
  assert (E0 : rows_sum n (fun j => loess_weight (fun j => a * x j + b) (Rabs a * h) j i * y j) = rows_sum n (fun j => w j * y j)) by (apply rows_ext; intros; rewrite Wt; reflexivity).
  assert (E1 : rows_sum n (fun j => loess_weight (fun j => a * x j + b) (Rabs a * h) j i * y j * (a * x j + b)) = a * rows_sum n (fun j => w j * y j * x j) + b * rows_sum n (fun j => w j * y j)) by (rewrite <- !rows_scal, <- rows_plus; apply rows_ext; intros; rewrite Wt; unfold w; ring).
  assert (E2 : rows_sum n (fun j => loess_weight (fun j => a * x j + b) (Rabs a * h) j i * (a * x j + b)) = a * rows_sum n (fun j => w j * x j) + b * rows_sum n w) by (rewrite <- !rows_scal, <- rows_plus; apply rows_ext; intros; rewrite Wt; unfold w; ring).
  assert (E3 : rows_sum n (fun j => loess_weight (fun j => a * x j + b) (Rabs a * h) j i * (a * x j + b) * (a * x j + b)) = a ^ 2 * rows_sum n (fun j => w j * x j * x j) + (2 * a * b * rows_sum n (fun j => w j * x j) + b ^ 2 * rows_sum n w)) by (rewrite <- !rows_scal, <- !rows_plus; apply rows_ext; intros; rewrite Wt; unfold w; ring).
  rewrite E0, E1, E2, E3. change (rows_sum n (fun j => loess_weight x h j i)) with (rows_sum n w). change (rows_sum n (fun j => loess_weight x h j i * y j)) with (rows_sum n (fun j => w j * y j)). change (rows_sum n (fun j => loess_weight x h j i * x j)) with (rows_sum n (fun j => w j * x j)).
  change (rows_sum n (fun j => loess_weight x h j i * x j * x j)) with (rows_sum n (fun j => w j * x j * x j)). change (rows_sum n (fun j => loess_weight x h j i * y j * x j)) with (rows_sum n (fun j => w j * y j * x j)).
  set (a00 := rows_sum n w). set (a01 := rows_sum n (fun j => w j * x j)). set (a11 := rows_sum n (fun j => w j * x j * x j)). set (b0 := rows_sum n (fun j => w j * y j)). set (b1 := rows_sum n (fun j => w j * y j * x j)). clearbody a00 a01 a11 b0 b1.
  replace (a00 * (a ^ 2 * a11 + (2 * a * b * a01 + b ^ 2 * a00)) - (a * a01 + b * a00) * (a * a01 + b * a00)) with (a ^ 2 * (a00 * a11 - a01 * a01)) by ring.
  destruct (Req_EM_T (a ^ 2 * (a00 * a11 - a01 * a01)) 0) as [Z|Z], (Req_EM_T (a00 * a11 - a01 * a01) 0) as [Y|Y]; try reflexivity.
  - exfalso. apply Rmult_integral in Z. destruct Z as [Z|Z]; [|contradiction]. apply Ha. nra.
  - exfalso. apply Z. rewrite Y. ring.
  - f_equal. field. repeat split; assumption.
Qed.
(** the result does not depend on the unit and origin of the frequencies *)
Theorem C99_units : forall n x y f k a b, a <> 0 -> window_size f n k -> loess n (fun j => a * x j + b) y f = loess n x y f.
Proof.
  intros n x y f k a b Ha W. unfold loess. rewrite (window_is f n k W). assert (B : forall l, bandwidths n (fun j => a * x j + b) (Z.of_nat k) l = option_map (map (Rmult (Rabs a))) (bandwidths n x (Z.of_nat k) l)).
  { intros l. induction l as [|i l IH]; [reflexivity|]. cbn [bandwidths]. rewrite bandwidth_units, IH by exact Ha. destruct (bandwidth n x (Z.of_nat k) i); [|reflexivity]. destruct (bandwidths n x (Z.of_nat k) l); reflexivity. }
  rewrite B. destruct (bandwidths n x (Z.of_nat k) (seq 0 n)) as [hs|] eqn:E; [|reflexivity]. cbn [option_map]. apply bandwidths_spec in E. destruct E as [L E].
  assert (Pos : forall h, In h hs -> 0 <= h). { intros h Hh. apply In_nth_error in Hh. destruct Hh as [m Hm]. destruct (nth_error (seq 0 n) m) as [i|] eqn:F; [|apply nth_error_None in F; assert (m < length hs)%nat by (apply nth_error_Some; congruence); lia]. apply (kth_nonneg n x i k), bandwidth_spec. apply (E m); assumption. }
  clear E L. revert hs Pos. generalize (seq 0 n). intros l. induction l as [|i l IH]; intros [|h hs] Pos; try reflexivity. cbn [map combine loess_loop]. rewrite row_units by (try exact Ha; apply Pos; left; reflexivity). rewrite (IH hs) by (intros g Hg; apply Pos; right; exact Hg). reflexivity.
Qed.
Print Assumptions C99_units.
(** ---------- uniform grids ---------- *)
Definition grid (x0 d : R) (j : nat) : R := x0 + INR j * d.
Lemma how_many_bound n test (l : list nat) : (forall j, (j < n)%nat -> test j = true -> In j l) -> (how_many n test <= length l)%nat.
Proof. intros H. apply NoDup_incl_length; [apply NoDup_filter, seq_NoDup|]. intros j Hj. apply filter_In in Hj. destruct Hj as [Hj T]. apply in_seq in Hj. apply H; [lia|exact T]. Qed.
Lemma how_many_least n test (l : list nat) : NoDup l -> (forall j, In j l -> (j < n)%nat /\ test j = true) -> (length l <= how_many n test)%nat.
Proof. intros N H. apply NoDup_incl_length; [exact N|]. intros j Hj. apply filter_In. destruct (H j Hj) as [A B]. split; [apply in_seq; lia|exact B]. Qed.
Lemma grid_distance x0 d j i : Rabs (grid x0 d j - grid x0 d i) = Rabs (INR j - INR i) * Rabs d.
Proof. unfold grid. rewrite <- Rabs_mult. f_equal. ring. Qed.
Lemma grid_far i j : j <> i -> 1 <= Rabs (INR j - INR i).
Proof. intros H. destruct (Nat.lt_total j i) as [L|[L|L]]; [|contradiction|]; apply le_INR in L; rewrite S_INR in L; unfold Rabs; destruct (Rcase_abs _); lra. Qed.
Lemma grid_near i j : Rabs (INR j - INR i) <= 1 -> In j [i; S i; pred i].
Proof.
  intros H. destruct (Nat.lt_total j i) as [L|[->|L]]; [|left; reflexivity|].
  - right. right. left. destruct (Nat.lt_ge_cases (S j) i) as [K|K]; [|lia]. apply le_INR in K. rewrite !S_INR in K. unfold Rabs in H. destruct (Rcase_abs _); lra.
  - right. left. destruct (Nat.lt_ge_cases (S i) j) as [K|K]; [|lia]. apply le_INR in K. rewrite !S_INR in K. unfold Rabs in H. destruct (Rcase_abs _); lra.
Qed.
(** on equally spaced abscissas (the files written by the program) the smoothing gives a number in every row when the window holds at least three neighbours and fewer than all rows *)
Theorem C99_uniform_grid : forall n x0 d y f k, d <> 0 -> window_size f n k -> (3 <= k)%nat -> (k < n)%nat -> exists vs, loess n (grid x0 d) y f = Smooth (map Some vs) /\ length vs = n.
Proof.
  intros n x0 d y f k Hd W K3 Kn. assert (D : 0 < Rabs d) by (apply Rabs_pos_lt; exact Hd). apply loess_good. intros i Hi. rewrite (window_is f n k W). destruct (bandwidth_some n (grid x0 d) i k Kn) as [h B]. exists h.
  assert (S := bandwidth_spec _ _ _ _ _ B). assert (S' := S). destruct S' as [_ [_ C]].
  assert (L : Rabs d < h). { destruct (Rlt_dec (Rabs d) h) as [L|L]; [exact L|]. exfalso. assert (Q : (how_many n (within (grid x0 d) i h) <= length [i; Datatypes.S i; pred i])%nat).
    { apply how_many_bound. intros j Hj T. unfold within in T. destruct (Rle_dec _ h) as [T'|]; [|discriminate]. rewrite grid_distance in T'. apply grid_near. apply Rmult_le_reg_r with (Rabs d); [exact D|]. lra. }
    cbn in Q. lia. }
  assert (P : 0 < h) by lra. rewrite row_eq by exact P. assert (DP : 0 < det n (grid x0 d) i h).
  { apply det_pos_iff; [exact P|exact Hi|]. assert (G : exists j, (j < n)%nat /\ Rabs (INR j - INR i) = 1). { destruct i as [|i]; [exists 1%nat|exists i]; (split; [lia|]). - cbn. rewrite Rminus_0_r. apply Rabs_R1. - rewrite S_INR. replace (INR i - (INR i + 1)) with (-1) by ring. rewrite Rabs_left; lra. }
    destruct G as [j [Hj Ej]]. exists j. split; [exact Hj|]. assert (Dj := grid_distance x0 d j i). rewrite Ej, Rmult_1_l in Dj. split; [|lra]. intros F. rewrite F in Dj. replace (grid x0 d i - grid x0 d i) with 0 in Dj by ring. rewrite Rabs_R0 in Dj. lra. }
  destruct (Req_EM_T _ 0); [lra|]. eexists. split; [exact B|reflexivity].
Qed.
Print Assumptions C99_uniform_grid.
(** smaller windows hold no neighbour and the program stops with an error message about a singular matrix *)
Theorem C99_small_window_refuted : forall n x0 d y f k, d <> 0 -> window_size f n k -> (1 <= k <= 2)%nat -> (k < n)%nat -> loess n (grid x0 d) y f = LinAlgErrorRaised.
Proof.
  intros n x0 d y f k Hd W K Kn. assert (D : 0 < Rabs d) by (apply Rabs_pos_lt; exact Hd). assert (Hi : (1 < n)%nat) by lia. destruct (bandwidth_some n (grid x0 d) 1 k Kn) as [h B].
  apply (loess_bad n _ y f 1 h Hi); [intros i _; rewrite (window_is f n k W); apply bandwidth_some; exact Kn|rewrite (window_is f n k W); exact B|].
  assert (S := bandwidth_spec _ _ _ _ _ B). assert (S' := S). destruct S' as [_ [C1 C2]].
  assert (L : h <= Rabs d). { destruct (Rle_dec h (Rabs d)) as [L|L]; [exact L|]. exfalso.
    assert (T : forall j, (j <= 2)%nat -> closer (grid x0 d) 1 h j = true).
    { intros j Hj. unfold closer. destruct (Rlt_dec _ h) as [_|N]; [reflexivity|]. exfalso. apply N. rewrite grid_distance. assert (Rabs (INR j - INR 1) <= 1). { destruct j as [|[|[|j]]]; try lia; cbn; unfold Rabs; destruct (Rcase_abs _); lra. } nra. }
    destruct (Nat.eq_dec n 2) as [->|N2].
    - assert (Q : (length [0; 1]%nat <= how_many 2 (closer (grid x0 d) 1 h))%nat) by (apply how_many_least; [repeat constructor; cbn; lia|intros j [<-|[<-|[]]]; (split; [lia|apply T; lia])]). cbn [length] in Q. assert (k = 1%nat) by lia. lia.
    - assert (Q : (length [0; 1; 2]%nat <= how_many n (closer (grid x0 d) 1 h))%nat) by (apply how_many_least; [repeat constructor; cbn; lia|intros j [<-|[<-|[<-|[]]]]; (split; [lia|apply T; lia])]). cbn [length] in Q. lia. }
  assert (P : 0 < h). { assert (0 <= h) by (apply (kth_nonneg _ _ _ _ _ S)). destruct (Req_dec h 0) as [->|]; [|lra]. exfalso.
    assert (Q : (how_many n (within (grid x0 d) 1 0) <= length [1%nat])%nat). { apply how_many_bound. intros j Hj T. unfold within in T. destruct (Rle_dec _ 0) as [T'|]; [|discriminate]. rewrite grid_distance in T'. destruct (Nat.eq_dec j 1) as [->|Ne]; [left; reflexivity|]. assert (F := grid_far 1 j Ne). nra. }
    cbn [length] in Q. lia. }
  rewrite row_eq by exact P. destruct (Req_EM_T _ 0) as [_|N]; [reflexivity|]. exfalso. assert (DN := det_nonneg n (grid x0 d) 1 h P Hi). assert (DP : 0 < det n (grid x0 d) 1 h) by lra.
  apply (det_pos_iff n (grid x0 d) 1 h P Hi) in DP. destruct DP as [j [Hj [Ne Lj]]]. rewrite grid_distance in Lj. destruct (Nat.eq_dec j 1) as [->|Nj]; [apply Ne; reflexivity|]. assert (F := grid_far 1 j Nj). nra.
Qed.
Print Assumptions C99_small_window_refuted.
(** with the default factor (0.02) a file of equally spaced rows can be smoothed exactly when it has more than one hundred rows *)
Theorem C99_default_factor_refuted : forall n x0 d y, d <> 0 -> (2 <= n)%nat ->
  ((n <= 100)%nat -> loess n (grid x0 d) y (2 / 100) = LinAlgErrorRaised) /\ ((100 < n)%nat -> exists vs, loess n (grid x0 d) y (2 / 100) = Smooth (map Some vs) /\ length vs = n).
Proof.
  intros n x0 d y Hd Hn. assert (N2 := le_INR _ _ Hn). change (INR 2) with 2 in N2. assert (E100 : INR 100 = 100) by (rewrite INR_IZR_INZ; reflexivity). assert (E50 : INR 50 = 50) by (rewrite INR_IZR_INZ; reflexivity). split; intros H.
  - assert (N := le_INR _ _ H). rewrite E100 in N. destruct (Nat.le_gt_cases n 50) as [L|L].
    + apply (C99_small_window_refuted n x0 d y _ 1 Hd); [|lia|lia]. assert (M := le_INR _ _ L). rewrite E50 in M. unfold window_size. change (INR 1) with 1. lra.
    + apply (C99_small_window_refuted n x0 d y _ 2 Hd); [|lia|lia]. assert (M := lt_INR _ _ L). rewrite E50 in M. unfold window_size. change (INR 2) with 2. lra.
  - assert (N := lt_INR _ _ H). rewrite E100 in N. set (z := rceil (2 / 100 * INR n)). assert (Bz := rceil_bounds (2 / 100 * INR n)). fold z in Bz. assert (Z3 : (3 <= z)%Z). { apply Z.lt_pred_le. apply lt_IZR. cbn [Z.pred Z.add Z.opp Z.pos_sub Pos.pred_double]. lra. }
    assert (K : INR (Z.to_nat z) = IZR z) by (rewrite INR_IZR_INZ, Z2Nat.id by lia; reflexivity). apply (C99_uniform_grid n x0 d y _ (Z.to_nat z) Hd).
    + unfold window_size. rewrite K. lra.
    + lia.
    + apply INR_lt. rewrite K. lra.
Qed.
Print Assumptions C99_default_factor_refuted.
(** a factor of one or more (all rows in the window) always fails *)
Theorem C99_whole_range_refuted : forall n x y f, (0 < n)%nat -> 1 <= f -> loess n x y f = IndexError.
Proof.
  intros n x y f Hn Hf. set (z := window n f). assert (Bz := rceil_bounds (f * INR n)). fold (window n f) in Bz. fold z in Bz. assert (N := lt_INR _ _ Hn). change (INR 0) with 0 in N. assert (Zn : (Z.of_nat n <= z)%Z) by (apply le_IZR; rewrite <- INR_IZR_INZ; nra).
  unfold loess. fold z. rewrite <- (Z2Nat.id z) by lia. destruct n as [|m]; [lia|]. cbn [seq bandwidths]. rewrite bandwidth_none by lia. reflexivity.
Qed.
Print Assumptions C99_whole_range_refuted.
Example C99_nonvacuous : window_size (1 / 2) 6 3 /\ (exists vs, loess 6 (grid 0 (1 / 10)) (fun j => INR j ^ 2) (1 / 2) = Smooth (map Some vs) /\ length vs = 6%nat) /\ loess 6 (grid 0 (1 / 10)) (fun j => INR j ^ 2) (2 / 100) = LinAlgErrorRaised.
Proof.
  assert (W : window_size (1 / 2) 6 3) by (unfold window_size; cbn; lra). split; [exact W|]. split; [apply (C99_uniform_grid 6 0 (1 / 10) _ _ 3); [lra|exact W|lia|lia]|]. apply C99_default_factor_refuted; [lra|lia|lia].
Qed.
