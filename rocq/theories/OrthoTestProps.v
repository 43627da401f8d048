(** C125: the option test_orthonormal ("Making sure eigenvectors are orthonormal", phonopy_link.py:177-183) *)
From Verif Require Import OrthoTestModel UnitaryBridge ProjectionSpec ProjectionProofs PhonopyLinkProofs.
From Coq Require Import Lra Lia.
From Coquelicot Require Import Complex.
Open Scope R_scope.

(** ---------- specification ---------- *)
(** component d of the atom i in the returned mode k *)
Definition component (modes : list (list (list C))) (k i d : nat) : C := nth d (nth i (nth k modes []) []) (RtoC 0).
(** the eigenvectors are the columns of the matrix; scalar product of two columns *)
Definition column_product (n : nat) (ev : nat -> nat -> C) (k l : nat) : C := csum n (fun r => Cmult (ev r k) (Cconj (ev r l))).
Definition orthogonal_columns (n : nat) (ev : nat -> nat -> C) : Prop := forall k l, (k < n)%nat -> (l < n)%nat -> k <> l -> column_product n ev k l = RtoC 0.
(** squared length of a column *)
Definition column_square (n : nat) (ev : nat -> nat -> C) (k : nat) : R := sum_squares n (fun r => ev r k).
(** the modes that move one and the same coordinate of one atom have the same length *)
Definition shared_coordinates_same_length (n : nat) (ev : nat -> nat -> C) : Prop :=
  forall r k l, (r < n)%nat -> (k < n)%nat -> (l < n)%nat -> ev r k <> RtoC 0 -> ev r l <> RtoC 0 -> column_square n ev k = column_square n ev l.

(** ---------- proofs ---------- *)
Lemma sum_squares_C n f : RtoC (sum_squares n f) = csum n (fun i => Cmult (f i) (Cconj (f i))).
Proof. induction n as [|n IH]; cbn [sum_squares csum]; [reflexivity|]. rewrite RtoC_plus, IH, Cmod2. reflexivity. Qed.
Lemma sum_squares_nonneg n f : 0 <= sum_squares n f.
Proof. induction n as [|n IH]; cbn [sum_squares]; [lra|]. assert (H := pow2_ge_0 (Cmod (f n))). lra. Qed.
Lemma sum_squares_ext n f g : (forall i, (i < n)%nat -> f i = g i) -> sum_squares n f = sum_squares n g.
Proof. induction n as [|n IH]; intros H; cbn [sum_squares]; [reflexivity|]. rewrite IH, H by (try lia; intros; apply H; lia). reflexivity. Qed.
Lemma sum_squares_0 n f : (forall i, (i < n)%nat -> f i = RtoC 0) -> sum_squares n f = 0.
Proof. induction n as [|n IH]; intros H; cbn [sum_squares]; [reflexivity|]. rewrite IH, H by (try lia; intros; apply H; lia). rewrite Cmod_0. ring. Qed.
Lemma normalisation_at n ev r c : (r < n)%nat -> eigenvectors_normalization n ev r c = Cdiv (ev r c) (RtoC (row_norm n ev r)).
Proof.
  intros Hr. unfold eigenvectors_normalization.
  assert (G : forall m k ev', (forall r c, (r < k)%nat -> ev' r c = Cdiv (ev r c) (RtoC (row_norm n ev r))) -> (forall r c, (k <= r)%nat -> ev' r c = ev r c) ->
    forall r c, (r < k + m)%nat -> fold_left (normalise_row n) (seq k m) ev' r c = Cdiv (ev r c) (RtoC (row_norm n ev r))).
  { induction m as [|m IH]; intros k ev' H1 H2 r' c' Hr'; cbn [seq fold_left]; [apply H1; lia|]. apply IH; [| |lia].
    - intros r2 c2 H. unfold normalise_row. destruct (Nat.eqb_spec r2 k) as [->|N]; [|apply H1; lia].
      rewrite H2 by lia. f_equal. f_equal. unfold row_norm. f_equal. apply sum_squares_ext. intros j _. apply H2. lia.
    - intros r2 c2 H. unfold normalise_row. destruct (Nat.eqb_spec r2 k) as [->|N]; [lia|apply H2; lia]. }
  apply (G n 0%nat ev); [intros; lia|reflexivity|lia].
Qed.
Lemma arranged_at nprim ev k i d : (k < nprim * 3)%nat -> (i < nprim)%nat -> (d < 3)%nat -> component (arrange_eigenvectors 3 nprim ev) k i d = ev (i * 3 + d)%nat k.
Proof.
  intros Hk Hi Hd. unfold component, arrange_eigenvectors.
  rewrite (nth_indep _ [] (map (fun j => map (fun k0 => ev (j * 3 + k0)%nat 0%nat) (seq 0 3)) (seq 0 nprim))) by (rewrite map_length, seq_length; exact Hk).
  rewrite (map_nth (fun i => map (fun j => map (fun k => ev (j * 3 + k)%nat i) (seq 0 3)) (seq 0 nprim))), seq_nth by exact Hk. cbn [Nat.add].
  rewrite (nth_indep _ [] (map (fun k0 => ev (0 * 3 + k0)%nat k) (seq 0 3))) by (rewrite map_length, seq_length; exact Hi).
  rewrite (map_nth (fun j => map (fun k0 => ev (j * 3 + k0)%nat k) (seq 0 3))), seq_nth by exact Hi.
  rewrite (nth_indep _ (RtoC 0) (ev (i * 3 + 0)%nat k)) by (rewrite map_length, seq_length; exact Hd).
  rewrite (map_nth (fun k0 => ev (i * 3 + k0)%nat k)), seq_nth by exact Hd. reflexivity.
Qed.
Lemma orthonormal_arranged nprim ev : orthonormal nprim 3 (nprim * 3) (component (arrange_eigenvectors 3 nprim ev)) <->
  (forall k l, (k < nprim * 3)%nat -> (l < nprim * 3)%nat -> column_product (nprim * 3) ev k l = if (k =? l)%nat then RtoC 1 else RtoC 0).
Proof.
  assert (E : forall k l, (k < nprim * 3)%nat -> (l < nprim * 3)%nat ->
    csum nprim (fun i => csum 3 (fun d => Cmult (component (arrange_eigenvectors 3 nprim ev) k i d) (Cconj (component (arrange_eigenvectors 3 nprim ev) l i d)))) = column_product (nprim * 3) ev k l).
  { intros k l Hk Hl. unfold column_product. rewrite <- csum_flat. apply csum_ext. intros i Hi. apply csum_ext. intros d Hd. rewrite !arranged_at by assumption. reflexivity. }
  split; intros H k l Hk Hl; [rewrite <- E by assumption; apply H; assumption|rewrite E by assumption; apply H; assumption].
Qed.
Section Matrix.
Context (n : nat) (ev : nat -> nat -> C) (Ho : orthogonal_columns n ev) (Hz : forall k, (k < n)%nat -> column_square n ev k <> 0).
Let d k := column_square n ev k.
Lemma d_pos k : (k < n)%nat -> 0 < d k.
Proof. intros Hk. assert (G := sum_squares_nonneg n (fun r => ev r k)). assert (Z := Hz k Hk). unfold d, column_square in *. lra. Qed.
Lemma self_product k : column_product n ev k k = RtoC (d k).
Proof. unfold d, column_square. rewrite sum_squares_C. reflexivity. Qed.
(** rows of the normalised matrix are orthonormal *)
Lemma rows_complete i j : (i < n)%nat -> (j < n)%nat -> csum n (fun k => Cmult (Cmult (Cconj (ev i k)) (ev j k)) (RtoC (/ d k))) = if (i =? j)%nat then RtoC 1 else RtoC 0.
Proof.
  intros Hi Hj. rewrite <- (@columns_orthonormal n (fun k r => Cmult (ev r k) (RtoC (/ sqrt (d k)))) ) with (i := i) (j := j); try assumption.
  - apply csum_ext. intros k Hk. assert (P := d_pos k Hk). rewrite Cmult_conj'.
    replace (/ d k) with (/ sqrt (d k) * / sqrt (d k)) by (rewrite <- Rinv_mult, sqrt_sqrt; [reflexivity|lra]).
    rewrite RtoC_mult. replace (Cconj (RtoC (/ sqrt (d k)))) with (RtoC (/ sqrt (d k))) by (apply injective_projections; cbn; ring). ring.
  - intros k l Hk Hl. assert (P := d_pos k Hk). assert (Pl := d_pos l Hl).
    rewrite (csum_ext n _ (fun r => Cmult (Cmult (ev r k) (Cconj (ev r l))) (RtoC (/ sqrt (d k) * / sqrt (d l))))).
    + rewrite csum_scal_r. fold (column_product n ev k l). destruct (Nat.eqb_spec k l) as [->|N].
      * rewrite self_product, <- RtoC_mult. f_equal. rewrite <- Rinv_mult, sqrt_sqrt by lra. field. lra.
      * rewrite (Ho k l Hk Hl N). ring.
    + intros r _. rewrite Cmult_conj', RtoC_mult. replace (Cconj (RtoC (/ sqrt (d l)))) with (RtoC (/ sqrt (d l))) by (apply injective_projections; cbn; ring). ring.
Qed.
Lemma row_square r : (r < n)%nat -> (forall k l, (k < n)%nat -> (l < n)%nat -> ev r k <> RtoC 0 -> ev r l <> RtoC 0 -> d k = d l) ->
  forall k, (k < n)%nat -> ev r k <> RtoC 0 -> sum_squares n (ev r) = d k.
Proof.
  intros Hr Hs k Hk Hnz. assert (P := d_pos k Hk). apply RtoC_inj'. rewrite sum_squares_C.
  assert (G := rows_complete r r Hr Hr). rewrite Nat.eqb_refl in G.
  rewrite (csum_ext n _ (fun l => Cmult (RtoC (d k)) (Cmult (Cmult (Cconj (ev r l)) (ev r l)) (RtoC (/ d l))))).
  - rewrite csum_scal, G. ring.
  - intros l Hl. assert (Pl := d_pos l Hl). destruct (Ceq_dec (ev r l) (RtoC 0)) as [->|N]; [ring|].
    rewrite (Hs k l Hk Hl Hnz N). transitivity (Cmult (Cmult (Cconj (ev r l)) (ev r l)) (Cmult (RtoC (d l)) (RtoC (/ d l)))); [|ring].
    rewrite <- RtoC_mult, Rinv_r by lra. ring.
Qed.
Lemma row_nonzero r : (r < n)%nat -> 0 < sum_squares n (ev r).
Proof.
  intros Hr. assert (G := rows_complete r r Hr Hr). rewrite Nat.eqb_refl in G. assert (S := sum_squares_nonneg n (ev r)).
  destruct (Req_dec (sum_squares n (ev r)) 0) as [E|E]; [exfalso|lra].
  assert (Z : forall m, sum_squares m (ev r) = 0 -> forall k, (k < m)%nat -> ev r k = RtoC 0).
  { induction m as [|m IH]; intros H k Hk; [lia|]. cbn [sum_squares] in H. assert (A := sum_squares_nonneg m (ev r)). assert (B := pow2_ge_0 (Cmod (ev r m))).
    destruct (Nat.eq_dec k m) as [->|N]; [|apply IH; [lra|lia]]. apply Cmod_eq_0. assert (Q : Cmod (ev r m) ^ 2 = 0) by lra. assert (R := Cmod_ge_0 (ev r m)). nra. }
  rewrite (csum_ext n _ (fun _ => RtoC 0)) in G by (intros k Hk; rewrite (Z n E k Hk); ring). rewrite csum_0 in G. apply RtoC_inj' in G. lra.
Qed.
Let B r c := Cdiv (ev r c) (RtoC (row_norm n ev r)).
Lemma product_B k l : column_product n B k l = csum n (fun r => Cmult (RtoC (/ sum_squares n (ev r))) (Cmult (ev r k) (Cconj (ev r l)))).
Proof.
  unfold column_product, B. apply csum_ext. intros r Hr. assert (P := row_nonzero r Hr). assert (S : 0 < row_norm n ev r) by (apply sqrt_lt_R0; exact P).
  unfold Cdiv. rewrite <- RtoC_inv by lra. rewrite Cmult_conj'. replace (Cconj (RtoC (/ row_norm n ev r))) with (RtoC (/ row_norm n ev r)) by (apply injective_projections; cbn; ring).
  replace (/ sum_squares n (ev r)) with (/ row_norm n ev r * / row_norm n ev r) by (rewrite <- Rinv_mult; unfold row_norm; rewrite sqrt_sqrt; [reflexivity|lra]).
  rewrite RtoC_mult. ring.
Qed.
Lemma normalised_iff : (forall k l, (k < n)%nat -> (l < n)%nat -> column_product n B k l = if (k =? l)%nat then RtoC 1 else RtoC 0) <-> shared_coordinates_same_length n ev.
Proof.
  split.
  - intros H.
    assert (K : forall j l, (j < n)%nat -> (l < n)%nat -> ev j l <> RtoC 0 -> sum_squares n (ev j) = d l).
    { intros j l Hj Hl Hnz.
      assert (E : Cmult (RtoC (/ sum_squares n (ev j))) (Cconj (ev j l)) = Cmult (RtoC (/ d l)) (Cconj (ev j l))).
      { transitivity (csum n (fun k => Cmult (Cmult (Cconj (ev j k)) (RtoC (/ d k))) (column_product n B k l))).
        - rewrite (csum_ext n _ (fun k => csum n (fun r => Cmult (Cmult (RtoC (/ sum_squares n (ev r))) (Cconj (ev r l))) (Cmult (Cmult (Cconj (ev j k)) (ev r k)) (RtoC (/ d k)))))).
          + rewrite csum_swap. rewrite (csum_ext n _ (fun r => if (j =? r)%nat then Cmult (RtoC (/ sum_squares n (ev r))) (Cconj (ev r l)) else RtoC 0)).
            * symmetry. exact (csum_delta n j (fun r => Cmult (RtoC (/ sum_squares n (ev r))) (Cconj (ev r l))) Hj).
            * intros r Hr. rewrite csum_scal, (rows_complete j r Hj Hr). destruct (j =? r)%nat; ring.
          + intros k _. rewrite product_B, <- csum_scal. apply csum_ext. intros r _. ring.
        - rewrite (csum_ext n _ (fun k => if (l =? k)%nat then Cmult (Cconj (ev j k)) (RtoC (/ d k)) else RtoC 0)).
          + rewrite (csum_delta n l (fun k => Cmult (Cconj (ev j k)) (RtoC (/ d k))) Hl). ring.
          + intros k Hk. rewrite (H k l Hk Hl), (Nat.eqb_sym l k). destruct (k =? l)%nat; ring. }
      assert (Pd := d_pos l Hl). assert (Pr := row_nonzero j Hj).
      assert (Hc : Cconj (ev j l) <> RtoC 0). { intros C0. apply Hnz. rewrite <- (Cconj_conj' (ev j l)), C0. apply injective_projections; cbn; ring. }
      assert (F : RtoC (/ sum_squares n (ev j)) = RtoC (/ d l)).
      { transitivity (Cmult (Cmult (RtoC (/ sum_squares n (ev j))) (Cconj (ev j l))) (Cinv (Cconj (ev j l)))).
        - rewrite <- Cmult_assoc, Cinv_r by exact Hc. ring.
        - rewrite E, <- Cmult_assoc, Cinv_r by exact Hc. ring. }
      apply RtoC_inj' in F. rewrite <- (Rinv_inv (sum_squares n (ev j))), F, Rinv_inv. reflexivity. }
    intros r k l Hr Hk Hl N1 N2. change (d k = d l). rewrite <- (K r k Hr Hk N1). exact (K r l Hr Hl N2).
  - intros H k l Hk Hl. rewrite product_B.
    rewrite (csum_ext n _ (fun r => Cmult (RtoC (/ d k)) (Cmult (ev r k) (Cconj (ev r l))))).
    + rewrite csum_scal. fold (column_product n ev k l). destruct (Nat.eqb_spec k l) as [->|N].
      * rewrite self_product, <- RtoC_mult, Rinv_l; [reflexivity|]. apply Hz, Hl.
      * rewrite (Ho k l Hk Hl N). ring.
    + intros r Hr. destruct (Ceq_dec (ev r k) (RtoC 0)) as [->|Nz]; [ring|].
      rewrite (row_square r Hr (fun a b Ha Hb => H r a b Hr Ha Hb) k Hk Nz). reflexivity.
Qed.
End Matrix.

(** when the eigenvectors are orthonormal, as those of phonopy, the option changes nothing *)
Theorem C125_orthonormal_unchanged_partial : forall nprim ev k i d,
  (forall a b, (a < nprim * 3)%nat -> (b < nprim * 3)%nat -> column_product (nprim * 3) ev a b = if (a =? b)%nat then RtoC 1 else RtoC 0) ->
  (k < nprim * 3)%nat -> (i < nprim)%nat -> (d < 3)%nat ->
  component (obtain_eigenvectors nprim true ev) k i d = component (obtain_eigenvectors nprim false ev) k i d.
Proof.
  intros nprim ev k i d Ho Hk Hi Hd. unfold obtain_eigenvectors. rewrite !arranged_at by assumption.
  assert (Hr : (i * 3 + d < nprim * 3)%nat) by lia. rewrite normalisation_at by exact Hr.
  assert (E : sum_squares (nprim * 3) (ev (i * 3 + d)%nat) = 1).
  { apply RtoC_inj'. rewrite sum_squares_C.
    assert (G := @columns_orthonormal (nprim * 3) (fun a r => ev r a) Ho (i * 3 + d)%nat (i * 3 + d)%nat Hr Hr). cbv beta in G. rewrite Nat.eqb_refl in G. rewrite <- G.
    apply csum_ext. intros j _. ring. }
  unfold row_norm. rewrite E, sqrt_1. unfold Cdiv. rewrite <- RtoC_inv by lra. rewrite Rinv_1. ring.
Qed.
Print Assumptions C125_orthonormal_unchanged_partial.
(** for orthogonal eigenvectors of any non zero lengths, what the option returns is orthonormal exactly when modes that share a moving coordinate already have
    the same length: the rows of the matrix are divided by their norms, the eigenvectors are its columns *)
Theorem C125_exactly_when_partial : forall nprim ev,
  orthogonal_columns (nprim * 3) ev -> (forall k, (k < nprim * 3)%nat -> column_square (nprim * 3) ev k <> 0) ->
  orthonormal nprim 3 (nprim * 3) (component (obtain_eigenvectors nprim true ev)) <-> shared_coordinates_same_length (nprim * 3) ev.
Proof.
  intros nprim ev Ho Hz. rewrite <- (normalised_iff (nprim * 3) ev Ho Hz). unfold obtain_eigenvectors. rewrite orthonormal_arranged.
  assert (E : forall k l, column_product (nprim * 3) (eigenvectors_normalization (nprim * 3) ev) k l = column_product (nprim * 3) (fun r c => Cdiv (ev r c) (RtoC (row_norm (nprim * 3) ev r))) k l).
  { intros k l. unfold column_product. apply csum_ext. intros r Hr. rewrite !normalisation_at by exact Hr. reflexivity. }
  split; intros H k l Hk Hl; [rewrite <- E|rewrite E]; apply H; assumption.
Qed.
Print Assumptions C125_exactly_when_partial.
(** so the claim is false for every orthogonal set in which two modes of different lengths move the same coordinate of an atom *)
Theorem C125_not_orthonormal_refuted : forall nprim ev r k l,
  orthogonal_columns (nprim * 3) ev -> (forall k, (k < nprim * 3)%nat -> column_square (nprim * 3) ev k <> 0) ->
  (r < nprim * 3)%nat -> (k < nprim * 3)%nat -> (l < nprim * 3)%nat -> ev r k <> RtoC 0 -> ev r l <> RtoC 0 -> column_square (nprim * 3) ev k <> column_square (nprim * 3) ev l ->
  ~ orthonormal nprim 3 (nprim * 3) (component (obtain_eigenvectors nprim true ev)).
Proof.
  intros nprim ev r k l Ho Hz Hr Hk Hl N1 N2 D H. apply (C125_exactly_when_partial nprim ev Ho Hz) in H. exact (D (H r k l Hr Hk Hl N1 N2)).
Qed.
Print Assumptions C125_not_orthonormal_refuted.
(** (1,1,0), (2,-2,0), (0,0,1): orthogonal, and the option does not make them orthonormal; twice the unit matrix: it does *)
Example C125_nonvacuous :
  let ev (r c : nat) : C := RtoC (nth c (nth r [[1; 2; 0]; [1; -2; 0]; [0; 0; 1]] []) 0) in
  orthogonal_columns 3 ev /\ (forall k, (k < 3)%nat -> column_square 3 ev k <> 0) /\ ~ orthonormal 1 3 3 (component (obtain_eigenvectors 1 true ev)) /\
  let two (r c : nat) : C := RtoC (nth c (nth r [[2; 0; 0]; [0; 2; 0]; [0; 0; 2]] []) 0) in orthonormal 1 3 3 (component (obtain_eigenvectors 1 true two)).
Proof.
  intros ev. assert (Q : forall x, Cmod (RtoC x) ^ 2 = x ^ 2) by (intros x; rewrite Cmod_R; apply pow2_abs).
  assert (Ho : orthogonal_columns 3 ev).
  { intros k l Hk Hl N. unfold column_product, ev. cbn [csum]. destruct k as [|[|[|k]]], l as [|[|[|l]]]; try lia; cbn [nth]; apply injective_projections; cbn; ring. }
  assert (Hs : column_square 3 ev 0 = 2 /\ column_square 3 ev 1 = 8 /\ column_square 3 ev 2 = 1) by (unfold column_square, ev; cbn [sum_squares nth]; rewrite !Q; repeat split; ring).
  assert (Hz : forall k, (k < 3)%nat -> column_square 3 ev k <> 0) by (intros k Hk; destruct k as [|[|[|k]]]; try lia; lra).
  split; [exact Ho|]. split; [exact Hz|]. split.
  - apply (C125_not_orthonormal_refuted 1 ev 0 0 1 Ho Hz); try lia.
    + unfold ev. cbn [nth]. intros E. apply RtoC_inj' in E. lra.
    + unfold ev. cbn [nth]. intros E. apply RtoC_inj' in E. lra.
    + change (1 * 3)%nat with 3%nat. lra.
  - intros two. apply (C125_exactly_when_partial 1 two); cbn [Nat.mul Nat.add].
    + intros k l Hk Hl N. unfold column_product, two. cbn [csum]. destruct k as [|[|[|k]]], l as [|[|[|l]]]; try lia; cbn [nth]; apply injective_projections; cbn; ring.
    + intros k Hk. unfold column_square, two. cbn [sum_squares]. rewrite !Q. destruct k as [|[|[|k]]]; try lia; cbn [nth]; lra.
    + intros r k l Hr Hk Hl _ _. unfold column_square, two. cbn [sum_squares]. rewrite !Q. destruct k as [|[|[|k]]], l as [|[|[|l]]]; try lia; cbn [nth]; ring.
Qed.
