(** The cofactor inverse of displacements.c is an inverse in every dimension n >= 2: bridge to
    mathcomp's determinant theory. *)
From Coq Require Import Reals Lra Lia ClassicalEpsilon FunctionalExtensionality.
From Verif Require Import DisplacementsModel.
Open Scope R_scope.
Lemma rsum_ext m f g : (forall k, f k = g k) -> rsum m f = rsum m g.
Proof. intros H. induction m as [|m IH]; simpl; [reflexivity|rewrite IH, H; reflexivity]. Qed.
Lemma rsum_div m f d : rsum m (fun k => f k / d) = rsum m f / d.
Proof. induction m as [|m IH]; simpl; [|rewrite IH]; unfold Rdiv; ring. Qed.
Lemma delta_div (b : bool) d : d <> 0 -> (if b then d else 0) / d = if b then 1 else 0.
Proof. intros H; destruct b; field; assumption. Qed.
Lemma div_mul_r (x y d : R) : x / d * y = x * y / d.
Proof. unfold Rdiv; ring. Qed.
Lemma div_mul_l (x y d : R) : y * (x / d) = y * x / d.
Proof. unfold Rdiv; ring. Qed.
From mathcomp Require Import all_ssreflect all_algebra.
Import GRing.Theory.
Set Implicit Arguments.
Unset Strict Implicit.
Unset Printing Implicit Defensive.

Definition R_eqb (x y : R) : bool := if Req_EM_T x y then true else false.
Lemma R_eqP : Equality.axiom R_eqb.
Proof. by move=> x y; rewrite /R_eqb; case: Req_EM_T => h; constructor. Qed.
Canonical R_eqMixin := EqMixin R_eqP.
Canonical R_eqType := Eval hnf in EqType R R_eqMixin.

Definition pickR (P : pred R) (n : nat) : option R :=
  match excluded_middle_informative (exists x, P x) with
  | left e => Some (proj1_sig (constructive_indefinite_description _ e))
  | right _ => None
  end.
Lemma pickR_some P n x : pickR P n = Some x -> P x.
Proof. rewrite /pickR; case: excluded_middle_informative => // e [<-]. by case: constructive_indefinite_description. Qed.
Lemma pickR_ex (P : pred R) : (exists x, P x) -> exists n, pickR P n.
Proof. by move=> H; exists 0%N; rewrite /pickR; case: excluded_middle_informative. Qed.
Lemma pickR_ext (P Q : pred R) : P =1 Q -> pickR P =1 pickR Q.
Proof. by move=> PEQ n; have -> : P = Q by apply: functional_extensionality_dep. Qed.
Definition R_choiceMixin : choiceMixin R := Choice.Mixin pickR_some pickR_ex pickR_ext.
Canonical R_choiceType := Eval hnf in ChoiceType R R_choiceMixin.

Lemma RplusA : associative Rplus. Proof. by move=> *; rewrite Rplus_assoc. Qed.
Lemma RplusC : commutative Rplus. Proof. by move=> *; rewrite Rplus_comm. Qed.
Lemma Rplus0 : left_id R0 Rplus. Proof. by move=> *; rewrite Rplus_0_l. Qed.
Lemma RplusN : left_inverse R0 Ropp Rplus. Proof. by move=> *; rewrite Rplus_opp_l. Qed.
Definition R_zmodMixin := ZmodMixin RplusA RplusC Rplus0 RplusN.
Canonical R_zmodType := Eval hnf in ZmodType R R_zmodMixin.
Lemma RmultA : associative Rmult. Proof. by move=> *; rewrite Rmult_assoc. Qed.
Lemma RmultC : commutative Rmult. Proof. by move=> *; rewrite Rmult_comm. Qed.
Lemma Rmult1 : left_id R1 Rmult. Proof. by move=> *; rewrite Rmult_1_l. Qed.
Lemma RmultD : left_distributive Rmult Rplus. Proof. by move=> *; rewrite Rmult_plus_distr_r. Qed.
Lemma R1_neq_0 : R1 != R0. Proof. by apply/eqP/R1_neq_R0. Qed.
Definition R_ringMixin := ComRingMixin RmultA RmultC Rmult1 RmultD R1_neq_0.
Canonical R_ringType := Eval hnf in RingType R R_ringMixin.
Canonical R_comRingType := Eval hnf in ComRingType R RmultC.

Delimit Scope R_scope with Re.
Open Scope ring_scope.

Lemma rsum_big n f : rsum n f = \sum_(i < n) f i.
Proof. by elim: n => [|n IH]; rewrite ?big_ord0 // big_ord_recr /= IH. Qed.

Lemma pow_exp (x : R) n : pow x n = x ^+ n.
Proof. by elim: n => [|n IH] //=; rewrite exprS IH. Qed.
Lemma pow_neg1 n : pow (-1)%Re n = (-1) ^+ n.
Proof. by rewrite pow_exp; congr (_ ^+ _). Qed.

Definition mx (n : nat) (a : nat -> nat -> R) : 'M[R]_n := \matrix_(i, j) a i j.

Lemma ltb_ltn m n : Nat.ltb m n = (m < n)%N.
Proof. by apply/idP/idP => [/Nat.ltb_lt/ltP|/ltP/Nat.ltb_lt]. Qed.

Lemma mx_minor n a (i j : 'I_n.+1) : row' i (col' j (mx n.+1 a)) = mx n (minor i j a).
Proof.
  apply/matrixP => p q; rewrite !mxE /minor /= !ltb_ltn /bump.
  by congr (a _ _); case: leqP.
Qed.

Lemma Determinant_rec n a : (Determinant n.+3 a =
  rsum n.+3 (fun j => pow (-1) (j + 2) * a 0%N j * Determinant n.+2 (minor 0 j a)))%Re.
Proof. by []. Qed.

Lemma Determinant_det n a : Determinant n.+1 a = \det (mx n.+1 a).
Proof.
  elim: n a => [|n IH] a; first by rewrite det_mx11 mxE.
  case: n IH => [|n] IH.
  - rewrite (expand_det_row _ ord0) !big_ord_recl big_ord0 /cofactor !mx_minor !det_mx11 !mxE /= /minor /=.
    rewrite /bump /= expr0 expr1 addr0 !mul1r.
    rewrite addn0 -[RHS]/(Rplus (Rmult (a 0%N 0%N) (a 1%N 1%N)) (Rmult (a 0%N 1%N) (Rmult (Ropp R1) (a 1%N 0%N)))).
    rewrite /= ; lra.
  - rewrite Determinant_rec rsum_big (expand_det_row _ ord0); apply: eq_bigr => j _.
    rewrite /cofactor mx_minor -IH mxE -!/(Rmult _ _) pow_neg1 /= exprD sqrrN expr1n mulr1.
    rewrite add0n. change Rmult with (@GRing.mul R_ringType). by rewrite -mulrA mulrCA mulrA.
Qed.

Lemma CoFactor_cofactor n a (i j : 'I_n.+2) : CoFactor n.+2 a i j = cofactor (mx n.+2 a) i j.
Proof.
  rewrite /CoFactor /cofactor mx_minor -Determinant_det pow_neg1 (exprD _ (i + j) 2) sqrrN expr1n mulr1.
  by rewrite -[(n.+2 - 1)%coq_nat]/(n.+2 - 1)%N subn1.
Qed.

Lemma inverse_left n a : (Determinant n.+2 a <> 0)%Re -> forall i j, (i < n.+2)%N -> (j < n.+2)%N ->
  rsum n.+2 (fun k => matrix_inverse n.+2 a i k * a k j)%Re = if Nat.eqb i j then 1%Re else 0%Re.
Proof.
  move=> D i j Hi Hj.
  have E : rsum n.+2 (fun k => CoFactor n.+2 a k i * a k j)%Re = (if Nat.eqb i j then Determinant n.+2 a else 0)%Re.
  { rewrite rsum_big Determinant_det.
    have := congr1 (fun M : 'M_n.+2 => M (Ordinal Hi) (Ordinal Hj)) (mul_adj_mx (mx n.+2 a)).
    rewrite !mxE => H. rewrite -[RHS]/(if Nat.eqb i j then \det (mx n.+2 a) else 0).
    transitivity (\det (mx n.+2 a) *+ (Ordinal Hi == Ordinal Hj)).
    - rewrite -H; apply: eq_bigr => k _. rewrite !mxE. by rewrite -CoFactor_cofactor.
    - rewrite -[Ordinal Hi == Ordinal Hj]/(i == j).
      by case: eqP => [->|N]; rewrite ?Nat.eqb_refl ?mulr1n ?mulr0n //; move/Nat.eqb_neq: N => ->. }
  transitivity (rsum n.+2 (fun k => ((CoFactor n.+2 a k i * a k j) / Determinant n.+2 a))%Re).
  - apply: rsum_ext => k; rewrite /matrix_inverse ?div_mul_r ?div_mul_l //.
  - by rewrite rsum_div E delta_div.
Qed.
Lemma inverse_right n a : (Determinant n.+2 a <> 0)%Re -> forall i j, (i < n.+2)%N -> (j < n.+2)%N ->
  rsum n.+2 (fun k => a i k * matrix_inverse n.+2 a k j)%Re = if Nat.eqb i j then 1%Re else 0%Re.
Proof.
  move=> D i j Hi Hj.
  have E : rsum n.+2 (fun k => a i k * CoFactor n.+2 a j k)%Re = (if Nat.eqb i j then Determinant n.+2 a else 0)%Re.
  { rewrite rsum_big Determinant_det.
    have := congr1 (fun M : 'M_n.+2 => M (Ordinal Hi) (Ordinal Hj)) (mul_mx_adj (mx n.+2 a)).
    rewrite !mxE => H. rewrite -[RHS]/(if Nat.eqb i j then \det (mx n.+2 a) else 0).
    transitivity (\det (mx n.+2 a) *+ (Ordinal Hi == Ordinal Hj)).
    - rewrite -H; apply: eq_bigr => k _. rewrite !mxE. by rewrite -CoFactor_cofactor.
    - rewrite -[Ordinal Hi == Ordinal Hj]/(i == j).
      by case: eqP => [->|N]; rewrite ?Nat.eqb_refl ?mulr1n ?mulr0n //; move/Nat.eqb_neq: N => ->. }
  transitivity (rsum n.+2 (fun k => ((a i k * CoFactor n.+2 a j k) / Determinant n.+2 a))%Re).
  - apply: rsum_ext => k; rewrite /matrix_inverse ?div_mul_r ?div_mul_l //.
  - by rewrite rsum_div E delta_div.
Qed.
(** the determinant is multiplicative-normalised: it is the determinant of mathcomp (Leibniz formula) *)
Lemma inverse_left_nat n a : (2 <= n)%coq_nat -> (Determinant n a <> 0)%Re ->
  forall i j, (i < n)%coq_nat -> (j < n)%coq_nat ->
  rsum n (fun k => matrix_inverse n a i k * a k j)%Re = if Nat.eqb i j then 1%Re else 0%Re.
Proof.
  case: n => [|[|n]] Hn D i j Hi Hj; try lia. by apply: inverse_left => //; apply/ltP.
Qed.
Lemma inverse_right_nat n a : (2 <= n)%coq_nat -> (Determinant n a <> 0)%Re ->
  forall i j, (i < n)%coq_nat -> (j < n)%coq_nat ->
  rsum n (fun k => a i k * matrix_inverse n a k j)%Re = if Nat.eqb i j then 1%Re else 0%Re.
Proof.
  case: n => [|[|n]] Hn D i j Hi Hj; try lia. by apply: inverse_right => //; apply/ltP.
Qed.
