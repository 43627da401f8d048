(** Rows of a square complex matrix orthonormal => columns orthonormal (mathcomp's mulmx1C). *)
From Coq Require Import Reals Lra Lia ClassicalEpsilon FunctionalExtensionality.
From Verif Require Import ProjectionModel.
From Coquelicot Require Import Complex.
Open Scope R_scope.
Definition C_eqdec (x y : C) : {x = y} + {x <> y} := Ceq_dec x y.
From mathcomp Require Import all_ssreflect all_algebra.
Import GRing.Theory.
Set Implicit Arguments.
Unset Strict Implicit.
Unset Printing Implicit Defensive.
Definition C_eqb (x y : C) : bool := if C_eqdec x y then true else false.
Lemma C_eqP : Equality.axiom C_eqb.
Proof. by move=> x y; rewrite /C_eqb; case: C_eqdec => h; constructor. Qed.
Canonical C_eqMixin := EqMixin C_eqP.
Canonical C_eqType := Eval hnf in EqType C C_eqMixin.
Definition pickC (P : pred C) (n : nat) : option C :=
  match excluded_middle_informative (exists x, P x) with
  | left e => Some (proj1_sig (constructive_indefinite_description _ e))
  | right _ => None
  end.
Lemma pickC_some P n x : pickC P n = Some x -> P x.
Proof. rewrite /pickC; case: excluded_middle_informative => // e [<-]. by case: constructive_indefinite_description. Qed.
Lemma pickC_ex (P : pred C) : (exists x, P x) -> exists n, pickC P n.
Proof. by move=> H; exists 0%N; rewrite /pickC; case: excluded_middle_informative. Qed.
Lemma pickC_ext (P Q : pred C) : P =1 Q -> pickC P =1 pickC Q.
Proof. by move=> PEQ n; have -> : P = Q by apply: functional_extensionality_dep. Qed.
Definition C_choiceMixin : choiceMixin C := Choice.Mixin pickC_some pickC_ex pickC_ext.
Canonical C_choiceType := Eval hnf in ChoiceType C C_choiceMixin.
Lemma CplusA : associative Cplus. Proof. by move=> *; rewrite Cplus_assoc. Qed.
Lemma CplusC : commutative Cplus. Proof. by move=> *; rewrite Cplus_comm. Qed.
Lemma Cplus0 : left_id (RtoC 0) Cplus. Proof. by move=> *; rewrite Cplus_0_l. Qed.
Lemma CplusN : left_inverse (RtoC 0) Copp Cplus. Proof. by move=> x; rewrite Cplus_comm Cplus_opp_r. Qed.
Definition C_zmodMixin := ZmodMixin CplusA CplusC Cplus0 CplusN.
Canonical C_zmodType := Eval hnf in ZmodType C C_zmodMixin.
Lemma CmultA : associative Cmult. Proof. by move=> *; rewrite Cmult_assoc. Qed.
Lemma CmultC : commutative Cmult. Proof. by move=> *; rewrite Cmult_comm. Qed.
Lemma Cmult1 : left_id (RtoC 1) Cmult. Proof. by move=> *; rewrite Cmult_1_l. Qed.
Lemma CmultD : left_distributive Cmult Cplus. Proof. by move=> *; rewrite Cmult_plus_distr_r. Qed.
Lemma C1_neq_0 : RtoC 1 != RtoC 0. Proof. apply/eqP => H. injection H. exact R1_neq_R0. Qed.
Definition C_ringMixin := ComRingMixin CmultA CmultC Cmult1 CmultD C1_neq_0.
Canonical C_ringType := Eval hnf in RingType C C_ringMixin.
Canonical C_comRingType := Eval hnf in ComRingType C CmultC.
Definition C_unit : pred C := fun x => x != RtoC 0.
Definition C_inv (x : C) : C := if x == RtoC 0 then x else Cinv x.
Lemma C_mulVx : {in C_unit, left_inverse (RtoC 1) C_inv Cmult}.
Proof. move=> x; rewrite /C_unit /in_mem /= /C_inv => /negbTE H; rewrite H. apply: Cinv_l. by move/eqP: H. Qed.
Lemma C_intro (x y : C) : Cmult y x = RtoC 1 -> C_unit x.
Proof. move=> H; apply/eqP => E; move: H; rewrite E Cmult_0_r => H. injection H => H1. exact: R1_neq_R0. Qed.
Lemma C_inv_out : {in [predC C_unit], C_inv =1 id}.
Proof. by move=> x; rewrite inE /= /in_mem /= /C_unit /C_inv negbK => ->. Qed.
Definition C_unitMixin := ComUnitRingMixin C_mulVx C_intro C_inv_out.
Canonical C_unitRingType := Eval hnf in UnitRingType C C_unitMixin.
Canonical C_comUnitRingType := Eval hnf in [comUnitRingType of C].
Open Scope ring_scope.
Lemma csum_big n f : csum n f = \sum_(i < n) f i.
Proof. by elim: n => [|n IH]; rewrite ?big_ord0 // big_ord_recr /= IH. Qed.
Lemma columns_orthonormal n (e : nat -> nat -> C) :
  (forall k l, (k < n)%coq_nat -> (l < n)%coq_nat -> csum n (fun j => Cmult (e k j) (Cconj (e l j))) = if Nat.eqb k l then RtoC 1 else RtoC 0) ->
  forall i j, (i < n)%coq_nat -> (j < n)%coq_nat -> csum n (fun k => Cmult (Cconj (e k i)) (e k j)) = if Nat.eqb i j then RtoC 1 else RtoC 0.
Proof.
  move=> H i j Hi Hj.
  pose A : 'M[C]_n := \matrix_(k, l) e k l. pose B : 'M[C]_n := \matrix_(k, l) Cconj (e l k).
  have AB : A *m B = 1%:M.
  { apply/matrixP => k l; rewrite !mxE. transitivity (csum n (fun j => Cmult (e k j) (Cconj (e l j)))).
    - rewrite csum_big; apply: eq_bigr => m _. by rewrite !mxE.
    - rewrite H; [|by apply/ltP; case: k|by apply/ltP; case: l]. rewrite -[k == l]/(nat_of_ord k == nat_of_ord l).
      by case: eqP => [->|N]; rewrite ?Nat.eqb_refl ?mulr1n ?mulr0n //; move/Nat.eqb_neq: N => ->. }
  have BA := mulmx1C AB.
  have Hi' : (i < n)%N by apply/ltP. have Hj' : (j < n)%N by apply/ltP.
  have := congr1 (fun M : 'M_n => M (Ordinal Hi') (Ordinal Hj')) BA. rewrite !mxE => E.
  transitivity ((1 *+ (Ordinal Hi' == Ordinal Hj')) : C).
  - rewrite -E csum_big; apply: eq_bigr => k _. by rewrite !mxE.
  - rewrite -[Ordinal Hi' == Ordinal Hj']/(i == j).
    by case: eqP => [->|N]; rewrite ?Nat.eqb_refl ?mulr1n ?mulr0n //; move/Nat.eqb_neq: N => ->.
Qed.
