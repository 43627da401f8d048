(** C93: drawn phonon modes. *)
From Verif Require Import ModesModel.
From Coq Require Import Lra Lia List Reals.
From Coquelicot Require Import Complex.
Import ListNotations.
Open Scope R_scope.

Section Spec.
(** the displacement of atom i in a phonon with polarisation e (three components for its type), mass m, wave vector q: the real part of
    scale * e * exp(i q.r) / sqrt(m) *)
Definition displacement_pattern (e : nat -> C) (m : R) (r q : vec) (scale : R) : vec :=
  let th := vdot r q in
  let c j := scale / sqrt m * (fst (e j) * cos th - snd (e j) * sin th) in
  V3 (c 0%nat) (c 1%nat) (c 2%nat).
End Spec.

Section Arrows.
Context (atom_type : list nat) (positions : list vec) (masses : list R) (ev : nat -> nat -> nat -> C) (q : vec) (scale : R).
Hypothesis positive : forall i, (i < length positions)%nat -> 0 < nth i masses 0.
Hypothesis shapes : length masses = length positions /\ length atom_type = length positions.
Hypothesis numbered : forall i, (i < length positions)%nat -> (nth i atom_type 0 < length positions)%nat.
Let mass i := nth i masses 0.
Let type i := nth i atom_type 0%nat.

Lemma vector_eq k i : (i < length positions)%nat ->
  vector atom_type positions masses ev q scale k i = displacement_pattern (ev k (type i)) (mass (type i)) (nth i positions vzero) q scale.
Proof.
  intros Hi. unfold vector, displacement_pattern, re3, cis. fold (type i). fold (mass (type i)).
  assert (P : sqrt (mass (type i)) <> 0) by (apply Rgt_not_eq, sqrt_lt_R0; apply positive; apply numbered; exact Hi).
  apply vec_eq; cbn; field; exact P.
Qed.
(** One arrow per atom, starting at the atom; it shows the displacement pattern up to the factor sqrt(m_i / m_j), j = the atom whose number is
    the type of atom i.  In particular direction and phase are right for every atom. *)
Theorem C93_arrows_up_to_a_factor_partial : forall k i, (i < length positions)%nat ->
  nth_error (arrows atom_type positions masses ev q scale k) i =
  Some (nth i positions vzero, vadd (nth i positions vzero)
         (vscale (sqrt (mass i / mass (type i))) (displacement_pattern (ev k (type i)) (mass i) (nth i positions vzero) q scale))) /\
  0 < sqrt (mass i / mass (type i)).
Proof.
  intros k i Hi. pose proof (positive i Hi) as P1. pose proof (positive _ (numbered i Hi)) as P2. split.
  2:{ apply sqrt_lt_R0. apply Rmult_lt_0_compat; [exact P1|apply Rinv_0_lt_compat; exact P2]. }
  unfold arrows.
  assert (E : nth_error (seq 0 (length positions)) i = Some i).
  { rewrite (nth_error_nth' _ 0%nat) by (rewrite seq_length; exact Hi). rewrite seq_nth by exact Hi. reflexivity. }
  rewrite (map_nth_error (fun i => (nth i positions vzero, vadd (nth i positions vzero) (vector atom_type positions masses ev q scale k i))) i _ E).
  rewrite vector_eq by exact Hi. do 2 f_equal. f_equal.
  unfold displacement_pattern. unfold mass. rewrite sqrt_div by (try apply Rlt_le; assumption).
  assert (S1 : sqrt (nth i masses 0) <> 0) by (apply Rgt_not_eq, sqrt_lt_R0, P1).
  assert (S2 : sqrt (nth (type i) masses 0) <> 0) by (apply Rgt_not_eq, sqrt_lt_R0, P2).
  apply vec_eq; cbn; field; split; assumption.
Qed.
(** They are exact whenever the atom numbered type(i) has the mass of atom i: in a primitive cell (type(i) = i), or with one element. *)
Theorem C93_arrows_exact_partial : forall k i, (i < length positions)%nat -> mass (type i) = mass i ->
  nth_error (arrows atom_type positions masses ev q scale k) i =
  Some (nth i positions vzero, vadd (nth i positions vzero) (displacement_pattern (ev k (type i)) (mass i) (nth i positions vzero) q scale)).
Proof.
  intros k i Hi E. destruct (C93_arrows_up_to_a_factor_partial k i Hi) as [H _]. rewrite H. rewrite E.
  pose proof (positive i Hi) as P. unfold mass. unfold Rdiv at 1. rewrite Rinv_r by lra. rewrite sqrt_1. do 2 f_equal. f_equal.
  apply vec_eq; cbn; ring.
Qed.
(** Refuted otherwise: the length is wrong for every moving atom whose mass differs from that of the atom numbered with its type. *)
Theorem C93_wrong_mass_refuted : forall k i, (i < length positions)%nat -> mass (type i) <> mass i ->
  displacement_pattern (ev k (type i)) (mass i) (nth i positions vzero) q scale <> vzero ->
  nth_error (arrows atom_type positions masses ev q scale k) i <>
  Some (nth i positions vzero, vadd (nth i positions vzero) (displacement_pattern (ev k (type i)) (mass i) (nth i positions vzero) q scale)).
Proof.
  intros k i Hi N Z E. destruct (C93_arrows_up_to_a_factor_partial k i Hi) as [H P]. rewrite H in E. clear H.
  set (d := displacement_pattern _ _ _ _ _) in *. set (f := sqrt _) in *.
  injection E as Ex Ey Ez.
  assert (F : f = 1).
  { assert (A : forall g x y, y + g * x = y + x -> x <> 0 -> g = 1).
    { intros g x y H1 H2. apply Rmult_eq_reg_r with x; [lra|exact H2]. }
    destruct (Req_EM_T (vx d) 0) as [X|X]; [|exact (A _ _ _ Ex X)].
    destruct (Req_EM_T (vy d) 0) as [Y|Y]; [|exact (A _ _ _ Ey Y)].
    destruct (Req_EM_T (vz d) 0) as [W|W]; [|exact (A _ _ _ Ez W)].
    contradiction Z. apply vec_eq; cbn; assumption. }
  pose proof (positive i Hi) as P1. pose proof (positive _ (numbered i Hi)) as P2. fold (mass i) in P1. fold (type i) in P2. fold (mass (type i)) in P2.
  apply N. unfold f in F. apply (f_equal (fun x => x * x)) in F. rewrite sqrt_sqrt in F by (apply Rlt_le, Rmult_lt_0_compat; [exact P1|apply Rinv_0_lt_compat; exact P2]).
  apply (Rmult_eq_compat_r (mass (type i))) in F. unfold Rdiv in F. rewrite Rmult_assoc, Rinv_l in F by lra. lra.
Qed.
End Arrows.
Print Assumptions C93_arrows_up_to_a_factor_partial.
Print Assumptions C93_arrows_exact_partial.
Print Assumptions C93_wrong_mass_refuted.

(** The frame: the twelve edges of the parallelepiped, each once. *)
Theorem C93_frame : forall cell,
  exists l, segments cell = map (fun s => (corner cell (fst s), corner cell (snd s))) l /\ NoDup l /\
  forall a b, In (a, b) l <->
    exists k a0 a1 a2, (k < 3)%nat /\ a = (a0, a1, a2) /\ (a0 <= 1 /\ a1 <= 1 /\ a2 <= 1)%nat /\
      (k = 0 -> a0 = 0)%nat /\ (k = 1 -> a1 = 0)%nat /\ (k = 2 -> a2 = 0)%nat /\ b = add3 a (unit_ k).
Proof.
  intros cell. exists frame. split; [reflexivity|]. split.
  - cbn. repeat (constructor; [cbn; intuition discriminate|]). constructor.
  - intros a b. split.
    + destruct a as [[x y] z]. intros H.
      assert (G : forall k, (k < 3)%nat -> (x <= 1 /\ y <= 1 /\ z <= 1)%nat -> (k = 0 -> x = 0)%nat -> (k = 1 -> y = 0)%nat -> (k = 2 -> z = 0)%nat -> b = add3 (x, y, z) (unit_ k) ->
        exists k a0 a1 a2, (k < 3)%nat /\ (x, y, z) = (a0, a1, a2) /\ (a0 <= 1 /\ a1 <= 1 /\ a2 <= 1)%nat /\
          (k = 0 -> a0 = 0)%nat /\ (k = 1 -> a1 = 0)%nat /\ (k = 2 -> a2 = 0)%nat /\ b = add3 (x, y, z) (unit_ k)).
      { intros k; intros. exists k, x, y, z. tauto. }
      cbn in H. repeat match goal with H : _ \/ _ |- _ => destruct H as [H|H] end; try contradiction; injection H as <- <- <- <-;
      first [ apply (G 0%nat); solve [lia | reflexivity | repeat split; lia] | apply (G 1%nat); solve [lia | reflexivity | repeat split; lia]
            | apply (G 2%nat); solve [lia | reflexivity | repeat split; lia] ].
    + intros (k & a0 & a1 & a2 & Hk & -> & B & K0 & K1 & K2 & ->).
      destruct a0 as [|[|a0]]; try lia; destruct a1 as [|[|a1]]; try lia; destruct a2 as [|[|a2]]; try lia;
      destruct k as [|[|[|k]]]; try lia; cbn; tauto.
Qed.
Print Assumptions C93_frame.

(** the conventional cell of rock salt: four Na (type 0) and four Cl (type 1); the arrows of Cl are computed with the mass of atom 1, a Na *)
Example C93_nonvacuous :
  let types := [0; 0; 0; 0; 1; 1; 1; 1]%nat in
  let masses := [23; 23; 23; 23; 35; 35; 35; 35] in
  let positions := [V3 0 0 0; V3 0 2 2; V3 2 0 2; V3 2 2 0; V3 2 2 2; V3 2 0 0; V3 0 2 0; V3 0 0 2] in
  let ev := fun (_ _ j : nat) => if Nat.eqb j 0 then RtoC 1 else RtoC 0 in
  (forall i, (i < length positions)%nat -> 0 < nth i masses 0) /\
  (forall i, (i < length positions)%nat -> (nth i types 0 < length positions)%nat) /\
  nth (nth 4 types 0%nat) masses 0 <> nth 4 masses 0 /\
  displacement_pattern (ev 0%nat (nth 4 types 0%nat)) (nth 4 masses 0) (nth 4 positions vzero) vzero 10 <> vzero.
Proof.
  cbn [length]. repeat split.
  - intros i Hi. do 8 (destruct i as [|i]; [cbn; lra|]). lia.
  - intros i Hi. do 8 (destruct i as [|i]; [cbn; lia|]). lia.
  - cbn. lra.
  - unfold displacement_pattern. cbn. intros E. injection E as E _ _.
    unfold vdot in E; cbn in E. replace (2 * 0 + 2 * 0 + 2 * 0) with 0 in E by ring. rewrite cos_0, sin_0 in E.
    assert (0 < sqrt 35) by (apply sqrt_lt_R0; lra). assert (0 < 10 / sqrt 35) by (apply Rmult_lt_0_compat; [lra|apply Rinv_0_lt_compat; assumption]). lra.
Qed.
