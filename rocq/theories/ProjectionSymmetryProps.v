(** C96: what the projection onto wave vectors conserves (dynaphopy/projection.py project_onto_wave_vector with the supercell order of
    dynaphopy/atoms.py get_positions and get_q_vector of dynaphopy/__init__.py): the squared moduli over all the wave vectors of a supercell add up to
    the squared mass weighted velocities, opposite wave vectors carry conjugate values, and neither the origin nor the order of the atoms matters. *)
From Verif Require Import Base SupercellModel SupercellSpec SupercellProofs PhonopyLinkModel PhonopyLinkSpec PhonopyLinkProofs PhonopyLinkProps ProjectionModel ProjectionSpec ProjectionProofs.
From Verif Require FftModel FftProofs.
From Coq Require Import Lra Lia Permutation.
From Coquelicot Require Import Complex.
Open Scope R_scope.

(** ---------- specification ---------- *)
Fixpoint sum_over (n : nat) (f : nat -> R) : R := match n with 0%nat => 0 | S n => sum_over n f + f n end.
(** the wave vectors (m1/n1, m2/n2, m3/n3) of an n1 x n2 x n3 supercell *)
Definition sum_over_q (n1 n2 n3 : nat) (f : vec -> R) : R :=
  sum_over n1 (fun m1 => sum_over n2 (fun m2 => sum_over n3 (fun m3 => f (V3 (INR m1 / INR n1) (INR m2 / INR n2) (INR m3 / INR n3))))).
Definition real_trajectory (v : nat -> nat -> nat -> C) : Prop := forall t i k, snd (v t i k) = 0.
(** the value stored for type ty, coordinate k at step t *)
Definition entry (r : option (nat -> nat -> nat -> C)) (t ty k : nat) : C := match r with Some a => a t ty k | None => RtoC 0 end.

(** ---------- proofs ---------- *)
Lemma sum_over_C n f : RtoC (sum_over n f) = csum n (fun i => RtoC (f i)).
Proof. induction n as [|n IH]; cbn [sum_over csum]; [reflexivity|]. rewrite <- IH. apply RtoC_plus. Qed.
Lemma sum_over_ext n f g : (forall i, (i < n)%nat -> f i = g i) -> sum_over n f = sum_over n g.
Proof. induction n as [|n IH]; intros H; cbn [sum_over]; [reflexivity|]. rewrite IH, H by (try lia; intros; apply H; lia). reflexivity. Qed.
Lemma csum_csumn n f : csum n f = FftModel.csumn n f.
Proof. induction n as [|n IH]; cbn [csum]; [symmetry; apply FftProofs.csumn_0|]. rewrite FftProofs.csumn_S, IH. reflexivity. Qed.
Lemma expmi_cis x : expmi x = FftModel.cis (- x). Proof. unfold expmi, FftModel.cis. rewrite cos_neg, sin_neg. reflexivity. Qed.
Lemma expmi_add x y : expmi (x + y) = Cmult (expmi x) (expmi y).
Proof. rewrite !expmi_cis, Ropp_plus_distr. apply FftProofs.cis_add. Qed.
Lemma expmi_conj x : Cconj (expmi x) = expmi (- x). Proof. rewrite !expmi_cis. apply FftProofs.cis_conj. Qed.
Lemma expmi_0 : expmi 0 = RtoC 1. Proof. rewrite expmi_cis, Ropp_0. apply FftProofs.cis_0. Qed.
Lemma expmi_mod x : Cmod (expmi x) = 1. Proof. rewrite expmi_cis. apply FftProofs.cis_mod. Qed.
(** one axis *)
Lemma axis_sum n x x' : (x < n)%nat -> (x' < n)%nat ->
  csum n (fun m => expmi (2 * PI * (INR m / INR n * (INR x - INR x')))) = if (x =? x')%nat then RtoC (INR n) else RtoC 0.
Proof.
  intros H H'. assert (0 < INR n) by (apply lt_0_INR; lia). destruct (Nat.eqb_spec x x') as [->|N].
  - rewrite (csum_ext n _ (fun _ => RtoC 1)). { clear. induction n as [|n IH]; cbn [csum]; [reflexivity|]. rewrite IH, <- RtoC_plus, S_INR. reflexivity. }
    intros i _. rewrite <- expmi_0. f_equal. ring.
  - rewrite csum_csumn, <- (FftProofs.root_sum n (Z.of_nat x' - Z.of_nat x)) by lia. apply FftProofs.csumn_ext. intros k _. rewrite expmi_cis. f_equal.
    rewrite minus_IZR, <- !INR_IZR_INZ. field. lra.
Qed.
Lemma double_csum n (a : nat -> C) (e : nat -> R) : Cmult (csum n (fun i => Cmult (a i) (expmi (e i)))) (Cconj (csum n (fun i => Cmult (a i) (expmi (e i)))))
  = csum n (fun i => csum n (fun j => Cmult (Cmult (a i) (Cconj (a j))) (expmi (e i - e j)))).
Proof.
  rewrite csum_conj, <- csum_scal_r. apply csum_ext. intros i _. rewrite <- csum_scal. apply csum_ext. intros j _.
  rewrite Cmult_conj', expmi_conj. unfold Rminus. rewrite expmi_add. ring.
Qed.
Lemma q_dot inv cell q w : is_inverse (inv cell) cell -> vdot (get_q_vector inv cell q) (vmul w cell) = 2 * PI * vdot q w.
Proof.
  intros [Hi _]. unfold get_q_vector. replace (vmul q (mscale (2 * PI) (mT (inv cell)))) with (vscale (2 * PI) (vmul q (mT (inv cell)))) by (apply vec_eq; unfold vmul, mscale, vadd, vscale; cbn [vx vy vz r0 r1 r2]; ring).
  replace (vdot (vscale (2 * PI) (vmul q (mT (inv cell)))) (vmul w cell)) with (2 * PI * vdot (vmul q (mT (inv cell))) (vmul w cell)) by (unfold vdot, vscale; cbn [vx vy vz]; ring).
  f_equal. rewrite vdot_vmul, mT_mT, vmul_mmul, Hi, vmul_mid. reflexivity.
Qed.

(** sums over the three indices of the wave vectors *)
Section Qsum.
Context (nx ny nz : nat).
Definition Qs (F : nat -> nat -> nat -> C) : C := csum nx (fun a => csum ny (fun b => csum nz (fun c => F a b c))).
Lemma Qs_ext F G : (forall a b c, (a < nx)%nat -> (b < ny)%nat -> (c < nz)%nat -> F a b c = G a b c) -> Qs F = Qs G.
Proof. intros H. apply csum_ext. intros a Ha. apply csum_ext. intros b Hb. apply csum_ext. intros c Hc. apply H; assumption. Qed.
Lemma Qs_scal x F : Qs (fun a b c => Cmult x (F a b c)) = Cmult x (Qs F).
Proof. unfold Qs. rewrite <- csum_scal. apply csum_ext. intros a _. rewrite <- csum_scal. apply csum_ext. intros b _. apply csum_scal. Qed.
Lemma Qs_csum n (G : nat -> nat -> nat -> nat -> C) : Qs (fun a b c => csum n (fun i => G i a b c)) = csum n (fun i => Qs (G i)).
Proof.
  unfold Qs. rewrite (csum_swap n nx). apply csum_ext. intros a _. rewrite (csum_swap n ny). apply csum_ext. intros b _. apply csum_swap.
Qed.
Lemma Qs_prod f g h : Qs (fun a b c => Cmult (f a) (Cmult (g b) (h c))) = Cmult (csum nx f) (Cmult (csum ny g) (csum nz h)).
Proof.
  unfold Qs. rewrite <- csum_scal_r. apply csum_ext. intros a _.
  rewrite (csum_ext ny _ (fun b => Cmult (f a) (Cmult (g b) (csum nz h)))) by (intros b _; rewrite <- !csum_scal; reflexivity).
  rewrite csum_scal, csum_scal_r. reflexivity.
Qed.
Definition qpt (a b c : nat) : vec := V3 (INR a / INR nx) (INR b / INR ny) (INR c / INR nz).
Lemma sum_over_q_C f : RtoC (sum_over_q nx ny nz f) = Qs (fun a b c => RtoC (f (qpt a b c))).
Proof. unfold sum_over_q, Qs. rewrite sum_over_C. apply csum_ext. intros a _. rewrite sum_over_C. apply csum_ext. intros b _. apply sum_over_C. Qed.
End Qsum.
Section Supercell.
Context (inv : mat -> mat) (cell : mat) (pos : list vec) (nx ny nz : nat) (types : list nat) (m : nat -> R) (v : nat -> nat -> nat -> C).
Context (Hx : (nx > 0)%nat) (Hy : (ny > 0)%nat) (Hz : (nz > 0)%nat) (Hi : is_inverse (inv cell) cell)
  (Ht : get_attribute (length pos) (seq 0 (length pos)) [nx; ny; nz] = Some types) (Hm : forall i, 0 <= m i).
Let natoms := (length pos * (nx * ny * nz))%nat.
Let P (i : nat) : vec := nth i (get_positions cell pos [nx; ny; nz]) vzero.
Let ty_of (i : nat) : nat := nth i types 0%nat.
Lemma site_at i : (i < natoms)%nat -> exists x y z k, dynaphopy_order i nx ny nz = (x, y, z, k) /\
  (x < nx)%nat /\ (y < ny)%nat /\ (z < nz)%nat /\ (k < length pos)%nat /\ ty_of i = k /\ P i = vadd (nth k pos vzero) (vmul (V3 (INR x) (INR y) (INR z)) cell).
Proof.
  intros Hii. assert (G := get_positions_nth cell pos nx ny nz i Hx Hy Hz Hii).
  destruct (get_attribute_spec (length pos) (seq 0 (length pos)) nx ny nz Hx Hy Hz) as [out [Eo [Lo Po]]]; [rewrite seq_length; lia|].
  rewrite Ht in Eo. injection Eo as <-. specialize (Po i Hii).
  destruct (dynaphopy_order i nx ny nz) as [[[x y] z] k]. destruct G as [P1 [P2 [P3 [P4 [p [E1 E2]]]]]]. exists x, y, z, k. repeat split; try assumption.
  - unfold ty_of. apply nth_error_nth with (d := 0%nat) in Po || (rewrite SupercellProofs.nth_error_seq in Po by exact P4; apply nth_error_nth with (d := 0%nat) in Po). exact Po.
  - unfold P. rewrite (nth_error_nth _ _ _ E2), (nth_error_nth _ _ _ E1). unfold image, vmul. reflexivity.
Qed.
Lemma phase_difference i j a b c : (i < natoms)%nat -> (j < natoms)%nat -> ty_of i = ty_of j ->
  forall x y z k x' y' z' k', dynaphopy_order i nx ny nz = (x, y, z, k) -> dynaphopy_order j nx ny nz = (x', y', z', k') ->
  vdot (get_q_vector inv cell (qpt nx ny nz a b c)) (P i) - vdot (get_q_vector inv cell (qpt nx ny nz a b c)) (P j)
  = 2 * PI * (INR a / INR nx * (INR x - INR x')) + (2 * PI * (INR b / INR ny * (INR y - INR y')) + 2 * PI * (INR c / INR nz * (INR z - INR z'))).
Proof.
  intros Hii Hj E x y z k x' y' z' k' Oi Oj.
  destruct (site_at i Hii) as (x1 & y1 & z1 & k1 & E1 & _ & _ & _ & _ & T1 & S1). rewrite Oi in E1. injection E1 as <- <- <- <-.
  destruct (site_at j Hj) as (x1 & y1 & z1 & k1 & E1 & _ & _ & _ & _ & T2 & S2). rewrite Oj in E1. injection E1 as <- <- <- <-.
  rewrite S1, S2. assert (k = k') as <- by congruence.
  assert (D : forall p w, vdot (get_q_vector inv cell (qpt nx ny nz a b c)) (vadd p (vmul w cell)) = vdot (get_q_vector inv cell (qpt nx ny nz a b c)) p + 2 * PI * vdot (qpt nx ny nz a b c) w).
  { intros p w. rewrite <- (q_dot inv cell _ w Hi). unfold vdot, vadd. cbn [vx vy vz]. ring. }
  rewrite !D. unfold Rminus. generalize (vdot (get_q_vector inv cell (qpt nx ny nz a b c)) (nth k pos vzero)). intros g. unfold qpt, vdot. cbn [vx vy vz]. ring.
Qed.
Lemma orthogonal i j : (i < natoms)%nat -> (j < natoms)%nat -> ty_of i = ty_of j ->
  Qs nx ny nz (fun a b c => expmi (vdot (get_q_vector inv cell (qpt nx ny nz a b c)) (P i) - vdot (get_q_vector inv cell (qpt nx ny nz a b c)) (P j)))
  = if (i =? j)%nat then RtoC (INR (nx * ny * nz)) else RtoC 0.
Proof.
  intros Hii Hj E.
  destruct (site_at i Hii) as (x & y & z & k & E1 & B1 & B2 & B3 & _ & T1 & _).
  destruct (site_at j Hj) as (x' & y' & z' & k' & E2 & B1' & B2' & B3' & _ & T2 & _).
  rewrite (Qs_ext nx ny nz _ (fun a b c => Cmult (expmi (2 * PI * (INR a / INR nx * (INR x - INR x')))) (Cmult (expmi (2 * PI * (INR b / INR ny * (INR y - INR y')))) (expmi (2 * PI * (INR c / INR nz * (INR z - INR z'))))))).
  - rewrite Qs_prod, !axis_sum by assumption.
    assert (D1 := dynaphopy_order_decode nx ny nz i Hx Hy Hz). rewrite E1 in D1. assert (D2 := dynaphopy_order_decode nx ny nz j Hx Hy Hz). rewrite E2 in D2.
    assert (k = k') as <- by congruence.
    destruct (Nat.eqb_spec x x') as [->|N1]; [destruct (Nat.eqb_spec y y') as [->|N2]; [destruct (Nat.eqb_spec z z') as [->|N3]|]|].
    + replace (i =? j)%nat with true by (symmetry; apply Nat.eqb_eq; congruence). rewrite <- !RtoC_mult, !mult_INR. f_equal. ring.
    + replace (i =? j)%nat with false; [ring|]. symmetry. apply Nat.eqb_neq. intros ->. rewrite E1 in E2. congruence.
    + replace (i =? j)%nat with false; [ring|]. symmetry. apply Nat.eqb_neq. intros ->. rewrite E1 in E2. congruence.
    + replace (i =? j)%nat with false; [ring|]. symmetry. apply Nat.eqb_neq. intros ->. rewrite E1 in E2. congruence.
  - intros a b c _ _ _. rewrite (phase_difference i j a b c Hii Hj E x y z k x' y' z' k' E1 E2), !expmi_add. reflexivity.
Qed.
Lemma parseval_type t ty k : (k < 3)%nat -> (ty < length pos)%nat ->
  sum_over_q nx ny nz (fun q => Cmod (entry (project_onto_wave_vector natoms (length pos) 3 ty_of (fun i => PhonopyLinkProps.comp (P i)) (PhonopyLinkProps.comp (get_q_vector inv cell q)) v m (-1)) t ty k) ^ 2)
  = sum_over natoms (fun i => if (ty_of i =? ty)%nat then m i * Cmod (v t i k) ^ 2 else 0).
Proof.
  intros Hk Hty. apply RtoC_inj'. rewrite sum_over_q_C, sum_over_C.
  assert (HN : (0 < nx * ny * nz)%nat) by nia. assert (HNR : 0 < INR (nx * ny * nz)) by (apply lt_0_INR; exact HN).
  set (w := fun i => if (ty_of i =? ty)%nat then Cmult (v t i k) (RtoC (sqrt (m i))) else RtoC 0).
  assert (V : forall q, RtoC (Cmod (entry (project_onto_wave_vector natoms (length pos) 3 ty_of (fun i => PhonopyLinkProps.comp (P i)) (PhonopyLinkProps.comp (get_q_vector inv cell q)) v m (-1)) t ty k) ^ 2)
     = Cmult (RtoC (/ INR (nx * ny * nz))) (csum natoms (fun i => csum natoms (fun j => Cmult (Cmult (w i) (Cconj (w j))) (expmi (vdot (get_q_vector inv cell q) (P i) - vdot (get_q_vector inv cell q) (P j))))))).
  { intros q. destruct (project_ok natoms (length pos) 3 ty_of (fun i => PhonopyLinkProps.comp (P i)) (PhonopyLinkProps.comp (get_q_vector inv cell q)) v m (-1)) as [A [EA HA]].
    { intros i Hii. destruct (site_at i Hii) as (? & ? & ? & k0 & _ & _ & _ & _ & Hk0 & Tk & _). rewrite Tk. exact Hk0. }
    rewrite EA. cbn [entry]. rewrite (HA t ty k Hk), Cmod2.
    assert (EN : INR natoms / INR (length pos) = INR (nx * ny * nz)). { unfold natoms. rewrite mult_INR. field. apply not_0_INR. lia. }
    rewrite EN. unfold csum_if. rewrite (csum_ext natoms _ (fun i => Cmult (w i) (expmi (vdot (get_q_vector inv cell q) (P i))))).
    2:{ intros i _. unfold w, kept. cbn [Z.leb Z.compare orb]. rewrite andb_true_r, rdot_comp. destruct (ty_of i =? ty)%nat; [reflexivity|ring]. }
    rewrite <- double_csum. set (X := csum natoms _). unfold Cdiv. rewrite Cmult_conj'.
    assert (Es : sqrt (INR (nx * ny * nz)) * sqrt (INR (nx * ny * nz)) = INR (nx * ny * nz)) by (apply sqrt_sqrt; lra).
    assert (Hs : sqrt (INR (nx * ny * nz)) <> 0) by (apply Rgt_not_eq, sqrt_lt_R0; exact HNR).
    rewrite <- RtoC_inv by exact Hs. replace (Cconj (RtoC (/ sqrt (INR (nx * ny * nz))))) with (RtoC (/ sqrt (INR (nx * ny * nz)))) by (apply injective_projections; cbn; ring).
    replace (/ INR (nx * ny * nz)) with (/ sqrt (INR (nx * ny * nz)) * / sqrt (INR (nx * ny * nz))) by (rewrite <- Es at 3; field; exact Hs).
    rewrite RtoC_mult. ring. }
  rewrite (Qs_ext nx ny nz _ _ (fun a b c _ _ _ => V (qpt nx ny nz a b c))), Qs_scal, Qs_csum.
  rewrite (csum_ext natoms _ (fun i => Cmult (Cmult (w i) (Cconj (w i))) (RtoC (INR (nx * ny * nz))))).
  2:{ intros i Hii. rewrite Qs_csum.
      rewrite (csum_ext natoms _ (fun j => if (i =? j)%nat then Cmult (Cmult (w i) (Cconj (w j))) (RtoC (INR (nx * ny * nz))) else RtoC 0)).
      { exact (csum_delta natoms i (fun j => Cmult (Cmult (w i) (Cconj (w j))) (RtoC (INR (nx * ny * nz)))) Hii). }
      intros j Hj. rewrite Qs_scal. unfold w. destruct (Nat.eqb_spec (ty_of i) ty) as [Ti|Ti].
      - destruct (Nat.eqb_spec (ty_of j) ty) as [Tj|Tj].
        + rewrite orthogonal by (try assumption; congruence). destruct (Nat.eqb_spec i j) as [->|N]; [|ring]. reflexivity.
        + destruct (Nat.eqb_spec i j) as [->|N]; [congruence|]. replace (Cconj (RtoC 0)) with (RtoC 0) by (apply injective_projections; cbn; ring). ring.
      - destruct (Nat.eqb_spec i j) as [->|N]; [|ring]. ring. }
  rewrite csum_scal_r. replace (Cmult (RtoC (/ INR (nx * ny * nz))) (Cmult (csum natoms (fun i => Cmult (w i) (Cconj (w i)))) (RtoC (INR (nx * ny * nz))))) with (csum natoms (fun i => Cmult (w i) (Cconj (w i)))).
  2:{ generalize (csum natoms (fun i => Cmult (w i) (Cconj (w i)))). intros X. replace (Cmult (RtoC (/ INR (nx * ny * nz))) (Cmult X (RtoC (INR (nx * ny * nz))))) with (Cmult X (Cmult (RtoC (/ INR (nx * ny * nz))) (RtoC (INR (nx * ny * nz))))) by ring.
      rewrite <- RtoC_mult, Rinv_l by lra. ring. }
  apply csum_ext. intros i _. unfold w. destruct (ty_of i =? ty)%nat.
  - rewrite RtoC_mult, Cmod2, Cmult_conj'. rewrite <- (sqrt_sqrt (m i)) at 3 by apply Hm. rewrite RtoC_mult.
    replace (Cconj (RtoC (sqrt (m i)))) with (RtoC (sqrt (m i))) by (apply injective_projections; cbn; ring). ring.
  - ring.
Qed.
End Supercell.
Lemma sum_over_swap n k f : sum_over n (fun i => sum_over k (fun j => f i j)) = sum_over k (fun j => sum_over n (fun i => f i j)).
Proof.
  apply RtoC_inj'. rewrite !sum_over_C. rewrite (csum_ext n _ (fun i => csum k (fun j => RtoC (f i j)))) by (intros i _; apply sum_over_C).
  rewrite csum_swap. apply csum_ext. intros j _. symmetry. apply sum_over_C.
Qed.
Lemma energy1_sum n f : energy1 n f = sum_over n (fun i => Cmod (f i) ^ 2).
Proof. induction n as [|n IH]; cbn [energy1 sum_over]; [reflexivity|]. rewrite IH. reflexivity. Qed.
Lemma energy2_sum n k f : energy2 n k f = sum_over n (fun i => sum_over k (fun j => Cmod (f i j) ^ 2)).
Proof. induction n as [|n IH]; cbn [energy2 sum_over]; [reflexivity|]. rewrite IH, energy1_sum. reflexivity. Qed.
Lemma sum_over_q_ext nx ny nz f g : (forall q, f q = g q) -> sum_over_q nx ny nz f = sum_over_q nx ny nz g.
Proof. intros H. apply sum_over_ext. intros a _. apply sum_over_ext. intros b _. apply sum_over_ext. intros c _. apply H. Qed.
Lemma sum_over_q_swap nx ny nz n f : sum_over_q nx ny nz (fun q => sum_over n (fun i => f q i)) = sum_over n (fun i => sum_over_q nx ny nz (fun q => f q i)).
Proof.
  unfold sum_over_q. rewrite (sum_over_swap n nx). apply sum_over_ext. intros a _. rewrite (sum_over_swap n ny). apply sum_over_ext. intros b _. apply sum_over_swap.
Qed.

(** ---------- C96 ---------- *)
(** for every cell, list of atoms, supercell, trajectory and non negative masses: the squared moduli of the entries of one atom of the primitive cell and
    one coordinate, over all the wave vectors of the supercell, add up to the mass weighted squared velocities of its images at that step (the primitive cell
    is the unit cell: types are the atoms of the unit cell repeated as get_atom_type_index does) *)
Theorem C96_parseval : forall inv cell pos nx ny nz types (m : nat -> R) (v : nat -> nat -> nat -> C) t ty k,
  (nx > 0)%nat -> (ny > 0)%nat -> (nz > 0)%nat -> is_inverse (inv cell) cell ->
  get_attribute (length pos) (seq 0 (length pos)) [nx; ny; nz] = Some types -> (forall i, 0 <= m i) -> (k < 3)%nat -> (ty < length pos)%nat ->
  let natoms := (length pos * (nx * ny * nz))%nat in
  let positions i := nth i (get_positions cell pos [nx; ny; nz]) vzero in
  sum_over_q nx ny nz (fun q => Cmod (entry (project_onto_wave_vector natoms (length pos) 3 (fun i => nth i types 0%nat) (fun i => PhonopyLinkProps.comp (positions i))
                                               (PhonopyLinkProps.comp (get_q_vector inv cell q)) v m (-1)) t ty k) ^ 2)
  = sum_over natoms (fun i => if (nth i types 0 =? ty)%nat then m i * Cmod (v t i k) ^ 2 else 0).
Proof. intros inv cell pos nx ny nz types m v t ty k Hx Hy Hz Hi Ht Hm Hk Hty natoms positions. exact (parseval_type inv cell pos nx ny nz types m v Hx Hy Hz Hi Ht Hm t ty k Hk Hty). Qed.
Print Assumptions C96_parseval.
(** ... and, with orthonormal eigenvectors at each wave vector, the phonon modes of all the wave vectors share exactly twice the kinetic energy *)
Theorem C96_kinetic_energy : forall inv cell pos nx ny nz types (m : nat -> R) (v : nat -> nat -> nat -> C) (e : vec -> nat -> nat -> nat -> C) t,
  (nx > 0)%nat -> (ny > 0)%nat -> (nz > 0)%nat -> is_inverse (inv cell) cell ->
  get_attribute (length pos) (seq 0 (length pos)) [nx; ny; nz] = Some types -> (forall i, 0 <= m i) ->
  (forall q, orthonormal (length pos) 3 (length pos * 3) (e q)) ->
  let natoms := (length pos * (nx * ny * nz))%nat in
  let positions i := nth i (get_positions cell pos [nx; ny; nz]) vzero in
  let vc q := entry (project_onto_wave_vector natoms (length pos) 3 (fun i => nth i types 0%nat) (fun i => PhonopyLinkProps.comp (positions i))
                       (PhonopyLinkProps.comp (get_q_vector inv cell q)) v m (-1)) in
  sum_over_q nx ny nz (fun q => sum_over (length pos * 3) (fun mode => Cmod (project_onto_phonon (length pos) 3 (length pos * 3) (vc q) (e q) t mode) ^ 2))
  = sum_over natoms (fun i => m i * sum_over 3 (fun k => Cmod (v t i k) ^ 2)).
Proof.
  intros inv cell pos nx ny nz types m v e t Hx Hy Hz Hi Ht Hm He natoms positions vc.
  rewrite (sum_over_q_ext nx ny nz _ (fun q => sum_over (length pos) (fun ty => sum_over 3 (fun k => Cmod (vc q t ty k) ^ 2)))).
  2:{ intros q. rewrite <- energy1_sum, <- energy2_sum. apply energy_conserved; [lia|apply He]. }
  rewrite sum_over_q_swap.
  rewrite (sum_over_ext (length pos) _ (fun ty => sum_over natoms (fun i => if (nth i types 0 =? ty)%nat then m i * sum_over 3 (fun k => Cmod (v t i k) ^ 2) else 0))).
  - rewrite sum_over_swap. apply sum_over_ext. intros i Hii.
    destruct (site_at cell pos nx ny nz types Hx Hy Hz Ht i Hii) as (_ & _ & _ & k0 & _ & _ & _ & _ & Hk0 & Tk & _). rewrite Tk.
    generalize (m i * sum_over 3 (fun k => Cmod (v t i k) ^ 2)). clear - Hk0. intros w. apply RtoC_inj'. rewrite sum_over_C.
    rewrite (csum_ext _ _ (fun j => if (k0 =? j)%nat then RtoC w else RtoC 0)) by (intros j _; destruct (k0 =? j)%nat; reflexivity). exact (csum_delta (length pos) k0 (fun _ => RtoC w) Hk0).
  - intros ty Hty. rewrite sum_over_q_swap.
    rewrite (sum_over_ext 3 _ (fun k => sum_over natoms (fun i => if (nth i types 0 =? ty)%nat then m i * Cmod (v t i k) ^ 2 else 0))).
    + rewrite sum_over_swap. apply sum_over_ext. intros i _. destruct (_ =? _)%nat; cbn [sum_over]; ring.
    + intros k Hk. exact (parseval_type inv cell pos nx ny nz types m v Hx Hy Hz Hi Ht Hm t ty k Hk Hty).
Qed.
Print Assumptions C96_kinetic_energy.
(** real velocities at opposite wave vectors: complex conjugates, so the same squared moduli and the same power spectra *)
Theorem C96_opposite : forall natoms nprim ndim types coords q (v : nat -> nat -> nat -> C) m atom a b, real_trajectory v ->
  (forall i, (i < natoms)%nat -> (types i < nprim)%nat) ->
  project_onto_wave_vector natoms nprim ndim types coords q v m atom = Some a ->
  project_onto_wave_vector natoms nprim ndim types coords (fun d => - q d) v m atom = Some b ->
  forall t ty k, (k < ndim)%nat -> b t ty k = Cconj (a t ty k).
Proof.
  intros natoms nprim ndim types coords q v m atom a b Hr Ht Ea Eb t ty k Hk.
  destruct (project_ok natoms nprim ndim types coords q v m atom Ht) as [a' [Ea' Ha]]. rewrite Ea in Ea'. injection Ea' as <-.
  destruct (project_ok natoms nprim ndim types coords (fun d => - q d) v m atom Ht) as [b' [Eb' Hb]]. rewrite Eb in Eb'. injection Eb' as <-.
  rewrite Ha, Hb by exact Hk. unfold Cdiv. rewrite Cmult_conj'.
  assert (RC : forall x, Cconj (RtoC x) = RtoC x) by (intros x; apply injective_projections; cbn; ring).
  f_equal.
  - unfold csum_if. rewrite csum_conj. apply csum_ext. intros i _. destruct (_ && _)%bool; [|symmetry; apply RC].
    rewrite !Cmult_conj', expmi_conj, RC. replace (Cconj (v t i k)) with (v t i k) by (apply injective_projections; cbn; [reflexivity|rewrite (Hr t i k); ring]).
    do 2 f_equal. clear. generalize (coords i). intros c. induction ndim as [|n IH]; cbn [rdot]; [ring|]. rewrite IH. ring.
  - destruct (Req_dec (sqrt (INR natoms / INR nprim)) 0) as [Z|Z].
    + rewrite Z. apply injective_projections; cbn; unfold Rdiv; ring.
    + rewrite <- RtoC_inv by exact Z. symmetry. apply RC.
Qed.
Print Assumptions C96_opposite.
(** another origin for the coordinates: one phase factor for all the entries *)
Theorem C96_origin : forall natoms nprim ndim types coords q (v : nat -> nat -> nat -> C) m atom shift a b,
  (forall i, (i < natoms)%nat -> (types i < nprim)%nat) ->
  project_onto_wave_vector natoms nprim ndim types coords q v m atom = Some a ->
  project_onto_wave_vector natoms nprim ndim types (fun i d => coords i d + shift d) q v m atom = Some b ->
  exists c, Cmod c = 1 /\ forall t ty k, (k < ndim)%nat -> b t ty k = Cmult c (a t ty k).
Proof.
  intros natoms nprim ndim types coords q v m atom shift a b Ht Ea Eb.
  destruct (project_ok natoms nprim ndim types coords q v m atom Ht) as [a' [Ea' Ha]]. rewrite Ea in Ea'. injection Ea' as <-.
  destruct (project_ok natoms nprim ndim types (fun i d => coords i d + shift d) q v m atom Ht) as [b' [Eb' Hb]]. rewrite Eb in Eb'. injection Eb' as <-.
  exists (expmi (rdot ndim q shift)). split; [apply expmi_mod|]. intros t ty k Hk. rewrite Ha, Hb by exact Hk. unfold Cdiv. rewrite Cmult_assoc. f_equal.
  unfold csum_if. rewrite <- csum_scal. apply csum_ext. intros i _. destruct (_ && _)%bool; [|ring].
  replace (rdot ndim q (fun d => coords i d + shift d)) with (rdot ndim q (coords i) + rdot ndim q shift).
  - rewrite expmi_add. ring.
  - clear. generalize (coords i). intros c. induction ndim as [|n IH]; cbn [rdot]; [ring|]. rewrite <- IH. ring.
Qed.
Print Assumptions C96_origin.
Lemma csum_list n f : csum n f = fold_right Cplus (RtoC 0) (map f (seq 0 n)).
Proof.
  assert (G : forall l x, fold_right Cplus x l = Cplus (fold_right Cplus (RtoC 0) l) x). { induction l as [|y l IH]; intros x; cbn [fold_right]; [ring|]. rewrite IH. ring. }
  induction n as [|n IH]; [reflexivity|]. rewrite seq_S, map_app, fold_right_app. cbn [csum map fold_right plus]. rewrite G, <- IH. ring.
Qed.
Lemma csum_perm n p f : (forall i, (i < n)%nat -> (p i < n)%nat) -> (forall i j, (i < n)%nat -> (j < n)%nat -> p i = p j -> i = j) -> csum n (fun i => f (p i)) = csum n f.
Proof.
  intros Hp Inj. rewrite !csum_list, <- (map_map p f).
  assert (S : forall l l', Permutation l l' -> fold_right Cplus (RtoC 0) l = fold_right Cplus (RtoC 0) l').
  { intros l l' H. induction H; cbn [fold_right]; [reflexivity|rewrite IHPermutation; reflexivity|ring|congruence]. }
  apply S, Permutation_map. apply NoDup_Permutation_bis.
  - apply FftProofs.nodup_map_in; [|apply seq_NoDup]. intros a b Ha Hb. apply in_seq in Ha. apply in_seq in Hb. apply Inj; lia.
  - rewrite map_length. lia.
  - intros x Hx. apply in_map_iff in Hx. destruct Hx as [y [<- Hy]]. apply in_seq in Hy. apply in_seq. split; [lia|]. apply Hp. lia.
Qed.
(** the atoms of the supercell in another order (each with its own type, coordinates, mass and velocity): the same result *)
Theorem C96_order : forall natoms nprim ndim types coords q (v : nat -> nat -> nat -> C) m atom p a b,
  (forall i, (i < natoms)%nat -> (types i < nprim)%nat) ->
  (forall i, (i < natoms)%nat -> (p i < natoms)%nat) -> (forall i j, (i < natoms)%nat -> (j < natoms)%nat -> p i = p j -> i = j) ->
  project_onto_wave_vector natoms nprim ndim types coords q v m atom = Some a ->
  project_onto_wave_vector natoms nprim ndim (fun i => types (p i)) (fun i => coords (p i)) q (fun t i k => v t (p i) k) (fun i => m (p i)) atom = Some b ->
  forall t ty k, (k < ndim)%nat -> b t ty k = a t ty k.
Proof.
  intros natoms nprim ndim types coords q v m atom p a b Ht Hp Inj Ea Eb t ty k Hk.
  destruct (project_ok natoms nprim ndim types coords q v m atom Ht) as [a' [Ea' Ha]]. rewrite Ea in Ea'. injection Ea' as <-.
  destruct (project_ok natoms nprim ndim (fun i => types (p i)) (fun i => coords (p i)) q (fun t i k => v t (p i) k) (fun i => m (p i)) atom) as [b' [Eb' Hb]]; [intros i Hii; apply Ht, Hp, Hii|].
  rewrite Eb in Eb'. injection Eb' as <-. rewrite Ha, Hb by exact Hk. f_equal. unfold csum_if.
  exact (csum_perm natoms p (fun i => if ((types i =? ty)%nat && kept types atom i)%bool then Cmult (Cmult (v t i k) (RtoC (sqrt (m i)))) (expmi (rdot ndim q (coords i))) else RtoC 0) Hp Inj).
Qed.
Print Assumptions C96_order.
Example C96_nonvacuous : is_inverse mid mid /\ get_attribute 2 [0%nat; 1%nat] [2%nat; 1%nat; 1%nat] = Some [0%nat; 0%nat; 1%nat; 1%nat] /\ real_trajectory (fun _ i _ => RtoC (INR i)) /\
  orthonormal 1 3 3 (fun k _ d => if (k =? d)%nat then RtoC 1 else RtoC 0).
Proof.
  split; [split; vec_ring|]. split; [reflexivity|]. split; [intros t i k; reflexivity|].
  intros k l Hk Hl. destruct k as [|[|[|k]]]; try lia; (destruct l as [|[|[|l]]]; try lia); cbn [csum Nat.eqb]; apply injective_projections; cbn; lra.
Qed.
