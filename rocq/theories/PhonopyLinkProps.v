(** C47-C49, C63, C64: eigenvectors, equivalent and commensurate wave vectors, band paths, eigenvalues. *)
From Verif Require Import PhonopyLinkModel PhonopyLinkSpec PhonopyLinkProofs ProjectionModel ProjectionSpec ProjectionProofs.
From Coq Require Import Permutation List.
Open Scope R_scope.

(** C47: entry [branch][atom][dimension], and back to the same matrix, for every size *)
Theorem C47_arranged : forall A ndim nprim (ev : nat -> nat -> A) branch atom dim, (branch < nprim * ndim)%nat -> (atom < nprim)%nat -> (dim < ndim)%nat ->
  exists a b, nth_error (arrange_eigenvectors ndim nprim ev) branch = Some a /\ nth_error a atom = Some b /\ nth_error b dim = Some (ev (atom * ndim + dim)%nat branch).
Proof. intros; apply arranged_entry; assumption. Qed.
Theorem C47_lossless : forall A ndim nprim (ev : nat -> nat -> A), exists m, unarrange_eigenvectors ndim nprim (arrange_eigenvectors ndim nprim ev) = Some m /\
  forall r c, (r < nprim * ndim)%nat -> (c < nprim * ndim)%nat -> m r c = Some (ev r c).
Proof. intros; apply unarranged. Qed.
(** a matrix with orthonormal columns gives orthonormal modes, as the mode projection needs (C29) *)
Theorem C47_orthonormal : forall ndim nprim (ev : nat -> nat -> C),
  (forall k l, (k < nprim * ndim)%nat -> (l < nprim * ndim)%nat -> csum (nprim * ndim) (fun r => Cmult (ev r k) (Cconj (ev r l))) = if (k =? l)%nat then RtoC 1 else RtoC 0) ->
  orthonormal nprim ndim (nprim * ndim) (fun branch atom dim => ev (atom * ndim + dim)%nat branch).
Proof. intros ndim nprim ev H k l Hk Hl. rewrite <- (H k l Hk Hl). apply (csum_flat nprim ndim (fun r => Cmult (ev r k) (Cconj (ev r l)))). Qed.

(** C48: the list has no repetitions, and holds q and exactly those rotated images that have no negative component *)
Theorem C48_equivalent_points : forall inv pmat operations q result, get_equivalent_q_points_by_symmetry inv pmat operations q result ->
  NoDup result /\ forall x, In x result <-> x = q \/ exists o, In o operations /\ x = vmul q (operation_matrix_q inv pmat o) /\ 0 <= vx x /\ 0 <= vy x /\ 0 <= vz x.
Proof. exact equivalent_spec. Qed.
(** ... where the image, in coordinates of the conventional cell, is the operation applied to the wave vector: so its length is
    the same whenever the operation preserves the length of wave vectors of the crystal *)
Theorem C48_same_length : forall inv cell pmat operations q result x, is_inverse (inv pmat) pmat ->
  get_equivalent_q_points_by_symmetry inv pmat operations q result ->
  (forall o w, In o operations -> vnorm (vmul (mulv o w) (mT (inv cell))) = vnorm (vmul w (mT (inv cell)))) ->
  In x result -> vnorm (vmul (vmul x (inv pmat)) (mT (inv cell))) = vnorm (vmul (vmul q (inv pmat)) (mT (inv cell))).
Proof.
  intros inv cell pmat ops q r x Hi Hr Hiso Hx. apply (proj2 (equivalent_spec _ _ _ _ _ Hr)) in Hx. destruct Hx as [->|(o & Ho & -> & _)]; [reflexivity|].
  rewrite image_conventional by exact Hi. apply Hiso, Ho.
Qed.
Lemma q_vector_conventional inv cell pmat q : is_inverse (inv pmat) pmat -> is_inverse (inv cell) cell -> is_inverse (inv (primitive_cell cell pmat)) (primitive_cell cell pmat) ->
  get_q_vector inv (primitive_cell cell pmat) q = vscale (2 * PI) (vmul (vmul q (inv pmat)) (mT (inv cell))).
Proof.
  intros Hp [Hc1 Hc2] Hpc.
  assert (E : forall w, vdot (get_q_vector inv (primitive_cell cell pmat) q) w = vdot (vscale (2 * PI) (vmul (vmul q (inv pmat)) (mT (inv cell)))) w).
  { intros w. replace w with (vmul (vmul w (inv cell)) cell) at 1 by (rewrite vmul_mmul, Hc2; apply vmul_mid). rewrite wave_dot by assumption.
    replace (vdot (vscale (2 * PI) (vmul (vmul q (inv pmat)) (mT (inv cell)))) w) with (2 * PI * vdot (vmul (vmul q (inv pmat)) (mT (inv cell))) w) by (unfold vdot, vscale; cbn [vx vy vz]; ring).
    f_equal. rewrite (vdot_vmul _ w (mT (inv cell))), mT_mT. reflexivity. }
  assert (X := E (V3 1 0 0)). assert (Y := E (V3 0 1 0)). assert (Z := E (V3 0 0 1)). unfold vdot in X, Y, Z. cbn [vx vy vz] in X, Y, Z.
  apply vec_eq; lra.
Qed.
(** in terms of the cartesian wave vectors used in projections *)
Theorem C48_same_cartesian_length : forall inv cell pmat operations q result x, is_inverse (inv pmat) pmat -> is_inverse (inv cell) cell ->
  is_inverse (inv (primitive_cell cell pmat)) (primitive_cell cell pmat) ->
  get_equivalent_q_points_by_symmetry inv pmat operations q result ->
  (forall o w, In o operations -> vnorm (vmul (mulv o w) (mT (inv cell))) = vnorm (vmul w (mT (inv cell)))) ->
  In x result -> vnorm (get_q_vector inv (primitive_cell cell pmat) x) = vnorm (get_q_vector inv (primitive_cell cell pmat) q).
Proof.
  intros inv cell pmat ops q r x Hp Hc Hpc Hr Hiso Hx. rewrite !q_vector_conventional by assumption.
  assert (S : forall v, vnorm (vscale (2 * PI) v) = 2 * PI * vnorm v).
  { intros v. assert (P := PI_RGT_0). unfold vnorm. replace (vnorm2 (vscale (2 * PI) v)) with (2 * PI * (2 * PI) * vnorm2 v) by (unfold vnorm2, vdot, vscale; cbn [vx vy vz]; ring).
    rewrite sqrt_mult; [rewrite sqrt_square by lra; reflexivity|nra|unfold vnorm2, vdot; nra]. }
  rewrite !S. f_equal. eapply C48_same_length; eassumption.
Qed.
Theorem C48_identity : forall inv pmat, is_inverse (inv pmat) pmat -> operation_matrix_q inv pmat mid = mid.
Proof. exact conj_id. Qed.

(** C49: true exactly when q has, to 4 decimals, integer coordinates in the reciprocal supercell lattice *)
Theorem C49_decimals : forall inv pmat nx ny nz q, check_commensurate inv pmat nx ny nz q = true <->
  let t := vmul q (inv pmat) in near_integer (1/20000) (vx t * INR nx) /\ near_integer (1/20000) (vy t * INR ny) /\ near_integer (1/20000) (vz t * INR nz).
Proof. exact check_iff. Qed.
(** every wave vector whose plane wave is periodic in the MD supercell is accepted *)
Theorem C49_periodic_accepted : forall inv cell pmat nx ny nz q, is_inverse (inv pmat) pmat -> is_inverse (inv (primitive_cell cell pmat)) (primitive_cell cell pmat) ->
  periodic (get_q_vector inv (primitive_cell cell pmat) q) cell nx ny nz -> check_commensurate inv pmat nx ny nz q = true.
Proof.
  intros inv cell pmat nx ny nz q Hp Hc H. apply periodic_iff in H; [|exact Hp|exact Hc]. apply check_iff. cbv zeta in *.
  assert (N : forall x, (exists m : Z, x = IZR m) -> near_integer (1/20000) x) by (intros x [m ->]; exists m; rewrite Rminus_eq_0, Rabs_R0; lra).
  destruct H as (H1 & H2 & H3). repeat split; apply N; assumption.
Qed.
(** and every accepted one is, within half a unit of the fourth decimal of these coordinates, a periodic one *)
Theorem C49_accepted_near_periodic : forall inv cell pmat nx ny nz q, is_inverse (inv pmat) pmat -> is_inverse (inv (primitive_cell cell pmat)) (primitive_cell cell pmat) ->
  (0 < nx)%nat -> (0 < ny)%nat -> (0 < nz)%nat -> check_commensurate inv pmat nx ny nz q = true ->
  exists q0, periodic (get_q_vector inv (primitive_cell cell pmat) q0) cell nx ny nz /\
  let scaled v := let t := vmul v (inv pmat) in V3 (vx t * INR nx) (vy t * INR ny) (vz t * INR nz) in close (1/20000) (scaled q) (scaled q0).
Proof.
  intros inv cell pmat nx ny nz q Hp Hc Px Py Pz H. apply check_iff in H. cbv zeta in H. destruct H as ([m1 E1] & [m2 E2] & [m3 E3]).
  assert (Nx : INR nx <> 0) by (apply not_0_INR; lia). assert (Ny : INR ny <> 0) by (apply not_0_INR; lia). assert (Nz : INR nz <> 0) by (apply not_0_INR; lia).
  set (t0 := V3 (IZR m1 / INR nx) (IZR m2 / INR ny) (IZR m3 / INR nz)).
  assert (T : vmul (vmul t0 pmat) (inv pmat) = t0) by (destruct Hp as [Hp1 _]; rewrite vmul_mmul, Hp1; apply vmul_mid).
  exists (vmul t0 pmat). split.
  - apply periodic_iff; [exact Hp|exact Hc|]. cbv zeta. rewrite T. cbn [vx vy vz t0]. split; [exists m1|split; [exists m2|exists m3]]; field; assumption.
  - cbv beta zeta. rewrite T. unfold close. cbn [vx vy vz t0]. repeat split; [replace (IZR m1 / INR nx * INR nx) with (IZR m1) by (field; assumption)|replace (IZR m2 / INR ny * INR ny) with (IZR m2) by (field; assumption)|replace (IZR m3 / INR nz * INR nz) with (IZR m3) by (field; assumption)]; assumption.
Qed.
(** a periodic wave vector gives every image of an atom in repeated supercells the same phase factor *)
Lemma expmi_period x (m : Z) : expmi (x + 2 * PI * IZR m) = expmi x.
Proof.
  unfold expmi. assert (E : cos (x + 2 * PI * IZR m) = cos x /\ sin (x + 2 * PI * IZR m) = sin x).
  { destruct m as [|p|p].
    - rewrite Rmult_0_r, Rplus_0_r. tauto.
    - rewrite <- (positive_nat_Z p), <- (INR_IZR_INZ (Pos.to_nat p)). replace (x + 2 * PI * INR (Pos.to_nat p)) with (x + 2 * INR (Pos.to_nat p) * PI) by ring. rewrite cos_period, sin_period. tauto.
    - change (Z.neg p) with (- Z.pos p)%Z. rewrite opp_IZR, <- (positive_nat_Z p), <- (INR_IZR_INZ (Pos.to_nat p)). set (n := Pos.to_nat p). set (y := x + 2 * PI * - INR n). replace x with (y + 2 * INR n * PI) by (unfold y; ring). rewrite cos_period, sin_period. tauto. }
  destruct E as [-> ->]. reflexivity.
Qed.
Theorem C49_phase_invariant : forall q cell nx ny nz r a b c, periodic q cell nx ny nz ->
  expmi (vdot q (vadd r (translation cell nx ny nz a b c))) = expmi (vdot q r).
Proof.
  intros q cell nx ny nz r a b c H. destruct (H a b c) as [m E]. replace (vdot q (vadd r (translation cell nx ny nz a b c))) with (vdot q r + vdot q (translation cell nx ny nz a b c)) by (unfold vdot, vadd; cbn [vx vy vz]; ring).
  rewrite E. apply expmi_period.
Qed.
(** adding a reciprocal lattice vector to q multiplies the projection of each atom type by a phase factor: its modulus does not
    change *)
Definition comp (v : vec) (k : nat) : R := match k with 0%nat => vx v | 1%nat => vy v | _ => vz v end.
Lemma rdot_comp a b : rdot 3 (comp a) (comp b) = vdot a b.
Proof. unfold vdot; cbn. ring. Qed.
Theorem C49_reciprocal_shift : forall inv pc (natoms nprim : nat) (types : nat -> nat) (pos : nat -> vec) v m atom q g1 g2 g3 A A',
  is_inverse (inv pc) pc -> (forall i, (i < natoms)%nat -> (types i < nprim)%nat) ->
  (forall i j, (i < natoms)%nat -> (j < natoms)%nat -> types i = types j -> exists a b c : Z, pos i = vadd (pos j) (vmul (V3 (IZR a) (IZR b) (IZR c)) pc)) ->
  project_onto_wave_vector natoms nprim 3 types (fun i => comp (pos i)) (comp (get_q_vector inv pc q)) v m atom = Some A ->
  project_onto_wave_vector natoms nprim 3 types (fun i => comp (pos i)) (comp (get_q_vector inv pc (vadd q (V3 (IZR g1) (IZR g2) (IZR g3))))) v m atom = Some A' ->
  forall ty, exists c, Cmod c = 1 /\ forall t k, (k < 3)%nat -> A' t ty k = Cmult c (A t ty k).
Proof.
  intros inv pc natoms nprim types pos v m atom q g1 g2 g3 A A' Hi Ht Hlat EA EA' ty.
  set (g := V3 (IZR g1) (IZR g2) (IZR g3)) in *.
  destruct (project_ok natoms nprim 3 types (fun i => comp (pos i)) (comp (get_q_vector inv pc q)) v m atom Ht) as [a [Ea Ha]]. rewrite EA in Ea. injection Ea as <-.
  destruct (project_ok natoms nprim 3 types (fun i => comp (pos i)) (comp (get_q_vector inv pc (vadd q g))) v m atom Ht) as [a' [Ea' Ha']]. rewrite EA' in Ea'. injection Ea' as <-.
  assert (Lin : forall r, vdot (get_q_vector inv pc (vadd q g)) r = vdot (get_q_vector inv pc q) r + vdot (get_q_vector inv pc g) r) by (intros r; unfold get_q_vector, vdot, vmul, vadd, vscale; cbn [vx vy vz]; ring).
  assert (Int : forall a b c : Z, vdot (get_q_vector inv pc g) (vmul (V3 (IZR a) (IZR b) (IZR c)) pc) = 2 * PI * IZR (g1 * a + g2 * b + g3 * c)).
  { intros x y z. unfold get_q_vector. replace (vmul g (mscale (2 * PI) (mT (inv pc)))) with (vscale (2 * PI) (vmul g (mT (inv pc)))) by (apply vec_eq; unfold vmul, mscale, vadd, vscale; cbn [vx vy vz r0 r1 r2]; ring).
    replace (vdot (vscale (2 * PI) (vmul g (mT (inv pc)))) (vmul (V3 (IZR x) (IZR y) (IZR z)) pc)) with (2 * PI * vdot (vmul g (mT (inv pc))) (vmul (V3 (IZR x) (IZR y) (IZR z)) pc)) by (unfold vdot, vscale; cbn [vx vy vz]; ring).
    f_equal. rewrite vdot_vmul, mT_mT. destruct Hi as [Hi _]. rewrite vmul_mmul, Hi, vmul_mid. unfold vdot, g. cbn [vx vy vz]. rewrite !plus_IZR, !mult_IZR. ring. }
  assert (Ex : exists c, Cmod c = 1 /\ forall i, (i < natoms)%nat -> types i = ty -> expmi (vdot (get_q_vector inv pc g) (pos i)) = c).
  { destruct (List.find (fun i => types i =? ty)%nat (seq 0 natoms)) as [j|] eqn:F.
    - apply find_some in F. destruct F as [Hj Ej]. apply in_seq in Hj. apply Nat.eqb_eq in Ej. exists (expmi (vdot (get_q_vector inv pc g) (pos j))). split.
      + unfold Cmod, expmi. cbn [fst snd]. replace (cos _ ^ 2 + (- sin _) ^ 2) with 1; [apply sqrt_1|]. assert (X := sin2_cos2 (vdot (get_q_vector inv pc g) (pos j))). unfold Rsqr in X. cbn. lra.
      + intros i Hii Eti. destruct (Hlat i j Hii ltac:(lia) ltac:(congruence)) as (x & y & z & ->).
        replace (vdot (get_q_vector inv pc g) (vadd (pos j) (vmul (V3 (IZR x) (IZR y) (IZR z)) pc))) with (vdot (get_q_vector inv pc g) (pos j) + vdot (get_q_vector inv pc g) (vmul (V3 (IZR x) (IZR y) (IZR z)) pc)) by (unfold vdot, vadd; cbn [vx vy vz]; ring).
        rewrite Int. apply expmi_period.
    - exists (RtoC 1). split; [apply Cmod_1|]. intros i Hii Eti. assert (X := find_none _ _ F i ltac:(apply in_seq; lia)). cbn in X. rewrite Eti, Nat.eqb_refl in X. discriminate. }
  destruct Ex as (c & Hc & Hphase). exists c. split; [exact Hc|]. intros t k Hk. rewrite Ha, Ha' by exact Hk. unfold Cdiv. rewrite Cmult_assoc. f_equal. unfold csum_if. rewrite <- csum_scal. apply csum_ext. intros i Hii.
  destruct (Nat.eqb_spec (types i) ty) as [Et|Et]; cbn [andb]; [|ring]. match goal with |- context [if ?b then _ else _] => destruct b end; [|ring].
  rewrite !rdot_comp, Lin.
  assert (M : forall x y, expmi (x + y) = Cmult (expmi x) (expmi y)) by (intros x y; unfold expmi, Cmult; cbn [fst snd]; rewrite cos_plus, sin_plus; f_equal; ring).
  rewrite M, (Hphase i Hii Et). ring.
Qed.

(** C63: a band path has resolution+1 equally spaced points from the start to the end *)
Theorem C63_band_path : forall q_start q_end n, (0 < n)%nat ->
  length (band_path q_start q_end n) = (n + 1)%nat /\ nth_error (band_path q_start q_end n) 0 = Some q_start /\ nth_error (band_path q_start q_end n) n = Some q_end /\
  forall i a b, nth_error (band_path q_start q_end n) i = Some a -> nth_error (band_path q_start q_end n) (S i) = Some b -> vsub b a = vscale (/ INR n) (vsub q_end q_start).
Proof.
  intros s e n Hn. assert (Nn : INR n <> 0) by (apply not_0_INR; lia). unfold band_path. split; [rewrite map_length, seq_length; reflexivity|].
  assert (L : forall i, (i < n + 1)%nat -> nth_error (map (fun i => vadd s (vscale (INR i) (vscale (/ INR n) (vsub e s)))) (seq 0 (n + 1))) i = Some (vadd s (vscale (INR i) (vscale (/ INR n) (vsub e s))))) by (intros i Hi; apply (nth_error_seq_map (fun i => vadd s (vscale (INR i) (vscale (/ INR n) (vsub e s))))), Hi).
  split; [|split].
  - rewrite L by lia. f_equal. apply vec_eq; unfold vadd, vscale, vsub; cbn [vx vy vz INR]; ring.
  - rewrite L by lia. f_equal. apply vec_eq; unfold vadd, vscale, vsub; cbn [vx vy vz]; field; exact Nn.
  - intros i a b Ea Eb. assert (Hb : (S i < n + 1)%nat) by (assert (X : nth_error (map (fun i => vadd s (vscale (INR i) (vscale (/ INR n) (vsub e s)))) (seq 0 (n + 1))) (S i) <> None) by congruence; apply nth_error_Some in X; rewrite map_length, seq_length in X; exact X).
    rewrite L in Ea, Eb by lia. apply (f_equal (fun o => match o with Some x => x | None => vzero end)) in Ea, Eb. cbv beta iota in Ea, Eb. rewrite <- Ea, <- Eb, S_INR. apply vec_eq; unfold vadd, vscale, vsub; cbn [vx vy vz]; ring.
Qed.
(** C64: frequencies that were not renormalised give back the eigenvalues they came from, imaginary (negative) ones included *)
Theorem C64_eigenvalue_of_frequency : forall c eigenvalue0, 0 < c -> eigenvalue c (np_sign eigenvalue0 * sqrt (Rabs eigenvalue0) * c) = eigenvalue0.
Proof. intros; apply eigenvalue_of_frequency; assumption. Qed.
Theorem C64_frequency_of_eigenvalue : forall c f, 0 < c -> np_sign (eigenvalue c f) * sqrt (Rabs (eigenvalue c f)) * c = f.
Proof. intros; apply frequency_of_eigenvalue; assumption. Qed.

Example C47_nonvacuous : arrange_eigenvectors 3 2 (fun r c => (r, c)) = map (fun c => [[(0, c); (1, c); (2, c)]; [(3, c); (4, c); (5, c)]]%nat) (seq 0 6).
Proof. reflexivity. Qed.
Example C48_nonvacuous : exists x, x <> V3 (1/2) 0 0 /\ let r := equivalent_points (fun m => m) mid [mid; M3 (V3 0 1 0) (V3 1 0 0) (V3 0 0 1)] (V3 (1/2) 0 0) in
  get_equivalent_q_points_by_symmetry (fun m => m) mid [mid; M3 (V3 0 1 0) (V3 1 0 0) (V3 0 0 1)] (V3 (1/2) 0 0) r /\ In x r.
Proof.
  set (q := V3 (1/2) 0 0). set (o := M3 (V3 0 1 0) (V3 1 0 0) (V3 0 0 1)). set (r := equivalent_points (fun m => m) mid [mid; o] q).
  assert (G : get_equivalent_q_points_by_symmetry (fun m => m) mid [mid; o] q r) by apply Permutation_refl.
  exists (V3 0 (1/2) 0). split; [intros E; injection E; lra|]. cbv zeta. split; [exact G|].
  apply (proj2 (equivalent_spec _ _ _ _ _ G)). right. exists o. split; [right; left; reflexivity|].
  split; [|cbn [vx vy vz]; lra]. cbv [operation_matrix_q o q mid mT mmul vmul vadd vscale vx vy vz r0 r1 r2]. f_equal; ring.
Qed.
Example C49_nonvacuous : check_commensurate (fun m => m) mid 4 2 1 (V3 (1/4) (1/2) 0) = true /\ check_commensurate (fun m => m) mid 4 2 1 (V3 (1/3) (1/2) 0) = false.
Proof.
  split.
  - apply check_iff. cbv zeta. unfold mid, vmul, vadd, vscale; cbn [vx vy vz r0 r1 r2].
    split; [exists 1%Z|split; [exists 1%Z|exists 0%Z]]; cbn [INR]; match goal with |- Rabs ?x <= _ => replace x with 0 by lra end; rewrite Rabs_R0; lra.
  - destruct (check_commensurate (fun m => m) mid 4 2 1 (V3 (1/3) (1/2) 0)) eqn:E; [exfalso|reflexivity]. apply check_iff in E. cbv zeta in E. destruct E as ([z Hz] & _).
    unfold mid, vmul, vadd, vscale in Hz; cbn [vx vy vz r0 r1 r2 INR] in Hz. unfold Rabs in Hz.
    assert (L1 : IZR 1 < IZR z) by (destruct (Rcase_abs _) in Hz; lra). assert (L2 : IZR z < IZR 2) by (destruct (Rcase_abs _) in Hz; lra). apply lt_IZR in L1, L2. lia.
Qed.
Print Assumptions C47_arranged.
Print Assumptions C47_lossless.
Print Assumptions C47_orthonormal.
Print Assumptions C48_equivalent_points.
Print Assumptions C48_same_length.
Print Assumptions C48_same_cartesian_length.
Print Assumptions C48_identity.
Print Assumptions C49_decimals.
Print Assumptions C49_periodic_accepted.
Print Assumptions C49_accepted_near_periodic.
Print Assumptions C49_phase_invariant.
Print Assumptions C49_reciprocal_shift.
Print Assumptions C63_band_path.
Print Assumptions C64_eigenvalue_of_frequency.
Print Assumptions C64_frequency_of_eigenvalue.
