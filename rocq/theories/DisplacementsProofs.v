From Coq Require Import Classical.
From Verif Require Import DisplacementsModel DisplacementsSpec DetBridge.
Open Scope R_scope.

Lemma rsum_ext' m f g : (forall k, (k < m)%nat -> f k = g k) -> rsum m f = rsum m g.
Proof.
  induction m as [|m IH]; intros H; simpl; [reflexivity|].
  rewrite IH by (intros; apply H; lia). rewrite H by lia. reflexivity.
Qed.
Lemma rsum_plus m f g : rsum m (fun k => f k + g k) = rsum m f + rsum m g.
Proof. induction m as [|m IH]; simpl; [ring|rewrite IH; ring]. Qed.
Lemma rsum_minus m f g : rsum m (fun k => f k - g k) = rsum m f - rsum m g.
Proof. induction m as [|m IH]; simpl; [ring|rewrite IH; ring]. Qed.
Lemma rsum_scal m c f : rsum m (fun k => c * f k) = c * rsum m f.
Proof. induction m as [|m IH]; simpl; [ring|rewrite IH; ring]. Qed.
Lemma rsum_0 m : rsum m (fun _ => 0) = 0.
Proof. induction m as [|m IH]; simpl; [reflexivity|rewrite IH; ring]. Qed.
Lemma rsum_swap m n f : rsum m (fun i => rsum n (fun j => f i j)) = rsum n (fun j => rsum m (fun i => f i j)).
Proof.
  induction m as [|m IH]; simpl; [rewrite rsum_0; reflexivity|]. rewrite IH, rsum_plus. reflexivity.
Qed.
Lemma rsum_delta m i f : (i < m)%nat -> rsum m (fun k => (if Nat.eqb i k then 1 else 0) * f k) = f i.
Proof.
  induction m as [|m IH]; intros H; [lia|]. simpl.
  destruct (Nat.eq_dec i m) as [->|N].
  - rewrite Nat.eqb_refl. rewrite (rsum_ext' m _ (fun _ => 0)).
    + rewrite rsum_0. ring.
    + intros k Hk. replace (Nat.eqb m k) with false by (symmetry; apply Nat.eqb_neq; lia). ring.
  - rewrite IH by lia. replace (Nat.eqb i m) with false by (symmetry; apply Nat.eqb_neq; lia). ring.
Qed.
(** A (B v) = v when A B = id *)
Lemma cancel n (A B : nat -> nat -> R) v i : (i < n)%nat ->
  (forall j, (j < n)%nat -> rsum n (fun k => A i k * B k j) = if Nat.eqb i j then 1 else 0) ->
  rsum n (fun k => A i k * rsum n (fun j => B k j * v j)) = v i.
Proof.
  intros Hi H.
  transitivity (rsum n (fun k => rsum n (fun j => A i k * B k j * v j))).
  { apply rsum_ext'. intros k _. rewrite <- rsum_scal. apply rsum_ext'. intros; ring. }
  rewrite rsum_swap.
  transitivity (rsum n (fun j => (if Nat.eqb i j then 1 else 0) * v j)).
  { apply rsum_ext'. intros j Hj. rewrite <- (H j Hj), Rmult_comm, <- rsum_scal. apply rsum_ext'. intros; ring. }
  apply rsum_delta. exact Hi.
Qed.

Definition Cc n cell := pymatrix_to_c_array_real n cell.
Lemma lattice_Cc n cell c k : lattice_combination n cell c k = rsum n (fun j => Cc n cell k j * c j).
Proof.
  unfold lattice_combination, Cc, pymatrix_to_c_array_real. apply rsum_ext'. intros j _.
  replace (k + n * j)%nat with (j * n + k)%nat by lia. ring.
Qed.
(** fractional coordinates of a vector, as the code computes them *)
Definition frac n cell (v : nat -> R) : nat -> R := fun j => rsum n (fun k => matrix_inverse n (Cc n cell) j k * v k).
Lemma frac_combination n cell c j : (2 <= n)%nat -> Determinant n (Cc n cell) <> 0 -> (j < n)%nat ->
  frac n cell (lattice_combination n cell c) j = c j.
Proof.
  intros Hn D Hj. unfold frac.
  rewrite (rsum_ext' n _ (fun k => matrix_inverse n (Cc n cell) j k * rsum n (fun l => Cc n cell k l * c l)))
    by (intros; rewrite lattice_Cc; reflexivity).
  apply cancel; [assumption|]. intros. apply inverse_left_nat; assumption.
Qed.
Lemma combination_frac n cell v k : (2 <= n)%nat -> Determinant n (Cc n cell) <> 0 -> (k < n)%nat ->
  lattice_combination n cell (frac n cell v) k = v k.
Proof.
  intros Hn D Hk. rewrite lattice_Cc. unfold frac.
  apply (cancel n (Cc n cell) (matrix_inverse n (Cc n cell)) v k Hk). intros. apply inverse_right_nat; assumption.
Qed.
Lemma frac_ext n cell u v j : (forall k, (k < n)%nat -> u k = v k) -> frac n cell u j = frac n cell v j.
Proof. intros H. apply rsum_ext'. intros k Hk. rewrite H by assumption. reflexivity. Qed.
Lemma frac_minus n cell u v j : frac n cell (fun k => u k - v k) j = frac n cell u j - frac n cell v j.
Proof. unfold frac. rewrite <- rsum_minus. apply rsum_ext'. intros; ring. Qed.

Lemma displacement_eq n cell p x k :
  atomic_displacement n cell p x k =
  (x k - p k) - lattice_combination n cell (fun j => IZR (cround (frac n cell (fun k => x k - p k) j))) k.
Proof.
  unfold atomic_displacement, matrix_multiplication. cbv zeta. rewrite lattice_Cc. unfold frac, Cc. ring.
Qed.

Lemma minimum_image n cell p x : (2 <= n)%nat -> Determinant n (Cc n cell) <> 0 ->
  exists m : nat -> Z,
  (forall k, (k < n)%nat -> atomic_displacement n cell p x k = x k - p k - lattice_combination n cell (fun j => IZR (m j)) k) /\
  (exists f, (forall k, (k < n)%nat -> atomic_displacement n cell p x k = lattice_combination n cell f k)) /\
  (forall f, (forall k, (k < n)%nat -> atomic_displacement n cell p x k = lattice_combination n cell f k) ->
   forall j, (j < n)%nat -> -(1/2) <= f j <= 1/2).
Proof.
  intros Hn D. exists (fun j => cround (frac n cell (fun k => x k - p k) j)). split; [|split].
  - intros k Hk. rewrite displacement_eq. reflexivity.
  - exists (frac n cell (atomic_displacement n cell p x)). intros k Hk. symmetry. apply combination_frac; assumption.
  - intros f Hf j Hj.
    assert (E : f j = frac n cell (fun k => x k - p k) j - IZR (cround (frac n cell (fun k => x k - p k) j))).
    { rewrite <- (frac_combination n cell f j Hn D Hj).
      rewrite <- (frac_ext n cell _ _ j Hf).
      rewrite (frac_ext n cell _ (fun k => (x k - p k) - lattice_combination n cell (fun j => IZR (cround (frac n cell (fun k => x k - p k) j))) k))
        by (intros; apply displacement_eq).
      rewrite (frac_minus n cell (fun k => x k - p k)), frac_combination by assumption. reflexivity. }
    rewrite E. apply cround_half.
Qed.

Lemma cround_shift x m : ~ tie x -> cround (x + IZR m) = (cround x + m)%Z.
Proof.
  intros H. apply cround_nearest. rewrite plus_IZR.
  assert (B : -(1/2) < x - IZR (cround x) < 1/2) by (apply round_no_tie; intros n E; apply H; exists n; exact E). lra.
Qed.
Lemma periodic n cell p x (m : nat -> Z) : (2 <= n)%nat -> Determinant n (Cc n cell) <> 0 ->
  (forall f, (forall k, (k < n)%nat -> x k - p k = lattice_combination n cell f k) -> forall j, (j < n)%nat -> ~ tie (f j)) ->
  forall k, (k < n)%nat ->
  atomic_displacement n cell p (fun k => x k + lattice_combination n cell (fun j => IZR (m j)) k) k = atomic_displacement n cell p x k.
Proof.
  intros Hn D HT k Hk. rewrite !displacement_eq.
  set (d := fun k => x k - p k).
  assert (T : forall j, (j < n)%nat -> ~ tie (frac n cell d j)).
  { apply HT. intros i Hi. symmetry. apply (combination_frac n cell d i); assumption. }
  assert (E : forall j, (j < n)%nat ->
     frac n cell (fun k => x k + lattice_combination n cell (fun j => IZR (m j)) k - p k) j = frac n cell d j + IZR (m j)).
  { intros j Hj. rewrite (frac_ext n cell _ (fun k => d k - (0 - lattice_combination n cell (fun j => IZR (m j)) k)) j)
      by (intros; unfold d; ring).
    rewrite frac_minus. rewrite (frac_minus n cell (fun _ => 0) (lattice_combination n cell (fun j0 => IZR (m j0)))).
    rewrite frac_combination by assumption. unfold frac at 2.
    rewrite (rsum_ext' n _ (fun _ => 0)) by (intros; ring). rewrite rsum_0. ring. }
  assert (L : lattice_combination n cell (fun j => IZR (cround (frac n cell
      (fun k => x k + lattice_combination n cell (fun j => IZR (m j)) k - p k) j))) k =
      lattice_combination n cell (fun j => IZR (cround (frac n cell d j))) k + lattice_combination n cell (fun j => IZR (m j)) k).
  { unfold lattice_combination at 1 3 4. rewrite <- rsum_plus. apply rsum_ext'. intros j Hj.
    rewrite E, cround_shift by (try apply T; assumption). rewrite plus_IZR. ring. }
  rewrite L. unfold d. ring.
Qed.

(** at a tie the two possible results differ by a lattice vector, so they stay minimum images *)
Lemma determinant_independent n cell : (2 <= n)%nat -> Determinant n (Cc n cell) <> 0 -> nonsingular n cell.
Proof.
  intros Hn D c Hc j Hj. rewrite <- (frac_combination n cell c j Hn D Hj).
  unfold frac. rewrite (rsum_ext' n _ (fun _ => 0)); [apply rsum_0|]. intros k Hk. rewrite Hc by assumption. ring.
Qed.

(** ---- dimension 3 in the vocabulary of Base ---- *)
Lemma Determinant3 m : Determinant 3 (mget m) = mdet m.
Proof. destruct m as [[a b c] [d e f] [g h i]]. unfold mdet, Determinant, minor; cbn. ring. Qed.
Lemma Determinant3_buffer m : Determinant 3 (Cc 3 (buffer m)) = mdet m.
Proof.
  destruct m as [[a b c] [d e f] [g h i]]. unfold mdet, Determinant, minor, Cc, pymatrix_to_c_array_real, buffer.
  cbn -[Nat.div Nat.modulo]. 
  repeat match goal with |- context [Nat.div ?u 3] => let q := eval compute in (Nat.div u 3) in change (Nat.div u 3) with q end.
  repeat match goal with |- context [Nat.modulo ?u 3] => let q := eval compute in (Nat.modulo u 3) in change (Nat.modulo u 3) with q end.
  cbn. ring.
Qed.
Lemma Determinant_ext3 a b : (forall i j, (i < 3)%nat -> (j < 3)%nat -> a i j = b i j) -> Determinant 3 a = Determinant 3 b.
Proof. intros H. unfold Determinant, minor; cbn. rewrite !H by lia. reflexivity. Qed.
Lemma inverse3 m : mdet m <> 0 -> is_inverse (mkmat (matrix_inverse 3 (mget m))) m.
Proof.
  intros D.
  assert (D' : Determinant 3 (mget m) <> 0) by (rewrite Determinant3; exact D).
  assert (L := @inverse_left_nat 3%nat (mget m) ltac:(lia) D'). assert (Rr := @inverse_right_nat 3%nat (mget m) ltac:(lia) D').
  generalize dependent (matrix_inverse 3 (mget m)). intros b L Rr. destruct m as [[x y z] [d e f] [g h i]].
  pose proof (fun i j => L i j) as L'.
  assert (L00 := L 0%nat 0%nat ltac:(lia) ltac:(lia)). assert (L01 := L 0%nat 1%nat ltac:(lia) ltac:(lia)). assert (L02 := L 0%nat 2%nat ltac:(lia) ltac:(lia)).
  assert (L10 := L 1%nat 0%nat ltac:(lia) ltac:(lia)). assert (L11 := L 1%nat 1%nat ltac:(lia) ltac:(lia)). assert (L12 := L 1%nat 2%nat ltac:(lia) ltac:(lia)).
  assert (L20 := L 2%nat 0%nat ltac:(lia) ltac:(lia)). assert (L21 := L 2%nat 1%nat ltac:(lia) ltac:(lia)). assert (L22 := L 2%nat 2%nat ltac:(lia) ltac:(lia)).
  assert (R00 := Rr 0%nat 0%nat ltac:(lia) ltac:(lia)). assert (R01 := Rr 0%nat 1%nat ltac:(lia) ltac:(lia)). assert (R02 := Rr 0%nat 2%nat ltac:(lia) ltac:(lia)).
  assert (R10 := Rr 1%nat 0%nat ltac:(lia) ltac:(lia)). assert (R11 := Rr 1%nat 1%nat ltac:(lia) ltac:(lia)). assert (R12 := Rr 1%nat 2%nat ltac:(lia) ltac:(lia)).
  assert (R20 := Rr 2%nat 0%nat ltac:(lia) ltac:(lia)). assert (R21 := Rr 2%nat 1%nat ltac:(lia) ltac:(lia)). assert (R22 := Rr 2%nat 2%nat ltac:(lia) ltac:(lia)).
  clear L Rr L'. cbn in *. split; apply mat_eq; apply vec_eq; unfold mmul, vmul, mkmat, mkvec, mid; cbn; lra.
Qed.
(** a 1x1 "inverse" is always zero *)
Lemma inverse1_zero a i j : matrix_inverse 1 a i j = 0.
Proof. unfold matrix_inverse, CoFactor. simpl. unfold Rdiv. ring. Qed.

(** ---- C13 ---- *)
Definition vround (r : R -> Z) (v : vec) : vec := V3 (IZR (r (vx v))) (IZR (r (vy v))) (IZR (r (vz v))).
Lemma matrix_inverse_ext3 a b i j : (forall i j, (i < 3)%nat -> (j < 3)%nat -> a i j = b i j) -> (i < 3)%nat -> (j < 3)%nat ->
  matrix_inverse 3 a i j = matrix_inverse 3 b i j.
Proof.
  intros H Hi Hj. unfold matrix_inverse. rewrite (Determinant_ext3 a b H). f_equal.
  unfold CoFactor. f_equal. simpl Nat.sub. unfold Determinant, minor.
  assert (G : forall p i, (p < 2)%nat -> (i < 3)%nat -> ((if (p <? i)%nat then p else S p) < 3)%nat).
  { intros p q Hp Hq. destruct (p <? q)%nat; lia. }
  assert (B0 := G 0%nat i ltac:(lia) Hi). assert (B1 := G 1%nat i ltac:(lia) Hi). assert (B2 := G 0%nat j ltac:(lia) Hj). assert (B3 := G 1%nat j ltac:(lia) Hj).
  rewrite !H by (try apply G; lia). reflexivity.
Qed.
Lemma Cc_buffer m i j : (i < 3)%nat -> (j < 3)%nat -> Cc 3 (buffer m) i j = mget (mT m) i j.
Proof.
  intros Hi Hj. unfold Cc, pymatrix_to_c_array_real, buffer.
  destruct i as [|[|[|i]]], j as [|[|[|j]]]; try lia; reflexivity.
Qed.
Lemma displacement3_eq inv cell p x : is_inverse (inv (mT cell)) (mT cell) ->
  mdet cell <> 0 ->
  displacement3 cell p x = vsub (vsub x p) (vmul (vround cround (mulv (inv (mT cell)) (vsub x p))) cell).
Proof.
  intros HI D.
  assert (D' : mdet (mT cell) <> 0).
  { replace (mdet (mT cell)) with (mdet cell); [assumption|]. destruct cell as [[a b c] [d e f] [g h i]]. unfold mdet, mT; cbn. ring. }
  assert (E : inv (mT cell) = mkmat (matrix_inverse 3 (mget (mT cell)))) by (eapply is_inverse_unique; [exact HI|apply inverse3; assumption]).
  rewrite E. clear HI E.
  assert (F : forall j, (j < 3)%nat -> frac 3 (buffer cell) (fun k => vget x k - vget p k) j =
     vget (mulv (mkmat (matrix_inverse 3 (mget (mT cell)))) (vsub x p)) j).
  { intros j Hj. unfold frac.
    rewrite (rsum_ext' 3 _ (fun k => matrix_inverse 3 (mget (mT cell)) j k * (vget x k - vget p k))).
    - unfold mulv, mkmat, mkvec, vdot, vsub. destruct j as [|[|[|j]]]; try lia; cbn; ring.
    - intros k Hk. f_equal. apply matrix_inverse_ext3; try assumption. intros; apply Cc_buffer; assumption. }
  unfold displacement3, mkvec. rewrite !displacement_eq.
  assert (L : forall k, (k < 3)%nat -> lattice_combination 3 (buffer cell) (fun j => IZR (cround (frac 3 (buffer cell) (fun k0 => vget x k0 - vget p k0) j))) k =
     vget (vmul (vround cround (mulv (mkmat (matrix_inverse 3 (mget (mT cell)))) (vsub x p))) cell) k).
  { intros k Hk. unfold lattice_combination.
    rewrite (rsum_ext' 3 _ (fun j => vget (vround cround (mulv (mkmat (matrix_inverse 3 (mget (mT cell)))) (vsub x p))) j * mget cell j k)).
    - destruct k as [|[|[|k]]]; try lia; unfold vmul; cbn; ring.
    - intros j Hj. rewrite F by assumption. f_equal.
      + destruct j as [|[|[|j]]]; try lia; reflexivity.
      + unfold buffer. rewrite Nat.div_add_l by lia. rewrite Nat.div_small by assumption.
        rewrite Nat.add_0_r. rewrite Nat.add_comm, Nat.mod_add by lia. rewrite Nat.mod_small by assumption. reflexivity. }
  rewrite !L by lia. apply vec_eq; reflexivity.
Qed.

Lemma py_c_agree inv cell p x : mT cell = cell -> mdet cell <> 0 -> is_inverse (inv cell) cell ->
  (forall f, vsub x p = vmul f cell -> ~ tie (vx f) /\ ~ tie (vy f) /\ ~ tie (vz f)) ->
  relativize_py inv cell p x = displacement3 cell p x.
Proof.
  intros S D HI HT.
  rewrite (displacement3_eq inv) by (rewrite ?S; assumption). rewrite S.
  unfold relativize_py. cbv zeta. set (d := mulv (inv cell) (vsub x p)).
  destruct (HT d) as [T1 [T2 T3]].
  { unfold d. rewrite vmul_mT, S, mulv_mmul. destruct HI as [-> _]. rewrite mulv_mid. reflexivity. }
  assert (A : forall r, ~ tie r -> around r = cround r).
  { intros r Hr. apply around_cround_no_tie. intros n E. apply Hr. exists n; exact E. }
  rewrite !A by assumption. unfold vround. vec_ring.
Qed.

Lemma vec_dec (a b : vec) : {a = b} + {a <> b}.
Proof.
  destruct a as [x y z], b as [x' y' z']. destruct (Req_EM_T x x') as [->|N]; [|right; intros E; injection E; intros; contradiction].
  destruct (Req_EM_T y y') as [->|N]; [|right; intros E; injection E; intros; contradiction].
  destruct (Req_EM_T z z') as [->|N]; [|right; intros E; injection E; intros; contradiction]. left; reflexivity.
Qed.
(** if N*a rounds to N*e for every natural N then a = e *)
Lemma rounds_linear a e : (forall N : nat, around (INR N * a) = (Z.of_nat N * e)%Z) -> a = IZR e.
Proof.
  intros H. apply Rminus_diag_uniq. destruct (Req_dec (a - IZR e) 0) as [E|E]; [exact E|exfalso].
  assert (P : 0 < Rabs (a - IZR e)) by (apply Rabs_pos_lt; assumption).
  destruct (archimed_cor1 (Rabs (a - IZR e)) P) as [N [HN Hpos]].
  assert (HN' : 0 < INR N) by (apply lt_0_INR; assumption).
  pose proof (around_half (INR N * a)) as B. rewrite H, mult_IZR, <- INR_IZR_INZ in B.
  assert (C : Rabs (INR N * (a - IZR e)) <= 1/2) by (apply Rabs_le; lra).
  rewrite Rabs_mult, (Rabs_right (INR N)) in C by lra.
  apply (Rmult_lt_compat_l (INR N)) in HN; [|assumption]. rewrite Rinv_r in HN by lra. lra.
Qed.
Definition unit3 (i : nat) : vec := V3 (if Nat.eqb i 0 then 1 else 0) (if Nat.eqb i 1 then 1 else 0) (if Nat.eqb i 2 then 1 else 0).
Lemma vmul_unit_injective cell inv u v : is_inverse inv cell -> vmul u cell = vmul v cell -> u = v.
Proof.
  intros [H1 _] E. rewrite <- (vmul_mid u), <- (vmul_mid v), <- H1, <- !vmul_mmul, E. reflexivity.
Qed.
Lemma vsub_vadd_l p v : vsub (vadd p v) p = v. Proof. vec_ring. Qed.
Lemma py_zero_round inv cell p v : is_inverse (inv cell) cell ->
  relativize_py inv cell p (vadd p (vmul v cell)) = vzero ->
  vround around (mulv (inv cell) (vmul v cell)) = v.
Proof.
  intros HI H. apply (vmul_unit_injective cell (inv cell)); [assumption|].
  unfold relativize_py in H. cbv zeta in H.
  rewrite vsub_vadd_l in H.
  fold (vround around (mulv (inv cell) (vmul v cell))) in H.
  set (w := vmul (vround around (mulv (inv cell) (vmul v cell))) cell) in *.
  transitivity (vsub (vmul v cell) (vsub (vadd p (vmul v cell)) (vadd w p))).
  - vec_ring.
  - rewrite H. vec_ring.
Qed.
Lemma py_differs inv cell p : is_inverse (inv cell) cell -> mT cell <> cell ->
  exists (i N : nat), (i < 3)%nat /\
  relativize_py inv cell p (vadd p (vmul (vscale (INR N) (unit3 i)) cell)) <> vzero.
Proof.
  intros HI NS.
  destruct (classic (exists NN, (fun N0 : nat * nat => (fst N0 < 3)%nat /\ relativize_py inv cell p (vadd p (vmul (vscale (INR (snd N0)) (unit3 (fst N0))) cell)) <> vzero) NN)) as [[[i N] [H1 H2]]|H].
  - exists i, N. split; assumption.
  - exfalso. apply NS.
    assert (Z0 : forall i N, (i < 3)%nat -> vround around (mulv (inv cell) (vmul (vscale (INR N) (unit3 i)) cell)) = vscale (INR N) (unit3 i)).
    { intros i N Hi. apply (py_zero_round inv cell p); [assumption|].
      destruct (vec_dec (relativize_py inv cell p (vadd p (vmul (vscale (INR N) (unit3 i)) cell))) vzero) as [E|E]; [exact E|].
      exfalso. apply H. exists (i, N). split; assumption. }
    assert (U : forall i, (i < 3)%nat -> mulv (inv cell) (vmul (unit3 i) cell) = unit3 i).
    { intros i Hi.
      assert (G : forall N, vround around (vscale (INR N) (mulv (inv cell) (vmul (unit3 i) cell))) = vscale (INR N) (unit3 i)).
      { intros N. rewrite <- (Z0 i N Hi). f_equal. clear. generalize (unit3 i). intros u. vec_ring. }
      set (w := mulv (inv cell) (vmul (unit3 i) cell)) in *. clearbody w.
      assert (K : forall c a (z : Z), (forall N, c (vround around (vscale (INR N) w)) = IZR (around (INR N * a))) ->
          (forall N, c (vscale (INR N) (unit3 i)) = INR N * IZR z) -> a = IZR z).
      { intros c a z C1 C2. apply rounds_linear. intros N. apply eq_IZR. rewrite <- C1, G, C2, mult_IZR, <- INR_IZR_INZ. reflexivity. }
      apply vec_eq.
      - rewrite (K vx (vx w) (if Nat.eqb i 0 then 1 else 0)%Z); [unfold unit3; cbn; destruct (Nat.eqb i 0); reflexivity|reflexivity|].
        intros N; unfold vscale, unit3; cbn; destruct (Nat.eqb i 0); reflexivity.
      - rewrite (K vy (vy w) (if Nat.eqb i 1 then 1 else 0)%Z); [unfold unit3; cbn; destruct (Nat.eqb i 1); reflexivity|reflexivity|].
        intros N; unfold vscale, unit3; cbn; destruct (Nat.eqb i 1); reflexivity.
      - rewrite (K vz (vz w) (if Nat.eqb i 2 then 1 else 0)%Z); [unfold unit3; cbn; destruct (Nat.eqb i 2); reflexivity|reflexivity|].
        intros N; unfold vscale, unit3; cbn; destruct (Nat.eqb i 2); reflexivity. }
    assert (V : forall i, (i < 3)%nat -> vmul (unit3 i) cell = mulv cell (unit3 i)).
    { intros i Hi. destruct HI as [H1 H2]. rewrite <- (U i Hi) at 2. rewrite mulv_mmul, H1, mulv_mid. reflexivity. }
    assert (V0 := V 0%nat ltac:(lia)). assert (V1 := V 1%nat ltac:(lia)). assert (V2 := V 2%nat ltac:(lia)).
    destruct cell as [[a b c] [d e f] [g h i]]. unfold vmul, mulv, vdot, unit3 in V0, V1, V2. cbn in V0, V1, V2.
    injection V0 as A1 A2 A3. injection V1 as B1 B2 B3. injection V2 as C1 C2 C3.
    apply mat_eq; apply vec_eq; cbn; lra.
Qed.
Lemma c_zero cell inv p v : is_inverse (inv (mT cell)) (mT cell) -> mdet cell <> 0 ->
  (exists a b c : Z, v = V3 (IZR a) (IZR b) (IZR c)) -> displacement3 cell p (vadd p (vmul v cell)) = vzero.
Proof.
  intros HI D [a [b [c ->]]]. rewrite (displacement3_eq inv) by assumption.
  replace (vsub (vadd p (vmul (V3 (IZR a) (IZR b) (IZR c)) cell)) p) with (vmul (V3 (IZR a) (IZR b) (IZR c)) cell) by vec_ring.
  rewrite vmul_mT at 2. rewrite mulv_mmul. destruct HI as [_ ->]. rewrite mulv_mid. unfold vround; cbn [vx vy vz].
  rewrite !cround_IZR. vec_ring.
Qed.
